(** C100: the flow induced by the vortices is free of sources and of rotation. *)

From Coq Require Import ZArith Reals List Bool Lra Psatz Lia.
From Coquelicot Require Import Coquelicot.
From Verif Require Import Num PyBase RNum Spec M_Panels M_Velocity M_Solve M_Coefs M_Forces M_Winds M_Csys M_Sail M_Vlm
  L_List L_Rot L_Vel L_Vel2 L_Csys L_Sail L_Solve L_Lattice L_Vlm L_Vlm2 P_Sail P_Lattice L_Demo P_Vlm.
Import ListNotations.
Open Scope R_scope.

(** ** Specification *)
(** [g] is the gradient of [f] at [p]: the derivative in every direction [d] is g . d *)
Definition gradient (f : vec R -> R) (p g : vec R) : Prop :=
  forall d, is_derive (fun t => f (sadd p (sscale t d))) 0 (sdot g d).
(** the velocity field [F] has at [p] the divergence [s] and the curl [c] *)
Definition div_curl (F : vec R -> vec R) (p : vec R) (s : R) (c : vec R) : Prop :=
  exists gx gy gz, gradient (fun q => vx (F q)) p gx /\ gradient (fun q => vy (F q)) p gy /\ gradient (fun q => vz (F q)) p gz /\
    s = vx gx + vy gy + vz gz /\ c = V3 (vy gz - vz gy) (vz gx - vx gz) (vx gy - vy gx).
(** [p] is outside the core of the segment and not on its border *)
Definition clear_of (p p1 p2 : vec R) : Prop :=
  / 10 ^ 8 < snorm (ssub p p1) /\ / 10 ^ 8 < snorm (ssub p p2) /\ / 10 ^ 8 < snorm (scross (ssub p p1) (ssub p p2)) ^ 2.
Definition clear_of_ring (p : vec R) (r : ring R) : Prop :=
  clear_of p (rA r) (rB r) /\ clear_of p (rB r) (rC r) /\ clear_of p (rC r) (rD r) /\ clear_of p (rD r) (rA r).
(** the horseshoe that takes the place of the ring at the trailing edge: three sides and two half lines downwind *)
Definition clear_of_horseshoe (p : vec R) (r : ring R) (V : vec R) : Prop :=
  V <> szero /\ clear_of p (rA r) (rB r) /\ clear_of p (rB r) (rC r) /\ clear_of p (rC r) (rD r) /\
  ~ on_half_line (rD r) V p /\ ~ on_half_line (rA r) V p.
(** r / |r|^3 for r from [o] to [p] *)
Definition pull (p o : vec R) : vec R := sscale (/ snorm (ssub p o) ^ 3) (ssub p o).

(** ** Gradients *)
Lemma gradient_ext f h p g : (forall q, f q = h q) -> gradient f p g -> gradient h p g.
Proof. intros E G d. apply (is_derive_ext (fun t => f (sadd p (sscale t d)))); [intros; apply E | apply G]. Qed.
Lemma gradient_plus f h p g k : gradient f p g -> gradient h p k -> gradient (fun q => f q + h q) p (sadd g k).
Proof. intros G K d. replace (sdot (sadd g k) d) with (plus (sdot g d) (sdot k d)) by (unfold plus; cbn; destruct g, k, d; svec; ring). apply (is_derive_plus (fun t => f _) (fun t => h _)); [apply G | apply K]. Qed.
Lemma gradient_mult f h p g k : gradient f p g -> gradient h p k -> gradient (fun q => f q * h q) p (sadd (sscale (h p) g) (sscale (f p) k)).
Proof.
  intros G K d. specialize (G d). specialize (K d).
  assert (P : sadd p (sscale 0 d) = p) by (destruct p, d; svec; vec_eq; ring).
  pose proof (is_derive_mult _ _ _ _ _ G K Rmult_comm) as M. cbv beta in M. rewrite P in M. unfold mult, plus in M. cbn in M.
  replace (sdot (sadd (sscale (h p) g) (sscale (f p) k)) d) with (sdot g d * h p + f p * sdot k d) by (destruct g, k, d; svec; ring). exact M.
Qed.
Lemma gradient_inv f p g : f p <> 0 -> gradient f p g -> gradient (fun q => / f q) p (sscale (- / f p ^ 2) g).
Proof.
  intros N G d. specialize (G d).
  assert (P : sadd p (sscale 0 d) = p) by (destruct p, d; svec; vec_eq; ring).
  pose proof (is_derive_inv _ _ _ G) as M. cbv beta in M. rewrite P in M. specialize (M N).
  replace (sdot (sscale (- / f p ^ 2) g) d) with (- sdot g d / f p ^ 2); [exact M|]. destruct g, d; svec. field. exact N.
Qed.
Lemma gradient_const c p : gradient (fun _ => c) p szero.
Proof. intros d. replace (sdot szero d) with 0 by (destruct d; svec; ring). apply (is_derive_const c). Qed.
Lemma gradient_eq f p g k : g = k -> gradient f p g -> gradient f p k.
Proof. intros ->. auto. Qed.
Lemma gradient_dot o o' p : gradient (fun q => sdot (ssub q o) (ssub q o')) p (sadd (ssub p o) (ssub p o')).
Proof.
  intros d. destruct p as [x y z], o as [a b c], o' as [a' b' c'], d as [u v w]. unfold sdot, ssub, sadd, sscale. cbn [vx vy vz].
  auto_derive; [auto|]. ring.
Qed.
Lemma gradient_lin m o p : gradient (fun q => sdot m (ssub q o)) p m.
Proof.
  intros d. destruct p as [x y z], o as [a b c], m as [a' b' c'], d as [u v w]. unfold sdot, ssub, sadd, sscale. cbn [vx vy vz].
  auto_derive; [auto|]. ring.
Qed.
Lemma gradient_norm o p : 0 < snorm (ssub p o) -> gradient (fun q => snorm (ssub q o)) p (sscale (/ snorm (ssub p o)) (ssub p o)).
Proof.
  intros N d. assert (Q : 0 < vx (ssub p o) ^ 2 + vy (ssub p o) ^ 2 + vz (ssub p o) ^ 2).
  { unfold snorm in N. destruct (Rle_lt_dec (vx (ssub p o) ^ 2 + vy (ssub p o) ^ 2 + vz (ssub p o) ^ 2) 0) as [L|L]; [|exact L]. rewrite sqrt_neg_0 in N by exact L. lra. }
  revert N Q. unfold snorm. destruct p as [x y z], o as [a b c], d as [u v w]. unfold sdot, ssub, sadd, sscale. cbn [vx vy vz]. intros N Q.
  auto_derive; rewrite !Rmult_0_l, !Rplus_0_r.
  - replace ((x - a) * ((x - a) * 1) + (y - b) * ((y - b) * 1) + (z - c) * ((z - c) * 1)) with ((x - a) ^ 2 + (y - b) ^ 2 + (z - c) ^ 2) by ring. exact Q.
  - replace ((x - a) * ((x - a) * 1) + (y - b) * ((y - b) * 1) + (z - c) * ((z - c) * 1)) with ((x - a) ^ 2 + (y - b) ^ 2 + (z - c) ^ 2) by ring.
    set (n := sqrt _) in *. field. lra.
Qed.

(** ** Fields *)
Lemma div_curl_ext F G p s c : (forall d, locally 0 (fun t => F (sadd p (sscale t d)) = G (sadd p (sscale t d)))) -> div_curl F p s c -> div_curl G p s c.
Proof.
  intros E (gx & gy & gz & X & Y & Z & S & C). exists gx, gy, gz.
  split; [|split; [|split; [|split; assumption]]]; intros d.
  - refine (is_derive_ext_loc _ _ _ _ _ (X d)). apply (filter_imp (fun t => F (sadd p (sscale t d)) = G (sadd p (sscale t d)))); [|apply E]. intros t ->. reflexivity.
  - refine (is_derive_ext_loc _ _ _ _ _ (Y d)). apply (filter_imp (fun t => F (sadd p (sscale t d)) = G (sadd p (sscale t d)))); [|apply E]. intros t ->. reflexivity.
  - refine (is_derive_ext_loc _ _ _ _ _ (Z d)). apply (filter_imp (fun t => F (sadd p (sscale t d)) = G (sadd p (sscale t d)))); [|apply E]. intros t ->. reflexivity.
Qed.
Lemma div_curl_same F G p s c : (forall q, F q = G q) -> div_curl F p s c -> div_curl G p s c.
Proof. intros E. apply div_curl_ext. intros d. apply filter_forall. intros t. apply E. Qed.
Lemma div_curl_add F G p s c s' c' : div_curl F p s c -> div_curl G p s' c' -> div_curl (fun q => sadd (F q) (G q)) p (s + s') (sadd c c').
Proof.
  intros (gx & gy & gz & X & Y & Z & -> & ->) (kx & ky & kz & X' & Y' & Z' & -> & ->). exists (sadd gx kx), (sadd gy ky), (sadd gz kz).
  split; [exact (gradient_plus _ _ _ _ _ X X')|]. split; [exact (gradient_plus _ _ _ _ _ Y Y')|]. split; [exact (gradient_plus _ _ _ _ _ Z Z')|].
  destruct gx as [a1 a2 a3], gy as [b1 b2 b3], gz as [c1 c2 c3], kx as [d1 d2 d3], ky as [e1 e2 e3], kz as [f1 f2 f3]. unfold sadd. cbn [vx vy vz]. split; [ring|]. f_equal; ring.
Qed.
Lemma div_curl_const v p : div_curl (fun _ => v) p 0 szero.
Proof. exists szero, szero, szero. split; [apply gradient_const|]. split; [apply gradient_const|]. split; [apply gradient_const|]. unfold szero. cbn [vx vy vz]. split; [ring|]. f_equal; ring. Qed.
(* a scalar times a rigid rotation *)
Lemma div_curl_spin h m o p g : gradient h p g ->
  div_curl (fun q => sscale (h q) (scross m (ssub q o))) p (sdot g (scross m (ssub p o))) (sadd (scross g (scross m (ssub p o))) (sscale (2 * h p) m)).
Proof.
  intros G. set (w := scross m (ssub p o)).
  assert (W : forall (m' : vec R) (f : vec R -> R), (forall q, f q = sdot m' (ssub q o)) -> gradient (fun q => h q * f q) p (sadd (sscale (sdot m' (ssub p o)) g) (sscale (h p) m'))).
  { intros m' f E. apply (gradient_ext (fun q => h q * sdot m' (ssub q o))); [intros q; rewrite E; reflexivity|]. apply (gradient_mult h (fun q => sdot m' (ssub q o)) p g m' G (gradient_lin m' o p)). }
  exists (sadd (sscale (vx w) g) (sscale (h p) (V3 0 (- vz m) (vy m)))), (sadd (sscale (vy w) g) (sscale (h p) (V3 (vz m) 0 (- vx m)))), (sadd (sscale (vz w) g) (sscale (h p) (V3 (- vy m) (vx m) 0))).
  split; [|split; [|split; [|split]]].
  - refine (gradient_eq _ _ _ _ _ (W (V3 0 (- vz m) (vy m)) _ _)); [f_equal; f_equal; unfold w; destruct m, p, o; svec; ring | intros q; destruct m, q, o; svec; ring].
  - refine (gradient_eq _ _ _ _ _ (W (V3 (vz m) 0 (- vx m)) _ _)); [f_equal; f_equal; unfold w; destruct m, p, o; svec; ring | intros q; destruct m, q, o; svec; ring].
  - refine (gradient_eq _ _ _ _ _ (W (V3 (- vy m) (vx m) 0) _ _)); [f_equal; f_equal; unfold w; destruct m, p, o; svec; ring | intros q; destruct m, q, o; svec; ring].
  - clearbody w. destruct g, w, m. svec. ring.
  - clearbody w. destruct g, w, m. svec. vec_eq; ring.
Qed.

(** ** A segment *)
Lemma clear_out p p1 p2 : clear_of p p1 p2 -> ~ in_core p p1 p2.
Proof. intros (A & B & C) [D|[D|D]]; lra. Qed.
Lemma gradient_near f p g d c : gradient f p g -> c < f p -> locally 0 (fun t => c < f (sadd p (sscale t d))).
Proof.
  intros G L. assert (P : sadd p (sscale 0 d) = p) by (destruct p, d; svec; vec_eq; ring).
  pose proof (ex_derive_continuous (fun t => f (sadd p (sscale t d))) 0 (ex_intro _ _ (G d))) as C.
  unfold continuous in C. rewrite P in C. apply (C (fun y => c < y)). apply open_gt. exact L.
Qed.
Lemma gradient_cross_sq m o p : exists g, gradient (fun q => snorm (scross m (ssub q o)) ^ 2) p g.
Proof.
  eexists. apply (gradient_ext (fun q => sdot m m * sdot (ssub q o) (ssub q o) + (-1) * (sdot m (ssub q o) * sdot m (ssub q o)))).
  - intros q. replace (snorm (scross m (ssub q o)) ^ 2) with (snorm (scross m (ssub q o)) * snorm (scross m (ssub q o))) by ring. rewrite snorm_sq, <- lagrange. ring.
  - apply gradient_plus; [apply gradient_mult; [apply gradient_const | apply gradient_dot]|]. apply gradient_mult; [apply gradient_const|]. apply gradient_mult; apply gradient_lin.
Qed.
Lemma seg_cross q p1 p2 : scross (ssub q p1) (ssub q p2) = scross (ssub p2 p1) (ssub q p1).
Proof. destruct q, p1, p2; svec; vec_eq; ring. Qed.
Lemma clear_near p p1 p2 d : clear_of p p1 p2 -> locally 0 (fun t => clear_of (sadd p (sscale t d)) p1 p2).
Proof.
  intros (A & B & C). pose proof eps_pos as E. rewrite seg_cross in C. destruct (gradient_cross_sq (ssub p2 p1) p1 p) as [g G].
  pose proof (gradient_near _ _ _ d _ (gradient_norm p1 p ltac:(lra)) A) as LA. pose proof (gradient_near _ _ _ d _ (gradient_norm p2 p ltac:(lra)) B) as LB.
  pose proof (gradient_near _ _ _ d _ G C) as LC. generalize (filter_and _ _ LA (filter_and _ _ LB LC)). apply filter_imp. intros t (U & V & W). split; [exact U|]. split; [exact V|]. rewrite seg_cross. exact W.
Qed.

Lemma regular_sum n1 n2 s : n1 <> 0 -> n2 <> 0 -> n1 * n2 + s <> 0 -> (n1 + n2) / (n1 * n2 * (n1 * n2 + s)) = (/ n1 + / n2) * / (n1 * n2 + s).
Proof. intros. field. auto. Qed.

Theorem C100_segment : forall p p1 p2 g, clear_of p p1 p2 ->
  div_curl (fun q => vortex_line q p1 p2 g) p 0 (sscale (g / (4 * PI)) (ssub (pull p p2) (pull p p1))).
Proof.
  intros p p1 p2 g CL. pose proof (clear_near p p1 p2) as NEAR. pose proof (clear_out _ _ _ CL) as OUT.
  destruct (out_nonzero _ _ _ OUT) as (N1 & N2 & NX). destruct (biot_regular p p1 p2 g N1 N2 NX) as [D _].
  set (k := g / (4 * PI)).
  set (h := fun q => k * ((/ snorm (ssub q p1) + / snorm (ssub q p2)) * / (snorm (ssub q p1) * snorm (ssub q p2) + sdot (ssub q p1) (ssub q p2)))).
  apply (div_curl_ext (fun q => sscale (h q) (scross (ssub p2 p1) (ssub q p1)))).
  { intros d. generalize (NEAR d CL). apply filter_imp. intros t C. pose proof (clear_out _ _ _ C) as O. destruct (out_nonzero _ _ _ O) as (A & B & X).
    rewrite (vortex_line_out _ _ _ _ O). destruct (biot_regular _ _ _ g A B X) as [DD ->]. rewrite seg_cross, regular_sum by lra. reflexivity. }
  set (r1 := ssub p p1) in *. set (r2 := ssub p p2) in *. set (n1 := snorm r1) in *. set (n2 := snorm r2) in *. set (s := sdot r1 r2) in *.
  pose proof (gradient_norm p1 p N1) as G1. pose proof (gradient_norm p2 p N2) as G2. pose proof (gradient_dot p1 p2 p) as GS.
  fold r1 r2 in G1, G2, GS. fold n1 in G1. fold n2 in G2.
  pose proof (gradient_mult _ _ _ _ _ (gradient_const k p) (gradient_mult _ _ _ _ _
     (gradient_plus _ _ _ _ _ (gradient_inv (fun q => snorm (ssub q p1)) _ _ (Rgt_not_eq _ _ N1) G1) (gradient_inv (fun q => snorm (ssub q p2)) _ _ (Rgt_not_eq _ _ N2) G2))
     (gradient_inv (fun q => snorm (ssub q p1) * snorm (ssub q p2) + sdot (ssub q p1) (ssub q p2)) _ _ (Rgt_not_eq _ _ D) (gradient_plus _ _ _ _ _ (gradient_mult _ _ _ _ _ G1 G2) GS)))) as GH. cbv beta in GH. fold r1 r2 in GH. fold n1 n2 s in GH.
  pose proof (div_curl_spin h (ssub p2 p1) p1 p _ GH) as DC. cbv beta in DC.
  match type of DC with div_curl ?F ?P ?S ?C => match goal with |- div_curl _ _ ?S' ?C' => assert (ES : S = S'); [|assert (EC : C = C'); [|rewrite ES, EC in DC; exact DC]] end end.
  - clear DC GH. fold r1. replace (ssub p2 p1) with (ssub r1 r2) by (unfold r1, r2; vring). 
    assert (X : scross (ssub r1 r2) r1 = scross r1 r2) by (destruct r1, r2; svec; vec_eq; ring). rewrite X.
    clearbody n1 n2 s r1 r2 k. clear - N1 N2 D. destruct r1 as [a b c], r2 as [a' b' c']. svec. field. lra.
  - clear DC GH. unfold pull, h. fold r1 r2. fold n1 n2 s. replace (ssub p2 p1) with (ssub r1 r2) by (unfold r1, r2; vring).
    assert (X : scross (ssub r1 r2) r1 = scross r1 r2) by (destruct r1, r2; svec; vec_eq; ring). rewrite X.
    assert (Q1 : scross r1 (scross r1 r2) = ssub (sscale s r1) (sscale (n1 * n1) r2)) by (unfold n1, s; rewrite snorm_sq; destruct r1, r2; svec; vec_eq; ring).
    assert (Q2 : scross r2 (scross r1 r2) = ssub (sscale (n2 * n2) r1) (sscale s r2)) by (unfold n2, s; rewrite snorm_sq; destruct r1, r2; svec; vec_eq; ring).
    match goal with |- sadd (scross ?G ?w) _ = _ => replace (scross G w) with 
      (sscale k (sadd (sscale (/ (n1 * n2 + s)) (sadd (sscale (- / n1 ^ 2 * / n1) (scross r1 w)) (sscale (- / n2 ^ 2 * / n2) (scross r2 w))))
         (sscale ((/ n1 + / n2) * - / (n1 * n2 + s) ^ 2) (sadd (sadd (sscale (n2 * / n1) (scross r1 w)) (sscale (n1 * / n2) (scross r2 w))) (sadd (scross r1 w) (scross r2 w)))))) end.
    2: { clear. generalize (scross r1 r2) as w. clearbody n1 n2 s r1 r2 k. intros [w1 w2 w3]. destruct r1 as [a b c], r2 as [a' b' c']. svec. vec_eq; ring. }
    rewrite Q1, Q2. clearbody n1 n2 s r1 r2 k. clear - N1 N2 D. destruct r1 as [a b c], r2 as [a' b' c']. svec. vec_eq; field; lra.
Qed.

(** ** A half line *)
Theorem C100_half_line : forall p a V g, V <> szero -> ~ on_half_line a V p ->
  div_curl (fun q => vortex_infinite_line q a V g) p 0 (sscale (- (g / (4 * PI))) (pull p a)).
Proof.
  intros p a V g NV O. assert (DN : snorm (ssub p a) * (snorm (ssub p a) - sdot (sunit V) (ssub p a)) <> 0) by (rewrite (inf_denominator p a V NV); exact O).
  assert (N : 0 < snorm (ssub p a)). { pose proof (snorm_nonneg (ssub p a)) as Z. destruct Z as [Z|Z]; [exact Z|]. exfalso. apply DN. rewrite <- Z. ring. }
  assert (D : snorm (ssub p a) - sdot (sunit V) (ssub p a) <> 0) by (intros Z; apply DN; rewrite Z; ring).
  pose proof (sunit_dot _ NV) as U. set (u := sunit V) in *. set (k := g / (4 * PI)).
  set (h := fun q => k * (/ snorm (ssub q a) * / (snorm (ssub q a) + (-1) * sdot u (ssub q a)))).
  apply (div_curl_same (fun q => sscale (h q) (scross u (ssub q a)))).
  { intros q. unfold vortex_infinite_line. cbv zeta. tospec. fold (sunit V). fold u. rnum. unfold h, k. replace (snorm (ssub q a) + -1 * sdot u (ssub q a)) with (snorm (ssub q a) - sdot u (ssub q a)) by ring.
    generalize (snorm (ssub q a)) as n, (sdot u (ssub q a)) as s, (scross u (ssub q a)) as w. clear. intros n s [w1 w2 w3]. unfold Rdiv. rewrite (Rinv_mult n (n - s)). svec. vec_eq; ring. }
  set (r := ssub p a) in *. set (n := snorm r) in *. set (s := sdot u r) in *.
  assert (D' : n + -1 * s <> 0) by (intros Z; apply D; lra).
  pose proof (gradient_norm a p N) as G1. pose proof (gradient_lin u a p) as GS. fold r in G1. fold n in G1.
  pose proof (gradient_mult _ _ _ _ _ (gradient_const k p) (gradient_mult _ _ _ _ _ (gradient_inv (fun q => snorm (ssub q a)) _ _ (Rgt_not_eq _ _ N) G1)
     (gradient_inv (fun q => snorm (ssub q a) + -1 * sdot u (ssub q a)) _ _ D' (gradient_plus _ _ _ _ _ G1 (gradient_mult _ _ _ _ _ (gradient_const (-1) p) GS))))) as GH. cbv beta in GH. fold r in GH. fold n s in GH.
  pose proof (div_curl_spin h u a p _ GH) as DC. cbv beta in DC.
  match type of DC with div_curl ?F ?P ?S ?C => match goal with |- div_curl _ _ ?S' ?C' => assert (ES : S = S'); [|assert (EC : C = C'); [|rewrite ES, EC in DC; exact DC]] end end.
  - clear DC GH. fold r. clearbody n s r k u. clear - N D'. destruct r as [x y z], u as [u1 u2 u3]. svec. field. lra.
  - clear DC GH. unfold pull, h. fold r. fold n s.
    assert (Q1 : scross r (scross u r) = ssub (sscale (n * n) u) (sscale s r)) by (unfold n, s; rewrite snorm_sq; clear; clearbody u r; destruct r, u; svec; vec_eq; ring).
    assert (Q2 : scross u (scross u r) = ssub (sscale s u) r). { replace (ssub (sscale s u) r) with (ssub (sscale s u) (sscale (sdot u u) r)) by (rewrite U; vring). unfold s. clear. clearbody u r. destruct r, u; svec; vec_eq; ring. }
    match goal with |- sadd (scross ?G ?w) _ = _ => replace (scross G w) with 
      (sscale k (sadd (sscale (/ (n + -1 * s) * (- / n ^ 2 * / n)) (scross r w))
         (sscale (/ n * - / (n + -1 * s) ^ 2) (ssub (sscale (/ n) (scross r w)) (scross u w))))) end.
    2: { clear. generalize (scross u r) as w. clearbody n s r k u. intros [w1 w2 w3]. destruct r as [a1 b c], u as [a' b' c']. svec. vec_eq; ring. }
    rewrite Q1, Q2. clearbody n s r k u. clear - N D'. destruct r as [x y z], u as [u1 u2 u3]. svec. vec_eq; field; lra.
Qed.

(** ** Closed vortices *)
Lemma div_curl_scale k F p s c : div_curl F p s c -> div_curl (fun q => sscale k (F q)) p (k * s) (sscale k c).
Proof.
  intros (gx & gy & gz & X & Y & Z & -> & ->). exists (sscale k gx), (sscale k gy), (sscale k gz).
  assert (S : forall (f : vec R -> R) g, gradient f p g -> gradient (fun q => k * f q) p (sscale k g)).
  { intros f g G. refine (gradient_eq _ _ _ _ _ (gradient_mult _ _ _ _ _ (gradient_const k p) G)). destruct g as [a b c]. unfold sadd, sscale, szero. cbn [vx vy vz]. f_equal; ring. }
  split; [exact (S _ _ X)|]. split; [exact (S _ _ Y)|]. split; [exact (S _ _ Z)|].
  destruct gx as [a1 a2 a3], gy as [b1 b2 b3], gz as [c1 c2 c3]. unfold sscale. cbn [vx vy vz]. split; [ring|]. f_equal; ring.
Qed.
Lemma div_curl_eq F p s c s' c' : div_curl F p s c -> s = s' -> c = c' -> div_curl F p s' c'.
Proof. intros D <- <-. exact D. Qed.
Lemma div_curl_vsumn n (F : nat -> vec R -> vec R) p : (forall l, (l < n)%nat -> div_curl (F l) p 0 szero) -> div_curl (fun q => vsumn n (fun l => F l q)) p 0 szero.
Proof.
  unfold vsumn, tab. intros H. assert (I : forall l, In l (seq 0 n) -> div_curl (F l) p 0 szero) by (intros l Q; apply in_seq in Q; apply H; lia). clear H.
  induction (seq 0 n) as [|l ls IH]; [apply (div_curl_const szero)|]. cbn [map ssum fold_right].
  apply (div_curl_eq _ _ (0 + 0) (sadd szero szero)); [|ring | unfold sadd, szero; cbn [vx vy vz]; f_equal; ring].
  apply (div_curl_add (F l) (fun q => ssum (map (fun l => F l q) ls))); [apply I; left; reflexivity|]. apply IH. intros k K. apply I. right. exact K.
Qed.

Theorem C100_ring : forall p r g, clear_of_ring p r -> div_curl (fun q => vortex_ring q (rA r) (rB r) (rC r) (rD r) g) p 0 szero.
Proof.
  intros p [A B C D] g (H1 & H2 & H3 & H4). cbn [rA rB rC rD] in *.
  refine (div_curl_eq _ _ _ _ _ _ (div_curl_same _ _ _ _ _ _ (div_curl_add _ _ _ _ _ _ _ (div_curl_add _ _ _ _ _ _ _ (div_curl_add _ _ _ _ _ _ _ (C100_segment p A B g H1) (C100_segment p B C g H2)) (C100_segment p C D g H3)) (C100_segment p D A g H4))) _ _).
  - intros q. unfold vortex_ring. cbv zeta. tospec. reflexivity.
  - ring.
  - generalize (pull p A) as a, (pull p B) as b, (pull p C) as c, (pull p D) as d, (g / (4 * PI)) as k. intros. destruct a, b, c, d. svec. vec_eq; ring.
Qed.
Theorem C100_horseshoe : forall p r V g, clear_of_horseshoe p r V -> div_curl (fun q => vortex_horseshoe_v2 q (rA r) (rB r) (rC r) (rD r) V g) p 0 szero.
Proof.
  intros p [A B C D] V g (NV & H1 & H2 & H3 & H4 & H5). cbn [rA rB rC rD] in *.
  refine (div_curl_eq _ _ _ _ _ _ (div_curl_same _ _ _ _ _ _ (div_curl_add _ _ _ _ _ _ _ (div_curl_add _ _ _ _ _ _ _ (div_curl_add _ _ _ _ _ _ _ (div_curl_add _ _ _ _ _ _ _ (C100_segment p A B g H1) (C100_segment p B C g H2)) (C100_segment p C D g H3)) (C100_half_line p D V g NV H4)) (C100_half_line p A V (-1 * g) NV H5))) _ _).
  - intros q. unfold vortex_horseshoe_v2. cbv zeta. replace (nmul (nopp (nZ 1)) g) with (-1 * g) by (rnum; ring). tospec. reflexivity.
  - ring.
  - unfold Rdiv. generalize (pull p A) as a, (pull p B) as b, (pull p C) as c, (pull p D) as d, (/ (4 * PI)) as k. intros. destruct a, b, c, d. svec. vec_eq; ring.
Qed.

(** ** The flow of a run *)
(** [p] is clear of all vortices of the solution *)
Definition clear_point (o : vlm R) (p : vec R) : Prop :=
  forall l r V, nth_error (vl_rings o) l = Some r -> nth_error (in_V (vl_inlet o)) l = Some V ->
    (nth_error (vl_te o) l = Some false -> clear_of_ring p r) /\ (nth_error (vl_te o) l = Some true -> clear_of_horseshoe p r V).
Theorem C100_flow : forall panels nc ns rho w te le o, length te = length panels -> Vlm panels nc ns rho w te le = Ok o ->
  (forall v p, clear_point o p -> div_curl (fun q => sadd v (induced o q)) p 0 szero) /\
  (forall k c v u, nth_error (vl_ctr o) k = Some c -> nth_error (in_V (vl_inlet o)) k = Some v -> nth_error (vl_V_ctrl o) k = Some u -> u = sadd v (induced o c)) /\
  (forall k c v u, nth_error (vl_cp o) k = Some c -> nth_error (in_V (vl_inlet o)) k = Some v -> nth_error (vl_V_cp o) k = Some u -> u = sadd v (induced o c)).
Proof.
  intros panels nc ns rho w te le o LT E. destruct (Vlm_inv _ _ _ _ _ _ _ _ LT E) as (vars & ic & g & net & CV & LV & IC & LI & _ & SO & FL). cbv zeta in FL.
  pose proof (fun p => flow_induced _ _ _ _ _ _ _ _ _ _ _ p LV FL) as FI.
  split; [|split].
  - intros v p CP. apply (div_curl_eq _ _ (0 + 0) (sadd szero szero)); [|ring | unfold sadd, szero; cbn [vx vy vz]; f_equal; ring].
    apply (div_curl_add (fun _ => v)); [apply div_curl_const|]. unfold induced. apply div_curl_vsumn. intros l L.
    rewrite (f_panels _ _ _ _ _ _ _ _ _ _ _ _ _ _ FL) in L. set (k := nth l (vl_gamma o) 0).
    apply (div_curl_eq _ _ (k * 0) (sscale k szero)); [|ring | unfold sscale, szero; cbn [vx vy vz]; f_equal; ring].
    apply (div_curl_scale k).
    assert (R1 : nth_error (vl_rings o) l = Some (nth l (vl_rings o) (Ring szero szero szero szero))).
    { apply nth_error_nth'. unfold vl_rings. rewrite (f_vars _ _ _ _ _ _ _ _ _ _ _ _ _ _ FL), map_length, tab_length. exact L. }
    assert (R2 : nth_error (in_V (vl_inlet o)) l = Some (nth l (in_V (vl_inlet o)) szero)) by (apply nth_error_nth'; rewrite (f_inlet _ _ _ _ _ _ _ _ _ _ _ _ _ _ FL), LI; exact L).
    assert (R3 : nth_error (vl_te o) l = Some (nth l (vl_te o) false)) by (apply nth_error_nth'; rewrite (f_te _ _ _ _ _ _ _ _ _ _ _ _ _ _ FL), LT; exact L).
    destruct (CP _ _ _ R1 R2) as [RI HO]. unfold influence. destruct (nth l (vl_te o) false).
    + apply C100_horseshoe. apply HO. exact R3.
    + apply C100_ring. apply RI. exact R3.
  - intros k c v u C V U. unfold vl_ctr in C. rewrite (f_vars _ _ _ _ _ _ _ _ _ _ _ _ _ _ FL), map_tab in C. rewrite (f_V_ctrl _ _ _ _ _ _ _ _ _ _ _ _ _ _ FL) in U. rewrite (f_inlet _ _ _ _ _ _ _ _ _ _ _ _ _ _ FL) in V.
    apply tab_some in C. destruct C as [K ->]. apply tab_some in U. destruct U as [_ ->]. rewrite FI, (nth_error_nth _ _ szero V). reflexivity.
  - intros k c v u C V U. unfold vl_cp in C. rewrite (f_vars _ _ _ _ _ _ _ _ _ _ _ _ _ _ FL), map_tab in C. rewrite (f_V_cp _ _ _ _ _ _ _ _ _ _ _ _ _ _ FL) in U. rewrite (f_inlet _ _ _ _ _ _ _ _ _ _ _ _ _ _ FL) in V.
    apply tab_some in C. destruct C as [K ->]. apply tab_some in U. destruct U as [_ ->]. rewrite FI, (nth_error_nth _ _ szero V). reflexivity.
Qed.

(** ** Not at the border of a core, where the velocity jumps to zero *)
Theorem C100_border_refuted : exists p p1 p2 g, ~ in_core p p1 p2 /\ ~ (exists s c, div_curl (fun q => vortex_line q p1 p2 g) p s c).
Proof.
  set (y := 5 / 10 ^ 5). exists (V3 0 y 0), (V3 (-1) 0 0), (V3 1 0 0), 1.
  assert (X : forall t, scross (ssub (V3 0 t 0) (V3 (-1) 0 0)) (ssub (V3 0 t 0) (V3 1 0 0)) = V3 0 0 (2 * t)) by (intros; svec; vec_eq; ring).
  assert (SQ : forall t, snorm (V3 0 0 (2 * t)) ^ 2 = 4 * t * t) by (intros; replace (snorm (V3 0 0 (2 * t)) ^ 2) with (snorm (V3 0 0 (2 * t)) * snorm (V3 0 0 (2 * t))) by ring; rewrite snorm_sq; svec; ring).
  assert (O : ~ in_core (V3 0 y 0) (V3 (-1) 0 0) (V3 1 0 0)).
  { assert (N : forall a, 1 <= a * a -> 1 <= snorm (ssub (V3 0 y 0) (V3 a 0 0))).
    { intros a A. unfold snorm, ssub. cbn [vx vy vz]. rewrite <- sqrt_1 at 1. apply sqrt_le_1_alt. unfold y. lra. }
    intros [C|[C|C]]; [pose proof (N (-1) ltac:(lra)); lra | pose proof (N 1 ltac:(lra)); lra |]. rewrite X, SQ in C. unfold y in C. lra. }
  split; [exact O|]. intros (s & c & gx & gy & gz & _ & _ & G & _).
  specialize (G (V3 0 1 0)). pose proof (ex_derive_continuous _ _ (ex_intro _ _ G)) as C. cbv beta in C.
  assert (P : forall t, sadd (V3 0 y 0) (sscale t (V3 0 1 0)) = V3 0 (y + t) 0) by (intros; svec; vec_eq; ring).
  unfold continuous in C. rewrite P, Rplus_0_r in C. set (v := vz (vortex_line (V3 0 y 0) (V3 (-1) 0 0) (V3 1 0 0) 1)) in C.
  assert (NZ : 0 < v).
  { unfold v. rewrite (vortex_line_out _ _ _ _ O). destruct (out_nonzero _ _ _ O) as (A & B & XX). destruct (biot_regular _ _ _ 1 A B XX) as [D ->]. rewrite X.
    assert (Q : 0 < 1 / (4 * PI) * ((snorm (ssub (V3 0 y 0) (V3 (-1) 0 0)) + snorm (ssub (V3 0 y 0) (V3 1 0 0))) / (snorm (ssub (V3 0 y 0) (V3 (-1) 0 0)) * snorm (ssub (V3 0 y 0) (V3 1 0 0)) * (snorm (ssub (V3 0 y 0) (V3 (-1) 0 0)) * snorm (ssub (V3 0 y 0) (V3 1 0 0)) + sdot (ssub (V3 0 y 0) (V3 (-1) 0 0)) (ssub (V3 0 y 0) (V3 1 0 0)))))).
    { pose proof PI_RGT_0. apply Rmult_lt_0_compat; [apply Rdiv_lt_0_compat; lra|]. apply Rdiv_lt_0_compat; [lra|]. apply Rmult_lt_0_compat; [apply Rmult_lt_0_compat; assumption | exact D]. }
    revert Q. generalize (1 / (4 * PI) * ((snorm (ssub (V3 0 y 0) (V3 (-1) 0 0)) + snorm (ssub (V3 0 y 0) (V3 1 0 0))) / (snorm (ssub (V3 0 y 0) (V3 (-1) 0 0)) * snorm (ssub (V3 0 y 0) (V3 1 0 0)) * (snorm (ssub (V3 0 y 0) (V3 (-1) 0 0)) * snorm (ssub (V3 0 y 0) (V3 1 0 0)) + sdot (ssub (V3 0 y 0) (V3 (-1) 0 0)) (ssub (V3 0 y 0) (V3 1 0 0)))))). intros q Q.
    unfold sscale. cbn [vz]. unfold y. nra. }
  assert (L : locally 0 (fun t => vz (vortex_line (sadd (V3 0 y 0) (sscale t (V3 0 1 0))) (V3 (-1) 0 0) (V3 1 0 0) 1) > 0)) by (apply (C (fun z => z > 0)), open_gt; exact NZ).
  destruct L as [e L]. set (t := - Rmin (e / 2) (y / 2)).
  assert (T : 0 < - t <= e / 2 /\ - t <= y / 2) by (unfold t; rewrite Ropp_involutive; pose proof (cond_pos e); split; [split; [apply Rmin_glb_lt; unfold y; lra | apply Rmin_l] | apply Rmin_r]).
  specialize (L t). rewrite P, vortex_line_core in L.
  - assert (Q : vz szero > 0); [|cbn in Q; lra]. apply L. unfold ball. cbn. unfold AbsRing_ball, abs, minus, plus, opp. cbn. rewrite Ropp_0, Rplus_0_r, Rabs_left by lra. pose proof (cond_pos e). lra.
  - right; right. rewrite X, SQ. unfold y in *. nra.
Qed.

(** ** Cases *)
Lemma ok_inj {A} (x y : A) : Ok x = Ok y -> x = y.
Proof. intros E. injection E. auto. Qed.
Lemma clear_make p p1 p2 : 1 <= sdot (ssub p p1) (ssub p p1) -> 1 <= sdot (ssub p p2) (ssub p p2) -> 1 <= sdot (scross (ssub p p1) (ssub p p2)) (scross (ssub p p1) (ssub p p2)) -> clear_of p p1 p2.
Proof.
  assert (N : forall v, 1 <= sdot v v -> 1 <= snorm v) by (intros v H; rewrite <- snorm_sq in H; pose proof (snorm_nonneg v); nra).
  intros A B C. unfold clear_of. pose proof (N _ A). pose proof (N _ B). pose proof (N _ C). split; [lra|]. split; [lra|]. assert (1 <= snorm (scross (ssub p p1) (ssub p p2)) ^ 2) by nra. lra.
Qed.
Example C100_ring_case : clear_of_ring (V3 1 1 3) (Ring (V3 0 0 0) (V3 2 0 0) (V3 2 2 0) (V3 0 2 0)).
Proof. unfold clear_of_ring. cbn [rA rB rC rD]. do 3 (split; [apply clear_make; svec; lra|]). apply clear_make; svec; lra. Qed.
Example C100_case : exists panels nc ns rho w te le o p, length te = length panels /\ Vlm panels nc ns rho w te le = Ok o /\ clear_point o p /\ (1 < length panels)%nat /\ exists g, 0 < g /\ vl_gamma o = [g; g].
Proof.
  destruct (demo_Vlm 1) as [o E]. exists demo_panels, 1%nat, 1%nat, 1, demo_wind, [true; true], [false; false], o, (V3 0 (-7) 0).
  split; [reflexivity|]. split; [exact E|]. split; [|split; [simpl; lia | apply (demo_gamma 1); assumption]].
  destruct (Vlm_inv demo_panels 1 1 1 demo_wind [true; true] [false; false] o eq_refl E) as (vars & ic & g & net & CV & LV & IC & LI & _ & SO & FL). rewrite demo_vars_ok in CV. apply ok_inj in CV. subst vars.
  destruct demo_inlet as (ic' & IC' & EI). rewrite IC' in IC. apply ok_inj in IC. subst ic.
  intros l r V R1 R2. unfold vl_rings in R1. rewrite (f_vars _ _ _ _ _ _ _ _ _ _ _ _ _ _ FL) in R1. rewrite (f_inlet _ _ _ _ _ _ _ _ _ _ _ _ _ _ FL), EI in R2. rewrite (f_te _ _ _ _ _ _ _ _ _ _ _ _ _ _ FL).
  assert (EV : V = V3 4 3 0) by (destruct l as [|[|[|l]]]; cbn in R2; congruence). subst V.
  destruct l as [|[|l]]; [| |destruct l; discriminate R1]; (split; [discriminate|]); intros _; cbn in R1; injection R1 as <-; unfold clear_of_horseshoe; cbn [rA rB rC rD]; unfold aft_A, aft_D, quarter_B, quarter_C, mirrored, demo_panel; cbn [pp1 pp2 pp3 pp4]; vnum; cbn [vx vy vz].
  all: split; [unfold szero; injection; lra|].
  all: split; [apply clear_make; svec; lra|]; split; [apply clear_make; svec; lra|]; split; [apply clear_make; svec; lra|].
  all: split; intros (s & S & Q); unfold sadd, sscale in Q; cbn [vx vy vz] in Q; injection Q; intros; lra.
Qed.
Print Assumptions C100_segment. Print Assumptions C100_half_line. Print Assumptions C100_ring. Print Assumptions C100_horseshoe. Print Assumptions C100_flow. Print Assumptions C100_border_refuted.
