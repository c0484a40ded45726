(** More lemmas on vortex velocities: frames, semi-infinite lines, limits. *)

From Coq Require Import ZArith Reals List Bool Lra Psatz Lia.
From Verif Require Import Num PyBase RNum Spec M_Velocity M_Coefs L_List L_Rot L_Mesh L_Vel.
Import ListNotations.
Open Scope R_scope.

(** ** Frames.  [m] is linear, preserves dot products and multiplies cross products by [s] = 1 or -1. *)
Record iso (s : R) (m : vec R -> vec R) : Prop := {
  iso_add : forall a b, m (sadd a b) = sadd (m a) (m b);
  iso_scale : forall k a, m (sscale k a) = sscale k (m a);
  iso_dot : forall a b, sdot (m a) (m b) = sdot a b;
  iso_cross : forall a b, scross (m a) (m b) = sscale s (m (scross a b)) }.
Lemma iso_rotation m : rotation_map m -> iso 1 m.
Proof.
  intros [A S D C]. constructor; auto. intros. rewrite C. destruct (m (scross a b)); svec; vec_eq; ring.
Qed.
Lemma iso_mirror : iso (-1) smirror.
Proof. constructor; intros; destruct a; try destruct b; svec; try vec_eq; ring. Qed.
Section Iso.
Context (s : R) (m : vec R -> vec R) (I : iso s m) (Hs : s * s = 1).
Lemma iso_sub a b : m (ssub a b) = ssub (m a) (m b).
Proof.
  replace (ssub a b) with (sadd a (sscale (-1) b)) by vring. rewrite (iso_add _ _ I), (iso_scale _ _ I).
  destruct (m a), (m b); svec; vec_eq; ring.
Qed.
Lemma iso_norm a : snorm (m a) = snorm a.
Proof. rewrite !snorm_sqrt, (iso_dot _ _ I). reflexivity. Qed.
Lemma iso_unit a : sunit (m a) = m (sunit a).
Proof. unfold sunit. rewrite iso_norm, (iso_scale _ _ I). reflexivity. Qed.
Lemma abs_s : Rabs s = 1.
Proof. assert (s = 1 \/ s = -1) as [->| ->] by nra; [apply Rabs_R1 | rewrite Rabs_left; lra]. Qed.
(* the motion p |-> m p + t *)
Definition motion (t p : vec R) : vec R := sadd (m p) t.
Lemma motion_sub t p q : ssub (motion t p) (motion t q) = m (ssub p q).
Proof. rewrite iso_sub. unfold motion. destruct (m p), (m q), t; svec; vec_eq; ring. Qed.
Lemma iso_cross_norm a b : snorm (scross (m a) (m b)) = snorm (scross a b).
Proof. rewrite (iso_cross _ _ I), snorm_scale, abs_s, iso_norm. ring. Qed.
Lemma core_motion t p p1 p2 : in_core (motion t p) (motion t p1) (motion t p2) <-> in_core p p1 p2.
Proof. unfold in_core. rewrite !motion_sub, iso_cross_norm, !iso_norm. tauto. Qed.
Lemma line_motion t p p1 p2 g :
  vortex_line (motion t p) (motion t p1) (motion t p2) g = sscale s (m (vortex_line p p1 p2 g)).
Proof.
  destruct (core_dec p p1 p2) as [C|C].
  - rewrite (vortex_line_core p p1 p2) by assumption. rewrite vortex_line_core by (apply core_motion; assumption).
    replace szero with (sscale 0 szero) at 2 by (svec; vec_eq; ring). rewrite (iso_scale _ _ I).
    destruct (m szero); svec; vec_eq; ring.
  - rewrite (vortex_line_out p p1 p2) by assumption. rewrite vortex_line_out by (rewrite core_motion; assumption).
    unfold biot_savart. rewrite !motion_sub, iso_cross_norm, !iso_unit, <- iso_sub, (iso_dot _ _ I), (iso_cross _ _ I), (iso_scale _ _ I).
    set (x := scross _ _). generalize (snorm x). intros n. destruct (m x); svec; vec_eq; ring.
Qed.
Lemma inf_motion t p a r g :
  vortex_infinite_line (motion t p) (motion t a) (m r) g = sscale s (m (vortex_infinite_line p a r g)).
Proof.
  unfold vortex_infinite_line. cbv zeta. tospec. rewrite motion_sub, !iso_norm.
  fold (sunit r). rewrite <- (iso_norm r). fold (sunit (m r)). rewrite iso_unit.
  rewrite (iso_dot _ _ I), (iso_cross _ _ I), !(iso_scale _ _ I).
  set (x := scross _ _). generalize (snorm (ssub p a)) (sdot (sunit r) (ssub p a)). intros n d.
  rnum. destruct (m x); svec; vec_eq; ring.
Qed.
Lemma horseshoe2_motion t p a b c d v g :
  vortex_horseshoe_v2 (motion t p) (motion t a) (motion t b) (motion t c) (motion t d) (m v) g
  = sscale s (m (vortex_horseshoe_v2 p a b c d v g)).
Proof.
  unfold vortex_horseshoe_v2. cbv zeta. rewrite !line_motion, !inf_motion. tospec.
  rewrite !(iso_add _ _ I).
  repeat match goal with |- context [m ?q] => let w := fresh in set (w := m q); clearbody w end. vring.
Qed.
Lemma horseshoe_motion t p b c v g :
  vortex_horseshoe (motion t p) (motion t b) (motion t c) (m v) g = sscale s (m (vortex_horseshoe p b c v g)).
Proof.
  unfold vortex_horseshoe. cbv zeta. rewrite !line_motion, !inf_motion. tospec.
  rewrite !(iso_add _ _ I).
  repeat match goal with |- context [m ?q] => let w := fresh in set (w := m q); clearbody w end. vring.
Qed.
Lemma ring_motion t p a b c d g :
  vortex_ring (motion t p) (motion t a) (motion t b) (motion t c) (motion t d) g = sscale s (m (vortex_ring p a b c d g)).
Proof.
  unfold vortex_ring. cbv zeta. rewrite !line_motion. tospec. rewrite !(iso_add _ _ I).
  repeat match goal with |- context [m ?q] => let w := fresh in set (w := m q); clearbody w end. vring.
Qed.
End Iso.

(** ** Linearity of rings and horseshoes in the circulation *)
Lemma inf_linear p a r k g : vortex_infinite_line p a r (k * g) = sscale k (vortex_infinite_line p a r g).
Proof.
  unfold vortex_infinite_line. cbv zeta. tospec. rnum. set (x := scross _ _).
  set (y := snorm _ * (_ - _)). clearbody y. destruct x; svec; unfold Rdiv; vec_eq; ring.
Qed.
Lemma ring_linear p a b c d k g : vortex_ring p a b c d (k * g) = sscale k (vortex_ring p a b c d g).
Proof.
  unfold vortex_ring. cbv zeta. rewrite !vortex_line_linear. tospec.
  repeat match goal with |- context [vortex_line ?p ?a ?b ?q] => let w := fresh in set (w := vortex_line p a b q); clearbody w end. vring.
Qed.
Lemma horseshoe2_linear p a b c d v k g :
  vortex_horseshoe_v2 p a b c d v (k * g) = sscale k (vortex_horseshoe_v2 p a b c d v g).
Proof.
  unfold vortex_horseshoe_v2. cbv zeta. rewrite !vortex_line_linear, inf_linear.
  replace (nmul (nopp (nZ 1)) (k * g)) with (k * (nmul (nopp (nZ 1)) g)) by (rnum; ring). rewrite inf_linear. tospec.
  repeat match goal with |- context [vortex_line ?p ?a ?b ?q] => let w := fresh in set (w := vortex_line p a b q); clearbody w end.
  repeat match goal with |- context [vortex_infinite_line ?p ?a ?b ?q] => let w := fresh in set (w := vortex_infinite_line p a b q); clearbody w end.
  vring.
Qed.
Lemma ring_reversed p a b c d g : vortex_ring p d c b a g = sopp (vortex_ring p a b c d g).
Proof.
  unfold vortex_ring. cbv zeta.
  rewrite (vortex_line_rev p c d), (vortex_line_rev p b c), (vortex_line_rev p a b), (vortex_line_rev p d a). tospec.
  repeat match goal with |- context [vortex_line ?p ?a ?b ?q] => let w := fresh in set (w := vortex_line p a b q); clearbody w end. vring.
Qed.
Lemma inf_opp p a r g : vortex_infinite_line p a r (nmul (nopp (nZ 1)) g) = sopp (vortex_infinite_line p a r g).
Proof.
  replace (nmul (nopp (nZ 1)) g) with (-1 * g) by (rnum; ring). rewrite inf_linear.
  destruct (vortex_infinite_line p a r g); svec; vec_eq; ring.
Qed.
Lemma inf_opp' p a r g : vortex_infinite_line p a r (- g) = sopp (vortex_infinite_line p a r g).
Proof. rewrite <- inf_opp. f_equal. rnum; ring. Qed.
Lemma horseshoe2_reversed p a b c d v g :
  vortex_horseshoe_v2 p d c b a v g = sopp (vortex_horseshoe_v2 p a b c d v g).
Proof.
  unfold vortex_horseshoe_v2. cbv zeta.
  rewrite (vortex_line_rev p c d), (vortex_line_rev p b c), (vortex_line_rev p a b), !inf_opp. tospec.
  repeat match goal with |- context [vortex_line ?p ?a ?b ?q] => let w := fresh in set (w := vortex_line p a b q); clearbody w end.
  repeat match goal with |- context [vortex_infinite_line ?p ?a ?b ?q] => let w := fresh in set (w := vortex_infinite_line p a b q); clearbody w end.
  vring.
Qed.
Lemma line_point p a g : vortex_line p a a g = szero.
Proof.
  apply vortex_line_core. right; right. replace (scross _ _) with szero by vring.
  replace (snorm szero) with 0 by (symmetry; apply snorm_zero; reflexivity). pose proof eps_pos. lra.
Qed.
Lemma horseshoe_is_v2 p b c v g : vortex_horseshoe p b c v g = vortex_horseshoe_v2 p b b c c v g.
Proof.
  unfold vortex_horseshoe, vortex_horseshoe_v2. cbv zeta. rewrite !line_point. tospec.
  repeat match goal with |- context [vortex_line ?p ?a ?b ?q] => let w := fresh in set (w := vortex_line p a b q); clearbody w end.
  repeat match goal with |- context [vortex_infinite_line ?p ?a ?b ?q] => let w := fresh in set (w := vortex_infinite_line p a b q); clearbody w end.
  vring.
Qed.

(** ** Semi-infinite lines *)
Lemma snorm0 : snorm szero = 0.
Proof. apply snorm_zero; reflexivity. Qed.
Lemma cross_zero_line r0 a p : r0 <> szero -> scross r0 (ssub p a) = szero -> on_line a r0 p.
Proof.
  intros H E. exists (sdot r0 (ssub p a) / sdot r0 r0).
  assert (D : sdot r0 r0 <> 0) by (rewrite sdot_zero; assumption).
  destruct r0 as [x y z], p as [px py pz], a as [ax ay az]; svec. injection E; intros E1 E2 E3.
  assert (K : forall u v k w, w = (u + k / (x*x+y*y+z*z) * v) \/ (w - u) * (x*x+y*y+z*z) <> k * v).
  { intros u v k w. destruct (Req_dec ((w - u) * (x*x+y*y+z*z)) (k * v)) as [Z|Z]; [left|right; exact Z].
    replace (k / (x*x+y*y+z*z) * v) with (k * v / (x*x+y*y+z*z)) by (field; assumption).
    rewrite <- Z. field. assumption. }
  vec_eq; match goal with |- ?w = ?u + ?k / _ * ?v => destruct (K u v k w) as [?|Z]; [assumption|exfalso; apply Z] end; clear K Z D; nsz.
Qed.
(* the denominator vanishes exactly on the downstream half line *)
Lemma inf_denominator p a r0 : r0 <> szero ->
  (snorm (ssub p a) * (snorm (ssub p a) - sdot (sunit r0) (ssub p a)) = 0 <-> on_half_line a r0 p).
Proof.
  intros H. pose proof (snorm_pos _ H) as N. pose proof (sunit_dot _ H) as U. split.
  - intros E. apply Rmult_integral in E. destruct E as [E|E].
    + apply snorm_zero in E. exists 0. split; [lra|]. destruct p, a; svec. injection E; intros. vec_eq; lra.
    + assert (X : scross (sunit r0) (ssub p a) = szero).
      { apply sdot_zero. rewrite <- lagrange, U, <- (snorm_sq (ssub p a)).
        replace (sdot (sunit r0) (ssub p a)) with (snorm (ssub p a)) by lra. ring. }
      assert (X0 : scross r0 (ssub p a) = szero).
      { replace (scross r0 (ssub p a)) with (sscale (snorm r0) (scross (sunit r0) (ssub p a))).
        - rewrite X. svec; vec_eq; ring.
        - unfold sunit. set (n := snorm r0) in *. set (q := ssub p a). destruct r0, q; svec; vec_eq; field; lra. }
      destruct (cross_zero_line _ _ _ H X0) as [s S]. exists s. split; [|exact S].
      (* sign of s *)
      assert (Q : sdot (sunit r0) (ssub p a) = s * snorm r0).
      { rewrite S. replace (ssub (sadd a (sscale s r0)) a) with (sscale s r0) by vring.
        unfold sunit. replace (sdot (sscale (/ snorm r0) r0) (sscale s r0)) with (s * (/ snorm r0 * sdot r0 r0)) by (destruct r0; svec; ring).
        rewrite <- snorm_sq. field. lra. }
      assert (0 <= s * snorm r0) by (rewrite <- Q; pose proof (snorm_nonneg (ssub p a)); lra).
      destruct (Rle_lt_dec 0 s); [assumption|]. nra.
  - intros [s [S ->]]. replace (ssub (sadd a (sscale s r0)) a) with (sscale s r0) by vring.
    rewrite snorm_scale, Rabs_right by lra.
    replace (sdot (sunit r0) (sscale s r0)) with (s * (/ snorm r0 * sdot r0 r0)).
    + rewrite <- snorm_sq. field. lra.
    + unfold sunit. generalize (/ snorm r0). intros k. destruct r0; svec; ring.
Qed.

(* off the line: the form X / |X|^2 *)
Lemma inf_form p a r0 g : r0 <> szero -> ~ on_line a r0 p ->
  let q := ssub p a in let x := scross r0 q in
  0 < snorm q /\ 0 < snorm x /\
  vortex_infinite_line p a r0 g =
    sscale (g / (4 * PI) * ((snorm r0 + sdot r0 q / snorm q) / snorm x ^ 2)) x.
Proof.
  intros H O q x. pose proof (snorm_pos _ H) as N.
  assert (Q0 : q <> szero).
  { intros Z. apply O. exists 0. unfold q in Z. destruct p, a, r0; svec. injection Z; intros. vec_eq; lra. }
  assert (X0 : x <> szero) by (intros Z; apply O, cross_zero_line; assumption).
  pose proof (snorm_pos _ Q0) as NQ. pose proof (snorm_pos _ X0) as NX.
  split; [exact NQ|]. split; [exact NX|].
  pose proof (lagrange r0 q) as L. fold x in L. rewrite <- (snorm_sq r0), <- (snorm_sq q), <- (snorm_sq x) in L.
  unfold vortex_infinite_line. cbv zeta. tospec. fold q. fold (sunit r0).
  assert (U : sdot (sunit r0) q = / snorm r0 * sdot r0 q) by (unfold sunit; generalize (/ snorm r0); intros k; destruct r0, q; svec; ring).
  rewrite U.
  replace (scross (sunit r0) q) with (sscale (/ snorm r0) x)
    by (unfold sunit, x; generalize (/ snorm r0); intros k; destruct r0, q; svec; vec_eq; ring).
  set (n := snorm r0) in *. set (m := snorm q) in *. set (w := snorm x) in *. set (d := sdot r0 q) in *.
  pose proof PI_RGT_0.
  assert (F : (n * m - d) * (n * m + d) = w * w) by (rewrite <- L; ring).
  assert (n * m - d <> 0) by (intros Z; rewrite Z in F; nra).
  assert (n * m + d <> 0) by (intros Z; rewrite Z in F; nra).
  assert (K : / n * / (m * (m - / n * d)) = (n + d / m) / w ^ 2).
  { replace (w ^ 2) with (w * w) by ring. rewrite <- F. field. repeat split; try lra; try assumption. }
  clearbody n m w d. destruct x as [x0 x1 x2]. rnum. svec.
  vec_eq; rewrite <- K; unfold Rdiv; ring.
Qed.

Lemma segment_of_halves p a r0 s g : r0 <> szero -> 0 < s -> ~ in_core p a (sadd a (sscale s r0)) ->
  vortex_line p a (sadd a (sscale s r0)) g =
  ssub (vortex_infinite_line p a r0 g) (vortex_infinite_line p (sadd a (sscale s r0)) r0 g).
Proof.
  intros H S C. set (b := sadd a (sscale s r0)) in *.
  assert (O : ~ on_line a r0 p).
  { intros [k K]. apply C, on_line_core. exists (k / s). rewrite K. unfold b. destruct a, r0; svec; vec_eq; field; lra. }
  assert (O' : ~ on_line b r0 p).
  { intros [k K]. apply O. exists (s + k). rewrite K. unfold b. vring. }
  destruct (inf_form p a r0 g H O) as (Q1 & X1 & E1). destruct (inf_form p b r0 g H O') as (Q2 & X2 & E2).
  rewrite vortex_line_out by assumption. rewrite E1, E2. unfold biot_savart.
  replace (scross r0 (ssub p b)) with (scross r0 (ssub p a)) in * by (unfold b; vring).
  replace (scross (ssub p a) (ssub p b)) with (sscale s (scross r0 (ssub p a))) by (unfold b; vring).
  replace (ssub b a) with (sscale s r0) by (unfold b; vring).
  rewrite snorm_scale, Rabs_right by lra. unfold sunit.
  set (x := scross _ _) in *. set (n1 := snorm (ssub p a)) in *. set (n2 := snorm (ssub p b)) in *. set (w := snorm x) in *.
  set (nr := snorm r0). pose proof PI_RGT_0.
  replace (sdot (sscale s r0) (ssub (sscale (/ n1) (ssub p a)) (sscale (/ n2) (ssub p b))))
    with (s * (sdot r0 (ssub p a) / n1 - sdot r0 (ssub p b) / n2)).
  2:{ unfold Rdiv. generalize (/ n1) (/ n2). intros k1 k2. clearbody b. destruct r0, p, a, b; svec; ring. }
  set (d1 := sdot _ _). set (d2 := sdot _ _). clearbody n1 n2 w nr d1 d2. destruct x as [x0 x1 x2]. svec.
  vec_eq; field; repeat split; lra.
Qed.

(** ** Limits *)
Lemma tends_add f g l m : tends_to f l -> tends_to g m -> tends_to (fun t => sadd (f t) (g t)) (sadd l m).
Proof.
  intros F G e E. destruct (F (e/2) ltac:(lra)) as [T1 H1]. destruct (G (e/2) ltac:(lra)) as [T2 H2].
  exists (Rmax T1 T2). intros t T. pose proof (Rmax_l T1 T2). pose proof (Rmax_r T1 T2).
  specialize (H1 t ltac:(lra)). specialize (H2 t ltac:(lra)). unfold sdist in *.
  replace (ssub (sadd (f t) (g t)) (sadd l m)) with (sadd (ssub (f t) l) (ssub (g t) m)) by vring.
  pose proof (triangle (ssub (f t) l) (ssub (g t) m)). lra.
Qed.
Lemma tends_opp f l : tends_to f l -> tends_to (fun t => sopp (f t)) (sopp l).
Proof.
  intros F e E. destruct (F e E) as [T H]. exists T. intros t Ht. specialize (H t Ht). unfold sdist in *.
  replace (ssub (sopp (f t)) (sopp l)) with (sopp (ssub (f t) l)) by vring. rewrite snorm_opp. assumption.
Qed.
Lemma tends_const l : tends_to (fun _ => l) l.
Proof.
  intros e E. exists 0. intros. unfold sdist. replace (ssub l l) with szero by vring. rewrite snorm0. assumption.
Qed.
Lemma tends_bound (f : R -> vec R) l K T0 : 0 <= K ->
  (forall t, T0 < t -> 0 < t -> sdist (f t) l <= K / t) -> tends_to f l.
Proof.
  intros HK H e E. exists (Rmax (Rmax T0 0) (K / e)). intros t T.
  pose proof (Rmax_l (Rmax T0 0) (K / e)). pose proof (Rmax_r (Rmax T0 0) (K / e)).
  pose proof (Rmax_l T0 0). pose proof (Rmax_r T0 0).
  assert (0 < t) by lra. eapply Rle_lt_trans; [apply H; lra|].
  apply (Rmult_lt_reg_r t); [assumption|]. unfold Rdiv. rewrite Rmult_assoc, Rinv_l by lra.
  assert (K / e < t) by lra. apply (Rmult_lt_compat_r e) in H5; [|assumption].
  unfold Rdiv in H5. rewrite Rmult_assoc, Rinv_l in H5 by lra. lra.
Qed.

Lemma far_dist p a v t : 0 < t -> v <> szero -> 2 * snorm (ssub p a) / snorm v < t ->
  t * snorm v / 2 <= snorm (ssub p (sadd a (sscale t v))).
Proof.
  intros T H L. pose proof (snorm_pos _ H) as N.
  replace (ssub p (sadd a (sscale t v))) with (sopp (ssub (sscale t v) (ssub p a))) by vring. rewrite snorm_opp.
  pose proof (triangle_sub (sscale t v) (ssub p a)) as X. rewrite snorm_scale, Rabs_right in X by lra.
  apply (Rmult_lt_compat_r (snorm v)) in L; [|assumption]. unfold Rdiv in L. rewrite Rmult_assoc, Rinv_l in L by lra. lra.
Qed.
Lemma inf_far p a r0 g : r0 <> szero -> ~ on_line a r0 p ->
  exists K T, 0 <= K /\ forall t, T < t -> 0 < t -> snorm (vortex_infinite_line p (sadd a (sscale t r0)) r0 g) <= K / t.
Proof.
  intros H O. pose proof (snorm_pos _ H) as N. pose proof PI_RGT_0 as PI0.
  set (q := ssub p a). set (n := snorm r0) in *. set (w := snorm (scross r0 q)).
  assert (W0 : 0 <= w) by apply snorm_nonneg.
  exists (Rabs g / (4 * PI) * (4 * w / (n * n * n))), (Rmax 1 (Rmax (2 * snorm q / n) (sdot r0 q / (n * n)))).
  assert (G : 0 <= Rabs g / (4 * PI)) by (apply Rmult_le_pos; [apply Rabs_pos | left; apply Rinv_0_lt_compat; lra]).
  assert (N3 : 0 < n * n * n) by (repeat apply Rmult_lt_0_compat; assumption).
  split. { apply Rmult_le_pos; [exact G|]. apply Rmult_le_pos; [lra | left; apply Rinv_0_lt_compat; assumption]. }
  intros t T T0. set (b := sadd a (sscale t r0)).
  pose proof (Rmax_l 1 (Rmax (2 * snorm q / n) (sdot r0 q / (n * n)))).
  pose proof (Rmax_r 1 (Rmax (2 * snorm q / n) (sdot r0 q / (n * n)))).
  pose proof (Rmax_l (2 * snorm q / n) (sdot r0 q / (n * n))). pose proof (Rmax_r (2 * snorm q / n) (sdot r0 q / (n * n))).
  assert (O' : ~ on_line b r0 p) by (intros [k K]; apply O; exists (t + k); rewrite K; unfold b; vring).
  destruct (inf_form p b r0 g H O') as (Q & X & E). rewrite E, snorm_scale.
  replace (scross r0 (ssub p b)) with (scross r0 q) in * by (unfold b, q; vring). fold w in X. fold w n.
  pose proof (far_dist p a r0 t T0 H) as FD. fold b q n in FD. specialize (FD ltac:(lra)).
  pose proof (lagrange r0 (ssub p b)) as L.
  replace (scross r0 (ssub p b)) with (scross r0 q) in L by (unfold b, q; vring).
  rewrite <- (snorm_sq r0), <- (snorm_sq (ssub p b)), <- (snorm_sq (scross r0 q)) in L. fold n w in L.
  assert (D : sdot r0 (ssub p b) = sdot r0 q - t * (n * n)).
  { unfold n. rewrite snorm_sq. unfold b, q. destruct r0, p, a; svec; ring. }
  assert (DN : sdot r0 (ssub p b) < 0).
  { rewrite D. assert (sdot r0 q / (n * n) < t) as I by lra.
    apply (Rmult_lt_compat_r (n * n)) in I; [|nra]. unfold Rdiv in I. rewrite Rmult_assoc, Rinv_l in I by nra. lra. }
  set (m := snorm (ssub p b)) in *. set (d := sdot r0 (ssub p b)) in *. clearbody m d w n.
  assert (P0 : 0 <= n + d / m <= w * w / (n * m * m)).
  { assert (F : (n * m - d) * (n * m + d) = w * w) by (rewrite <- L; ring).
    assert (0 < n * m) by nra. assert (0 < n * m - d) by lra. assert (0 < w * w) by nra.
    assert (0 < n * m + d). { destruct (Rlt_le_dec 0 (n * m + d)); [assumption|]. nra. }
    split.
    - replace (n + d / m) with ((n * m + d) / m) by (field; lra). apply Rmult_le_pos; [lra | left; apply Rinv_0_lt_compat; lra].
    - apply (Rmult_le_reg_r (n * m * m)); [repeat apply Rmult_lt_0_compat; assumption|].
      replace (w * w / (n * m * m) * (n * m * m)) with (w * w) by (field; lra).
      replace ((n + d / m) * (n * m * m)) with ((n * m + d) * (n * m)) by (field; lra). nra. }
  replace (Rabs (g / (4 * PI) * ((n + d / m) / w ^ 2)) * w) with (Rabs g / (4 * PI) * ((n + d / m) / w)).
  2:{ assert (0 <= (n + d / m) / w ^ 2) by (apply Rmult_le_pos; [lra | left; apply Rinv_0_lt_compat; nra]).
      rewrite Rabs_mult, (Rabs_right ((n + d / m) / w ^ 2)) by lra.
      unfold Rdiv at 4. rewrite Rabs_mult, Rabs_inv, (Rabs_right (4 * PI)) by lra. field. lra. }
  replace (Rabs g / (4 * PI) * (4 * w / (n * n * n)) / t) with (Rabs g / (4 * PI) * (4 * w / (n * n * n) / t)) by (unfold Rdiv; ring).
  apply Rmult_le_compat_l; [exact G|].
  apply Rle_trans with (w * w / (n * m * m) / w).
  - apply Rmult_le_compat_r; [left; apply Rinv_0_lt_compat; assumption | apply P0].
  - replace (w * w / (n * m * m) / w) with (w * / (n * m * m)) by (field; lra).
    replace (4 * w / (n * n * n) / t) with (w * / (n * n * n * t / 4)) by (field; lra).
    apply Rmult_le_compat_l; [lra|]. apply Rinv_le_contravar; [assert (0 < n * n * n * t) by (apply Rmult_lt_0_compat; assumption); lra|].
    assert (0 < t * n) by (apply Rmult_lt_0_compat; assumption).
    assert (MM : t * n / 2 * (t * n / 2) <= m * m) by (apply Rmult_le_compat; lra).
    apply (Rmult_le_compat_l n) in MM; [|lra].
    assert (n * n * n * t * 1 <= n * n * n * t * t) by (apply Rmult_le_compat_l; [left; apply Rmult_lt_0_compat; assumption | lra]).
    replace (n * m * m) with (n * (m * m)) by ring. lra.
Qed.
Lemma scale_core_far p a r0 : r0 <> szero -> ~ on_line a r0 p -> / 10 ^ 8 <= snorm (ssub p a) ->
  exists T, forall t, T < t -> 0 < t -> ~ in_core p a (sadd a (sscale t r0)).
Proof.
  intros H O A. pose proof (snorm_pos _ H) as N. pose proof eps_pos as E. set (e := / 10 ^ 8) in *.
  destruct (inf_form p a r0 1 H O) as (Q & X & _).
  set (w := snorm (scross r0 (ssub p a))) in *.
  exists (Rmax (2 * snorm (ssub p a) / snorm r0) (Rmax (2 * e / snorm r0) (Rmax 1 (e / (w * w))))).
  intros t T T0.
  pose proof (Rmax_l (2 * snorm (ssub p a) / snorm r0) (Rmax (2 * e / snorm r0) (Rmax 1 (e / (w * w))))).
  pose proof (Rmax_r (2 * snorm (ssub p a) / snorm r0) (Rmax (2 * e / snorm r0) (Rmax 1 (e / (w * w))))).
  pose proof (Rmax_l (2 * e / snorm r0) (Rmax 1 (e / (w * w)))). pose proof (Rmax_r (2 * e / snorm r0) (Rmax 1 (e / (w * w)))).
  pose proof (Rmax_l 1 (e / (w * w))). pose proof (Rmax_r 1 (e / (w * w))).
  pose proof (far_dist p a r0 t T0 H ltac:(lra)) as FD. unfold in_core. fold e.
  intros [C|[C|C]].
  - lra.
  - assert (2 * e / snorm r0 < t) as I by lra. apply (Rmult_lt_compat_r (snorm r0)) in I; [|assumption].
    unfold Rdiv in I. rewrite Rmult_assoc, Rinv_l in I by lra. lra.
  - replace (scross (ssub p a) (ssub p (sadd a (sscale t r0)))) with (sscale t (scross r0 (ssub p a))) in C by vring.
    rewrite snorm_scale, Rabs_right in C by lra. fold w in C.
    assert (e / (w * w) < t) as I by lra. apply (Rmult_lt_compat_r (w * w)) in I; [|nra].
    unfold Rdiv in I. rewrite Rmult_assoc, Rinv_l in I by nra. assert (w * w * t <= w * w * t * t) by nra. nra.
Qed.
Lemma segment_limit p a r0 g : r0 <> szero -> ~ on_line a r0 p -> / 10 ^ 8 <= snorm (ssub p a) ->
  tends_to (fun t => vortex_line p a (sadd a (sscale t r0)) g) (vortex_infinite_line p a r0 g).
Proof.
  intros H O A. destruct (inf_far p a r0 g H O) as (K & T & K0 & B). destruct (scale_core_far p a r0 H O A) as (T' & C).
  apply (tends_bound _ _ K (Rmax T T')); [assumption|]. intros t Ht T0.
  pose proof (Rmax_l T T'). pose proof (Rmax_r T T').
  rewrite (segment_of_halves p a r0 t g H T0) by (apply C; lra). unfold sdist.
  set (u := vortex_infinite_line p a r0 g). set (v := vortex_infinite_line _ _ _ _).
  replace (ssub (ssub u v) u) with (sopp v) by (clearbody u v; vring). rewrite snorm_opp. apply B; lra.
Qed.
Lemma edge_bound p p1 p2 g M : 0 < M -> M <= snorm (ssub p p1) -> M <= snorm (ssub p p2) -> snorm (ssub p2 p1) <= M ->
  snorm (vortex_line p p1 p2 g) <= Rabs g * snorm (ssub p2 p1) / (2 * PI * (M * M)).
Proof.
  intros M0 M1 M2 ME. pose proof PI_RGT_0 as PI0. pose proof (snorm_nonneg (ssub p2 p1)) as E0. pose proof (Rabs_pos g) as G0.
  destruct (core_dec p p1 p2) as [C|C].
  - rewrite vortex_line_core, snorm0 by assumption. apply Rmult_le_pos; [nra | left; apply Rinv_0_lt_compat; apply Rmult_lt_0_compat; [lra | apply Rmult_lt_0_compat; lra]].
  - rewrite vortex_line_out by assumption. destruct (out_nonzero _ _ _ C) as (P1 & P2 & PX).
    destruct (biot_regular p p1 p2 g P1 P2 PX) as [D ->]. rewrite snorm_scale.
    set (r1 := ssub p p1) in *. set (r2 := ssub p p2) in *. set (e := ssub p2 p1) in *.
    assert (XE : snorm (scross r1 r2) <= snorm r1 * snorm e).
    { replace (scross r1 r2) with (sopp (scross r1 e)) by (unfold r1, r2, e; vring). rewrite snorm_opp. apply cross_le. }
    assert (DD : 2 * sdot r1 r2 = snorm r1 * snorm r1 + snorm r2 * snorm r2 - snorm e * snorm e).
    { rewrite !snorm_sq. unfold r1, r2, e. destruct p, p1, p2; svec; ring. }
    set (x := snorm (scross r1 r2)) in *. set (a := snorm r1) in *. set (b := snorm r2) in *. set (l := snorm e) in *.
    set (d := sdot r1 r2) in *. clearbody x a b l d.
    assert (AB : 0 < a * b) by (apply Rmult_lt_0_compat; lra).
    assert (LM : l * l <= M * M) by (apply Rmult_le_compat; lra).
    assert (MA : M * M <= a * b) by (apply Rmult_le_compat; lra).
    assert (MB : M * M <= b * b) by (apply Rmult_le_compat; lra).
    assert (DB : a * b <= a * b + d) by (pose proof (Rle_0_sqr (a - b)); unfold Rsqr in *; lra).
    assert (MM : 0 < M * M) by (apply Rmult_lt_0_compat; lra).
    assert (K0 : 0 <= (a + b) / (a * b * (a * b + d))) by (apply Rmult_le_pos; [lra | left; apply Rinv_0_lt_compat; apply Rmult_lt_0_compat; lra]).
    rewrite Rabs_mult, (Rabs_right ((a + b) / _)) by lra.
    unfold Rdiv at 1. rewrite Rabs_mult, Rabs_inv, (Rabs_right (4 * PI)) by lra.
    apply Rle_trans with (Rabs g * / (4 * PI) * ((a + b) / (a * b * (a * b)) * (a * l))).
    + rewrite Rmult_assoc. apply Rmult_le_compat_l; [apply Rmult_le_pos; [assumption | left; apply Rinv_0_lt_compat; lra]|].
      apply Rmult_le_compat; try assumption; [lra|]. apply Rmult_le_compat_l; [lra|].
      apply Rinv_le_contravar; [apply Rmult_lt_0_compat; lra | apply Rmult_le_compat_l; lra].
    + replace ((a + b) / (a * b * (a * b)) * (a * l)) with (l * (/ (b * b) + / (a * b))) by (field; lra).
      replace (Rabs g * l / (2 * PI * (M * M))) with (Rabs g * / (4 * PI) * (l * (/ (M * M) + / (M * M)))) by (field; lra).
      apply Rmult_le_compat_l; [apply Rmult_le_pos; [assumption | left; apply Rinv_0_lt_compat; lra]|].
      apply Rmult_le_compat_l; [assumption|]. apply Rplus_le_compat; apply Rinv_le_contravar; lra.
Qed.
Lemma far_edge p a d v g : v <> szero ->
  tends_to (fun t => vortex_line p (sadd d (sscale t v)) (sadd a (sscale t v)) g) szero.
Proof.
  intros H. pose proof (snorm_pos _ H) as N. pose proof PI_RGT_0 as PI0.
  set (e := ssub a d). set (n := snorm v) in *.
  assert (PNN : 0 < PI * n * n) by (apply Rmult_lt_0_compat; [apply Rmult_lt_0_compat|]; assumption).
  apply (tends_bound _ _ (2 * Rabs g * snorm e / (PI * n * n))
    (Rmax (Rmax 1 (2 * snorm e / n)) (Rmax (2 * snorm (ssub p d) / n) (2 * snorm (ssub p a) / n)))).
  { apply Rmult_le_pos; [|left; apply Rinv_0_lt_compat; lra]. pose proof (Rabs_pos g). pose proof (snorm_nonneg e). nra. }
  intros t T T0.
  pose proof (Rmax_l (Rmax 1 (2 * snorm e / n)) (Rmax (2 * snorm (ssub p d) / n) (2 * snorm (ssub p a) / n))).
  pose proof (Rmax_r (Rmax 1 (2 * snorm e / n)) (Rmax (2 * snorm (ssub p d) / n) (2 * snorm (ssub p a) / n))).
  pose proof (Rmax_l 1 (2 * snorm e / n)). pose proof (Rmax_r 1 (2 * snorm e / n)).
  pose proof (Rmax_l (2 * snorm (ssub p d) / n) (2 * snorm (ssub p a) / n)).
  pose proof (Rmax_r (2 * snorm (ssub p d) / n) (2 * snorm (ssub p a) / n)).
  unfold sdist. set (l := vortex_line _ _ _ _). replace (ssub l szero) with l by (clearbody l; vring). unfold l.
  pose proof (far_dist p d v t T0 H ltac:(fold n; lra)) as F1. pose proof (far_dist p a v t T0 H ltac:(fold n; lra)) as F2.
  fold n in F1, F2. assert (E : ssub (sadd a (sscale t v)) (sadd d (sscale t v)) = e) by (unfold e; vring).
  eapply Rle_trans; [apply (edge_bound _ _ _ _ (t * n / 2)); try assumption; [nra|]|]; rewrite E.
  - assert (2 * snorm e / n < t) as I by lra. apply (Rmult_lt_compat_r n) in I; [|assumption].
    unfold Rdiv in I. rewrite Rmult_assoc, Rinv_l in I by lra. lra.
  - replace (Rabs g * snorm e / (2 * PI * (t * n / 2 * (t * n / 2)))) with (2 * (Rabs g * snorm e) * / (PI * n * n * (t * t))) by (field; lra).
    replace (2 * Rabs g * snorm e / (PI * n * n) / t) with (2 * (Rabs g * snorm e) * / (PI * n * n * t)) by (field; lra).
    pose proof (Rabs_pos g). pose proof (snorm_nonneg e).
    apply Rmult_le_compat_l; [nra|]. apply Rinv_le_contravar; [apply Rmult_lt_0_compat; assumption|].
    apply Rmult_le_compat_l; [lra|]. rewrite <- (Rmult_1_l t) at 1. apply Rmult_le_compat_r; lra.
Qed.
Lemma tends_ext f g l : (forall t, f t = g t) -> tends_to f l -> tends_to g l.
Proof. intros E H e He. destruct (H e He) as [T B]. exists T. intros. rewrite <- E. auto. Qed.
Lemma horseshoe2_limit p a b c d v g : v <> szero ->
  ~ on_line a v p -> ~ on_line d v p -> / 10 ^ 8 <= snorm (ssub p a) -> / 10 ^ 8 <= snorm (ssub p d) ->
  tends_to (fun t => sadd (vortex_ring p a b c d g) (vortex_ring p (sadd a (sscale t v)) a d (sadd d (sscale t v)) g))
    (vortex_horseshoe_v2 p a b c d v g).
Proof.
  intros H O1 O2 C1 C2.
  pose proof (tends_opp _ _ (segment_limit p a v g H O1 C1)) as L1.
  pose proof (segment_limit p d v g H O2 C2) as L2. pose proof (far_edge p a d v g H) as L3.
  unfold vortex_horseshoe_v2, vortex_ring. cbv zeta. tospec.
  set (K := sadd (sadd (vortex_line p a b g) (vortex_line p b c g)) (vortex_line p c d g)).
  pose proof (tends_add _ _ _ _ (tends_const K) (tends_add _ _ _ _ L2 (tends_add _ _ _ _ L1 L3))) as L.
  rewrite inf_opp.
  replace (sadd (sadd K (vortex_infinite_line p d v g)) (sopp (vortex_infinite_line p a v g))) with
    (sadd K (sadd (vortex_infinite_line p d v g) (sadd (sopp (vortex_infinite_line p a v g)) szero))).
  2:{ set (u1 := vortex_infinite_line p d v g). set (u2 := vortex_infinite_line p a v g). clearbody K u1 u2. vring. }
  eapply tends_ext; [|exact L]. intros t. cbv beta.
  rewrite (vortex_line_rev p d a), (vortex_line_rev p a (sadd a (sscale t v))).
  set (u1 := vortex_line p d (sadd d (sscale t v)) g). set (u2 := vortex_line p a (sadd a (sscale t v)) g).
  set (u3 := vortex_line p (sadd d (sscale t v)) (sadd a (sscale t v)) g). set (u4 := vortex_line p d a g).
  clearbody K u1 u2 u3 u4. vring.
Qed.
