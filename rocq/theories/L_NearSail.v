(** Rounding of twisted meshes. *)

From Coq Require Import ZArith Reals List Bool Lra Psatz Lia.
From Flocq Require Import Core BinarySingleNaN.
From Verif Require Import Num PyBase RNum Spec M_Airfoil M_Rotations M_Csys M_Mesher M_Panels M_Sail L_List L_Rot L_Csys L_Airfoil L_Mesh L_Sail L_Sail2 P_Double Double L_Double L_Near L_NearRot L_NearLine L_NearMesh.
Import ListNotations.
Open Scope R_scope.

(** ** How the rotation about a line depends on the line *)
Lemma norm_scale k (a : vec R) : snorm (sscale k a) = Rabs k * snorm a.
Proof.
  destruct a as [x y z]. unfold snorm, sscale. cbn [vx vy vz]. replace ((k * x) ^ 2 + (k * y) ^ 2 + (k * z) ^ 2) with (k ^ 2 * (x ^ 2 + y ^ 2 + z ^ 2)) by ring.
  rewrite sqrt_mult by nra. f_equal. replace (k ^ 2) with (Rsqr k) by (unfold Rsqr; ring). apply sqrt_Rsqr_abs.
Qed.
Lemma norm_cross (a b : vec R) : snorm (scross a b) <= snorm a * snorm b.
Proof.
  pose proof (snorm_nonneg a) as Pa. pose proof (snorm_nonneg b) as Pb. rewrite <- (Rabs_pos_eq (snorm (scross a b))) by apply snorm_nonneg. rewrite <- (Rabs_pos_eq (snorm a * snorm b)) by nra. apply Rsqr_le_abs_0. unfold Rsqr.
  replace (snorm a * snorm b * (snorm a * snorm b)) with ((snorm a * snorm a) * (snorm b * snorm b)) by ring. rewrite !snorm_sq. destruct a as [a1 a2 a3], b as [b1 b2 b3]. svec.
  pose proof (Rle_0_sqr (a1 * b1 + a2 * b2 + a3 * b3)) as R1. unfold Rsqr in *. nra.
Qed.
Lemma unit_norm (w : vec R) : sdot w w = 1 -> snorm w = 1.
Proof. intros H. unfold snorm. unfold sdot in H. rewrite <- sqrt_1. f_equal. cbn. lra. Qed.
Lemma srot_diff (w w' p : vec R) th : sdot w w = 1 -> sdot w' w' = 1 -> snorm (ssub (srot w th p) (srot w' th p)) <= 5 * snorm (ssub w w') * snorm p.
Proof.
  intros U U'. pose proof (unit_norm _ U) as N. pose proof (unit_norm _ U') as N'. set (q := ssub w w').
  assert (E : ssub (srot w th p) (srot w' th p) = sadd (sscale (sin th) (scross q p)) (sscale (1 - cos th) (sadd (sscale (sdot w p) q) (sscale (sdot q p) w')))).
  { unfold q, srot. destruct w, w', p. svec. vec_eq; ring. }
  rewrite E. pose proof (COS_bound th) as CB. pose proof (SIN_bound th) as SB. pose proof (norm_cross q p) as X1. pose proof (cauchy w p) as X2. pose proof (cauchy q p) as X3. rewrite N, Rmult_1_l in X2. pose proof (snorm_nonneg q) as Q0. pose proof (snorm_nonneg p) as P0.
  eapply Rle_trans; [apply norm_add|]. rewrite !norm_scale.
  assert (A1 : Rabs (sin th) * snorm (scross q p) <= 1 * (snorm q * snorm p)) by (apply Rmult_le_compat; [apply Rabs_pos|apply snorm_nonneg|apply Rabs_le; lra|exact X1]).
  assert (A2 : snorm (sadd (sscale (sdot w p) q) (sscale (sdot q p) w')) <= 2 * (snorm q * snorm p)).
  { eapply Rle_trans; [apply norm_add|]. rewrite !norm_scale, N'. assert (Rabs (sdot w p) * snorm q <= snorm p * snorm q) by (apply Rmult_le_compat_r; assumption). lra. }
  assert (A3 : Rabs (1 - cos th) * snorm (sadd (sscale (sdot w p) q) (sscale (sdot q p) w')) <= 2 * (2 * (snorm q * snorm p))) by (apply Rmult_le_compat; [apply Rabs_pos|apply snorm_nonneg|apply Rabs_le; lra|exact A2]).
  lra.
Qed.
Lemma norm_rev (a b : vec R) : Rabs (snorm a - snorm b) <= snorm (ssub a b).
Proof.
  pose proof (norm_add (ssub a b) b) as A. replace (sadd (ssub a b) b) with a in A by (destruct a, b; svec; vec_eq; ring).
  pose proof (norm_add (ssub b a) a) as B. replace (sadd (ssub b a) a) with b in B by (destruct a, b; svec; vec_eq; ring).
  replace (snorm (ssub b a)) with (snorm (ssub a b)) in B by (rewrite <- norm_opp; f_equal; destruct a, b; svec; vec_eq; ring). apply Rabs_le. lra.
Qed.
Lemma unit_diff (a b : vec R) : 0 < snorm a -> 0 < snorm b -> snorm (ssub (sunit a) (sunit b)) <= 2 * snorm (ssub a b) / snorm a.
Proof.
  intros A B. assert (E : ssub (sunit a) (sunit b) = sadd (sscale (/ snorm a) (ssub a b)) (sscale ((snorm b - snorm a) / (snorm a * snorm b)) b)).
  { unfold sunit. set (x := snorm a) in *. set (y := snorm b) in *. clearbody x y. destruct a, b. svec. vec_eq; field; lra. }
  rewrite E. eapply Rle_trans; [apply norm_add|]. rewrite !norm_scale. rewrite (Rabs_pos_eq (/ snorm a)) by (left; apply Rinv_0_lt_compat; exact A).
  unfold Rdiv at 1. rewrite Rabs_mult, (Rabs_pos_eq (/ (snorm a * snorm b))) by (left; apply Rinv_0_lt_compat; nra). pose proof (norm_rev b a) as R1. replace (snorm (ssub b a)) with (snorm (ssub a b)) in R1 by (rewrite <- norm_opp; f_equal; destruct a, b; svec; vec_eq; ring).
  replace (Rabs (snorm b - snorm a) * / (snorm a * snorm b) * snorm b) with (Rabs (snorm b - snorm a) * / snorm a) by (field; lra).
  assert (I : 0 < / snorm a) by (apply Rinv_0_lt_compat; exact A). unfold Rdiv. nra.
Qed.
Lemma line_diff (a b a' b' p p' : vec R) th : 0 < snorm (ssub b a) -> 0 < snorm (ssub b' a') ->
  snorm (ssub (srot_line a b th p) (srot_line a' b' th p')) <= snorm (ssub p p') + 2 * snorm (ssub a a') + 10 * (snorm (ssub a a') + snorm (ssub b b')) / snorm (ssub b a) * snorm (ssub p a).
Proof.
  intros A B. set (w := sunit (ssub b a)). set (w' := sunit (ssub b' a')).
  assert (NZ : forall v : vec R, 0 < snorm v -> v <> szero). { intros v H Q. rewrite Q in H. unfold snorm, szero in H. cbv [vx vy vz] in H. replace (0 ^ 2 + 0 ^ 2 + 0 ^ 2) with 0 in H by ring. rewrite sqrt_0 in H. lra. }
  pose proof (sunit_dot _ (NZ _ A)) as U. pose proof (sunit_dot _ (NZ _ B)) as U'. fold w in U. fold w' in U'.
  pose proof (srot_is_rotation w' th U') as RM.
  assert (E : ssub (srot_line a b th p) (srot_line a' b' th p') = sadd (ssub a a') (sadd (ssub (srot w th (ssub p a)) (srot w' th (ssub p a))) (srot w' th (ssub (ssub p a) (ssub p' a'))))).
  { rewrite (rm_sub _ (ssub p a) (ssub p' a') RM). change (srot_line a b th p) with (sadd a (srot w th (ssub p a))). change (srot_line a' b' th p') with (sadd a' (srot w' th (ssub p' a'))). clear. set (x := srot w th (ssub p a)). set (y := srot w' th (ssub p' a')). set (z := srot w' th (ssub p a)). clearbody x y z. clear. destruct a, a', x, y, z. svec. vec_eq; ring. }
  rewrite E. eapply Rle_trans; [apply norm_add|]. pose proof (norm_add (ssub (srot w th (ssub p a)) (srot w' th (ssub p a))) (srot w' th (ssub (ssub p a) (ssub p' a')))) as T. rewrite (rm_norm _ _ RM) in T.
  pose proof (srot_diff w w' (ssub p a) th U U') as T1. pose proof (unit_diff _ _ A B) as T2. fold w w' in T2.
  assert (T3 : snorm (ssub (ssub p a) (ssub p' a')) <= snorm (ssub p p') + snorm (ssub a a')). { replace (ssub (ssub p a) (ssub p' a')) with (ssub (ssub p p') (ssub a a')) by (destruct a, a', p, p'; svec; vec_eq; ring). apply norm_sub. }
  assert (T4 : snorm (ssub (ssub b a) (ssub b' a')) <= snorm (ssub a a') + snorm (ssub b b')). { replace (ssub (ssub b a) (ssub b' a')) with (ssub (ssub b b') (ssub a a')) by (destruct a, a', b, b'; svec; vec_eq; ring). pose proof (norm_sub (ssub b b') (ssub a a')). lra. }
  assert (I : 0 < / snorm (ssub b a)) by (apply Rinv_0_lt_compat; exact A).
  assert (T5 : snorm (ssub w w') <= 2 * (snorm (ssub a a') + snorm (ssub b b')) / snorm (ssub b a)). { eapply Rle_trans; [exact T2|]. unfold Rdiv. apply Rmult_le_compat_r; lra. }
  assert (T6 : 5 * snorm (ssub w w') * snorm (ssub p a) <= 10 * (snorm (ssub a a') + snorm (ssub b b')) / snorm (ssub b a) * snorm (ssub p a)). { apply Rmult_le_compat_r; [apply snorm_nonneg|]. unfold Rdiv in *. lra. }
  lra.
Qed.
Lemma norm_coord (a : vec R) d : Rabs (vx a) <= d -> Rabs (vy a) <= d -> Rabs (vz a) <= d -> snorm a <= 2 * d.
Proof.
  intros X Y Z. pose proof (Rabs_pos (vx a)). rewrite <- (Rabs_pos_eq (snorm a)) by apply snorm_nonneg. rewrite <- (Rabs_pos_eq (2 * d)) by lra. apply Rsqr_le_abs_0. unfold Rsqr. rewrite snorm_sq.
  apply abs_2 in X. apply abs_2 in Y. apply abs_2 in Z. nra.
Qed.
(** distance of a computed point from an exact one *)
Lemma near_dist B p P k : vnear B p P k -> vfin p /\ snorm (ssub (vvals p) P) <= 2 * (k * (B * u)).
Proof.
  intros ((F1 & _ & E1) & (F2 & _ & E2) & (F3 & _ & E3)). split; [split; [exact F1|split; [exact F2|exact F3]]|]. apply norm_coord; destruct P as [P1 P2 P3]; unfold ssub, vvals; cbn [vx vy vz] in *; assumption.
Qed.

Lemma norm_0 (a : vec R) : snorm (ssub a a) = 0.
Proof. destruct a as [x y z]. unfold snorm, ssub. cbn [vx vy vz]. replace ((x - x) ^ 2 + (y - y) ^ 2 + (z - z) ^ 2) with 0 by ring. apply sqrt_0. Qed.
Lemma norm_swap (a b : vec R) : snorm (ssub a b) = snorm (ssub b a).
Proof. rewrite <- norm_opp. f_equal. destruct a, b. svec. vec_eq; ring. Qed.
Lemma norm_tri (a b c : vec R) : snorm (ssub a c) <= snorm (ssub a b) + snorm (ssub b c).
Proof. replace (ssub a c) with (sadd (ssub a b) (ssub b c)) by (destruct a, b, c; svec; vec_eq; ring). apply norm_add. Qed.
Lemma slerp_diff (a b a' b' : vec R) t d : 0 <= t <= 1 -> snorm (ssub a a') <= d -> snorm (ssub b b') <= d -> snorm (ssub (slerp a b t) (slerp a' b' t)) <= d.
Proof.
  intros T A B. replace (ssub (slerp a b t) (slerp a' b' t)) with (sadd (sscale (1 - t) (ssub a a')) (sscale t (ssub b b'))) by (unfold slerp; destruct a, b, a', b'; svec; vec_eq; ring).
  eapply Rle_trans; [apply norm_add|]. rewrite !norm_scale, !Rabs_pos_eq by lra. nra.
Qed.
(** the part of a vector that is normal to the boat's axis *)
Definition across (v : vec R) : vec R := V3 0 (vy v) (vz v).
Lemma across_le v : snorm (across v) <= snorm v.
Proof. unfold snorm, across. cbn [vx vy vz]. apply sqrt_le_1_alt. pose proof (pow2_ge_0 (vx v)). lra. Qed.
Lemma across_sub a b : ssub (across a) (across b) = across (ssub a b). Proof. destruct a, b. unfold across. svec. vec_eq; ring. Qed.
Section Twist.
Context (e : elementary) (AC : accurate e).
Local Notation D := (Double e).
Context (L l : R) (HL : size L) (Hl : L / 1000 <= l) (a b : vec R) (SA : snorm a <= 2 * L) (SB : snorm b <= 2 * L) (LU : l <= snorm (across (ssub b a))) (p1 p2 : vec double) (N1 : vnear (2 * L) p1 a 6397) (N2 : vnear (2 * L) p2 b 6397).
Lemma Lu : 0 <= L * u <= L * (12 / 100000000000000000). Proof. unfold size in HL. pose proof u_pos. split; [nra|]. apply Rmult_le_compat_l; [lra|]. rewrite u_val. lra. Qed.
Lemma ends : vfin p1 /\ vfin p2 /\ snorm (ssub (vvals p1) a) <= 25588 * (L * u) /\ snorm (ssub (vvals p2) b) <= 25588 * (L * u).
Proof. destruct (near_dist _ _ _ _ N1) as [F1 D1]. destruct (near_dist _ _ _ _ N2) as [F2 D2]. repeat (split; try assumption); lra. Qed.
Lemma luff_sized : l / 2 <= snorm (across (ssub (vvals p2) (vvals p1))) /\ snorm (ssub (vvals p2) (vvals p1)) <= 5 * L /\ l <= 4 * L.
Proof.
  destruct ends as (_ & _ & D1 & D2). pose proof Lu as U. unfold size in HL.
  assert (Q : snorm (ssub (ssub (vvals p2) (vvals p1)) (ssub b a)) <= 51176 * (L * u)). { replace (ssub (ssub (vvals p2) (vvals p1)) (ssub b a)) with (ssub (ssub (vvals p2) b) (ssub (vvals p1) a)) by (destruct (vvals p1), (vvals p2), a, b; svec; vec_eq; ring). pose proof (norm_sub (ssub (vvals p2) b) (ssub (vvals p1) a)). lra. }
  pose proof (across_le (ssub (ssub (vvals p2) (vvals p1)) (ssub b a))) as X. rewrite <- across_sub in X. pose proof (norm_rev (across (ssub (vvals p2) (vvals p1))) (across (ssub b a))) as Y. apply abs_2 in Y.
  pose proof (norm_rev (ssub (vvals p2) (vvals p1)) (ssub b a)) as Z. apply abs_2 in Z. pose proof (norm_sub b a) as W. pose proof (across_le (ssub b a)) as V.
  split; [|split]; lra.
Qed.
Lemma luff_across : sqrt ((val (vy p2) - val (vy p1)) * (val (vy p2) - val (vy p1)) + (val (vz p2) - val (vz p1)) * (val (vz p2) - val (vz p1))) = snorm (across (ssub (vvals p2) (vvals p1))).
Proof. unfold snorm, across, ssub, vvals. cbn [vx vy vz]. f_equal. ring. Qed.
Context (q : vec double) (Q : vec R) (NQ : vnear (3 * L) q Q 15280) (SQ : snorm Q <= 3 * L) (th : double) (TH : R) (NT : near 8 th TH 4).
Context (r : vec double) (TR : turned e p1 p2 th q r).
Lemma twist_computed : vfin r /\ vnear (12 * L) r (srot_line (vvals p1) (vvals p2) TH (vvals q)) 6700.
Proof.
  destruct ends as (F1 & F2 & D1 & D2). destruct luff_sized as (G1 & G2 & G3). pose proof Lu as U. assert (HL' := HL). unfold size in HL'. destruct (near_dist _ _ _ _ NQ) as [FQ DQ].
  pose proof (norm_rev (vvals p1) a) as X1. apply abs_2 in X1. pose proof (norm_rev (vvals q) Q) as X2. apply abs_2 in X2. pose proof (across_le (ssub (vvals p2) (vvals p1))) as X3.
  assert (NL : vnear (3 * (4 * L)) r (srot_line (vvals p1) (vvals p2) TH (vvals q)) 6700).
  { apply (near_turned e AC p1 p2 th TH); try assumption; try lra; [apply sized_lit; lra|]. rewrite luff_across. apply sized_lit. lra. }
  replace (12 * L) with (3 * (4 * L)) by ring. split; [|exact NL]. apply (near_dist _ _ _ _ NL).
Qed.
Lemma twist_point : vfin r /\ snorm (ssub (vvals r) (srot_line a b TH Q)) <= 1 / 1000000000 * (L * (L / l)).
Proof.
  destruct twist_computed as [FR NR]. split; [exact FR|]. destruct (near_dist _ _ _ _ NR) as [_ DR]. destruct (near_dist _ _ _ _ NQ) as [_ DQ].
  destruct ends as (F1 & F2 & D1 & D2). destruct luff_sized as (G1 & G2 & G3). pose proof Lu as U. assert (HL' := HL). unfold size in HL'.
  pose proof (across_le (ssub (vvals p2) (vvals p1))) as X3. pose proof (across_le (ssub b a)) as X4.
  pose proof (line_diff a b (vvals p1) (vvals p2) Q (vvals q) TH ltac:(lra) ltac:(lra)) as LD.
  rewrite (norm_swap Q), (norm_swap a), (norm_swap b (vvals p2)) in LD.
  set (x := snorm (ssub (vvals q) Q)) in *. set (y := snorm (ssub (vvals p1) a)) in *. set (z := snorm (ssub (vvals p2) b)) in *.
  pose proof (norm_sub Q a) as W. set (w := snorm (ssub Q a)) in *. set (n := snorm (ssub b a)) in *.
  assert (Y0 : 0 <= y) by apply snorm_nonneg. assert (Z0 : 0 <= z) by apply snorm_nonneg. assert (W0 : 0 <= w) by apply snorm_nonneg.
  assert (T1 : 10 * (y + z) / n * w <= 10 * (51176 * (L * u)) / l * (5 * L)).
  { apply Rmult_le_compat; [|exact W0| |lra].
    - apply Rmult_le_pos; [lra|left; apply Rinv_0_lt_compat; lra].
    - unfold Rdiv. apply Rmult_le_compat; [lra|left; apply Rinv_0_lt_compat; lra|lra|apply Rinv_le_contravar; lra]. }
  assert (T2 : L <= 4 * (L * (L / l))). { replace (4 * (L * (L / l))) with (L * (4 * L / l)) by (field; lra). rewrite <- (Rmult_1_r L) at 1. apply Rmult_le_compat_l; [lra|]. apply (Rmult_le_reg_r l); [lra|]. unfold Rdiv. rewrite Rmult_assoc, Rinv_l by lra. lra. }
  pose proof (norm_tri (vvals r) (srot_line (vvals p1) (vvals p2) TH (vvals q)) (srot_line a b TH Q)) as NTr. rewrite (norm_swap (srot_line (vvals p1) (vvals p2) TH (vvals q))) in NTr.
  assert (T3 : snorm (ssub (vvals r) (srot_line a b TH Q)) <= 303656 * (L * u) + 10 * (51176 * (L * u)) / l * (5 * L)) by lra.
  replace (10 * (51176 * (L * u)) / l * (5 * L)) with (2558800 * (L * (L / l)) * u) in T3 by (field; lra).
  set (k := L * (L / l)) in *. assert (K0 : 0 < k) by lra. assert (T4 : 303656 * (L * u) <= 1214624 * k * u) by (pose proof u_pos; nra).
  eapply Rle_trans; [exact T3|]. apply Rle_trans with (3773424 * k * u); [lra|]. assert (3773424 * u <= 1 / 1000000000) by (rewrite u_val; lra). nra.
Qed.
Lemma twist_stays t : 0 <= t <= 1 -> vnear (2 * L) q (slerp a b t) 6397 -> @vclose _ D r q = true.
Proof.
  intros T NS. destruct twist_computed as [FR NR]. destruct (near_dist _ _ _ _ NS) as [FQ DQ].
  destruct ends as (F1 & F2 & D1 & D2). destruct luff_sized as (G1 & G2 & G3). pose proof Lu as U. assert (HL' := HL). unfold size in HL'.
  pose proof (across_le (ssub (vvals p2) (vvals p1))) as X3.
  set (T' := slerp (vvals p1) (vvals p2) t). pose proof (slerp_diff (vvals p1) (vvals p2) a b t _ T D1 D2) as SD. fold T' in SD.
  pose proof (norm_tri (vvals q) (slerp a b t) T') as X5. rewrite (norm_swap (slerp a b t) T') in X5.
  pose proof (line_diff (vvals p1) (vvals p2) (vvals p1) (vvals p2) (vvals q) T' TH ltac:(lra) ltac:(lra)) as LD. rewrite !norm_0 in LD.
  assert (NE : vvals p1 <> vvals p2). { intros Q0. rewrite Q0 in G1, X3. rewrite norm_0 in X3. lra. }
  assert (FX : srot_line (vvals p1) (vvals p2) TH T' = T') by (apply srot_line_fix; exact NE). rewrite FX in LD.
  pose proof (norm_tri (srot_line (vvals p1) (vvals p2) TH (vvals q)) T' (vvals q)) as X6. rewrite (norm_swap T' (vvals q)) in X6.
  assert (X7 : snorm (ssub (srot_line (vvals p1) (vvals p2) TH (vvals q)) (vvals q)) <= 102352 * (L * u)) by lra.
  destruct (comp_norm (ssub (srot_line (vvals p1) (vvals p2) TH (vvals q)) (vvals q))) as (C1 & C2 & C3).
  destruct NR as ((_ & _ & E1) & (_ & _ & E2) & (_ & _ & E3)). destruct FR as (R1 & R2 & R3). destruct FQ as (Q1 & Q2 & Q3).
  set (s := srot_line _ _ _ _) in *. clearbody s. unfold ssub, vvals in C1, C2, C3, X7. cbn [vx vy vz] in C1, C2, C3.
  assert (K : forall x y S, fin x -> fin y -> Rabs (val x - S) <= 6700 * (12 * L * u) -> Rabs (S - val y) <= 102352 * (L * u) -> @M_Sail.close _ D x y = true).
  { intros x y S Fx Fy B1 B2. unfold M_Sail.close. apply abs_2 in B1. apply abs_2 in B2. assert (B3 : Rabs (val x - val y) <= 1 / 10000000) by (apply Rabs_le; lra).
    destruct (dsub e x y Fx Fy) as (FS & dd & Hd & VS). { apply (Rle_trans _ _ _ B3). apply Rle_trans with (bpow radix2 0); [change (bpow radix2 0) with 1; lra|apply bpow_le; lia]. }
    destruct (literal e 15 8 ltac:(lia) ltac:(lia) ltac:(lia)) as [FL VL]. cbv zeta in FL, VL. change (IZR 15 / IZR (10 ^ 8)) with (15 / 100000000) in VL. rewrite (Rabs_pos_eq (15 / 100000000)) in VL by lra. apply abs_2 in VL.
    set (w := @nsub _ D x y) in *. assert (FA : fin (@nabs _ D w) /\ val (@nabs _ D w) = Rabs (val w)) by (cbn [nabs Double]; rewrite is_finite_Babs, B2R_Babs; split; [exact FS|reflexivity]). destruct FA as [FA VA].
    apply dltb; [exact FA|exact FL|]. rewrite VA, VS, Rabs_mult. pose proof u_small. pose proof tiny_small. assert (Rabs (1 + dd) <= 11 / 10) by (apply abs_2 in Hd; apply Rabs_le; lra). pose proof (Rabs_pos (val x - val y)). pose proof (Rabs_pos (1 + dd)). assert (Rabs (val x - val y) * Rabs (1 + dd) <= 1 / 10000000 * (11 / 10)) by (apply Rmult_le_compat; assumption). lra. }
  unfold vclose. rewrite (K _ _ _ R1 Q1 E1), (K _ _ _ R2 Q2 E2), (K _ _ _ R3 Q3 E3); [reflexivity| | |]; eapply Rle_trans; eassumption.
Qed.
End Twist.

(** ** Heel and leeway *)
Definition cvals (c : csys double) : csys R := Csys (val (heel_deg c)) (val (leeway_deg c)) (vvals (ref_vec c)).
Definition angle_ok (x : double) : Prop := fin x /\ Rabs (val x) <= 360.
Section Heel.
Context (e : elementary) (AC : accurate e) (c : csys double) (HH : angle_ok (heel_deg c)) (HW : angle_ok (leeway_deg c)).
Local Notation D := (Double e).
Lemma near_mirror L (q : vec double) (Q : vec R) j : 1 / 1000000 <= L <= 1000000 -> 0 <= j <= 5000 -> vnear L q Q j -> snorm Q <= L -> j * (L * u) < Rabs (vz Q) ->
  vnear L (@rotate_point_with_mirror _ D c q) (rotate_point_with_mirror (cvals c) Q) (6280 + 9 * j) /\ snorm (rotate_point_with_mirror (cvals c) Q) <= L.
Proof.
  intros HL HJ NQ SQ AZ. destruct HH as [FH BH], HW as [FW BW]. destruct (zero_one e) as [[F0 V0] _].
  pose proof (near_angle_opp e _ FH BH) as NH. pose proof (near_angle e _ FH BH) as NR. pose proof (near_angle e _ FW BW) as NL.
  assert (RT : forall th TH, near 8 th TH 4 -> vnear L (@mapply _ D (@rotation_matrix _ D (V3 (@nZ _ D 0) (@nZ _ D 0) (@nZ _ D 1)) (@deg2rad _ D (leeway_deg c))) (@mapply _ D (@rotation_matrix _ D (V3 (@nZ _ D 1) (@nZ _ D 0) (@nZ _ D 0)) th) q)) (srz (rad (val (leeway_deg c))) (srx TH Q)) (6280 + 9 * j) /\ snorm (srz (rad (val (leeway_deg c))) (srx TH Q)) <= L).
  { intros th TH NT. destruct (near_srx e L th TH q Q j AC HL ltac:(lra) NT NQ SQ) as [N1 S1]. destruct (near_srz e L _ _ _ _ (1570 + 3 * j) AC HL ltac:(lra) NL N1 S1) as [N2 S2]. split; [|exact S2]. replace (6280 + 9 * j) with (1570 + 3 * (1570 + 3 * j)) by ring. exact N2. }
  assert (FZ : fin (vz q)) by (destruct NQ as (_ & _ & (F & _)); exact F). assert (EZ : Rabs (val (vz q) - vz Q) <= j * (L * u)) by (destruct NQ as (_ & _ & (_ & _ & E)); exact E). apply abs_2 in EZ.
  assert (NZ : vz Q <> 0) by (intros Z; rewrite Z, Rabs_R0 in AZ; pose proof u_pos; assert (0 <= j * (L * u)) by (apply Rmult_le_pos; [lra|nra]); lra).
  unfold rotate_point_with_mirror at 1. destruct (Rlt_dec 0 (vz Q)) as [P|P].
  - rewrite Rabs_pos_eq in AZ by lra. assert (T : @nltb _ D (@nZ _ D 0) (vz q) = true) by (apply dltb; try assumption; lra). rewrite T, sheel_spec by exact P. exact (RT _ _ NH).
  - rewrite Rabs_left in AZ by lra. assert (T : @nltb _ D (@nZ _ D 0) (vz q) = false). { destruct (@nltb _ D (@nZ _ D 0) (vz q)) eqn:E; [|reflexivity]. apply dltb in E; try assumption. lra. } rewrite T.
    assert (ER : rotate_point_with_mirror (cvals c) Q = srz (rad (val (leeway_deg c))) (srx (rad (val (heel_deg c))) Q)).
    { rewrite <- (smirror_invol Q) at 1. rewrite rotate_mirror by (unfold smirror; cbn [vz]; lra). rewrite sheel_spec by (unfold smirror; cbn [vz]; lra). unfold sheel, cvals. cbn [heel_deg leeway_deg]. unfold srz, srx, ex, ez, srot. rewrite cos_neg, sin_neg. destruct Q as [x y z]. svec. vec_eq; ring. }
    rewrite ER. exact (RT _ _ NR).
Qed.
End Heel.
