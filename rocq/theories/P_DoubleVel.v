(** C93: the velocities induced by vortices in double arithmetic. *)

From Coq Require Import ZArith Reals List Bool Lra Psatz Lia.
From Flocq Require Import Core BinarySingleNaN.
From Verif Require Import Num PyBase RNum Spec M_Rotations M_Velocity L_Rot L_Vel L_Vel2 P_Vel P_Double P_DoubleRun Double L_Double L_Near L_NearRot P_DoubleRot L_NearLine L_NearSail L_NearVel.
Import ListNotations.
Open Scope R_scope.

(** ** Specification *)
(** finite coordinates of at most 2^100 *)
Definition modest (x : double) : Prop := fin x /\ Rabs (val x) <= 2 ^ 100.
Definition vmodest (p : vec double) : Prop := modest (vx p) /\ modest (vy p) /\ modest (vz p).
(** both ends of the segment are at most [M] away, and the parallelogram spanned by the ways to them has at least the area [h] *)
Definition beside (M h : R) (p a b : vec R) : Prop :=
  snorm (ssub p a) <= M /\ snorm (ssub p b) <= M /\ h <= snorm (scross (ssub p a) (ssub p b)).
(** the detour: how much longer the way from [a] to [p] is than its part along the wake *)
Definition detour (p a d : vec R) : R := snorm (ssub p a) - sdot (sunit d) (ssub p a).
(** the point is at most [M] away from the origin of the wake, and off the wake by the detour [k] *)
Definition off_wake (M k : R) (p a d : vec R) : Prop := 1 / 10000 <= snorm (ssub p a) <= M /\ k <= detour p a d.
(** the exact velocities *)
Definition exact_ring (p a b c d : vec R) (g : R) : vec R :=
  sadd (sadd (sadd (biot_savart p a b g) (biot_savart p b c g)) (biot_savart p c d g)) (biot_savart p d a g).
Definition exact_horseshoe (p a b c d v : vec R) (g : R) : vec R :=
  sadd (sadd (sadd (sadd (biot_savart p a b g) (biot_savart p b c g)) (biot_savart p c d g)) (half_line p d v g)) (half_line p a v (- g)).

(** ** Proofs *)
Lemma vnear_weaken A B x X j k : vnear A x X j -> A <= B -> j * A <= k * B -> vnear B x X k.
Proof. intros (N1 & N2 & N3) H J. split; [|split]; [apply (near_weaken A B _ _ j k N1)|apply (near_weaken A B _ _ j k N2)|apply (near_weaken A B _ _ j k N3)]; try exact J; [destruct N1 as (_ & T & _)|destruct N2 as (_ & T & _)|destruct N3 as (_ & T & _)]; lra. Qed.
Lemma vnear_add e A B x y X Y j k : mild (A + B) -> 0 <= A -> 0 <= B -> few j -> few k -> k <= j -> vnear A x X j -> vnear B y Y k -> vnear (A + B) (@vadd _ (Double e) x y) (sadd X Y) (j + 101 / 100).
Proof.
  intros M HA HB FJ FK KJ (X1 & X2 & X3) (Y1 & Y2 & Y3). rewrite <- (Rmax_left j k) by exact KJ.
  split; [|split]; unfold vadd, sadd; cbn [vx vy vz]; apply near_add; assumption.
Qed.
Lemma half_line_limit p a d g : d <> szero -> ~ on_line a d p -> / 10 ^ 8 <= snorm (ssub p a) ->
  tends_to (fun t => biot_savart p a (sadd a (sscale t d)) g) (half_line p a d g).
Proof.
  intros H O A. pose proof (segment_limit p a d g H O A) as L. destruct (scale_core_far p a d H O A) as (T & C).
  assert (E : vortex_infinite_line p a d g = half_line p a d g).
  { unfold vortex_infinite_line, half_line. cbv zeta. tospec. generalize (snorm (ssub p a)). intros n.
    change (sscale (/ snorm d) d) with (sunit d). generalize (sdot (sunit d) (ssub p a)). intros q. generalize (scross (sunit d) (ssub p a)). intros [c1 c2 c3]. unfold sscale. cbn [vx vy vz]. rnum. vec_eq; unfold Rdiv; ring. }
  rewrite <- E. intros eps P. destruct (L eps P) as [T1 L1]. exists (Rmax 0 (Rmax T T1)). intros t Ht.
  pose proof (Rmax_l 0 (Rmax T T1)). pose proof (Rmax_r 0 (Rmax T T1)). pose proof (Rmax_l T T1). pose proof (Rmax_r T T1).
  rewrite <- (proj2 (proj2 (proj2 (proj1 C29_biot_savart p a (sadd a (sscale t d)) g (C t ltac:(lra) ltac:(lra)))))). apply L1. lra.
Qed.

(** a single segment: always finite *)
Lemma modest_lim x : modest x -> lim 100 x.
Proof. intros [F B]. split; [exact F|]. rewrite bpow_powerRZ. exact B. Qed.
Lemma vmodest_lim p : vmodest p -> vlim 100 p.
Proof. intros (A & B & C). split; [|split]; apply modest_lim; assumption. Qed.
Theorem C93_finite : forall e p a b g, vmodest p -> vmodest a -> vmodest b -> modest g -> vfin (@vortex_line _ (Double e) p a b g).
Proof. intros e p a b g P A B G. destruct (line_lim e p a b g (vmodest_lim _ P) (vmodest_lim _ A) (vmodest_lim _ B) (modest_lim _ G)) as ((F1 & _) & (F2 & _) & (F3 & _)). repeat split; assumption. Qed.

Section Accuracy.
Context (e : elementary) (p : vec double) (g : double) (M h G : R).
Local Notation D := (Double e).
Context (FP : vfin p) (FG : fin g) (HM : 1 / 100 <= M <= 1000) (Hh : 2 / 10000 <= h) (HG : 1 / 1000000 <= G <= 1000000) (BG : Rabs (val g) <= G).
Lemma area_M a b : beside M h (vvals p) (vvals a) (vvals b) -> h <= M * M.
Proof. intros (A & B & C). apply (Rle_trans _ _ _ C). eapply Rle_trans; [apply norm_cross|]. apply Rmult_le_compat; try apply snorm_nonneg; assumption. Qed.
Lemma seg a b : vfin a -> vfin b -> beside M h (vvals p) (vvals a) (vvals b) -> vnear (G * (M * M * M / (h * h))) (@vortex_line _ D p a b g) (biot_savart (vvals p) (vvals a) (vvals b) (val g)) 150.
Proof.
  intros FA FB (A & B & C). pose proof (segment_near e p a b g FP FA FB FG M G HM HG BG A B ltac:(lra)) as N. set (c := snorm (scross _ _)) in *.
  assert (L : G * (M * (M * M / (c * c))) <= G * (M * M * M / (h * h))).
  { apply Rmult_le_compat_l; [lra|]. replace (M * (M * M / (c * c))) with (M * M * M * / (c * c)) by (field; lra). unfold Rdiv. apply Rmult_le_compat_l; [nra|]. apply Rinv_le_contravar; nra. }
  apply (vnear_weaken _ _ _ _ _ _ N L). lra.
Qed.
Lemma scale_seg a b : beside M h (vvals p) (vvals a) (vvals b) -> / 10 ^ 9 <= G * (M * M * M / (h * h)) <= 10 ^ 23.
Proof.
  intros S. pose proof (area_M _ _ S) as H. assert (M3 : 0 < M * M * M <= 1000000000) by (split; nra).
  assert (L : / 1000 <= M * M * M / (h * h)). { apply (Rle_trans _ (/ M)); [apply Rinv_le_contravar; lra|]. apply (Rmult_le_reg_r (h * h)); [nra|]. unfold Rdiv. rewrite Rmult_assoc, Rinv_l, Rmult_1_r by nra. apply (Rmult_le_reg_l M); [lra|]. replace (M * (/ M * (h * h))) with (h * h) by (field; lra). assert (h * h <= M * M * (M * M)) by nra. nra. }
  assert (U : M * M * M / (h * h) <= 25000000 * 1000000000). { unfold Rdiv. rewrite (Rmult_comm (M * M * M)). apply Rmult_le_compat; [left; apply Rinv_0_lt_compat; nra|lra| |lra]. replace 25000000 with (/ (4 / 100000000)) by lra. apply Rinv_le_contravar; nra. }
  split; [replace (/ 10 ^ 9) with (1 / 1000000 * / 1000) by lra; apply Rmult_le_compat; lra|]. apply (Rle_trans _ (1000000 * (25000000 * 1000000000))); [apply Rmult_le_compat; lra|lra].
Qed.
End Accuracy.
Lemma u_14 k B c : 0 <= B -> 0 <= k -> k * 12 <= c * 1000 -> k * (B * u) <= c / 100000000000000 * B.
Proof. intros HB K H. replace (k * (B * u)) with (k * u * B) by ring. apply Rmult_le_compat_r; [exact HB|]. rewrite u_val. lra. Qed.
Theorem C93_segment : forall e p a b g M h G, vfin p -> vfin a -> vfin b -> fin g -> 1 / 100 <= M <= 1000 -> 2 / 10000 <= h -> 1 / 1000000 <= G <= 1000000 -> Rabs (val g) <= G ->
  beside M h (vvals p) (vvals a) (vvals b) ->
  within (2 / 100000000000000 * (G * (M * M * M / (h * h)))) (@vortex_line _ (Double e) p a b g) (biot_savart (vvals p) (vvals a) (vvals b) (val g)).
Proof.
  intros e p a b g M h G FP FA FB FG HM Hh HG BG S. pose proof (scale_seg p M h G HM Hh HG a b S) as Z. apply (vnear_within _ _ _ _ _ (seg e p g M h G FP FG HM Hh HG BG a b FA FB S)). apply u_14; lra.
Qed.
Theorem C93_ring : forall e p a b c d g M h G, vfin p -> vfin a -> vfin b -> vfin c -> vfin d -> fin g -> 1 / 100 <= M <= 1000 -> 2 / 10000 <= h -> 1 / 1000000 <= G <= 1000000 -> Rabs (val g) <= G ->
  beside M h (vvals p) (vvals a) (vvals b) -> beside M h (vvals p) (vvals b) (vvals c) -> beside M h (vvals p) (vvals c) (vvals d) -> beside M h (vvals p) (vvals d) (vvals a) ->
  within (8 / 100000000000000 * (G * (M * M * M / (h * h)))) (@vortex_ring _ (Double e) p a b c d g) (exact_ring (vvals p) (vvals a) (vvals b) (vvals c) (vvals d) (val g)).
Proof.
  intros e p a b c d g M h G FP FA FB FC FD FG HM Hh HG BG S1 S2 S3 S4. pose proof (scale_seg p M h G HM Hh HG a b S1) as Z.
  pose proof (seg e p g M h G FP FG HM Hh HG BG a b FA FB S1) as N1. pose proof (seg e p g M h G FP FG HM Hh HG BG b c FB FC S2) as N2. pose proof (seg e p g M h G FP FG HM Hh HG BG c d FC FD S3) as N3. pose proof (seg e p g M h G FP FG HM Hh HG BG d a FD FA S4) as N4.
  unfold vortex_ring, exact_ring. cbv zeta. set (B := G * (M * M * M / (h * h))) in *. clearbody B.
  pose proof (vnear_add e B B _ _ _ _ 150 150 ltac:(apply mild_wide; lra) ltac:(lra) ltac:(lra) ltac:(fw) ltac:(fw) ltac:(lra) N1 N2) as T2.
  pose proof (vnear_add e (B + B) B _ _ _ _ (150 + 101 / 100) 150 ltac:(apply mild_wide; lra) ltac:(lra) ltac:(lra) ltac:(fw) ltac:(fw) ltac:(lra) T2 N3) as T3.
  pose proof (vnear_add e (B + B + B) B _ _ _ _ (150 + 101 / 100 + 101 / 100) 150 ltac:(apply mild_wide; lra) ltac:(lra) ltac:(lra) ltac:(fw) ltac:(fw) ltac:(lra) T3 N4) as T4.
  apply (vnear_within _ _ _ _ _ T4). replace (8 / 100000000000000 * B) with (2 / 100000000000000 * (B + B + B + B)) by lra. apply u_14; lra.
Qed.

(** the wake: a half line *)
Lemma half_scale p a d : 0 < snorm d -> 0 <= detour p a d <= 2 * snorm (ssub p a).
Proof.
  intros P. unfold detour. assert (N : snorm (sunit d) = 1) by (unfold sunit; rewrite snorm_scale, Rabs_pos_eq by (left; apply Rinv_0_lt_compat, P); field; lra).
  pose proof (cauchy (sunit d) (ssub p a)) as C. rewrite N, Rmult_1_l in C. apply abs_2 in C. lra.
Qed.
Lemma half e p a d g M k G : vfin p -> vfin a -> vfin d -> fin g -> / 10 ^ 30 <= snorm (vvals d) <= 10 ^ 30 -> M <= 10000 -> 0 < k -> M <= 1000000000 * k -> 1 / 1000000 <= G <= 1000000 -> Rabs (val g) <= G ->
  off_wake M k (vvals p) (vvals a) (vvals d) ->
  vnear (G * (M / (k * k))) (@vortex_infinite_line _ (Double e) p a d g) (half_line (vvals p) (vvals a) (vvals d) (val g)) 47 /\ / 10 ^ 11 <= G * (M / (k * k)) <= 10 ^ 28.
Proof.
  intros FP FA FD FG ZD HM K MK HG BG ((A1 & A2) & E). unfold detour in E. assert (PD : 0 < snorm (vvals d)) by (apply (Rlt_le_trans _ (/ 10 ^ 30)); [lra|apply ZD]).
  pose proof (half_near e p a d g FP FA FD FG G HG BG (sized_wide _ ZD) ltac:(lra) ltac:(lra)) as N. pose proof (half_scale (vvals p) (vvals a) (vvals d) PD) as B. unfold detour in B. set (A := snorm (ssub _ _)) in *. set (X := A - _) in *. clearbody X A.
  assert (L : A / (X * X) <= M / (k * k)) by (unfold Rdiv; apply Rmult_le_compat; [lra|left; apply Rinv_0_lt_compat; nra|exact A2|apply Rinv_le_contravar; nra]).
  split; [apply (vnear_weaken _ _ _ _ _ _ N); apply Rmult_le_compat_l with (r := G) in L; try lra|].
  assert (M0 : 1 / 10000 <= M) by lra.
  assert (L1 : / 40000 <= M / (k * k)). { apply (Rle_trans _ (/ (4 * M))); [apply Rinv_le_contravar; lra|]. apply (Rmult_le_reg_r (k * k)); [nra|]. unfold Rdiv. rewrite Rmult_assoc, Rinv_l, Rmult_1_r by nra. apply (Rmult_le_reg_l (4 * M)); [lra|]. replace (4 * M * (/ (4 * M) * (k * k))) with (k * k) by (field; lra). nra. }
  assert (U1 : M / (k * k) <= 10 ^ 22). { apply (Rmult_le_reg_r (k * k)); [nra|]. unfold Rdiv. rewrite Rmult_assoc, Rinv_l, Rmult_1_r by nra. assert (M * M <= 10 ^ 18 * (k * k)) by nra. nra. }
  split; [replace (/ 10 ^ 11) with (1 / 1000000 * / 100000) by lra; apply Rmult_le_compat; lra|replace (10 ^ 28) with (1000000 * 10 ^ 22) by lra; apply Rmult_le_compat; lra].
Qed.
Theorem C93_half_line : forall e p a d g M k G, vfin p -> vfin a -> vfin d -> fin g -> / 10 ^ 30 <= snorm (vvals d) <= 10 ^ 30 -> M <= 10000 -> 0 < k -> M <= 1000000000 * k -> 1 / 1000000 <= G <= 1000000 -> Rabs (val g) <= G ->
  off_wake M k (vvals p) (vvals a) (vvals d) ->
  within (1 / 100000000000000 * (G * (M / (k * k)))) (@vortex_infinite_line _ (Double e) p a d g) (half_line (vvals p) (vvals a) (vvals d) (val g)) /\
  (* the exact velocity is the limit of the velocities of longer and longer segments *)
  (~ on_line (vvals a) (vvals d) (vvals p) -> tends_to (fun t => biot_savart (vvals p) (vvals a) (sadd (vvals a) (sscale t (vvals d))) (val g)) (half_line (vvals p) (vvals a) (vvals d) (val g))).
Proof.
  intros e p a d g M k G FP FA FD FG ZD HM K MK HG BG O. destruct (half e p a d g M k G FP FA FD FG ZD HM K MK HG BG O) as [N Z]. split.
  - apply (vnear_within _ _ _ _ _ N). apply u_14; lra.
  - intros L. destruct O as ((A & _) & _). apply half_line_limit; [|exact L|lra]. intros E. apply snorm_zero in E. rewrite E in ZD. lra.
Qed.
(** the horseshoe behind a trailing edge panel *)
Lemma minus_one e (g : double) : fin g -> fin (@nmul _ (Double e) (@nopp _ (Double e) (@nZ _ (Double e) 1)) g) /\ val (@nmul _ (Double e) (@nopp _ (Double e) (@nZ _ (Double e) 1)) g) = - val g.
Proof.
  intros F. destruct (dint e 1 ltac:(lia)) as [F1 V1]. assert (F2 : fin (@nopp _ (Double e) (@nZ _ (Double e) 1))) by (cbn [nopp Double]; rewrite is_finite_Bopp; exact F1).
  assert (V2 : val (@nopp _ (Double e) (@nZ _ (Double e) 1)) = -1) by (cbn [nopp Double]; rewrite B2R_Bopp; change (- val (@nZ _ (Double e) 1) = -1); rewrite V1; reflexivity).
  destruct (mul_same e _ g (@nopp _ (Double e) g) F2 F) as [F3 V3]; [rewrite V2; cbn [nopp Double]; rewrite B2R_Bopp; ring|].
  split; [exact F3|]. rewrite V3. cbn [nopp Double]. apply B2R_Bopp.
Qed.
Theorem C93_horseshoe : forall e p a b c d v g M h k G, vfin p -> vfin a -> vfin b -> vfin c -> vfin d -> vfin v -> fin g ->
  1 / 100 <= M <= 1000 -> 2 / 10000 <= h -> 0 < k -> M <= 1000000000 * k -> / 10 ^ 30 <= snorm (vvals v) <= 10 ^ 30 -> 1 / 1000000 <= G <= 1000000 -> Rabs (val g) <= G ->
  beside M h (vvals p) (vvals a) (vvals b) -> beside M h (vvals p) (vvals b) (vvals c) -> beside M h (vvals p) (vvals c) (vvals d) ->
  off_wake M k (vvals p) (vvals d) (vvals v) -> off_wake M k (vvals p) (vvals a) (vvals v) ->
  within (2 / 100000000000000 * (3 * (G * (M * M * M / (h * h))) + 2 * (G * (M / (k * k))))) (@vortex_horseshoe_v2 _ (Double e) p a b c d v g)
    (exact_horseshoe (vvals p) (vvals a) (vvals b) (vvals c) (vvals d) (vvals v) (val g)).
Proof.
  intros e p a b c d v g M h k G FP FA FB FC FD FV FG HM Hh K MK ZV HG BG S1 S2 S3 O1 O2. pose proof (scale_seg p M h G HM Hh HG a b S1) as Z.
  pose proof (seg e p g M h G FP FG HM Hh HG BG a b FA FB S1) as N1. pose proof (seg e p g M h G FP FG HM Hh HG BG b c FB FC S2) as N2. pose proof (seg e p g M h G FP FG HM Hh HG BG c d FC FD S3) as N3.
  destruct (half e p d v g M k G FP FD FV FG ZV ltac:(lra) K MK HG BG O1) as [N4 Z2]. destruct (minus_one e g FG) as [FM VM].
  destruct (half e p a v _ M k G FP FA FV FM ZV ltac:(lra) K MK HG ltac:(rewrite VM, Rabs_Ropp; exact BG) O2) as [N5 _]. rewrite VM in N5.
  unfold vortex_horseshoe_v2, exact_horseshoe. cbv zeta. set (B := G * (M * M * M / (h * h))) in *. clearbody B. set (C := G * (M / (k * k))) in *. clearbody C.
  pose proof (vnear_add e B B _ _ _ _ 150 150 ltac:(apply mild_wide; lra) ltac:(lra) ltac:(lra) ltac:(fw) ltac:(fw) ltac:(lra) N1 N2) as T2.
  pose proof (vnear_add e (B + B) B _ _ _ _ (150 + 101 / 100) 150 ltac:(apply mild_wide; lra) ltac:(lra) ltac:(lra) ltac:(fw) ltac:(fw) ltac:(lra) T2 N3) as T3.
  pose proof (vnear_add e (B + B + B) C _ _ _ _ (150 + 101 / 100 + 101 / 100) 47 ltac:(apply mild_wide; lra) ltac:(lra) ltac:(lra) ltac:(fw) ltac:(fw) ltac:(lra) T3 N4) as T4.
  pose proof (vnear_add e (B + B + B + C) C _ _ _ _ (150 + 101 / 100 + 101 / 100 + 101 / 100) 47 ltac:(apply mild_wide; lra) ltac:(lra) ltac:(lra) ltac:(fw) ltac:(fw) ltac:(lra) T4 N5) as T5.
  apply (vnear_within _ _ _ _ _ T5). replace (3 * B + 2 * C) with (B + B + B + C + C) by lra. apply u_14; lra.
Qed.
(** off the wake, but not by enough: the computed velocity is not a number *)
Definition micron : double := Bdiv mode_NE (dZ 1) (dZ (2 ^ 20)).
Lemma inf_nan (s x : double) : is_finite x = false -> is_finite (Bmult mode_NE s x) = false.
Proof. intros H. destruct s as [?|?| |? ? ? ?], x as [?|?| |? ? ? ?]; try discriminate H; reflexivity. Qed.
Theorem C93_wake_refuted : exists p a d : vec double, vfin p /\ vfin a /\ vfin d /\ snorm (vvals d) = 1 /\
  (forall s, / 2 ^ 20 <= snorm (ssub (vvals p) (sadd (vvals a) (sscale s (vvals d))))) /\
  forall e g, let w := @vortex_infinite_line _ (Double e) p a d g in ~ fin (vx w) /\ ~ fin (vy w) /\ ~ fin (vz w).
Proof.
  destruct (dv_val 0 0 0 ltac:(lia) ltac:(lia) ltac:(lia)) as [FA VA]. destruct (dv_val 1 0 0 ltac:(lia) ltac:(lia) ltac:(lia)) as [FD VD]. destruct (dint ideal 64 ltac:(lia)) as [F64 V64]. destruct (dint ideal 0 ltac:(lia)) as [F0 V0].
  assert (Q : B2SF micron = SpecFloat.S754_finite false 4503599627370496 (-72)) by (vm_compute; reflexivity).
  assert (VM : val micron = / 2 ^ 20) by (rewrite <- SF2R_B2SF, Q; unfold SF2R, F2R; cbn [Defs.Fnum Defs.Fexp cond_Zopp]; change (bpow radix2 (-72)) with (/ IZR (Z.pow_pos 2 72)); change (Z.pow_pos 2 72) with 4722366482869645213696%Z; lra).
  assert (FM : fin micron) by (rewrite <- is_finite_SF_B2SF, Q; reflexivity).
  exists (V3 (dZ 64) micron (dZ 0)), (dv 0 0 0), (dv 1 0 0). split; [repeat split; assumption|]. split; [exact FA|]. split; [exact FD|]. split; [|split].
  - rewrite VD. unfold snorm. cbv [vx vy vz]. transitivity (sqrt 1); [f_equal; ring|apply sqrt_1].
  - intros s. rewrite VA, VD. unfold vvals. cbn [vx vy vz]. rewrite VM. unfold snorm, ssub, sadd, sscale. cbn [vx vy vz]. rewrite <- (sqrt_square (/ 2 ^ 20)) at 1 by lra. apply sqrt_le_1_alt. set (X := val (dZ 64) - _). set (W := val (dZ 0) - _). nra.
  - intros e g w. unfold w, vortex_infinite_line. cbv zeta. unfold vscale. cbn [vx vy vz]. change (@nmul _ (Double e)) with (@Bmult 53 1024 p53 e1024 mode_NE).
    split; [|split]; intros Y; rewrite inf_nan in Y; try discriminate Y; vm_compute; reflexivity.
Qed.

(** a point 3 m beside one end of a 4 m long segment of unit strength, and the point on that end *)
Lemma norm_le v r : 0 <= r -> vx v * vx v + vy v * vy v + vz v * vz v <= r * r -> snorm v <= r.
Proof. intros P H. rewrite <- (sqrt_square r P). unfold snorm. apply sqrt_le_1_alt. nra. Qed.
Lemma norm_ge v r : 0 <= r -> r * r <= vx v * vx v + vy v * vy v + vz v * vz v -> r <= snorm v.
Proof. intros P H. rewrite <- (sqrt_square r P) at 1. unfold snorm. apply sqrt_le_1_alt. nra. Qed.
Lemma modest_Z z : (Z.abs z <= 1000)%Z -> modest (dZ z).
Proof. intros Z. destruct (dint ideal z ltac:(lia)) as [F V]. cbn [nZ Double] in *. split; [exact F|]. rewrite V, <- abs_IZR. apply (Rle_trans _ 1000); [apply (IZR_le _ 1000), Z|lra]. Qed.
Example C93_case : forall e, let p := dv 0 3 0 in let a := dv 0 0 0 in let b := dv 4 0 0 in
  vmodest p /\ vmodest a /\ vmodest b /\ modest (dZ 1) /\ vfin (@vortex_line _ (Double e) a a b (dZ 1)) /\
  beside 5 12 (vvals p) (vvals a) (vvals b) /\
  within (2 / 100000000000000) (@vortex_line _ (Double e) p a b (dZ 1)) (V3 0 0 (1 / (15 * PI))).
Proof.
  intros e p a b. assert (MP : vmodest p) by (repeat split; apply modest_Z; lia). assert (MA : vmodest a) by (repeat split; apply modest_Z; lia). assert (MB : vmodest b) by (repeat split; apply modest_Z; lia). assert (M1 : modest (dZ 1)) by (apply modest_Z; lia).
  do 4 (split; [assumption|]). split; [apply C93_finite; assumption|].
  destruct (dv_val 0 3 0 ltac:(lia) ltac:(lia) ltac:(lia)) as [FP VP]. destruct (dv_val 0 0 0 ltac:(lia) ltac:(lia) ltac:(lia)) as [FA VA]. destruct (dv_val 4 0 0 ltac:(lia) ltac:(lia) ltac:(lia)) as [FB VB]. destruct (dint ideal 1 ltac:(lia)) as [F1 V1]. cbn [nZ Double] in F1, V1.
  assert (S : beside 5 12 (vvals p) (vvals a) (vvals b)).
  { unfold p, a, b. rewrite VP, VA, VB. unfold beside, scross, ssub. cbn [vx vy vz]. split; [|split]; [apply norm_le|apply norm_le|apply norm_ge]; cbn [vx vy vz]; lra. }
  split; [exact S|]. pose proof (C93_segment e p a b (dZ 1) 5 12 1 FP FA FB F1 ltac:(lra) ltac:(lra) ltac:(lra) ltac:(rewrite V1, Rabs_pos_eq; lra) S) as W.
  replace (V3 0 0 (1 / (15 * PI))) with (biot_savart (vvals p) (vvals a) (vvals b) (val (dZ 1))).
  { destruct W as (W0 & W1 & W2 & W3). split; [exact W0|]. split; [|split]; lra. }
  unfold p, a, b. rewrite VP, VA, VB, V1. unfold biot_savart. cbv zeta. pose proof PI_RGT_0.
  assert (N1 : snorm (V3 0 3 0) = 3) by (unfold snorm; cbn [vx vy vz]; transitivity (sqrt (3 * 3)); [f_equal; ring|apply sqrt_square; lra]).
  assert (N2 : snorm (V3 (-4) 3 0) = 5) by (unfold snorm; cbn [vx vy vz]; transitivity (sqrt (5 * 5)); [f_equal; ring|apply sqrt_square; lra]).
  assert (N3 : snorm (V3 0 0 12) = 12) by (unfold snorm; cbn [vx vy vz]; transitivity (sqrt (12 * 12)); [f_equal; ring|apply sqrt_square; lra]).
  replace (ssub (V3 0 3 0) (V3 0 0 0)) with (V3 0 3 0) by (unfold ssub; cbn [vx vy vz]; f_equal; ring). replace (ssub (V3 0 3 0) (V3 4 0 0)) with (V3 (-4) 3 0) by (unfold ssub; cbn [vx vy vz]; f_equal; ring).
  replace (scross (V3 0 3 0) (V3 (-4) 3 0)) with (V3 0 0 12) by (unfold scross; cbn [vx vy vz]; f_equal; ring). unfold sunit. rewrite N1, N2, N3. unfold sscale, sdot, ssub. cbn [vx vy vz]. f_equal; field; lra.
Qed.
(** a point 1 m above the middle of a square panel, with the wake along the x axis *)
Example C93_panel_case : forall e, let p := dv 0 0 1 in let a := dv 1 (-1) 0 in let b := dv (-1) (-1) 0 in let c := dv (-1) 1 0 in let d := dv 1 1 0 in let v := dv 1 0 0 in
  beside 2 2 (vvals p) (vvals a) (vvals b) /\ beside 2 2 (vvals p) (vvals b) (vvals c) /\ beside 2 2 (vvals p) (vvals c) (vvals d) /\ beside 2 2 (vvals p) (vvals d) (vvals a) /\
  off_wake 2 2 (vvals p) (vvals d) (vvals v) /\ off_wake 2 2 (vvals p) (vvals a) (vvals v) /\ ~ on_line (vvals a) (vvals v) (vvals p) /\
  within (2 / 10000000000000) (@vortex_ring _ (Double e) p a b c d (dZ 1)) (exact_ring (V3 0 0 1) (V3 1 (-1) 0) (V3 (-1) (-1) 0) (V3 (-1) 1 0) (V3 1 1 0) 1) /\
  within (2 / 10000000000000) (@vortex_horseshoe_v2 _ (Double e) p a b c d v (dZ 1)) (exact_horseshoe (V3 0 0 1) (V3 1 (-1) 0) (V3 (-1) (-1) 0) (V3 (-1) 1 0) (V3 1 1 0) (V3 1 0 0) 1) /\
  within (1 / 100000000000000) (@vortex_infinite_line _ (Double e) p a v (dZ 1)) (half_line (V3 0 0 1) (V3 1 (-1) 0) (V3 1 0 0) 1).
Proof.
  intros e p a b c d v.
  destruct (dv_val 0 0 1 ltac:(lia) ltac:(lia) ltac:(lia)) as [FP VP]. destruct (dv_val 1 (-1) 0 ltac:(lia) ltac:(lia) ltac:(lia)) as [FA VA]. destruct (dv_val (-1) (-1) 0 ltac:(lia) ltac:(lia) ltac:(lia)) as [FB VB]. destruct (dv_val (-1) 1 0 ltac:(lia) ltac:(lia) ltac:(lia)) as [FC VC]. destruct (dv_val 1 1 0 ltac:(lia) ltac:(lia) ltac:(lia)) as [FD VD]. destruct (dv_val 1 0 0 ltac:(lia) ltac:(lia) ltac:(lia)) as [FV VV]. destruct (dint ideal 1 ltac:(lia)) as [F1 V1]. cbn [nZ Double] in F1, V1.
  fold p in FP, VP. fold a in FA, VA. fold b in FB, VB. fold c in FC, VC. fold d in FD, VD. fold v in FV, VV.
  assert (NV : snorm (V3 1 0 0) = 1) by (unfold snorm; cbn [vx vy vz]; transitivity (sqrt 1); [f_equal; ring|apply sqrt_1]).
  assert (S1 : beside 2 2 (vvals p) (vvals a) (vvals b)) by (rewrite VP, VA, VB; unfold beside, scross, ssub; cbn [vx vy vz]; split; [|split]; [apply norm_le|apply norm_le|apply norm_ge]; cbn [vx vy vz]; lra).
  assert (S2 : beside 2 2 (vvals p) (vvals b) (vvals c)) by (rewrite VP, VC, VB; unfold beside, scross, ssub; cbn [vx vy vz]; split; [|split]; [apply norm_le|apply norm_le|apply norm_ge]; cbn [vx vy vz]; lra).
  assert (S3 : beside 2 2 (vvals p) (vvals c) (vvals d)) by (rewrite VP, VC, VD; unfold beside, scross, ssub; cbn [vx vy vz]; split; [|split]; [apply norm_le|apply norm_le|apply norm_ge]; cbn [vx vy vz]; lra).
  assert (S4 : beside 2 2 (vvals p) (vvals d) (vvals a)) by (rewrite VP, VA, VD; unfold beside, scross, ssub; cbn [vx vy vz]; split; [|split]; [apply norm_le|apply norm_le|apply norm_ge]; cbn [vx vy vz]; lra).
  assert (O : forall y, y * y = 1 -> off_wake 2 2 (V3 0 0 1) (V3 1 y 0) (V3 1 0 0)).
  { intros y Y. unfold off_wake, detour, sunit. rewrite NV. unfold sscale, sdot, ssub. cbn [vx vy vz]. assert (L : 1 <= snorm (V3 (0 - 1) (0 - y) (1 - 0))) by (apply norm_ge; cbn [vx vy vz]; nra). assert (U : snorm (V3 (0 - 1) (0 - y) (1 - 0)) <= 2) by (apply norm_le; cbn [vx vy vz]; nra). split; lra. }
  assert (O1 : off_wake 2 2 (vvals p) (vvals d) (vvals v)) by (rewrite VP, VD, VV; apply O; ring). assert (O2 : off_wake 2 2 (vvals p) (vvals a) (vvals v)) by (rewrite VP, VA, VV; apply O; ring).
  do 6 (split; [assumption|]). split.
  { intros [s E]. rewrite VP, VA, VV in E. unfold sadd, sscale in E. cbn [vx vy vz] in E. injection E. intros. lra. }
  assert (ZV : / 10 ^ 30 <= snorm (vvals v) <= 10 ^ 30) by (rewrite VV, NV; lra). assert (BG : Rabs (val (dZ 1)) <= 1) by (rewrite V1, Rabs_pos_eq; lra). rewrite <- VP, <- VA, <- VB, <- VC, <- VD, <- VV. change (V3 0 0 1) with (V3 (IZR 0) (IZR 0) (IZR 1)).
  assert (T : forall x y P Q, x <= y -> within x P Q -> within y P Q) by (intros x y P Q XY (W0 & W1 & W2 & W3); split; [exact W0|]; split; [|split]; lra).
  split; [|split].
  - pose proof (C93_ring e p a b c d (dZ 1) 2 2 1 FP FA FB FC FD F1 ltac:(lra) ltac:(lra) ltac:(lra) BG S1 S2 S3 S4) as W. rewrite V1 in W. eapply T; [|exact W]; lra.
  - pose proof (C93_horseshoe e p a b c d v (dZ 1) 2 2 2 1 FP FA FB FC FD FV F1 ltac:(lra) ltac:(lra) ltac:(lra) ltac:(lra) ZV ltac:(lra) BG S1 S2 S3 O1 O2) as W. rewrite V1 in W. eapply T; [|exact W]; lra.
  - destruct (C93_half_line e p a v (dZ 1) 2 2 1 FP FA FV F1 ZV ltac:(lra) ltac:(lra) ltac:(lra) ltac:(lra) BG O2) as [W _]. rewrite V1 in W. eapply T; [|exact W]; lra.
Qed.
Print Assumptions C93_finite. Print Assumptions C93_segment. Print Assumptions C93_ring. Print Assumptions C93_half_line. Print Assumptions C93_horseshoe. Print Assumptions C93_wake_refuted.
