(** Double arithmetic, XII: the apparent wind angle. *)

From Coq Require Import ZArith Reals List Bool Lra Psatz Lia.
From Flocq Require Import Core BinarySingleNaN.
From Verif Require Import Num PyBase RNum Spec M_Csys M_Winds L_List P_Double Double L_Double L_Near L_NearRot P_DoubleRot L_NearVel P_DoubleWind.
Import ListNotations.
Open Scope R_scope.

(** ** Specification *)
(** an arctangent of the quotient of two coordinates, the second one positive, within eight units in the last place *)
Definition accurate_atan2 (e : elementary) : Prop :=
  forall y x : double, fin y -> fin x -> 0 < val x -> fin (e_atan2 e y x) /\ Rabs (val (e_atan2 e y x) - atan (val y / val x)) <= 8 / 2 ^ 53.
(** a horizontal wind [v] of the speed [N] that comes from ahead of the beam, [a] degrees off the bow *)
Definition from_ahead (v : vec R) (N a : R) : Prop := 0 < N /\ -90 < a < 90 /\ vx v = N * cos (rad a) /\ vy v = N * sin (rad a).

(** ** Angles of close directions *)
Lemma atan_le t : Rabs (atan t) <= Rabs t.
Proof.
  assert (K : forall s, 0 < s -> 0 <= atan s <= s).
  { intros s P. destruct (MVT_cor2 atan (fun c => / (1 + c ^ 2)) 0 s P) as (c & E & C); [intros x _; apply derivable_pt_lim_atan|]. rewrite atan_0, Rminus_0_r, Rminus_0_r in E. pose proof (pow2_ge_0 c) as Q. rewrite E.
    assert (0 < / (1 + c ^ 2) <= 1) by (split; [apply Rinv_0_lt_compat; lra|apply Rmult_le_reg_r with (1 + c ^ 2); [lra|]; rewrite Rinv_l by lra; lra]). nra. }
  destruct (Rtotal_order t 0) as [L|[->|G]].
  - pose proof (K (- t) ltac:(lra)) as Q. rewrite atan_opp in Q. rewrite (Rabs_left t L). apply Rabs_le. lra.
  - rewrite atan_0. lra.
  - pose proof (K t G). rewrite !Rabs_pos_eq; lra.
Qed.
Lemma atan_gap x y X Y d N : 0 < x -> 0 < X -> N * N = X * X + Y * Y -> 0 < N -> 6 * d <= N -> Rabs (x - X) <= d -> Rabs (y - Y) <= d -> Rabs (atan (y / x) - atan (Y / X)) <= 2 * d / N.
Proof.
  intros Px PX EN PN DN Dx Dy. assert (Pd : 0 <= d) by (eapply Rle_trans; [apply Rabs_pos|exact Dx]).
  assert (SZ : Rabs X + Rabs Y <= 3 / 2 * N). { pose proof (Rabs_pos X). pose proof (Rabs_pos Y). assert (Rabs X * Rabs X = X * X) by (rewrite <- Rabs_mult; apply Rabs_pos_eq; nra). assert (Rabs Y * Rabs Y = Y * Y) by (rewrite <- Rabs_mult; apply Rabs_pos_eq; nra). apply Rsqr_incr_0_var; [|lra]. unfold Rsqr. assert (0 <= (Rabs X - Rabs Y) * (Rabs X - Rabs Y)) by apply Rle_0_sqr. assert (0 < N * N) by (apply Rmult_lt_0_compat; assumption). replace ((Rabs X + Rabs Y) * (Rabs X + Rabs Y)) with (2 * (Rabs X * Rabs X + Rabs Y * Rabs Y) - (Rabs X - Rabs Y) * (Rabs X - Rabs Y)) by ring. replace (3 / 2 * N * (3 / 2 * N)) with (9 / 4 * (N * N)) by field. lra. }
  assert (CR : Rabs (y * X - Y * x) <= 3 / 2 * (d * N)).
  { replace (y * X - Y * x) with ((y - Y) * X + - (Y * (x - X))) by ring. eapply Rle_trans; [apply Rabs_triang|]. rewrite Rabs_Ropp, !Rabs_mult. pose proof (Rabs_pos X). pose proof (Rabs_pos Y). assert (Rabs (y - Y) * Rabs X <= d * Rabs X) by (apply Rmult_le_compat_r; assumption). assert (Rabs Y * Rabs (x - X) <= Rabs Y * d) by (apply Rmult_le_compat_l; assumption). nra. }
  assert (DT : 3 / 4 * (N * N) <= x * X + y * Y).
  { replace (x * X + y * Y) with (N * N + ((x - X) * X + (y - Y) * Y)) by (rewrite EN; ring). assert (K : Rabs ((x - X) * X + (y - Y) * Y) <= 3 / 2 * (d * N)). { eapply Rle_trans; [apply Rabs_triang|]. rewrite !Rabs_mult. pose proof (Rabs_pos X). pose proof (Rabs_pos Y). assert (Rabs (x - X) * Rabs X <= d * Rabs X) by (apply Rmult_le_compat_r; assumption). assert (Rabs (y - Y) * Rabs Y <= d * Rabs Y) by (apply Rmult_le_compat_r; assumption). nra. }
    apply abs_2 in K. assert (6 * d * N <= N * N) by (apply Rmult_le_compat_r; lra). lra. }
  assert (NN : 0 < N * N) by (apply Rmult_lt_0_compat; assumption). set (al := atan (y / x)). set (be := atan (Y / X)). pose proof (atan_bound (y / x)) as [A1 A2]. pose proof (atan_bound (Y / X)) as [B1 B2]. fold al in A1, A2. fold be in B1, B2.
  assert (CA : 0 < cos al) by (apply cos_gt_0; lra). assert (CB : 0 < cos be) by (apply cos_gt_0; lra). assert (TA : tan al = y / x) by apply tan_atan. assert (TB : tan be = Y / X) by apply tan_atan.
  assert (Q : 1 + tan al * tan be = (x * X + y * Y) / (x * X)) by (rewrite TA, TB; field; lra). assert (XX : 0 < x * X) by (apply Rmult_lt_0_compat; assumption).
  assert (Q0 : 0 < 1 + tan al * tan be) by (rewrite Q; unfold Rdiv; apply Rmult_lt_0_compat; [lra|apply Rinv_0_lt_compat, XX]).
  assert (CD : 0 < cos (al - be)). { rewrite cos_minus. replace (cos al * cos be + sin al * sin be) with (cos al * cos be * (1 + tan al * tan be)) by (unfold tan; field; lra). apply Rmult_lt_0_compat; [apply Rmult_lt_0_compat; assumption|exact Q0]. }
  pose proof PI_RGT_0 as PP. assert (RG : - (PI / 2) < al - be < PI / 2).
  { split; apply Rnot_le_lt; intros H; [assert (cos (be - al) <= 0) by (apply cos_le_0; lra); replace (be - al) with (- (al - be)) in * by ring; rewrite cos_neg in *; lra|assert (cos (al - be) <= 0) by (apply cos_le_0; lra); lra]. }
  rewrite <- (atan_tan (al - be) RG). eapply Rle_trans; [apply atan_le|]. rewrite tan_minus by lra. rewrite Q, TA, TB. replace ((y / x - Y / X) / ((x * X + y * Y) / (x * X))) with ((y * X - Y * x) / (x * X + y * Y)) by (field; repeat split; lra).
  unfold Rdiv at 1. rewrite Rabs_mult, Rabs_inv, (Rabs_pos_eq (x * X + y * Y)) by lra. set (D := x * X + y * Y) in *. apply Rmult_le_reg_r with D; [lra|]. rewrite Rmult_assoc, Rinv_l, Rmult_1_r by lra. eapply Rle_trans; [exact CR|]. replace (3 / 2 * (d * N)) with (2 * d / N * (3 / 4 * (N * N))) by (field; lra). apply Rmult_le_compat_l; [|exact DT]. unfold Rdiv. apply Rmult_le_pos; [lra|left; apply Rinv_0_lt_compat, PN].
Qed.
Lemma from_ahead_angle v N a : from_ahead v N a -> 0 < vx v /\ N * N = vx v * vx v + vy v * vy v /\ atan (vy v / vx v) = rad a.
Proof.
  intros (P & A & EX & EY). pose proof PI_RGT_0 as PP. assert (RA : - (PI / 2) < rad a < PI / 2) by (unfold rad; nra). assert (C : 0 < cos (rad a)) by (apply cos_gt_0; lra). rewrite EX, EY. split; [apply Rmult_lt_0_compat; assumption|]. split.
  - pose proof (sin2_cos2 (rad a)) as Q. unfold Rsqr in Q. replace (N * N) with (N * N * (sin (rad a) * sin (rad a) + cos (rad a) * cos (rad a))) by (rewrite Q; ring). ring.
  - replace (N * sin (rad a) / (N * cos (rad a))) with (tan (rad a)) by (unfold tan; field; lra). apply atan_tan. exact RA.
Qed.
Section Angle.
Context (e : elementary) (AT : accurate_atan2 e).
Notation D := (Double e).
Lemma angle_near (v : vec double) V N a d : vfin v -> from_ahead V N a -> Rabs (val (vx v) - vx V) <= d -> Rabs (val (vy v) - vy V) <= d -> 6 * d <= vx V ->
  fin (@rad2deg _ D (@natan2 _ D (vy v) (vx v))) /\ Rabs (val (@rad2deg _ D (@natan2 _ D (vy v) (vx v))) - a) <= 1 / 10000000000000 + 120 * (d / N).
Proof.
  intros (FX & FY & _) BL DX DY DM. assert (Pd : 0 <= d) by (eapply Rle_trans; [apply Rabs_pos|exact DX]). destruct (from_ahead_angle _ _ _ BL) as (PX & EN & EA). destruct BL as (PN & RA & EX & _). pose proof (abs_2 _ _ DX) as DX2.
  assert (XN : vx V <= N) by (apply Rsqr_incr_0_var; [unfold Rsqr; nra|lra]). assert (Px : 0 < val (vx v)) by lra.
  pose proof (atan_gap (val (vx v)) (val (vy v)) (vx V) (vy V) d N Px PX EN PN ltac:(lra) DX DY) as GAP. rewrite EA in GAP. destruct (AT (vy v) (vx v) FY FX Px) as [FA EAT]. set (th := atan (val (vy v) / val (vx v))) in *.
  pose proof (atan_bound (val (vy v) / val (vx v))) as [B1 B2]. fold th in B1, B2. pose proof PI_4 as P4. pose proof PI2_3_2 as P3. clearbody th.
  assert (N1 : near 2 (e_atan2 e (vy v) (vx v)) th 4) by (split; [exact FA|]; split; [apply Rabs_le; lra|]; eapply Rle_trans; [exact EAT|]; rewrite u_val; lra).
  pose proof (near_close (4 / 3) 4 d_pi PI 1 ltac:(lra) ltac:(lra) ltac:(lra) near_pi) as CP. destruct (dint e 180 ltac:(lia)) as [F180 V180].
  assert (N2 : near 180 (@nZ _ D 180) 180 0) by (split; [exact F180|]; rewrite V180, Rminus_eq_0, Rabs_R0, Rabs_pos_eq by lra; pose proof u_pos; lra).
  pose proof (near_div e 180 _ 180 0 d_pi PI (4 / 3 * 1) 3 ltac:(ml) ltac:(lra) ltac:(ml) ltac:(fw) ltac:(fw) N2 CP ltac:(lra)) as N3. pose proof (near_mul e 2 (180 / 3) _ _ _ _ 4 (0 + 4 / 3 * 1 + 102 / 100) ltac:(ml) ltac:(ml) ltac:(fw) ltac:(fw) N1 N3) as (F & _ & E).
  unfold rad2deg. change (@npi _ D) with d_pi. change (@natan2 _ D (vy v) (vx v)) with (e_atan2 e (vy v) (vx v)). split; [exact F|].
  match goal with |- Rabs (val ?z - a) <= _ => set (r := val z) in * end. replace (r - a) with ((r - th * (180 / PI)) + (th * (180 / PI) - a)) by ring. eapply Rle_trans; [apply Rabs_triang|]. apply Rplus_le_compat.
  - eapply Rle_trans; [exact E|]. rewrite u_val. lra.
  - replace (th * (180 / PI) - a) with ((th - rad a) * (180 / PI)) by (unfold rad; field; lra). rewrite Rabs_mult. assert (Q : 0 <= 180 / PI <= 60) by (split; [unfold Rdiv; apply Rmult_le_pos; [lra|left; apply Rinv_0_lt_compat; lra]|]; apply Rmult_le_reg_r with PI; [lra|]; unfold Rdiv; rewrite Rmult_assoc, Rinv_l by lra; lra).
    rewrite (Rabs_pos_eq (180 / PI)) by lra. replace (120 * (d / N)) with (2 * d / N * 60) by (field; lra). apply Rmult_le_compat; [apply Rabs_pos|lra|exact GAP|lra].
Qed.
Context (AC : accurate e) (AL : accurate_ln e) (AP : accurate_pow e) (T G : R) (w : wind double) (US : usual_wind T G w).
(** the apparent wind angles of the inlet conditions, in degrees *)
Theorem C104_angle (cps : list (vec double)) (angles : list (R * R)) :
  Forall2 (fun p q => fin (vz p) /\ usual_profile (w_prof w) (Rabs (val (vz p))) /\ from_ahead (exact_apparent w (Rabs (val (vz p)))) (fst q) (snd q) /\
    12 / 100000000000000 * (T * gain_size (w_prof w) (Rabs (val (vz p))) + G) <= vx (exact_apparent w (Rabs (val (vz p))))) cps angles ->
  exists ic, @InletConditions _ D w cps = Ok ic /\ length (in_awa_deg ic) = length cps /\
    forall i p q a, nth_error cps i = Some p -> nth_error angles i = Some q -> nth_error (in_awa_deg ic) i = Some a ->
      fin a /\ Rabs (val a - snd q) <= 1 / 10000000000000 + 24 / 10000000000000 * ((T * gain_size (w_prof w) (Rabs (val (vz p))) + G) / fst q).
Proof.
  intros H. assert (H1 : Forall (fun p => fin (vz p) /\ usual_profile (w_prof w) (Rabs (val (vz p)))) cps) by (induction H as [|p q ps qs (A & B & _) H IH]; constructor; [split; assumption|exact IH]).
  destruct (C104_inlet e AL AP T G w US AC cps H1) as (ic & EI & _ & _ & I). exists ic. split; [exact EI|].
  assert (EA : in_awa_deg ic = map (fun v => @rad2deg _ D (@natan2 _ D (vy v) (vx v))) (in_V ic)). { unfold InletConditions in EI. destruct (mapM _ _) as [ts|] in EI; [|discriminate EI]. cbn [bind] in EI. assert (HO : forall A (x y : A), Ok x = Ok y -> x = y) by (intros A x y [= Q]; exact Q). apply HO in EI. subst ic. reflexivity. }
  rewrite EA, map_length. split; [symmetry; exact (Forall2_len _ _ _ I)|]. intros i p q a NP NQ NA. rewrite nth_error_map in NA. destruct (nth_error (in_V ic) i) as [v|] eqn:NV; [|discriminate NA]. cbn [option_map] in NA. assert (HS : forall A (x y : A), Some x = Some y -> x = y) by (intros A x y [= Q]; exact Q). apply HS in NA. subst a.
  destruct (Forall2_nth_error _ _ _ _ _ _ H NP NQ) as (_ & _ & BL & MM). destruct (Forall2_nth_error _ _ _ _ _ _ I NP NV) as (FV & X & Y & _). set (S := T * gain_size (w_prof w) (Rabs (val (vz p))) + G) in *.
  destruct (angle_near v _ _ _ _ FV BL X Y ltac:(lra)) as [F E]. split; [exact F|]. eapply Rle_trans; [exact E|]. right. destruct BL as [PN _]. field. lra.
Qed.
(** the report at the reference height; the last number is the angle over the water *)
Theorem C104_report (c : csys double) (h : double) (N a : R) : fin h -> usual_profile (w_prof w) (val h) -> from_ahead (exact_apparent w (val h)) N a ->
  12 / 100000000000000 * (T * gain_size (w_prof w) (val h) + G) <= vx (exact_apparent w (val h)) -> fin (leeway_deg c) -> Rabs (val (leeway_deg c)) <= 90 ->
  let r := (T * gain_size (w_prof w) (val h) + G) / N in
  exists t v x y, @exp_integral_report _ D w c h = Ok (t, v, x, y) /\
    within (2 / 100000000000000 * (T * gain_size (w_prof w) (val h))) t (exact_true w (val h)) /\ within (2 / 100000000000000 * (T * gain_size (w_prof w) (val h) + G)) v (exact_apparent w (val h)) /\
    fin x /\ Rabs (val x - a) <= 1 / 10000000000000 + 24 / 10000000000000 * r /\ fin y /\ Rabs (val y - (a - val (leeway_deg c))) <= 2 / 10000000000000 + 24 / 10000000000000 * r.
Proof.
  intros FH UP BL MM FL BLE r. destruct (C104_apparent e AL AP T G w US AC h FH UP) as (t & E & W1 & W2). exists t, (@get_app_infs_at_h _ D w t). set (v := @get_app_infs_at_h _ D w t) in *. exists (@rad2deg _ D (@natan2 _ D (vy v) (vx v))), (@nsub _ D (@rad2deg _ D (@natan2 _ D (vy v) (vx v))) (leeway_deg c)).
  split; [unfold exp_integral_report; rewrite E; reflexivity|]. split; [exact W1|]. split; [exact W2|]. destruct W2 as (FV & X & Y & _). set (S := T * gain_size (w_prof w) (val h) + G) in *.
  destruct (angle_near v _ _ _ _ FV BL X Y ltac:(lra)) as [F EA]. set (x := @rad2deg _ D (@natan2 _ D (vy v) (vx v))) in *. clearbody x. clear X Y. destruct (from_ahead_angle _ _ _ BL) as (PX & EN & _). destruct BL as (PN & RA & _). assert (XN : vx (exact_apparent w (val h)) <= N) by (apply Rsqr_incr_0_var; [unfold Rsqr; nra|lra]).
  assert (ER : 120 * (2 / 100000000000000 * S / N) = 24 / 10000000000000 * r) by (unfold r; field; lra). rewrite ER in EA. assert (RB : 12 / 100000000000000 * r <= 1) by (unfold r; apply Rmult_le_reg_r with N; [lra|]; replace (12 / 100000000000000 * (S / N) * N) with (12 / 100000000000000 * S) by (field; lra); lra). clearbody r. clear ER.
  split; [exact F|]. split; [exact EA|]. pose proof (abs_2 _ _ EA) as EA2. assert (BX : Rabs (val x) <= 111) by (apply Rabs_le; lra).
  destruct (near_sub e 111 90 _ _ _ _ 0 0 ltac:(ml) ltac:(lra) ltac:(lra) ltac:(fw) ltac:(fw) (near_exact 111 x F BX ltac:(lra)) (near_exact 90 _ FL BLE ltac:(lra))) as (FS & _ & ES). rewrite Rmax_left in ES by lra. split; [exact FS|]. set (z := val (@nsub _ D x (leeway_deg c))) in *. replace (z - (a - val (leeway_deg c))) with ((z - (val x - val (leeway_deg c))) + (val x - a)) by ring. eapply Rle_trans; [apply Rabs_triang|]. rewrite u_val in ES. lra.
Qed.
End Angle.

(** ** A concrete case *)
Lemma from_ahead_some v : 0 < vx v -> exists N a, from_ahead v N a.
Proof.
  intros P. set (N := sqrt (vx v * vx v + vy v * vy v)). set (t := atan (vy v / vx v)). assert (P2 : 0 < vx v * vx v) by (apply Rmult_lt_0_compat; exact P). assert (P3 : 0 <= vy v * vy v) by apply Rle_0_sqr. assert (PN : 0 < N) by (apply sqrt_lt_R0; lra). assert (NN : N * N = vx v * vx v + vy v * vy v) by (apply sqrt_sqrt; lra).
  pose proof (atan_bound (vy v / vx v)) as [B1 B2]. fold t in B1, B2. pose proof PI_RGT_0 as PP. assert (C : 0 < cos t) by (apply cos_gt_0; lra). assert (TT : tan t = vy v / vx v) by apply tan_atan.
  assert (S : sin t * vx v = vy v * cos t) by (unfold tan in TT; apply (Rmult_eq_reg_r (/ cos t * / vx v)); [|apply Rmult_integral_contrapositive; split; apply Rinv_neq_0_compat; lra]; transitivity (sin t / cos t); [field; lra|rewrite TT; field; lra]).
  assert (X : vx v = N * cos t). { apply Rsqr_inj; [lra|apply Rmult_le_pos; lra|]. unfold Rsqr. pose proof (sin2_cos2 t) as Q. unfold Rsqr in Q. replace (N * cos t * (N * cos t)) with (N * N * (cos t * cos t)) by ring. rewrite NN. replace ((vx v * vx v + vy v * vy v) * (cos t * cos t)) with (vx v * vx v * (cos t * cos t) + vy v * cos t * (vy v * cos t)) by ring. rewrite <- S. replace (vx v * vx v * (cos t * cos t) + sin t * vx v * (sin t * vx v)) with (vx v * vx v * (sin t * sin t + cos t * cos t)) by ring. rewrite Q. ring. }
  exists N, (t * 180 / PI). assert (E : rad (t * 180 / PI) = t) by (unfold rad; field; lra). unfold from_ahead. rewrite E. split; [exact PN|]. split; [split; apply Rmult_lt_reg_r with PI; try lra; unfold Rdiv; rewrite ?(Rmult_assoc (t * 180)), Rinv_l by lra; lra|]. split; [exact X|]. apply (Rmult_eq_reg_r (cos t)); [|lra]. rewrite <- S, X. ring.
Qed.
Definition ideal_angle : elementary := Elementary (e_sin ideal_wind) (e_cos ideal_wind) (fun x => x) (fun x => x) (fun x => x) (fun y x => floor300 (atan (val y / val x))) (e_ln ideal_wind) (e_pow ideal_wind).
Lemma ideal_atan2 : accurate_atan2 ideal_angle.
Proof.
  intros y x FY FX P. cbn [ideal_angle e_atan2]. pose proof (atan_bound (val y / val x)) as [B1 B2]. pose proof PI_4 as P4. set (t := atan (val y / val x)) in *. assert (T : Rabs t <= 2) by (apply Rabs_le; lra). pose proof bpow_160 as (B3 & B4 & _). destruct (floor300_ok t ltac:(lra)) as [F E]. split; [exact F|]. eapply Rle_trans; [exact E|]. replace (8 / 2 ^ 53) with (3 * u * (8 / 3)) by (rewrite u_val; lra). pose proof u_pos.
  assert (bpow radix2 (-160) <= 1 / 2) by (change (1 / 2) with (1 / 2); replace (1 / 2) with (bpow radix2 (-1)) by (cbn; lra); apply bpow_le; lia). apply Rmult_le_compat_l; lra.
Qed.
(** the logarithmic profile of [C104_case], 30 degrees from the direction of the boat, at two points and the mirror image of one *)
Example C104_angle_case : let w := case_wind (Log (Some (dZ 1)) (Some (dZ 10))) in let cps := [dv 1 2 3; dv 4 1 12; dv 4 1 (-12)] in
  accurate ideal_angle /\ accurate_ln ideal_angle /\ accurate_pow ideal_angle /\ accurate_atan2 ideal_angle /\ usual_wind 10 5 w /\
  exists angles, length angles = 3%nat /\ Forall (fun q => snd q <> 0) angles /\
    Forall2 (fun p q => fin (vz p) /\ usual_profile (w_prof w) (Rabs (val (vz p))) /\ from_ahead (exact_apparent w (Rabs (val (vz p)))) (fst q) (snd q) /\
      12 / 100000000000000 * (10 * gain_size (w_prof w) (Rabs (val (vz p))) + 5) <= vx (exact_apparent w (Rabs (val (vz p))))) cps angles /\
    exists ic, @InletConditions _ (Double ideal_angle) w cps = Ok ic /\ length (in_awa_deg ic) = 3%nat.
Proof.
  intros w cps. destruct C104_case as (A1 & A2 & A3 & Q). destruct (Q _ (or_intror eq_refl)) as (US & C & _). split; [exact A1|]. split; [exact A2|]. split; [exact A3|]. split; [exact ideal_atan2|]. split; [exact US|].
  assert (DI : forall z, (Z.abs z <= 1000)%Z -> val (dZ z) = IZR z) by (intros z Z; exact (proj2 (dint ideal_wind z ltac:(lia)))).
  assert (K : forall h, 3 <= h -> 5 <= vx (exact_apparent w h) /\ 0 < vy (exact_apparent w h)).
  { intros h H. unfold exact_apparent, exact_true, w, case_wind. cbn [sadd vx vy w_tws w_prof w_alpha_deg w_sog gain]. rewrite !DI by (cbn; lia). replace (rad 30) with (PI / 6) by (unfold rad; field). rewrite cos_PI6, sin_PI6. assert (L : forall t, 1 < t -> 0 < ln t) by (intros t T; rewrite <- ln_1; apply ln_increasing; lra). pose proof (L (h / 1) ltac:(lra)) as L1. pose proof (L (10 / 1) ltac:(lra)) as L2. assert (G : 0 < ln (h / 1) / ln (10 / 1)) by (unfold Rdiv at 1; apply Rmult_lt_0_compat; [exact L1|apply Rinv_0_lt_compat; exact L2]).
    set (g := ln (h / 1) / ln (10 / 1)) in *. pose proof (sqrt_pos 3). assert (0 <= g * (sqrt 3 / 2)) by (apply Rmult_le_pos; lra). split; lra. }
  assert (B : forall l, Forall (fun p => fin (vz p) /\ usual_profile (w_prof w) (Rabs (val (vz p)))) l -> Forall (fun p => 3 <= Rabs (val (vz p))) l -> exists angles, Forall2 (fun p q => fin (vz p) /\ usual_profile (w_prof w) (Rabs (val (vz p))) /\ from_ahead (exact_apparent w (Rabs (val (vz p)))) (fst q) (snd q) /\
      12 / 100000000000000 * (10 * gain_size (w_prof w) (Rabs (val (vz p))) + 5) <= vx (exact_apparent w (Rabs (val (vz p))))) l angles /\ Forall (fun q => snd q <> 0) angles).
  { clear Q C cps. intros l C. induction C as [|p ps [F U] C IH]; intros H3; [exists []; split; constructor|]. inversion H3 as [|? ? X Y]; subst. destruct (IH Y) as (qs & I & J). destruct (K _ X) as [V1 V2]. destruct (from_ahead_some (exact_apparent w (Rabs (val (vz p)))) ltac:(lra)) as (N & a & BL). exists ((N, a) :: qs). split; [apply Forall2_cons; [|exact I]|apply Forall_cons; [|exact J]]; cbn [fst snd].
    - split; [exact F|]. split; [exact U|]. split; [exact BL|]. change (gain_size (w_prof w) (Rabs (val (vz p)))) with 40. lra.
    - intros ->. destruct BL as (_ & _ & _ & E). replace (rad 0) with 0 in E by (unfold rad; lra). rewrite sin_0 in E. lra. }
  specialize (B cps C ltac:(unfold cps, dv; apply Forall_cons; [|apply Forall_cons; [|apply Forall_cons; [|apply Forall_nil]]]; cbn [vz]; rewrite DI by (cbn; lia); [rewrite Rabs_pos_eq; lra|rewrite Rabs_pos_eq; lra|rewrite Rabs_left; lra])).
  destruct B as (angles & B & NZ). exists angles. split; [symmetry; exact (Forall2_len _ _ _ B)|]. split; [exact NZ|]. split; [exact B|]. destruct (C104_angle ideal_angle ideal_atan2 A1 A2 A3 10 5 w US cps angles B) as (ic & E & L & _). exists ic. split; [exact E|exact L].
Qed.

(** 10 m above the water, in the report of a boat with 4 degrees of leeway *)
Example C104_report_case : let w := case_wind (Log (Some (dZ 1)) (Some (dZ 10))) in let c := Csys (dZ 20) (dZ 4) (dv 0 0 0) in
  fin (dZ 10) /\ usual_profile (w_prof w) (val (dZ 10)) /\ fin (leeway_deg c) /\ Rabs (val (leeway_deg c)) <= 90 /\ val (leeway_deg c) <> 0 /\
  exists N a, from_ahead (exact_apparent w (val (dZ 10))) N a /\ a <> 0 /\ 12 / 100000000000000 * (10 * gain_size (w_prof w) (val (dZ 10)) + 5) <= vx (exact_apparent w (val (dZ 10))) /\
    exists t v x y, @exp_integral_report _ (Double ideal_angle) w c (dZ 10) = Ok (t, v, x, y) /\ Rabs (val y - (a - 4)) <= 1 / 1000000000.
Proof.
  intros w c. destruct C104_case as (A1 & A2 & A3 & Q). destruct (Q _ (or_intror eq_refl)) as (US & _ & _). clear Q.
  assert (DI : forall z, (Z.abs z <= 1000)%Z -> fin (dZ z) /\ val (dZ z) = IZR z) by (intros z Z; exact (dint ideal_wind z ltac:(lia))). destruct (DI 10%Z ltac:(lia)) as [F10 V10]. destruct (DI 4%Z ltac:(lia)) as [F4 V4]. destruct (DI 1%Z ltac:(lia)) as [F1 V1]. split; [exact F10|].
  assert (U : usual_profile (w_prof w) (val (dZ 10))) by (cbn [w case_wind w_prof usual_profile]; rewrite V10, V1; repeat split; try assumption; lra). split; [exact U|]. split; [exact F4|]. assert (L4 : Rabs (val (leeway_deg c)) <= 90) by (cbn [c leeway_deg]; rewrite V4, Rabs_pos_eq; lra). split; [exact L4|]. split; [cbn [c leeway_deg]; rewrite V4; lra|].
  assert (EX : exact_apparent w (val (dZ 10)) = V3 (10 * (sqrt 3 / 2) + 5) 5 0).
  { unfold exact_apparent, exact_true, sadd, w, case_wind. cbn [vx vy vz w_tws w_prof w_alpha_deg w_sog gain]. rewrite !(fun z H => proj2 (DI z H)) by (cbn; lia). replace (rad 30) with (PI / 6) by (unfold rad; field). rewrite cos_PI6, sin_PI6. assert (L : ln (10 / 1) <> 0) by (assert (ln 1 < ln (10 / 1)) by (apply ln_increasing; lra); rewrite ln_1 in *; lra). f_equal; field; exact L. }
  pose proof (sqrt_pos 3) as S3. destruct (from_ahead_some (exact_apparent w (val (dZ 10)))) as (N & a & FA); [rewrite EX; cbn [vx]; lra|]. exists N, a. split; [exact FA|].
  split; [intros ->; destruct FA as (_ & _ & _ & E); rewrite EX in E; cbn [vy] in E; replace (rad 0) with 0 in E by (unfold rad; lra); rewrite sin_0 in E; lra|].
  assert (MM : 12 / 100000000000000 * (10 * gain_size (w_prof w) (val (dZ 10)) + 5) <= vx (exact_apparent w (val (dZ 10)))) by (rewrite EX; cbn [vx]; change (gain_size (w_prof w) (val (dZ 10))) with 40; lra). split; [exact MM|].
  destruct (C104_report ideal_angle ideal_atan2 A1 A2 A3 10 5 w US c (dZ 10) N a F10 U FA MM F4 L4) as (t & v & x & y & E & _ & _ & _ & _ & _ & B). exists t, v, x, y. split; [exact E|]. destruct (from_ahead_angle _ _ _ FA) as (_ & EN & _). destruct FA as (PN & _). rewrite EX in EN. cbn [vx vy] in EN. change (val (leeway_deg c)) with (val (dZ 4)) in B. rewrite V4 in B. change (gain_size (w_prof w) (val (dZ 10))) with 40 in B.
  assert (N5 : 5 <= N) by (apply Rsqr_incr_0_var; [unfold Rsqr; nra|lra]). assert (D5 : (10 * 40 + 5) / N <= 81) by (apply Rmult_le_reg_r with N; [lra|]; unfold Rdiv; rewrite Rmult_assoc, Rinv_l by lra; lra). eapply Rle_trans; [exact B|]. lra.
Qed.

Print Assumptions C104_angle.
Print Assumptions C104_report.
Print Assumptions C104_angle_case.
Print Assumptions C104_report_case.
