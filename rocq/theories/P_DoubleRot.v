(** C91: the rotations in double arithmetic. *)

From Coq Require Import ZArith Reals List Bool Lra Psatz Lia.
From Flocq Require Import Core BinarySingleNaN.
From Verif Require Import Num PyBase RNum Spec M_Rotations M_Csys L_Rot L_Csys Double L_Double L_Near L_NearRot.
Import ListNotations.
Open Scope R_scope.

(** ** Specification *)
(** the computed point is finite and each coordinate is within [d] of the exact one *)
Definition within (d : R) (p : vec double) (q : vec R) : Prop :=
  vfin p /\ Rabs (val (vx p) - vx q) <= d /\ Rabs (val (vy p) - vy q) <= d /\ Rabs (val (vz p) - vz q) <= d.
(** an angle in degrees *)
Definition degrees (x : double) : Prop := fin x /\ Rabs (val x) <= 360.
(** points up to a distance [L] from the origin *)
Definition reach (L : R) (p : vec double) : Prop := 1 / 1000000 <= L <= 1000000 /\ vfin p /\ snorm (vvals p) <= L.

Lemma vnear_within L p q k d : vnear L p q k -> k * (L * u) <= d -> within d p q.
Proof. intros ((F1 & _ & E1) & (F2 & _ & E2) & (F3 & _ & E3)) H. repeat split; try assumption; lra. Qed.
Lemma units k c L : 0 <= L -> 0 <= k -> k / 1000000000000000 <= c -> k * (L * u) <= c * L.
Proof. intros HL HK H. pose proof u_small as U. pose proof u_pos. replace (k * (L * u)) with (k * u * L) by ring. apply Rmult_le_compat_r; [exact HL|]. apply Rle_trans with (k * (1 / 1000000000000000)); [apply Rmult_le_compat_l; assumption|lra]. Qed.
Lemma u_12 k L : 0 <= L -> 0 <= k <= 9000 -> k * (L * u) <= 1 / 1000000000000 * L.
Proof. intros HL HK. pose proof u_pos. replace (k * (L * u)) with (k * u * L) by ring. apply Rmult_le_compat_r; [exact HL|]. apply Rle_trans with (9000 * u); [nra|]. rewrite u_val. lra. Qed.

(** a rotation matrix about any axis, applied to a point *)
Theorem C91_matrix : forall (e : elementary) (axis p : vec double) (th : double) (L : R),
  accurate e -> vfin axis -> bpow radix2 (-150) <= snorm (vvals axis) <= bpow radix2 150 -> fin th -> Rabs (val th) <= 8 -> reach L p ->
  within (2 / 10000000000000 * L) (@mapply _ (Double e) (@rotation_matrix _ (Double e) axis th) p) (srot (sunit (vvals axis)) (val th) (vvals p)).
Proof.
  intros e axis p th L A FA ZA FT BT (HL & FP & SP).
  assert (NZ : vvals axis <> szero). { intros Q. assert (S : snorm (vvals axis) = 0) by (rewrite Q; unfold snorm, szero; cbv [vx vy vz]; replace (0 ^ 2 + 0 ^ 2 + 0 ^ 2) with 0 by ring; apply sqrt_0). pose proof (bpow_gt_0 radix2 (-150)). lra. }
  assert (E : mapply (rotation_matrix (vvals axis) (val th)) (vvals p) = srot (sunit (vvals axis)) (val th) (vvals p)) by (rewrite rotation_matrix_spec by exact NZ; reflexivity).
  assert (NM : snorm (mapply (rotation_matrix (vvals axis) (val th)) (vvals p)) <= L).
  { eapply Rle_trans; [right|exact SP]. pose proof (rm_dot _ (rot_matrix_is_rotation (vvals axis) (val th) NZ) (vvals p) (vvals p)) as D.
    set (q := mapply _ _) in *. unfold snorm. f_equal. unfold sdot in D. cbn [vvals vx vy vz] in *. lra. }
  rewrite <- E. apply (vnear_within L _ _ (3 * (520 + 0) + 10)); [|pose proof u_pos; replace ((3 * (520 + 0) + 10) * (L * u)) with (1570 * u * L) by ring; apply Rmult_le_compat_r; [lra|rewrite u_val; lra]].
  apply near_mapply; try assumption; try lra; [|apply vnear_exact; assumption]. apply near_rotation_matrix; try assumption. apply (near_up _ _ _ 0); [apply near_exact; try assumption; lra|lra|lra].
Qed.
(** turning a point with the boat, its mirror image the other way *)
Theorem C91_rotate : forall (e : elementary) (c : csys double) (p : vec double) (L : R),
  accurate e -> degrees (heel_deg c) -> degrees (leeway_deg c) -> reach L p ->
  within (1 / 1000000000000 * L) (@rotate_point_with_mirror _ (Double e) c p)
    (sheel (if Rlt_dec 0 (val (vz p)) then val (heel_deg c) else - val (heel_deg c)) (val (leeway_deg c)) (vvals p)).
Proof.
  intros e c p L A (FH & BH) (FL & BL) (HL & FP & SP). pose proof (vnear_exact L p FP SP) as N0. destruct (zero_one e) as [[F0 V0] _].
  pose proof (near_angle_opp e _ FH BH) as NH. pose proof (near_angle e _ FH BH) as NR. pose proof (near_angle e _ FL BL) as NL.
  unfold rotate_point_with_mirror, heeling_rotation_matrix, reverse_heeling_rotation_matrix, leeway_rotation_matrix.
  assert (T : @nltb _ (Double e) (@nZ _ (Double e) 0) (vz p) = true <-> 0 < val (vz p)) by (rewrite (dltb e _ _ F0 (proj2 (proj2 FP))), V0; reflexivity).
  assert (R : forall th TH, near 8 th TH 4 -> within (1 / 1000000000000 * L) (@mapply _ (Double e) (@rotation_matrix _ (Double e) (V3 (@nZ _ (Double e) 0) (@nZ _ (Double e) 0) (@nZ _ (Double e) 1)) (@deg2rad _ (Double e) (leeway_deg c))) (@mapply _ (Double e) (@rotation_matrix _ (Double e) (V3 (@nZ _ (Double e) 1) (@nZ _ (Double e) 0) (@nZ _ (Double e) 0)) th) p)) (srz (rad (val (leeway_deg c))) (srx TH (vvals p)))).
  { intros th TH NT. destruct (near_srx e L th TH p (vvals p) 0 A HL ltac:(lra) NT N0 SP) as [N1 S1].
    destruct (near_srz e L _ _ _ _ (1570 + 3 * 0) A HL ltac:(lra) NL N1 S1) as [N2 _]. eapply vnear_within; [exact N2|]. apply u_12; lra. }
  unfold sheel. destruct (Rlt_dec 0 (val (vz p))) as [Z|Z].
  - rewrite (proj2 T Z). apply R. exact NH.
  - destruct (@nltb _ (Double e) (@nZ _ (Double e) 0) (vz p)) eqn:Q; [exfalso; apply Z, T; reflexivity|]. rewrite rad_opp, Ropp_involutive. apply R. exact NR.
Qed.
(** turning a free vector, such as a wind velocity *)
Theorem C91_vector : forall (e : elementary) (c : csys double) (p : vec double) (L : R),
  accurate e -> degrees (heel_deg c) -> degrees (leeway_deg c) -> reach L p ->
  within (1 / 1000000000000 * L) (@rotate_point_without_mirror _ (Double e) c p) (sheel (val (heel_deg c)) (val (leeway_deg c)) (vvals p)).
Proof.
  intros e c p L A (FH & BH) (FL & BL) (HL & FP & SP). pose proof (vnear_exact L p FP SP) as N0.
  unfold rotate_point_without_mirror, heeling_rotation_matrix, leeway_rotation_matrix.
  destruct (near_srx e L _ _ p (vvals p) 0 A HL ltac:(lra) (near_angle_opp e _ FH BH) N0 SP) as [N1 S1].
  destruct (near_srz e L _ _ _ _ (1570 + 3 * 0) A HL ltac:(lra) (near_angle e _ FL BL) N1 S1) as [N2 _]. eapply vnear_within; [exact N2|]. apply u_12; lra.
Qed.
Lemma srz_z th v : vz (srz th v) = vz v. Proof. destruct v as [x y z]. unfold srz, ez. svec. ring. Qed.
(** turning back, for points that are clearly above or below the water *)
Theorem C91_reverse : forall (e : elementary) (c : csys double) (p : vec double) (L : R),
  accurate e -> degrees (heel_deg c) -> degrees (leeway_deg c) -> reach L p -> 1 / 1000000000000 * L < Rabs (val (vz p)) ->
  within (1 / 1000000000000 * L) (@reverse_rotations_with_mirror _ (Double e) c p)
    (srot (V3 1 0 0) (rad (if Rlt_dec 0 (val (vz p)) then val (heel_deg c) else - val (heel_deg c))) (srot (V3 0 0 1) (- rad (val (leeway_deg c))) (vvals p))).
Proof.
  intros e c p L A (FH & BH) (FL & BL) (HL & FP & SP) AZ. pose proof (vnear_exact L p FP SP) as N0. destruct (zero_one e) as [[F0 V0] _].
  unfold reverse_rotations_with_mirror, heeling_rotation_matrix, reverse_heeling_rotation_matrix, reverse_leeway_rotation_matrix.
  destruct (near_srz e L _ _ p (vvals p) 0 A HL ltac:(lra) (near_angle_opp e _ FL BL) N0 SP) as [N1 S1].
  set (q := @mapply _ (Double e) (@rotation_matrix _ (Double e) _ _) p) in *.
  assert (ZQ : vz (srz (- rad (val (leeway_deg c))) (vvals p)) = val (vz p)) by (rewrite srz_z; reflexivity).
  assert (FQ : fin (vz q)) by (destruct N1 as (_ & _ & (F & _)); exact F).
  assert (T : @nltb _ (Double e) (@nZ _ (Double e) 0) (vz q) = true <-> 0 < val (vz p)).
  { rewrite (dltb e _ _ F0 FQ), V0. destruct N1 as (_ & _ & (_ & _ & E)). rewrite ZQ in E. pose proof (u_12 (1570 + 3 * 0) L ltac:(lra) ltac:(lra)) as U. apply (Rle_trans _ _ _ E) in U. apply abs_2 in U. revert AZ. unfold Rabs. destruct (Rcase_abs (val (vz p))); lra. }
  assert (R : forall th TH, near 8 th TH 4 -> within (1 / 1000000000000 * L) (@mapply _ (Double e) (@rotation_matrix _ (Double e) (V3 (@nZ _ (Double e) 1) (@nZ _ (Double e) 0) (@nZ _ (Double e) 0)) th) q) (srx TH (srz (- rad (val (leeway_deg c))) (vvals p)))).
  { intros th TH NT. destruct (near_srx e L th TH q _ (1570 + 3 * 0) A HL ltac:(lra) NT N1 S1) as [N2 _]. eapply vnear_within; [exact N2|]. apply u_12; lra. }
  destruct (Rlt_dec 0 (val (vz p))) as [Z|Z].
  - rewrite (proj2 T Z). apply R. apply near_angle; assumption.
  - destruct (@nltb _ (Double e) (@nZ _ (Double e) 0) (vz q)) eqn:Q; [exfalso; apply Z, T; reflexivity|]. rewrite rad_opp. apply R. apply near_angle_opp; assumption.
Qed.

(** ** A case: a sine and cosine that meet the accuracy, rounded down to a multiple of 2^-53 *)
Definition floor53 (x : R) : double := binary_normalize 53 1024 p53 e1024 mode_NE (Zfloor (x * 9007199254740992)) (-53) false.
Lemma floor53_ok x : Rabs x <= 1 -> fin (floor53 x) /\ Rabs (val (floor53 x) - x) <= u.
Proof.
  intros B. apply abs_2 in B. pose proof (Zfloor_lb (x * 9007199254740992)) as LB. pose proof (Zfloor_ub (x * 9007199254740992)) as UB. unfold floor53. set (z := Zfloor (x * 9007199254740992)) in *.
  assert (Z1 : (Z.abs z <= 2 ^ 53)%Z). { apply Z.abs_le. split; apply le_IZR; rewrite ?opp_IZR; change (IZR (2 ^ 53)) with 9007199254740992; [|lra]. assert (- (2 ^ 53) - 1 < z)%Z by (apply lt_IZR; rewrite minus_IZR, opp_IZR; change (IZR (2 ^ 53)) with 9007199254740992; lra). assert (W : (- (2 ^ 53) <= z)%Z) by lia. apply IZR_le in W. rewrite opp_IZR in W. exact W. }
  pose proof (binary_normalize_correct 53 1024 p53 e1024 mode_NE z (-53) false) as C. cbv zeta in C.
  assert (V : F2R (Float radix2 z (-53)) = IZR z / 9007199254740992) by (unfold F2R; cbn [Fnum Fexp]; change (bpow radix2 (-53)) with (/ 9007199254740992); reflexivity).
  assert (G : generic_format radix2 (FLT_exp (-1074) 53) (F2R (Float radix2 z (-53)))).
  { destruct (Z.eq_dec (Z.abs z) (2 ^ 53)) as [Q|Q].
    - assert (P : generic_format radix2 (FLT_exp (-1074) 53) 1) by (change 1 with (bpow radix2 0); apply generic_format_bpow; unfold FLT_exp; lia).
      destruct (Z.abs_eq_or_opp z) as [W|W]; rewrite W in Q.
      + rewrite V, Q. change (IZR (2 ^ 53)) with 9007199254740992. replace (9007199254740992 / 9007199254740992) with 1 by lra. exact P.
      + assert (z = (- 2 ^ 53)%Z) by lia. rewrite V, H, opp_IZR. change (IZR (2 ^ 53)) with 9007199254740992. replace (- (9007199254740992) / 9007199254740992) with (- (1)) by lra. apply generic_format_opp, P.
    - apply generic_format_FLT. apply (FLT_spec radix2 (-1074) 53 _ (Float radix2 z (-53))); [reflexivity|cbn [Fnum]; change (radix2 ^ 53)%Z with (2 ^ 53)%Z; lia|cbn [Fexp]; lia]. }
  change (SpecFloat.fexp 53 1024) with (FLT_exp (-1074) 53) in C. rewrite round_generic in C by (try apply valid_rnd_N; exact G). rewrite V in C.
  rewrite Rlt_bool_true in C.
  - destruct C as (C1 & C2 & _). split; [exact C2|]. rewrite C1, u_val. apply Rabs_le. split; lra.
  - apply Rle_lt_trans with 1; [apply Rabs_le; assert (W : IZR (Z.abs z) <= 9007199254740992) by (apply (IZR_le _ (2 ^ 53)); exact Z1); rewrite abs_IZR in W; apply abs_2 in W; lra|]. change 1 with (bpow radix2 0). apply bpow_lt. lia.
Qed.
Definition ideal : elementary := Elementary (fun x => floor53 (sin (val x))) (fun x => floor53 (cos (val x))) (fun x => x) (fun x => x) (fun x => x) (fun x _ => x) (fun x => x) (fun x _ => x).
Lemma ideal_accurate : accurate ideal.
Proof.
  intros x F B. cbn [ideal e_sin e_cos]. destruct (floor53_ok (sin (val x))) as [F1 E1]; [apply Rabs_le, SIN_bound|]. destruct (floor53_ok (cos (val x))) as [F2 E2]; [apply Rabs_le, COS_bound|]. pose proof u_pos. repeat split; try assumption; lra.
Qed.
Definition dv (x y z : Z) : vec double := V3 (dZ x) (dZ y) (dZ z).
Lemma dv_val x y z : (Z.abs x <= 1000)%Z -> (Z.abs y <= 1000)%Z -> (Z.abs z <= 1000)%Z -> vfin (dv x y z) /\ vvals (dv x y z) = V3 (IZR x) (IZR y) (IZR z).
Proof.
  intros X Y Z. destruct (dint ideal x ltac:(lia)) as [F1 V1]. destruct (dint ideal y ltac:(lia)) as [F2 V2]. destruct (dint ideal z ltac:(lia)) as [F3 V3]. cbn [nZ Double] in *. unfold vfin, vvals, dv. cbn [vx vy vz]. rewrite V1, V2, V3. repeat split; assumption.
Qed.
Definition case_csys : csys double := Csys (dZ 30) (dZ 5) (dv 0 0 0).
Lemma case_deg z : (Z.abs z <= 360)%Z -> degrees (dZ z).
Proof. intros Z. destruct (dint ideal z ltac:(lia)) as [F V]. cbn [nZ Double] in *. split; [exact F|]. rewrite V, <- abs_IZR. apply (IZR_le _ 360), Z. Qed.
(** the masthead 12 m above the water and its mirror image, 30 degrees of heel and 5 degrees of leeway *)
Example C91_case : let top := dv 1 (-2) 12 in let image := dv 1 (-2) (-12) in
  accurate ideal /\ degrees (heel_deg case_csys) /\ degrees (leeway_deg case_csys) /\ reach 13 top /\ reach 13 image /\
  within (13 / 1000000000000) (@rotate_point_with_mirror _ (Double ideal) case_csys top) (sheel 30 5 (V3 1 (-2) 12)) /\
  within (13 / 1000000000000) (@rotate_point_with_mirror _ (Double ideal) case_csys image) (sheel (-30) 5 (V3 1 (-2) (-12))) /\
  within (13 / 1000000000000) (@reverse_rotations_with_mirror _ (Double ideal) case_csys top) (srot (V3 1 0 0) (rad 30) (srot (V3 0 0 1) (- rad 5) (V3 1 (-2) 12))) /\
  within (26 / 10000000000000) (@mapply _ (Double ideal) (@rotation_matrix _ (Double ideal) (dv 1 2 2) (dZ 2)) top) (srot (sunit (V3 1 2 2)) 2 (V3 1 (-2) 12)).
Proof.
  intros top image. assert (D1 : degrees (heel_deg case_csys)) by (apply case_deg; lia). assert (D2 : degrees (leeway_deg case_csys)) by (apply case_deg; lia).
  destruct (dv_val 1 (-2) 12 ltac:(lia) ltac:(lia) ltac:(lia)) as [F1 V1]. destruct (dv_val 1 (-2) (-12) ltac:(lia) ltac:(lia) ltac:(lia)) as [F2 V2]. destruct (dv_val 1 2 2 ltac:(lia) ltac:(lia) ltac:(lia)) as [F3 W3]. fold top in F1, V1. fold image in F2, V2.
  assert (S : forall s, 149 <= s <= 169 -> sqrt s <= 13) by (intros s H; replace 13 with (sqrt (13 * 13)) by (apply sqrt_square; lra); apply sqrt_le_1_alt; lra).
  assert (R1 : reach 13 top) by (split; [lra|]; split; [exact F1|]; rewrite V1; apply S; cbv [vx vy vz]; lra).
  assert (R2 : reach 13 image) by (split; [lra|]; split; [exact F2|]; rewrite V2; apply S; cbv [vx vy vz]; lra).
  assert (H30 : val (heel_deg case_csys) = 30) by (apply (dint ideal 30); lia). assert (H5 : val (leeway_deg case_csys) = 5) by (apply (dint ideal 5); lia).
  assert (Z1 : val (vz top) = 12) by (apply (dint ideal 12); lia). assert (Z2 : val (vz image) = -12) by (apply (dint ideal (-12)); lia).
  do 5 (split; [first [exact ideal_accurate|assumption]|]). split; [|split; [|split]].
  - pose proof (C91_rotate ideal case_csys top 13 ideal_accurate D1 D2 R1) as H. rewrite H30, H5, V1, Z1 in H. destruct (Rlt_dec 0 12); [|lra]. replace (13 / 1000000000000) with (1 / 1000000000000 * 13) by lra. exact H.
  - pose proof (C91_rotate ideal case_csys image 13 ideal_accurate D1 D2 R2) as H. rewrite H30, H5, V2, Z2 in H. destruct (Rlt_dec 0 (-12)); [lra|]. replace (13 / 1000000000000) with (1 / 1000000000000 * 13) by lra. exact H.
  - pose proof (C91_reverse ideal case_csys top 13 ideal_accurate D1 D2 R1) as H. rewrite H30, H5, V1, Z1 in H. destruct (Rlt_dec 0 12); [|lra]. replace (13 / 1000000000000) with (1 / 1000000000000 * 13) by lra. apply H. rewrite Rabs_pos_eq; lra.
  - assert (N3 : snorm (V3 1 2 2) = 3) by (unfold snorm; cbv [vx vy vz]; replace (1 ^ 2 + 2 ^ 2 + 2 ^ 2) with (3 * 3) by ring; apply sqrt_square; lra).
    assert (T2 : val (dZ 2) = 2) by (apply (dint ideal 2); lia). assert (FT : fin (dZ 2)) by (apply (dint ideal 2); lia).
    pose proof (C91_matrix ideal (dv 1 2 2) top (dZ 2) 13 ideal_accurate F3) as H. rewrite W3, N3, T2, V1 in H. replace (26 / 10000000000000) with (2 / 10000000000000 * 13) by lra. apply H; [apply sized_lit; lra|exact FT|rewrite Rabs_pos_eq; lra|exact R1].
Qed.
Print Assumptions C91_matrix. Print Assumptions C91_rotate. Print Assumptions C91_vector. Print Assumptions C91_reverse.
