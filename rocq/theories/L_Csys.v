(** Lemmas on the heel and leeway rotations. *)

From Coq Require Import ZArith Reals List Bool Lra Psatz.
From Verif Require Import Num PyBase RNum Spec M_Rotations M_Csys L_Rot.
Import ListNotations.
Open Scope R_scope.

Definition ex : vec R := V3 1 0 0.
Definition ez : vec R := V3 0 0 1.
Lemma sunit_ex : sunit ex = ex.
Proof.
  assert (snorm ex = 1) by (unfold snorm, ex; cbv [vx vy vz]; replace (1 ^ 2 + 0 ^ 2 + 0 ^ 2) with 1 by ring; apply sqrt_1).
  unfold sunit; rewrite H; unfold ex; svec; vec_eq; field.
Qed.
Lemma sunit_ez : sunit ez = ez.
Proof.
  assert (snorm ez = 1) by (unfold snorm, ez; cbv [vx vy vz]; replace (0 ^ 2 + 0 ^ 2 + 1 ^ 2) with 1 by ring; apply sqrt_1).
  unfold sunit; rewrite H; unfold ez; svec; vec_eq; field.
Qed.
Lemma ex_nz : ex <> szero.
Proof. unfold ex, szero; intros E; injection E; lra. Qed.
Lemma ez_nz : ez <> szero.
Proof. unfold ez, szero; intros E; injection E; lra. Qed.

Lemma rot_x th v : mapply (rotation_matrix ex th) v
  = V3 (vx v) (vy v * cos th - vz v * sin th) (vy v * sin th + vz v * cos th).
Proof.
  rewrite rotation_matrix_spec, sunit_ex by apply ex_nz.
  destruct v; unfold ex; svec; vec_eq; ring.
Qed.
Lemma rot_z th v : mapply (rotation_matrix ez th) v
  = V3 (vx v * cos th - vy v * sin th) (vx v * sin th + vy v * cos th) (vz v).
Proof.
  rewrite rotation_matrix_spec, sunit_ez by apply ez_nz.
  destruct v; unfold ez; svec; vec_eq; ring.
Qed.

Definition heel_a (c : csys R) := rad (heel_deg c).
Definition leeway_a (c : csys R) := rad (leeway_deg c).
Lemma deg2rad_opp x : deg2rad (nopp x) = - rad x.
Proof. unfold deg2rad, rad; rnum; ring. Qed.
Lemma deg2rad_s (x : R) : deg2rad x = rad x.
Proof. reflexivity. Qed.
Lemma rad_opp x : rad (- x) = - rad x.
Proof. unfold rad; ring. Qed.

Lemma heel_apply c v : mapply (heeling_rotation_matrix c) v =
  V3 (vx v) (vy v * cos (heel_a c) + vz v * sin (heel_a c)) (- vy v * sin (heel_a c) + vz v * cos (heel_a c)).
Proof.
  unfold heeling_rotation_matrix. rewrite deg2rad_opp. change (V3 (nZ 1) (nZ 0) (nZ 0)) with ex.
  rewrite rot_x, cos_neg, sin_neg. unfold heel_a; vec_eq; ring.
Qed.
Lemma rheel_apply c v : mapply (reverse_heeling_rotation_matrix c) v =
  V3 (vx v) (vy v * cos (heel_a c) - vz v * sin (heel_a c)) (vy v * sin (heel_a c) + vz v * cos (heel_a c)).
Proof.
  unfold reverse_heeling_rotation_matrix. rewrite deg2rad_s. change (V3 (nZ 1) (nZ 0) (nZ 0)) with ex.
  rewrite rot_x. reflexivity.
Qed.
Lemma leeway_apply c v : mapply (leeway_rotation_matrix c) v =
  V3 (vx v * cos (leeway_a c) - vy v * sin (leeway_a c)) (vx v * sin (leeway_a c) + vy v * cos (leeway_a c)) (vz v).
Proof.
  unfold leeway_rotation_matrix. rewrite deg2rad_s. change (V3 (nZ 0) (nZ 0) (nZ 1)) with ez. apply rot_z.
Qed.
Lemma rleeway_apply c v : mapply (reverse_leeway_rotation_matrix c) v =
  V3 (vx v * cos (leeway_a c) + vy v * sin (leeway_a c)) (- vx v * sin (leeway_a c) + vy v * cos (leeway_a c)) (vz v).
Proof.
  unfold reverse_leeway_rotation_matrix. rewrite deg2rad_opp. change (V3 (nZ 0) (nZ 0) (nZ 1)) with ez.
  rewrite rot_z, cos_neg, sin_neg. unfold leeway_a; vec_eq; ring.
Qed.

Lemma rotate_above c p : 0 < vz p -> rotate_point_with_mirror c p =
  mapply (leeway_rotation_matrix c) (mapply (heeling_rotation_matrix c) p).
Proof. intros H. unfold rotate_point_with_mirror. rnum. rcases; [reflexivity | lra]. Qed.
Lemma rotate_below c p : vz p <= 0 -> rotate_point_with_mirror c p =
  mapply (leeway_rotation_matrix c) (mapply (reverse_heeling_rotation_matrix c) p).
Proof. intros H. unfold rotate_point_with_mirror. rnum. rcases; [lra | reflexivity]. Qed.
Lemma reverse_above c p : 0 < vz p -> reverse_rotations_with_mirror c p =
  mapply (reverse_heeling_rotation_matrix c) (mapply (reverse_leeway_rotation_matrix c) p).
Proof.
  intros H. unfold reverse_rotations_with_mirror. rewrite rleeway_apply. rnum. cbv [vz] in *.
  rcases; [reflexivity | destruct p; simpl in *; lra].
Qed.
Lemma reverse_below c p : vz p <= 0 -> reverse_rotations_with_mirror c p =
  mapply (heeling_rotation_matrix c) (mapply (reverse_leeway_rotation_matrix c) p).
Proof.
  intros H. unfold reverse_rotations_with_mirror. rewrite rleeway_apply. rnum. cbv [vz] in *.
  rcases; [destruct p; simpl in *; lra | reflexivity].
Qed.

Lemma rot_matrix_is_rotation axis th : axis <> szero -> rotation_map (mapply (rotation_matrix axis th)).
Proof.
  intros H. pose proof (srot_is_rotation (sunit axis) th (sunit_dot _ H)) as [A S D C].
  constructor; intros; rewrite !rotation_matrix_spec by assumption; auto.
Qed.
Lemma heel_rm c : rotation_map (mapply (heeling_rotation_matrix c)).
Proof. apply rot_matrix_is_rotation, ex_nz. Qed.
Lemma rheel_rm c : rotation_map (mapply (reverse_heeling_rotation_matrix c)).
Proof. apply rot_matrix_is_rotation, ex_nz. Qed.
Lemma leeway_rm c : rotation_map (mapply (leeway_rotation_matrix c)).
Proof. apply rot_matrix_is_rotation, ez_nz. Qed.
Lemma rleeway_rm c : rotation_map (mapply (reverse_leeway_rotation_matrix c)).
Proof. apply rot_matrix_is_rotation, ez_nz. Qed.

Lemma rleeway_leeway c p : mapply (reverse_leeway_rotation_matrix c) (mapply (leeway_rotation_matrix c) p) = p.
Proof.
  rewrite leeway_apply, rleeway_apply. pose proof (sincos1 (leeway_a c)).
  destruct p as [x y z]; cbv [vx vy vz]. vec_eq; try nsz.
Qed.
Lemma rheel_heel c p : mapply (reverse_heeling_rotation_matrix c) (mapply (heeling_rotation_matrix c) p) = p.
Proof.
  rewrite heel_apply, rheel_apply. pose proof (sincos1 (heel_a c)).
  destruct p as [x y z]; cbv [vx vy vz]. vec_eq; try nsz.
Qed.
Lemma heel_rheel c p : mapply (heeling_rotation_matrix c) (mapply (reverse_heeling_rotation_matrix c) p) = p.
Proof.
  rewrite rheel_apply, heel_apply. pose proof (sincos1 (heel_a c)).
  destruct p as [x y z]; cbv [vx vy vz]. vec_eq; try nsz.
Qed.

Lemma rotate_reverse c p :
  (0 < vz p <-> 0 < vz (rotate_point_with_mirror c p)) ->
  reverse_rotations_with_mirror c (rotate_point_with_mirror c p) = p.
Proof.
  intros H. destruct (Rlt_dec 0 (vz p)) as [P|P].
  - rewrite reverse_above by tauto. rewrite rotate_above, rleeway_leeway, rheel_heel by assumption. reflexivity.
  - assert (vz p <= 0) by lra.
    rewrite reverse_below by (apply Rnot_lt_le; tauto).
    rewrite rotate_below, rleeway_leeway, heel_rheel by assumption. reflexivity.
Qed.

Lemma rotate_mirror c p : vz p <> 0 ->
  rotate_point_with_mirror c (smirror p) = smirror (rotate_point_with_mirror c p).
Proof.
  intros H. destruct (Rlt_dec 0 (vz p)) as [P|P].
  - rewrite (rotate_above c p) by assumption. rewrite (rotate_below c (smirror p)) by (simpl; lra).
    rewrite !leeway_apply, heel_apply, rheel_apply. unfold smirror; cbv [vx vy vz]. vec_eq; ring.
  - rewrite (rotate_below c p) by lra. rewrite (rotate_above c (smirror p)) by (simpl; lra).
    rewrite !leeway_apply, heel_apply, rheel_apply. unfold smirror; cbv [vx vy vz]. vec_eq; ring.
Qed.
Lemma rotate_mirror_plane c p : vz p = 0 ->
  (rotate_point_with_mirror c (smirror p) = smirror (rotate_point_with_mirror c p) <-> vy p * sin (heel_a c) = 0).
Proof.
  intros H. rewrite !rotate_below by (simpl; lra).
  rewrite !leeway_apply, !rheel_apply. destruct p as [x y z]; simpl in H; subst z.
  unfold smirror; cbv [vx vy vz]. split.
  - intros E; injection E; intros; lra.
  - intros E. vec_eq; try ring. replace (y * sin (heel_a c)) with 0 by lra. ring.
Qed.

Lemma rotate_norm c p : snorm (rotate_point_with_mirror c p) = snorm p.
Proof.
  destruct (Rlt_dec 0 (vz p)); [rewrite rotate_above by assumption | rewrite rotate_below by lra];
  rewrite (rm_norm _ _ (leeway_rm c));
  [rewrite (rm_norm _ _ (heel_rm c)) | rewrite (rm_norm _ _ (rheel_rm c))]; reflexivity.
Qed.
Lemma rotate_dist c p q : (0 < vz p <-> 0 < vz q) ->
  sdist (rotate_point_with_mirror c p) (rotate_point_with_mirror c q) = sdist p q.
Proof.
  intros H. unfold sdist. destruct (Rlt_dec 0 (vz p)).
  - rewrite !rotate_above by tauto.
    rewrite <- (rm_sub _ _ _ (leeway_rm c)), <- (rm_sub _ _ _ (heel_rm c)).
    rewrite (rm_norm _ _ (leeway_rm c)), (rm_norm _ _ (heel_rm c)). reflexivity.
  - rewrite !rotate_below by (apply Rnot_lt_le; tauto).
    rewrite <- (rm_sub _ _ _ (leeway_rm c)), <- (rm_sub _ _ _ (rheel_rm c)).
    rewrite (rm_norm _ _ (leeway_rm c)), (rm_norm _ _ (rheel_rm c)). reflexivity.
Qed.
Lemma rotate_nomirror_dist c p q :
  sdist (rotate_point_without_mirror c p) (rotate_point_without_mirror c q) = sdist p q.
Proof.
  unfold sdist, rotate_point_without_mirror.
  rewrite <- (rm_sub _ _ _ (leeway_rm c)), <- (rm_sub _ _ _ (heel_rm c)).
  rewrite (rm_norm _ _ (leeway_rm c)), (rm_norm _ _ (heel_rm c)). reflexivity.
Qed.
Lemma rad_0 : rad 0 = 0. Proof. unfold rad; ring. Qed.
Lemma rotate_zero r p : rotate_point_with_mirror (Csys 0 0 r) p = p.
Proof.
  destruct (Rlt_dec 0 (vz p)); [rewrite rotate_above by assumption | rewrite rotate_below by lra];
  rewrite leeway_apply, ?heel_apply, ?rheel_apply; unfold heel_a, leeway_a; simpl heel_deg; simpl leeway_deg;
  rewrite rad_0, cos_0, sin_0; destruct p as [x y z]; cbv [vx vy vz]; vec_eq; ring.
Qed.

(** ** The centreline transformation *)
Lemma centreline_image c : rotate_point_with_mirror c (V3 1 0 0) = V3 (cos (leeway_a c)) (sin (leeway_a c)) 0.
Proof.
  rewrite rotate_below by (simpl; lra). rewrite leeway_apply, rheel_apply. cbv [vx vy vz]. vec_eq; ring.
Qed.
Lemma to_centreline c v : from_xyz_to_centerline_csys c [v] =
  [V3 (vx v * cos (leeway_a c) - vy v * sin (leeway_a c)) (vx v * sin (leeway_a c) + vy v * cos (leeway_a c)) (vz v)].
Proof. unfold from_xyz_to_centerline_csys; simpl map. rewrite leeway_apply. reflexivity. Qed.
Lemma centreline_ok_iff c :
  from_xyz_to_centerline_csys c [rotate_point_with_mirror c (V3 1 0 0)] = [V3 1 0 0]
  <-> exists k : Z, leeway_deg c = 180 * IZR k.
Proof.
  rewrite centreline_image, to_centreline. cbv [vx vy vz].
  pose proof (sincos1 (leeway_a c)) as S. pose proof PI_RGT_0. split.
  - intros E. assert (Q : sin (leeway_a c) = 0).
    { injection E; intros. nra. }
    apply sin_eq_0_0 in Q. destruct Q as [k K]. exists k. unfold leeway_a, rad in K.
    apply (Rmult_eq_reg_r (PI / 180)); [rewrite K; field | lra].
  - intros [k K]. assert (Q : sin (leeway_a c) = 0).
    { unfold leeway_a, rad. rewrite K. replace (180 * IZR k * (PI / 180)) with (IZR k * PI) by field.
      apply sin_eq_0_1. exists k; reflexivity. }
    rewrite Q in *. f_equal. vec_eq; nra.
Qed.
