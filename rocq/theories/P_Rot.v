(** Properties C01 - C07: rotations, heel and leeway. *)

From Coq Require Import ZArith Reals List Bool Lra Psatz.
From Verif Require Import Num PyBase RNum Spec M_Rotations M_Csys L_Rot L_Csys.
Import ListNotations.
Open Scope R_scope.

(** ** C01 *)
Theorem C01_rotation_matrix : forall (axis : vec R) (th : R), axis <> szero ->
  (forall v, mapply (rotation_matrix axis th) v = srot (sunit axis) th v) /\
  rotation_map (mapply (rotation_matrix axis th)) /\
  (forall v, snorm (mapply (rotation_matrix axis th) v) = snorm v) /\
  mapply (rotation_matrix axis th) axis = axis.
Proof.
  intros axis th H. repeat split; intros.
  - apply rotation_matrix_spec; assumption.
  - apply rot_matrix_is_rotation; assumption.
  - apply rot_matrix_is_rotation; assumption.
  - apply rot_matrix_is_rotation; assumption.
  - apply rot_matrix_is_rotation; assumption.
  - apply rm_norm, rot_matrix_is_rotation; assumption.
  - rewrite rotation_matrix_spec by assumption.
    pose proof (sunit_dot axis H) as U. pose proof (snorm_pos axis H).
    assert (E : axis = sscale (snorm axis) (sunit axis)).
    { unfold sunit. destruct axis as [x y z]; svec; vec_eq; field; lra. }
    rewrite E at 2. rewrite srot_scale.
    replace (srot (sunit axis) th (sunit axis)) with (sunit axis); [symmetry; exact E|].
    symmetry; apply srot_axis, U.
Qed.
(* a quarter turn about z (given with length 2) sends x to y, y to -x; right-handed *)
Example C01_case : V3 0 0 2 <> szero /\
  mapply (rotation_matrix (V3 0 0 2) (PI / 2)) (V3 1 0 5) = V3 0 1 5.
Proof.
  assert (N : V3 0 0 2 <> szero) by (unfold szero; intros E; injection E; lra).
  split; [exact N|]. rewrite rotation_matrix_spec by exact N.
  assert (snorm (V3 0 0 2) = 2).
  { unfold snorm; cbv [vx vy vz]. replace (0 ^ 2 + 0 ^ 2 + 2 ^ 2) with (2 * 2) by ring. apply sqrt_square; lra. }
  unfold sunit; rewrite H. unfold srot. rewrite cos_PI2, sin_PI2. svec; vec_eq; field.
Qed.
Print Assumptions C01_rotation_matrix.

(** ** C02 *)
Theorem C02_rotations_compose : forall (axis : vec R) (s t : R) (v : vec R), axis <> szero ->
  mapply (rotation_matrix axis s) (mapply (rotation_matrix axis t) v) = mapply (rotation_matrix axis (s + t)) v /\
  mapply (rotation_matrix axis (- t)) (mapply (rotation_matrix axis t) v) = v /\
  mapply (rotation_matrix axis 0) v = v.
Proof.
  intros axis s t v H. rewrite !rotation_matrix_spec by assumption.
  pose proof (sunit_dot axis H). repeat split.
  - apply srot_compose; assumption. - apply srot_inverse; assumption. - apply srot_0.
Qed.
Example C02_case : V3 1 2 3 <> szero /\ mapply (rotation_matrix (V3 1 2 3) (1 + 2)) (V3 1 0 0) =
  mapply (rotation_matrix (V3 1 2 3) 1) (mapply (rotation_matrix (V3 1 2 3) 2) (V3 1 0 0)).
Proof.
  assert (N : V3 1 2 3 <> szero) by (unfold szero; intros E; injection E; lra).
  split; [exact N|]. exact (eq_sym (proj1 (C02_rotations_compose _ 1 2 (V3 1 0 0) N))).
Qed.
Print Assumptions C02_rotations_compose.

(** ** C03 *)
Theorem C03_rotation_about_line : forall (ps : list (vec R)) (p1 p2 : vec R) (th : R),
  vy p1 <> vy p2 \/ vz p1 <> vz p2 ->
  let rot := fun p => nth 0 (rotate_points_around_arbitrary_axis [p] p1 p2 th) szero in
  rotate_points_around_arbitrary_axis ps p1 p2 th = map (srot_line p1 p2 th) ps /\
  length (rotate_points_around_arbitrary_axis ps p1 p2 th) = length ps /\
  (forall k, rot (sadd p1 (sscale k (ssub p2 p1))) = sadd p1 (sscale k (ssub p2 p1))) /\
  (forall p q, sdist (rot p) (rot q) = sdist p q).
Proof.
  intros ps p1 p2 th H rot.
  assert (R0 : forall p, rot p = srot_line p1 p2 th p) by (intros p; apply (rotate_point_spec p1 p2 th p H)).
  assert (N : ssub p2 p1 <> szero).
  { destruct p1 as [x1 y1 z1], p2 as [x2 y2 z2]; svec; intros E; injection E; intros;
    destruct H as [H|H]; apply H; lra. }
  pose proof (sunit_dot _ N) as U. pose proof (snorm_pos _ N) as L.
  repeat split.
  - rewrite ?rotate_points_map. apply map_ext. intros p. apply rotate_point_spec; assumption.
  - rewrite ?rotate_points_map. apply map_length.
  - intros k. rewrite R0. unfold srot_line. f_equal.
    replace (ssub (sadd p1 (sscale k (ssub p2 p1))) p1) with (sscale k (ssub p2 p1)) by vring.
    assert (E : ssub p2 p1 = sscale (snorm (ssub p2 p1)) (sunit (ssub p2 p1))).
    { unfold sunit. destruct (ssub p2 p1) as [x y z]; svec; vec_eq; field; lra. }
    rewrite E at 2 3. rewrite !srot_scale. do 2 f_equal.
    apply srot_axis, U.
  - intros p q. rewrite !R0. unfold sdist, srot_line.
    replace (ssub (sadd p1 (srot (sunit (ssub p2 p1)) th (ssub p p1)))
                  (sadd p1 (srot (sunit (ssub p2 p1)) th (ssub q p1))))
      with (srot (sunit (ssub p2 p1)) th (ssub p q)).
    + apply rm_norm, srot_is_rotation, U.
    + generalize (sunit (ssub p2 p1)); intros u. vring.
Qed.
(* a vertical mast through (1,1,0): a half turn sends (2,1,7) to (0,1,7) *)
Example C03_case : (vy (V3 1 1 0) <> vy (V3 1 1 10) \/ vz (V3 1 1 0) <> vz (V3 1 1 10)) /\
  rotate_points_around_arbitrary_axis [V3 2 1 7] (V3 1 1 0) (V3 1 1 10) PI = [V3 0 1 7].
Proof.
  assert (N : vy (V3 1 1 0) <> vy (V3 1 1 10) \/ vz (V3 1 1 0) <> vz (V3 1 1 10)) by (right; simpl; lra).
  split; [exact N|].
  rewrite (proj1 (C03_rotation_about_line [V3 2 1 7] _ _ PI N)). simpl map. f_equal.
  unfold srot_line. replace (ssub (V3 1 1 10) (V3 1 1 0)) with (V3 0 0 10) by (svec; vec_eq; ring).
  assert (snorm (V3 0 0 10) = 10).
  { unfold snorm; cbv [vx vy vz]. replace (0 ^ 2 + 0 ^ 2 + 10 ^ 2) with (10 * 10) by ring. apply sqrt_square; lra. }
  unfold sunit; rewrite H. unfold srot. rewrite cos_PI, sin_PI. svec; vec_eq; field.
Qed.
Print Assumptions C03_rotation_about_line.

(** ** C04 *)
Theorem C04_reverse_undoes_rotation : forall (c : csys R) (p : vec R),
  (0 < vz p <-> 0 < vz (rotate_point_with_mirror c p)) ->
  reverse_rotations_with_mirror c (rotate_point_with_mirror c p) = p.
Proof. exact rotate_reverse. Qed.
Print Assumptions C04_reverse_undoes_rotation.

Lemma rad_30 : rad 30 = PI / 6. Proof. unfold rad; field. Qed.
(* a masthead at 30 degrees of heel *)
Example C04_case : let c := Csys 30 5 szero in
  (0 < vz (V3 1 2 15) <-> 0 < vz (rotate_point_with_mirror c (V3 1 2 15))) /\
  rotate_point_with_mirror c (V3 1 2 15) <> V3 1 2 15.
Proof.
  intros c. assert (Z : vz (rotate_point_with_mirror c (V3 1 2 15)) = -1 + 15 * (sqrt 3 / 2)).
  { rewrite rotate_above by (simpl; lra). rewrite leeway_apply, heel_apply. unfold heel_a; simpl heel_deg.
    rewrite rad_30, cos_PI6, sin_PI6. cbv [vx vy vz]. field. }
  assert (1 < sqrt 3 < 1.9).
  { split; [rewrite <- sqrt_1 at 1; apply sqrt_lt_1; lra|].
    apply Rsqr_incrst_0; [rewrite Rsqr_sqrt; unfold Rsqr; lra | apply sqrt_pos | lra]. }
  split.
  - rewrite Z; simpl; lra.
  - intros E. rewrite E in Z. simpl in Z. lra.
Qed.
(** The unrestricted claim fails: a point low down and far to leeward is carried through the water plane. *)
Theorem C04_reverse_undoes_rotation_refuted :
  exists (c : csys R) (p : vec R), 0 < vz p /\ 0 < heel_deg c < 90 /\
    reverse_rotations_with_mirror c (rotate_point_with_mirror c p) <> p.
Proof.
  exists (Csys 30 0 szero), (V3 0 10 1). split; [simpl; lra|]. split; [simpl; lra|].
  assert (Q : sqrt 3 * sqrt 3 = 3) by (apply sqrt_sqrt; lra).
  assert (B : 1 < sqrt 3 < 1.9).
  { split; [rewrite <- sqrt_1 at 1; apply sqrt_lt_1; lra|].
    apply Rsqr_incrst_0; [rewrite Rsqr_sqrt; unfold Rsqr; lra | apply sqrt_pos | lra]. }
  set (c := Csys 30 0 szero).
  assert (E : rotate_point_with_mirror c (V3 0 10 1) =
    mapply (leeway_rotation_matrix c) (V3 0 (10 * (sqrt 3 / 2) + 1/2) (-5 + sqrt 3 / 2))).
  { rewrite rotate_above by (simpl; lra). f_equal. rewrite heel_apply. unfold heel_a; simpl heel_deg.
    rewrite rad_30, cos_PI6, sin_PI6. cbv [vx vy vz]. vec_eq; field. }
  rewrite reverse_below; [|rewrite E, leeway_apply; simpl; lra].
  rewrite E, rleeway_leeway, heel_apply. unfold heel_a; simpl heel_deg.
  rewrite rad_30, cos_PI6, sin_PI6. cbv [vx vy vz]. intros X; injection X; intros; nra.
Qed.
Print Assumptions C04_reverse_undoes_rotation_refuted.

(** ** C05 *)
Theorem C05_mirror_image : forall (c : csys R) (p : vec R), vz p <> 0 ->
  rotate_point_with_mirror c (smirror p) = smirror (rotate_point_with_mirror c p).
Proof. exact rotate_mirror. Qed.
(** On the water plane: exactly when the point is on the x axis or the heel is trivial. *)
Theorem C05_mirror_image_on_plane : forall (c : csys R) (p : vec R), vz p = 0 ->
  (rotate_point_with_mirror c (smirror p) = smirror (rotate_point_with_mirror c p)
   <-> vy p = 0 \/ sin (rad (heel_deg c)) = 0).
Proof.
  intros c p H. rewrite rotate_mirror_plane by assumption. unfold heel_a.
  split; [apply Rmult_integral | intros [E|E]; rewrite E; ring].
Qed.
Theorem C05_mirror_image_refuted : exists (c : csys R) (p : vec R),
  rotate_point_with_mirror c (smirror p) <> smirror (rotate_point_with_mirror c p).
Proof.
  exists (Csys 30 0 szero), (V3 0 1 0). intros E.
  apply C05_mirror_image_on_plane in E; [|reflexivity]. simpl in E. rewrite rad_30, sin_PI6 in E. lra.
Qed.
Example C05_case : vz (V3 1 2 15) <> 0.
Proof. simpl; lra. Qed.
Print Assumptions C05_mirror_image.
Print Assumptions C05_mirror_image_on_plane.
Print Assumptions C05_mirror_image_refuted.

(** ** C06 *)
Theorem C06_rigid : forall (c : csys R),
  (forall p, snorm (rotate_point_with_mirror c p) = snorm p) /\
  (forall p q, (0 < vz p <-> 0 < vz q) ->
     sdist (rotate_point_with_mirror c p) (rotate_point_with_mirror c q) = sdist p q) /\
  (forall p, heel_deg c = 0 -> leeway_deg c = 0 -> rotate_point_with_mirror c p = p) /\
  (forall p q, sdist (rotate_point_without_mirror c p) (rotate_point_without_mirror c q) = sdist p q).
Proof.
  intros c. repeat split; intros.
  - apply rotate_norm. - apply rotate_dist; assumption.
  - destruct c as [h l r]; simpl in *; subst; apply rotate_zero.
  - apply rotate_nomirror_dist.
Qed.
Example C06_case : (0 < vz (V3 1 2 15) <-> 0 < vz (V3 1 0 2)) /\
  rotate_point_with_mirror (Csys 30 0 szero) (V3 0 0 2) = V3 0 1 (sqrt 3).
Proof.
  split; [simpl; lra|]. rewrite rotate_above by (simpl; lra). rewrite leeway_apply, heel_apply.
  unfold heel_a, leeway_a; simpl heel_deg; simpl leeway_deg. rewrite rad_0, rad_30, cos_PI6, sin_PI6, cos_0, sin_0.
  cbv [vx vy vz]; vec_eq; field.
Qed.
Print Assumptions C06_rigid.

(** ** C07: what holds of the transformation to "centreline" axes *)
Theorem C07_centreline : forall (c : csys R) (a b : vec R) (r th z : R),
  let f := fun v => nth 0 (from_xyz_to_centerline_csys c [v]) szero in
  snorm (f a) = snorm a /\ sdot (f a) (f b) = sdot a b /\ vz (f a) = vz a /\
  (* the angle grows by the leeway; the documentation and AWA_COW subtract it *)
  f (V3 (r * cos th) (r * sin th) z) =
    V3 (r * cos (th + rad (leeway_deg c))) (r * sin (th + rad (leeway_deg c))) z /\
  (* the centreline direction becomes the x axis only for multiples of 180 degrees *)
  (f (rotate_point_with_mirror c (V3 1 0 0)) = V3 1 0 0 <-> exists k : Z, leeway_deg c = 180 * IZR k).
Proof.
  intros c a b r th z f.
  assert (F : forall v, f v = mapply (leeway_rotation_matrix c) v) by reflexivity.
  repeat split.
  - rewrite F. apply rm_norm, leeway_rm.
  - rewrite !F. apply (rm_dot _ (leeway_rm c)).
  - rewrite F, leeway_apply. reflexivity.
  - rewrite F, leeway_apply, cos_plus, sin_plus. cbv [vx vy vz]. unfold leeway_a. vec_eq; ring.
  - intros E. apply centreline_ok_iff. rewrite <- E at 2. reflexivity.
  - intros E. apply centreline_ok_iff in E. unfold f. rewrite E. reflexivity.
Qed.
(** The documented meaning fails for every leeway that is not a multiple of 180 degrees, e.g. 5 degrees. *)
Theorem C07_centreline_refuted : exists c : csys R, leeway_deg c = 5 /\
  from_xyz_to_centerline_csys c [rotate_point_with_mirror c (V3 1 0 0)] <> [V3 1 0 0].
Proof.
  exists (Csys 0 5 szero). split; [reflexivity|]. intros E. apply centreline_ok_iff in E.
  destruct E as [k K]. simpl in K.
  replace 5 with (IZR 5) in K by reflexivity. replace 180 with (IZR 180) in K by reflexivity.
  rewrite <- mult_IZR in K. apply eq_IZR in K. Lia.lia.
Qed.
(** a yacht with 5 degrees of leeway: the centreline direction ends up at 10 degrees *)
Example C07_case : let c := Csys 20 5 szero in
  from_xyz_to_centerline_csys c [rotate_point_with_mirror c (V3 1 0 0)] = [V3 (cos (rad 10)) (sin (rad 10)) 0].
Proof.
  intros c. destruct (C07_centreline c szero szero 1 (rad 5) 0) as (_ & _ & _ & A & _).
  assert (E : rotate_point_with_mirror c (V3 1 0 0) = V3 (1 * cos (rad 5)) (1 * sin (rad 5)) 0).
  { rewrite rotate_below by (simpl; lra). rewrite leeway_apply, rheel_apply. unfold leeway_a, heel_a, c. cbn [vx vy vz leeway_deg heel_deg]. vec_eq; ring. }
  rewrite E. cbn [from_xyz_to_centerline_csys map nth] in A |- *. rewrite A. unfold c at 1 2. cbn [leeway_deg]. replace (rad 5 + rad 5) with (rad 10) by (unfold rad; field). f_equal. vec_eq; ring.
Qed.
Print Assumptions C07_centreline.
Print Assumptions C07_centreline_refuted.
