(** Property C69: rotation about an axis through the origin, and its agreement with the other two rotation functions. *)

From Coq Require Import ZArith Reals List Bool Lra Psatz Nsatz.
From Verif Require Import Num PyBase RNum CNum Spec M_Rotations M_Csys L_Rot L_Csys L_LiftGeo.
Import ListNotations.
Open Scope R_scope.

Lemma from_rotvec_spec u th v : sdot u u = 1 -> mapply (from_rotvec (sscale th u)) v = srot u th v.
Proof.
  intros U. unfold from_rotvec. rewrite vnorm_s, snorm_scale.
  assert (N1 : snorm u = 1) by (rewrite snorm_sqrt, U; apply sqrt_1).
  rewrite N1, Rmult_1_r.
  set (k := if (Rabs th =? nZ 0)%N_ then ndec 5 1 else (nsin (Rabs th / nZ 2) / Rabs th)%N_).
  assert (K : k * th = sin (th / 2)).
  { unfold k. rnum. destruct (Reqb (Rabs th) 0) eqn:E.
    - apply Reqb_true in E. assert (th = 0) by (destruct (Req_dec th 0); [assumption|]; apply Rabs_no_R0 in H; contradiction).
      subst. replace (0 / 2) with 0 by field. rewrite sin_0. ring.
    - apply Reqb_false in E. assert (th <> 0) by (intros ->; apply E, Rabs_R0).
      destruct (Rle_dec 0 th).
      + rewrite Rabs_pos_eq by assumption. field. assumption.
      + rewrite Rabs_left by lra. replace (- th / 2) with (- (th / 2)) by field. rewrite sin_neg. field. assumption. }
  assert (W : cos (Rabs th / 2) = cos (th / 2)).
  { destruct (Rle_dec 0 th); [rewrite Rabs_pos_eq by assumption; reflexivity|].
    rewrite Rabs_left by lra. replace (- th / 2) with (- (th / 2)) by field. apply cos_neg. }
  clearbody k. change (Rabs th / nZ 2)%N_ with (Rabs th / 2).
  replace (ncos (Rabs th / 2)) with (cos (th / 2)) by (symmetry; exact W). clear W.
  destruct u as [a b c]. destruct v as [x y z].
  unfold srot. rewrite (half_cos th), (half_sin th).
  pose proof (sincos1 (th/2)) as S1.
  vnum; svec.
  replace (k * (th * a)) with (sin (th / 2) * a) by (rewrite <- K; ring).
  replace (k * (th * b)) with (sin (th / 2) * b) by (rewrite <- K; ring).
  replace (k * (th * c)) with (sin (th / 2) * c) by (rewrite <- K; ring).
  set (C := cos (th/2)) in *; set (D := sin (th/2)) in *; clearbody C D. clear K N1 k th.
  vec_eq; nsatz.
Qed.

(** ** C69.  The right-handed rotation by [th] about the axis; the same points come from
    [rotation_matrix], and from [rotate_points_around_arbitrary_axis] with two points of the axis. *)
Theorem C69_origin_axis : forall (ps : list (vec R)) (axis : vec R) (th : R), axis <> szero ->
  rotate_points_around_origin_axis ps axis th = map (srot (sunit axis) th) ps /\
  rotate_points_around_origin_axis ps axis th = map (mapply (rotation_matrix axis th)) ps /\
  (forall k, k > 0 -> rotate_points_around_origin_axis ps (sscale k axis) th = rotate_points_around_origin_axis ps axis th) /\
  rotate_points_around_origin_axis ps (sopp axis) th = rotate_points_around_origin_axis ps axis (- th) /\
  (vy axis <> 0 \/ vz axis <> 0 -> forall o, o = szero ->
     rotate_points_around_arbitrary_axis ps o axis th = rotate_points_around_origin_axis ps axis th).
Proof.
  assert (M : forall ps axis th, axis <> szero -> rotate_points_around_origin_axis ps axis th = map (srot (sunit axis) th) ps).
  { intros ps axis th N. unfold rotate_points_around_origin_axis. apply map_ext. intros p.
    rewrite vdivs_s, vnorm_s, vscale_s. apply from_rotvec_spec, sunit_dot, N. }
  assert (Z : forall k a, k <> 0 -> a <> szero -> sscale k a <> szero).
  { intros k [x y z] K N E. apply N. unfold szero in *. svec. injection E; intros.
    f_equal; eapply Rmult_eq_reg_l; try exact K; rewrite Rmult_0_r; assumption. }
  intros ps axis th N. pose proof (snorm_pos axis N) as P. repeat split.
  - apply M, N.
  - rewrite M by assumption. apply map_ext. intros p. symmetry. apply rotation_matrix_spec, N.
  - intros k K. rewrite !M; [| assumption | apply Z; [lra | assumption]]. apply map_ext. intros p. f_equal.
    unfold sunit. rewrite snorm_scale, Rabs_pos_eq by lra. destruct axis as [x y z]. svec. vec_eq; field; lra.
  - assert (Nm : sopp axis <> szero).
    { intros E. apply (Z (-1) axis); [lra | assumption|]. rewrite <- E. vring. }
    rewrite !M by assumption. apply map_ext. intros p.
    assert (E : sunit (sopp axis) = sopp (sunit axis)).
    { unfold sunit. rewrite snorm_opp. vring. }
    rewrite E. unfold srot. rewrite cos_neg, sin_neg. generalize (sunit axis); intros u. vring.
  - intros H o ->. rewrite M by assumption. rewrite rotate_points_map. apply map_ext. intros p.
    rewrite rotate_point_spec by (cbn [szero vx vy vz]; unfold szero; simpl; destruct H; [left|right]; apply not_eq_sym; assumption).
    unfold srot_line. replace (ssub axis szero) with axis by vring. replace (ssub p szero) with p by vring. vring.
Qed.
(** A quarter turn about the y axis, given with length 3, sends z to x. *)
Example C69_case : V3 0 3 0 <> szero /\
  rotate_points_around_origin_axis [V3 0 5 1; V3 1 0 0] (V3 0 3 0) (PI / 2) = [V3 1 5 0; V3 0 0 (-1)].
Proof.
  assert (N : V3 0 3 0 <> szero) by (unfold szero; intros E; injection E; lra).
  split; [exact N|]. rewrite (proj1 (C69_origin_axis _ _ (PI / 2) N)).
  assert (E : snorm (V3 0 3 0) = 3).
  { unfold snorm; cbv [vx vy vz]. replace (0 ^ 2 + 3 ^ 2 + 0 ^ 2) with (3 * 3) by ring. apply sqrt_square; lra. }
  simpl map. unfold sunit; rewrite E. unfold srot. rewrite cos_PI2, sin_PI2. svec.
  f_equal; [|f_equal]; vec_eq; field.
Qed.
Print Assumptions C69_origin_axis.

(** For a line parallel to the x axis the two functions do not agree: [rotate_points_around_arbitrary_axis]
    divides zero by zero and every coordinate is undefined, whatever the point and the angle. *)
Theorem C69_line_along_x : forall (ps : list (vec R)) (p1 p2 : vec R) (th : R),
  vy p1 = vy p2 -> vz p1 = vz p2 ->
  rotate_points_around_arbitrary_axis (map fin ps) (fin p1) (fin p2) (Some th) = map (fun _ => undef) ps.
Proof.
  intros ps p1 p2 th Hy Hz. assert (T : ~ turnable p1 p2) by (unfold turnable; lra).
  assert (U : forall q, undefined q -> q = undef) by (intros [x y z] (X & Y & Z); cbn [vx vy vz] in *; subst; reflexivity).
  unfold rotate_points_around_arbitrary_axis. destruct (_ <=? 4)%nat; rewrite map_map; apply map_ext; intros p; apply U; [apply arbitrary_undef|apply turning_undef]; exact T.
Qed.
(** Two points of a line along x; about the same axis the other function turns (1,1,0) to (1,0,1). *)
Example C69_x_case : vy (V3 0 0 0) = vy (V3 2 0 0) /\ vz (V3 0 0 0) = vz (V3 2 0 0) /\
  rotate_points_around_origin_axis (V3 1 1 0 :: nil) (V3 2 0 0) (PI / 2) = V3 1 0 1 :: nil.
Proof.
  split; [reflexivity|]. split; [reflexivity|].
  assert (N : V3 2 0 0 <> szero) by (unfold szero; intros E; injection E; lra).
  rewrite (proj1 (C69_origin_axis _ _ (PI / 2) N)).
  assert (E : snorm (V3 2 0 0) = 2).
  { unfold snorm; cbv [vx vy vz]. replace (2 ^ 2 + 0 ^ 2 + 0 ^ 2) with (2 * 2) by ring. apply sqrt_square; lra. }
  simpl map. unfold sunit; rewrite E. unfold srot. rewrite cos_PI2, sin_PI2. svec.
  f_equal; vec_eq; field.
Qed.
Print Assumptions C69_line_along_x.
