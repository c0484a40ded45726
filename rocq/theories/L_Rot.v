(** Lemmas on vectors of R^3 and rotations. *)

From Coq Require Import ZArith Reals List Bool Lra Psatz Nsatz.
From Verif Require Import Num PyBase RNum Spec M_Rotations M_Csys.
Import ListNotations.
Open Scope R_scope.

Ltac svec := cbv [sadd ssub sopp sscale szero sdot scross smirror srot srot_line vx vy vz] in *.
(* equality of two vectors, component by component *)
Ltac vec_eq := apply (f_equal3 (@V3 R)).
Ltac dv := repeat match goal with v : vec R |- _ => destruct v as [? ? ?] end.
(* [nsatz] without importing its notations *)
Ltac nsz := nsatz.
Ltac vring := intros; dv; svec; vnum; vec_eq; ring.

Lemma vec_ext (a b : vec R) : vx a = vx b -> vy a = vy b -> vz a = vz b -> a = b.
Proof. destruct a, b; simpl; intros; subst; reflexivity. Qed.

(** The model's vector operations at R are those of the specification. *)
Lemma vadd_s (a b : vec R) : vadd a b = sadd a b. Proof. reflexivity. Qed.
Lemma vsub_s (a b : vec R) : vsub a b = ssub a b. Proof. reflexivity. Qed.
Lemma vopp_s (a : vec R) : vopp a = sopp a. Proof. reflexivity. Qed.
Lemma vscale_s k (a : vec R) : vscale k a = sscale k a. Proof. reflexivity. Qed.
Lemma vdot_s (a b : vec R) : vdot a b = sdot a b. Proof. reflexivity. Qed.
Lemma vcross_s (a b : vec R) : vcross a b = scross a b. Proof. reflexivity. Qed.
Lemma v0_s : @v0 R RNum = szero. Proof. reflexivity. Qed.
Lemma vdivs_s (a : vec R) k : vdivs a k = sscale (/ k) a.
Proof. destruct a; unfold vdivs, sscale; rnum; simpl; f_equal; unfold Rdiv; ring. Qed.
Lemma vnorm_s (a : vec R) : vnorm a = snorm a.
Proof. destruct a; unfold vnorm, snorm; vnum; f_equal; simpl; ring. Qed.
Ltac tospec :=
  repeat match goal with
  | |- context [@vadd R ?i ?a ?b] => change (@vadd R i a b) with (sadd a b)
  | |- context [@vsub R ?i ?a ?b] => change (@vsub R i a b) with (ssub a b)
  | |- context [@vopp R ?i ?a] => change (@vopp R i a) with (sopp a)
  | |- context [@vscale R ?i ?k ?a] => change (@vscale R i k a) with (sscale k a)
  | |- context [@vdot R ?i ?a ?b] => change (@vdot R i a b) with (sdot a b)
  | |- context [@vcross R ?i ?a ?b] => change (@vcross R i a b) with (scross a b)
  | |- context [@v0 R ?i] => change (@v0 R i) with szero
  | |- context [@vdivs R ?i ?a ?k] => rewrite (vdivs_s a k)
  | |- context [@vnorm R ?i ?a] => rewrite (vnorm_s a)
  end.
(** ** Norms *)
Lemma sdot_self_nonneg (a : vec R) : 0 <= sdot a a.
Proof. destruct a; svec; nra. Qed.
Lemma snorm_sqrt (a : vec R) : snorm a = sqrt (sdot a a).
Proof. destruct a; unfold snorm; svec; f_equal; simpl; ring. Qed.
Lemma snorm_nonneg a : 0 <= snorm a.
Proof. unfold snorm; apply sqrt_pos. Qed.
Lemma snorm_sq a : snorm a * snorm a = sdot a a.
Proof. rewrite snorm_sqrt; apply sqrt_sqrt, sdot_self_nonneg. Qed.
Lemma sdot_zero (a : vec R) : sdot a a = 0 <-> a = szero.
Proof.
  split; intros H.
  - destruct a; svec. assert (vx = 0) by nra. assert (vy = 0) by nra. assert (vz = 0) by nra. subst; reflexivity.
  - subst; svec; ring.
Qed.
Lemma snorm_zero (a : vec R) : snorm a = 0 <-> a = szero.
Proof.
  rewrite <- sdot_zero, <- snorm_sq; split; intros H; [rewrite H; ring | nra].
Qed.
Lemma snorm_pos (a : vec R) : a <> szero -> 0 < snorm a.
Proof. intros H; pose proof (snorm_nonneg a); destruct (Req_dec (snorm a) 0) as [E|E]; [apply snorm_zero in E; contradiction | lra]. Qed.
Lemma snorm_scale k a : snorm (sscale k a) = Rabs k * snorm a.
Proof.
  rewrite !snorm_sqrt. replace (sdot (sscale k a) (sscale k a)) with (k² * sdot a a)
    by (destruct a; unfold Rsqr; svec; ring).
  rewrite sqrt_mult_alt by apply Rle_0_sqr. rewrite sqrt_Rsqr_abs; reflexivity.
Qed.
Lemma snorm_opp a : snorm (sopp a) = snorm a.
Proof. destruct a; unfold snorm; svec; f_equal; ring. Qed.
Lemma sunit_dot a : a <> szero -> sdot (sunit a) (sunit a) = 1.
Proof.
  intros H; pose proof (snorm_pos a H). unfold sunit.
  replace (sdot _ _) with (/ snorm a * / snorm a * sdot a a) by (destruct a; svec; ring).
  rewrite <- snorm_sq; field; lra.
Qed.
Lemma snorm_unit a : a <> szero -> snorm (sunit a) = 1.
Proof. intros H; rewrite snorm_sqrt, sunit_dot by assumption; apply sqrt_1. Qed.

(** ** Rodrigues rotation *)
Lemma sincos1 th : sin th * sin th + cos th * cos th = 1.
Proof. pose proof (sin2_cos2 th); unfold Rsqr in *; lra. Qed.

Lemma half_cos th : cos th = cos (th/2) * cos (th/2) - sin (th/2) * sin (th/2).
Proof. replace th with (2 * (th / 2)) at 1 by field. rewrite cos_2a; ring. Qed.
Lemma half_sin th : sin th = 2 * sin (th/2) * cos (th/2).
Proof. replace th with (2 * (th / 2)) at 1 by field. apply sin_2a. Qed.

Lemma rotation_matrix_spec axis th v :
  axis <> szero -> mapply (rotation_matrix axis th) v = srot (sunit axis) th v.
Proof.
  intros H. pose proof (sunit_dot axis H) as U.
  unfold rotation_matrix. rewrite vdivs_s.
  change (nsqrt (vdot axis axis)) with (vnorm axis). rewrite vnorm_s.
  fold (sunit axis). destruct (sunit axis) as [a b c]. destruct v as [x y z].
  unfold srot. rewrite (half_cos th), (half_sin th).
  change (th / nZ 2)%N_ with (th / 2).
  pose proof (sincos1 (th/2)) as S.
  vnum; svec. set (C := cos (th/2)) in *; set (D := sin (th/2)) in *; clearbody C D.
  vec_eq; nsatz.
Qed.

Lemma srot_dot u th a b : sdot u u = 1 -> sdot (srot u th a) (srot u th b) = sdot a b.
Proof.
  intros U. pose proof (sincos1 th). destruct u, a, b; svec.
  set (C := cos th) in *; set (D := sin th) in *; clearbody C D. nsatz.
Qed.
Lemma srot_cross u th a b : sdot u u = 1 -> scross (srot u th a) (srot u th b) = srot u th (scross a b).
Proof.
  intros U. pose proof (sincos1 th). destruct u, a, b; svec.
  set (C := cos th) in *; set (D := sin th) in *; clearbody C D. vec_eq; nsatz.
Qed.
Lemma srot_add u th a b : srot u th (sadd a b) = sadd (srot u th a) (srot u th b).
Proof. vring. Qed.
Lemma srot_scale u th k a : srot u th (sscale k a) = sscale k (srot u th a).
Proof. vring. Qed.
Lemma srot_is_rotation u th : sdot u u = 1 -> rotation_map (srot u th).
Proof.
  intros U; constructor; intros.
  - apply srot_add. - apply srot_scale. - apply srot_dot; assumption. - apply srot_cross; assumption.
Qed.
Lemma srot_compose u s t v : sdot u u = 1 -> srot u s (srot u t v) = srot u (s + t) v.
Proof.
  intros U. unfold srot at 3. rewrite cos_plus, sin_plus.
  destruct u, v; svec.
  set (C := cos s); set (D := sin s); set (C' := cos t); set (D' := sin t); clearbody C D C' D'.
  vec_eq; nsatz.
Qed.
Lemma srot_axis u th : sdot u u = 1 -> srot u th u = u.
Proof.
  intros U. destruct u as [x y z]. svec. generalize (cos th) (sin th); intros C D. vec_eq; nsatz.
Qed.
Lemma srot_0 u v : srot u 0 v = v.
Proof. unfold srot; rewrite cos_0, sin_0; destruct u, v; svec; vec_eq; ring. Qed.
Lemma srot_inverse u t v : sdot u u = 1 -> srot u (- t) (srot u t v) = v.
Proof. intros U; rewrite srot_compose by assumption; replace (- t + t) with 0 by ring; apply srot_0. Qed.

(** ** General rotation maps *)
Lemma rm_norm f a : rotation_map f -> snorm (f a) = snorm a.
Proof. intros [_ _ D _]; rewrite !snorm_sqrt, D; reflexivity. Qed.
Lemma rm_opp f a : rotation_map f -> f (sopp a) = sopp (f a).
Proof.
  intros [_ S _ _]. replace (sopp a) with (sscale (-1) a) by vring. rewrite S.
  destruct (f a); svec; vec_eq; ring.
Qed.
Lemma rm_sub f a b : rotation_map f -> f (ssub a b) = ssub (f a) (f b).
Proof.
  intros R. replace (ssub a b) with (sadd a (sopp b)) by vring.
  rewrite (rm_add f R), (rm_opp f b R). destruct (f a), (f b); svec; vec_eq; ring.
Qed.
Lemma rm_zero f : rotation_map f -> f szero = szero.
Proof.
  intros R. replace szero with (sscale 0 szero) by (svec; vec_eq; ring). rewrite (rm_scale f R).
  destruct (f szero); svec; vec_eq; ring.
Qed.

(** ** Rotation about an arbitrary line *)
Ltac ap4 := intros; cbv [apply4 dot4 q0 q1 q2 q3 wx wy wz ww]; rnum;
            apply (f_equal4 (@V4 R)); ring.
Lemma ap_D d1 d2 d3 x y z :
  apply4 (M4 (V4 1 0 0 d1) (V4 0 1 0 d2) (V4 0 0 1 d3) (V4 0 0 0 1)) (V4 x y z 1)
  = V4 (x + d1) (y + d2) (z + d3) 1.
Proof. ap4. Qed.
Lemma ap_x e f g h x y z :
  apply4 (M4 (V4 1 0 0 0) (V4 0 e f 0) (V4 0 g h 0) (V4 0 0 0 1)) (V4 x y z 1)
  = V4 x (e * y + f * z) (g * y + h * z) 1.
Proof. ap4. Qed.
Lemma ap_y e f g h x y z :
  apply4 (M4 (V4 e 0 f 0) (V4 0 1 0 0) (V4 g 0 h 0) (V4 0 0 0 1)) (V4 x y z 1)
  = V4 (e * x + f * z) y (g * x + h * z) 1.
Proof. ap4. Qed.
Lemma ap_z e f g h x y z :
  apply4 (M4 (V4 e f 0 0) (V4 g h 0 0) (V4 0 0 1 0) (V4 0 0 0 1)) (V4 x y z 1)
  = V4 (e * x + f * y) (g * x + h * y) z 1.
Proof. ap4. Qed.
Lemma apply4_mul (a b : @mat4 R) w : apply4 (mul4 a b) w = apply4 a (apply4 b w).
Proof.
  destruct a as [[a1 a2 a3 a4] [a5 a6 a7 a8] [b1 b2 b3 b4] [b5 b6 b7 b8]], b as [[c1 c2 c3 c4] [c5 c6 c7 c8] [d1 d2 d3 d4] [d5 d6 d7 d8]], w as [x y z t].
  cbv [mul4]; ap4.
Qed.
(** the order of the products does not matter in exact arithmetic *)
Lemma turn_by_matrix p1 p2 th p : turn_by (turning_matrix p1 p2 th) p = rotate_point_around_arbitrary_axis p1 p2 th p.
Proof. unfold turn_by, turning_matrix, rotate_point_around_arbitrary_axis. cbv zeta. rewrite !apply4_mul. reflexivity. Qed.
Lemma rotate_points_map ps p1 p2 th : rotate_points_around_arbitrary_axis ps p1 p2 th = map (rotate_point_around_arbitrary_axis p1 p2 th) ps.
Proof. unfold rotate_points_around_arbitrary_axis. destruct (_ <=? 4)%nat; [reflexivity|]. apply map_ext. intros p. apply turn_by_matrix. Qed.
Lemma rotate_point_spec p1 p2 th p :
  vy p1 <> vy p2 \/ vz p1 <> vz p2 ->
  rotate_point_around_arbitrary_axis p1 p2 th p = srot_line p1 p2 th p.
Proof.
  intros H.
  assert (N : ssub p2 p1 <> szero).
  { destruct p1, p2; svec; intros E; injection E; intros; destruct H as [H|H]; apply H; lra. }
  pose proof (snorm_pos _ N) as L. pose proof (sunit_dot _ N) as U.
  unfold srot_line, rotate_point_around_arbitrary_axis.
  rewrite vsub_s, vnorm_s.
  assert (V : 0 < vy (ssub p2 p1) * vy (ssub p2 p1) + vz (ssub p2 p1) * vz (ssub p2 p1)).
  { destruct p1 as [x1 y1 z1], p2 as [x2 y2 z2]; svec. destruct H as [H|H].
    - assert (0 < (y2 - y1)²) by (apply Rsqr_pos_lt; intros Q; apply H; lra). pose proof (Rle_0_sqr (z2 - z1)); unfold Rsqr in *; lra.
    - assert (0 < (z2 - z1)²) by (apply Rsqr_pos_lt; intros Q; apply H; lra). pose proof (Rle_0_sqr (y2 - y1)); unfold Rsqr in *; lra. }
  unfold sunit in *. destruct (ssub p2 p1) as [a b c] eqn:E. simpl in V.
  set (l := snorm (V3 a b c)) in *. clearbody l.
  set (w := sqrt (b * b + c * c)).
  assert (W : w * w = b * b + c * c) by (apply sqrt_sqrt; lra).
  assert (Wp : 0 < w) by (apply sqrt_lt_R0; lra).
  rnum. cbv [vx vy vz]. fold w.
  rewrite ap_D, ap_x, ap_y, ap_z, ap_y, ap_x, ap_D. cbv [wx wy wz]. clearbody w.
  set (m := c / w). set (n := b / w). set (W' := w / l). set (A := a / l).
  replace (- b / w) with (- n) by (unfold n; field; lra).
  replace (- a / l) with (- A) by (unfold A; field; lra).
  assert (EU : sscale (/ l) (V3 a b c) = V3 A (n * W') (m * W')).
  { unfold A, n, m, W'; svec; vec_eq; field; lra. }
  rewrite EU in *. clear EU.
  assert (MN : m * m = 1 - n * n) by (unfold m, n; field_simplify_eq; [nra | lra]).
  clearbody m n W' A. clear H N L V W Wp E.
  destruct p1 as [x1 y1 z1], p as [x y z]. svec.
  set (C := cos th) in *; set (D := sin th) in *; clearbody C D.
  assert (E2 : m * m + n * n - 1 = 0) by lra.
  assert (E1 : A * A + W' * W' - 1 = 0).
  { assert (W' * W' = (n * n + m * m) * (W' * W')) by (rewrite MN; ring). lra. }
  clear U MN.
  vec_eq; apply Rminus_diag_uniq.
  - transitivity (C * (x - x1) * (A * A + W' * W' - 1)); [ring | rewrite E1; ring].
  - transitivity (C * ((y - y1) * (n * n * (A * A + W' * W' - 1) + (m * m + n * n - 1))
                       + (z - z1) * n * m * (A * A + W' * W' - 1))
                  - D * A * (z - z1) * (m * m + n * n - 1)); [ring | rewrite E1, E2; ring].
  - transitivity (C * ((z - z1) * (m * m * (A * A + W' * W' - 1) + (m * m + n * n - 1))
                       + (y - y1) * n * m * (A * A + W' * W' - 1))
                  + D * A * (y - y1) * (m * m + n * n - 1)); [ring | rewrite E1, E2; ring].
Qed.
