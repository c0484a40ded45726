(** The geometry on checked real numbers: rotations, airfoils, meshes, sails, interpolation, hull. *)

From Coq Require Import String ZArith Reals List Bool Lra Psatz Lia Arith.
From Verif Require Import Num PyBase RNum CNum Spec M_Rotations M_Csys M_Airfoil M_Mesher M_Panels M_Sail M_Interp M_Hull
  L_List L_Rot L_Csys L_Vel L_Airfoil L_Mesh L_Sail L_Sail2 P_Tack L_Lift L_Vlm2.
Import ListNotations.
Open Scope R_scope.

(** ** Images *)
Definition finM (m : mat R) : mat (option R) := M3 (fin (r0 m)) (fin (r1 m)) (fin (r2 m)).
Definition finC (c : csys R) : csys (option R) := Csys (Some (heel_deg c)) (Some (leeway_deg c)) (fin (ref_vec c)).
Definition finA (a : airfoil R) : airfoil (option R) :=
  Airfoil (map Some (af_xc a)) (map Some (af_yc a)) (map Some (af_yt a)) (map Some (af_xu a)) (map Some (af_xl a)) (map Some (af_yu a)) (map Some (af_yl a)).
Definition finS (s : sail R) : sail (option R) :=
  SailGeom (sl_name s) (finC (sl_csys s)) (fin (sl_head s)) (fin (sl_tack s)) (map finP (sl_above s)) (map finP (sl_under s))
    (sl_te s) (sl_le s) (map finP (sl_above_zero s)) (map finP (sl_under_zero s)).
Definition finSet (s : sail_set R) : sail_set (option R) :=
  SailSet_ (map finS (ss_sails s)) (map finP (ss_panels s)) (ss_te s) (ss_le s) (map finP (ss_zero s)).
Definition finF (f : factory R) : factory (option R) := Factory (finC (fa_csys f)) (fa_ns f) (fa_nc f) (Some (fa_rake_deg f)) (Some (fa_sheer f)).
Definition finH (h : hull R) : hull (option R) :=
  Hull (map fin (hu_centre h)) (map fin (hu_port h)) (map fin (hu_starboard h)) (map fin (hu_port_under h)) (map fin (hu_starboard_under h)) (fin (hu_clr h)).

(** ** Numbers *)
Lemma some_leb a b : nleb (Some a) (Some b) = nleb a b. Proof. reflexivity. Qed.
Lemma some_sqrt a : 0 <= a -> nsqrt (Some a) = Some (sqrt a).
Proof. intros H. cbn [nsqrt CNum]. unfold guard. apply Rleb_true in H. rewrite H. reflexivity. Qed.
Lemma some_asin a : -1 <= a <= 1 -> nasin (Some a) = Some (asin a).
Proof. intros [H K]. cbn [nasin CNum]. unfold guard. apply Rleb_true in H. apply Rleb_true in K. rewrite H, K. reflexivity. Qed.
Lemma some_half a : ndiv (Some a) (nZ 2) = Some (a / 2).
Proof. rewrite some_Z. apply some_div. rnum. lra. Qed.
Lemma rad_some a : deg2rad (Some a) = Some (deg2rad a).
Proof. unfold deg2rad. change (@npi (option R) CNum) with (Some PI). rewrite some_Z, some_div by (rnum; lra). reflexivity. Qed.

(** ** Rotations *)
Lemma rotation_fin a th : vdot a a <> 0 -> rotation_matrix (fin a) (Some th) = finM (rotation_matrix a th).
Proof.
  intros N. assert (P : 0 <= vdot a a) by (destruct a as [x y z]; vnum; nra).
  unfold rotation_matrix. cbv zeta. rewrite fin_dot, some_sqrt, fin_divs, some_half by (try assumption; intros Z; apply N, sqrt_eq_0; assumption).
  reflexivity.
Qed.
Lemma mapply_fin m v : mapply (finM m) (fin v) = fin (mapply m v).
Proof. reflexivity. Qed.
Ltac axis_ok := vnum; lra.
Lemma heel_fin c : heeling_rotation_matrix (finC c) = finM (heeling_rotation_matrix c).
Proof. unfold heeling_rotation_matrix, finC. cbn [heel_deg]. rewrite some_opp, rad_some. apply (rotation_fin (V3 1 0 0)). axis_ok. Qed.
Lemma rheel_fin c : reverse_heeling_rotation_matrix (finC c) = finM (reverse_heeling_rotation_matrix c).
Proof. unfold reverse_heeling_rotation_matrix, finC. cbn [heel_deg]. rewrite rad_some. apply (rotation_fin (V3 1 0 0)). axis_ok. Qed.
Lemma lee_fin c : leeway_rotation_matrix (finC c) = finM (leeway_rotation_matrix c).
Proof. unfold leeway_rotation_matrix, finC. cbn [leeway_deg]. rewrite rad_some. apply (rotation_fin (V3 0 0 1)). axis_ok. Qed.
Lemma rlee_fin c : reverse_leeway_rotation_matrix (finC c) = finM (reverse_leeway_rotation_matrix c).
Proof. unfold reverse_leeway_rotation_matrix, finC. cbn [leeway_deg]. rewrite some_opp, rad_some. apply (rotation_fin (V3 0 0 1)). axis_ok. Qed.
Lemma turn_fin c p : rotate_point_with_mirror (finC c) (fin p) = fin (rotate_point_with_mirror c p).
Proof.
  unfold rotate_point_with_mirror. rewrite heel_fin, rheel_fin, lee_fin. change (vz (fin p)) with (Some (vz p)). rewrite some_Z, some_ltb.
  destruct (nltb _ _); rewrite !mapply_fin; reflexivity.
Qed.
Lemma unturn_fin c p : reverse_rotations_with_mirror (finC c) (fin p) = fin (reverse_rotations_with_mirror c p).
Proof.
  unfold reverse_rotations_with_mirror. rewrite heel_fin, rheel_fin, rlee_fin, mapply_fin. cbv zeta.
  change (vz (fin ?q)) with (Some (vz q)). rewrite some_Z, some_ltb. destruct (nltb _ _); rewrite !mapply_fin; reflexivity.
Qed.
Lemma plain_turn_fin c p : rotate_point_without_mirror (finC c) (fin p) = fin (rotate_point_without_mirror c p).
Proof. unfold rotate_point_without_mirror. rewrite heel_fin, lee_fin, !mapply_fin. reflexivity. Qed.
Lemma centerline_fin c l : from_xyz_to_centerline_csys (finC c) (map fin l) = map fin (from_xyz_to_centerline_csys c l).
Proof. unfold from_xyz_to_centerline_csys. apply map_lift. intros a _. rewrite lee_fin. apply mapply_fin. Qed.
(** a line that can serve as the axis of the twist: not parallel to the x axis *)
Definition turnable (p1 p2 : vec R) : Prop := vy p2 - vy p1 <> 0 \/ vz p2 - vz p1 <> 0.
Lemma squares_pos a b : a <> 0 \/ b <> 0 -> 0 < a * a + b * b.
Proof. intros H. pose proof (Rle_0_sqr a). pose proof (Rle_0_sqr b). unfold Rsqr in *. destruct H as [H|H]; apply Rsqr_pos_lt in H; unfold Rsqr in H; lra. Qed.
Lemma arbitrary_fin p1 p2 th p : turnable p1 p2 ->
  rotate_point_around_arbitrary_axis (fin p1) (fin p2) (Some th) (fin p) = fin (rotate_point_around_arbitrary_axis p1 p2 th p).
Proof.
  intros T. unfold rotate_point_around_arbitrary_axis. cbv zeta. rewrite fin_sub, fin_norm.
  assert (B : 0 < vy (vsub p2 p1) * vy (vsub p2 p1) + vz (vsub p2 p1) * vz (vsub p2 p1)) by (apply squares_pos; exact T).
  assert (L : vnorm (vsub p2 p1) <> 0).
  { assert (Q : 0 < vdot (vsub p2 p1) (vsub p2 p1)) 
      by (clear T; revert B; unfold vdot; generalize (vx (vsub p2 p1)) (vy (vsub p2 p1)) (vz (vsub p2 p1)); intros x y z B; rnum; pose proof (Rle_0_sqr x); unfold Rsqr in *; lra).
    apply Rgt_not_eq. unfold vnorm. apply sqrt_lt_R0. exact Q. }
  change (vx (fin ?q)) with (Some (vx q)). change (vy (fin ?q)) with (Some (vy q)). change (vz (fin ?q)) with (Some (vz q)).
  generalize dependent (vnorm (vsub p2 p1)). intros l L. generalize dependent (vz (vsub p2 p1)). intros c. generalize dependent (vy (vsub p2 p1)). intros b B. generalize (vx (vsub p2 p1)). intros a.
  rewrite !some_mul, some_add, some_sqrt by (rnum; lra).
  assert (V : sqrt (b * b + c * c) <> 0) by (intros Z; apply sqrt_eq_0 in Z; lra).
  change (@nadd R RNum) with Rplus. change (@nmul R RNum) with Rmult. change (@nsqrt R RNum) with sqrt. generalize dependent (sqrt (b * b + c * c)). intros v V.
  rewrite !some_opp, !some_div by assumption. reflexivity.
Qed.
Definition undefined (p : vec (option R)) : Prop := vx p = None /\ vy p = None /\ vz p = None.
Lemma none_r (a : option R) : nadd a None = None. Proof. destruct a; reflexivity. Qed.
Lemma none_m (a : option R) : nmul a None = None. Proof. destruct a; reflexivity. Qed.
Lemma none_l (a : option R) : nadd None a = None. Proof. reflexivity. Qed.
Lemma none_n (a : option R) : nmul None a = None. Proof. reflexivity. Qed.
Lemma dot4_none (r w : vec4 (F := option R)) : wy w = None -> dot4 r w = None.
Proof. intros E. unfold dot4. rewrite E, none_m, none_r, !none_l. reflexivity. Qed.
Lemma apply4_none (m : mat4 (F := option R)) w : wy w = None -> wy (apply4 m w) = None.
Proof. intros E. unfold apply4. cbn [wy]. apply dot4_none. exact E. Qed.
Lemma apply4_row (m : mat4 (F := option R)) w : wy (q1 m) = None -> wy (apply4 m w) = None.
Proof. intros E. unfold apply4. cbn [wy]. unfold dot4. rewrite E, none_n, none_r, !none_l. reflexivity. Qed.
Lemma arbitrary_undef p1 p2 th p : ~ turnable p1 p2 -> undefined (rotate_point_around_arbitrary_axis (fin p1) (fin p2) (Some th) (fin p)).
Proof.
  intros T. assert (Y : vy p2 - vy p1 = 0) by (destruct (Req_dec (vy p2 - vy p1) 0); [assumption | exfalso; apply T; left; assumption]).
  assert (Z : vz p2 - vz p1 = 0) by (destruct (Req_dec (vz p2 - vz p1) 0); [assumption | exfalso; apply T; right; assumption]).
  unfold rotate_point_around_arbitrary_axis. cbv zeta. rewrite fin_sub.
  change (vx (fin ?q)) with (Some (vx q)). change (vy (fin ?q)) with (Some (vy q)). change (vz (fin ?q)) with (Some (vz q)).
  change (vy (vsub p2 p1)) with (vy p2 - vy p1). change (vz (vsub p2 p1)) with (vz p2 - vz p1). rewrite Y, Z.
  rewrite !some_mul, some_add, some_sqrt by (rnum; lra). change (@nadd R RNum (@nmul R RNum 0 0) (@nmul R RNum 0 0)) with (0 * 0 + 0 * 0). replace (0 * 0 + 0 * 0) with 0 by ring. rewrite sqrt_0, !some_opp, !some_div0.
  match goal with |- undefined (V3 (wx (apply4 ?D ?w)) _ _) => assert (N : wy w = None); [|set (M := D); set (W := w) in *; clearbody M W] end.
  - do 4 apply apply4_none. apply apply4_row. reflexivity.
  - unfold undefined, apply4. cbn [vx vy vz wx wy wz]. repeat split; apply dot4_none; exact N.
Qed.
(** the same with the matrices multiplied first *)
Definition fin4 (w : vec4 (F := R)) : vec4 := V4 (Some (wx w)) (Some (wy w)) (Some (wz w)) (Some (ww w)).
Definition finM4 (m : mat4 (F := R)) : mat4 := M4 (fin4 (q0 m)) (fin4 (q1 m)) (fin4 (q2 m)) (fin4 (q3 m)).
Lemma dot4_fin a b : dot4 (fin4 a) (fin4 b) = Some (dot4 a b).
Proof. destruct a, b. reflexivity. Qed.
Lemma mul4_fin a b : mul4 (finM4 a) (finM4 b) = finM4 (mul4 a b).
Proof.
  unfold mul4. cbv zeta. change (V4 (wx (q0 (finM4 b))) (wx (q1 (finM4 b))) (wx (q2 (finM4 b))) (wx (q3 (finM4 b)))) with (fin4 (V4 (wx (q0 b)) (wx (q1 b)) (wx (q2 b)) (wx (q3 b)))).
  change (V4 (wy (q0 (finM4 b))) (wy (q1 (finM4 b))) (wy (q2 (finM4 b))) (wy (q3 (finM4 b)))) with (fin4 (V4 (wy (q0 b)) (wy (q1 b)) (wy (q2 b)) (wy (q3 b)))).
  change (V4 (wz (q0 (finM4 b))) (wz (q1 (finM4 b))) (wz (q2 (finM4 b))) (wz (q3 (finM4 b)))) with (fin4 (V4 (wz (q0 b)) (wz (q1 b)) (wz (q2 b)) (wz (q3 b)))).
  change (V4 (ww (q0 (finM4 b))) (ww (q1 (finM4 b))) (ww (q2 (finM4 b))) (ww (q3 (finM4 b)))) with (fin4 (V4 (ww (q0 b)) (ww (q1 b)) (ww (q2 b)) (ww (q3 b)))).
  unfold finM4. cbn [q0 q1 q2 q3]. rewrite !dot4_fin. reflexivity.
Qed.
Lemma turn_by_fin m p : turn_by (finM4 m) (fin p) = fin (turn_by m p).
Proof. unfold turn_by, apply4. cbv zeta. cbn [wx wy wz finM4 q0 q1 q2]. change (V4 (vx (fin p)) (vy (fin p)) (vz (fin p)) (nZ 1)) with (fin4 (V4 (vx p) (vy p) (vz p) (nZ 1))). rewrite !dot4_fin. reflexivity. Qed.
Lemma turning_fin p1 p2 th p : turnable p1 p2 -> turn_by (turning_matrix (fin p1) (fin p2) (Some th)) (fin p) = fin (turn_by (turning_matrix p1 p2 th) p).
Proof.
  intros T. unfold turning_matrix. cbv zeta. rewrite fin_sub, fin_norm.
  assert (B : 0 < vy (vsub p2 p1) * vy (vsub p2 p1) + vz (vsub p2 p1) * vz (vsub p2 p1)) by (apply squares_pos; exact T).
  assert (L : vnorm (vsub p2 p1) <> 0).
  { assert (Q : 0 < vdot (vsub p2 p1) (vsub p2 p1)) 
      by (clear T; revert B; unfold vdot; generalize (vx (vsub p2 p1)) (vy (vsub p2 p1)) (vz (vsub p2 p1)); intros x y z B; rnum; pose proof (Rle_0_sqr x); unfold Rsqr in *; lra).
    apply Rgt_not_eq. unfold vnorm. apply sqrt_lt_R0. exact Q. }
  change (vx (fin ?q)) with (Some (vx q)). change (vy (fin ?q)) with (Some (vy q)). change (vz (fin ?q)) with (Some (vz q)).
  generalize dependent (vnorm (vsub p2 p1)). intros l L. generalize dependent (vz (vsub p2 p1)). intros c. generalize dependent (vy (vsub p2 p1)). intros b B. generalize (vx (vsub p2 p1)). intros a.
  rewrite !some_mul, some_add, some_sqrt by (rnum; lra).
  assert (V : sqrt (b * b + c * c) <> 0) by (intros Z; apply sqrt_eq_0 in Z; lra).
  change (@nadd R RNum) with Rplus. change (@nmul R RNum) with Rmult. change (@nsqrt R RNum) with sqrt. generalize dependent (sqrt (b * b + c * c)). intros v V.
  rewrite !some_opp, !some_div by assumption. rewrite <- turn_by_fin, <- !mul4_fin. reflexivity.
Qed.
Lemma mul4_none (a b : mat4 (F := option R)) : q1 b = V4 None None None None -> mul4 a b = M4 (V4 None None None None) (V4 None None None None) (V4 None None None None) (V4 None None None None).
Proof. intros E. unfold mul4. cbv zeta. rewrite E. cbn [wx wy wz ww]. rewrite !dot4_none by reflexivity. reflexivity. Qed.
Lemma turning_undef p1 p2 th p : ~ turnable p1 p2 -> undefined (turn_by (turning_matrix (fin p1) (fin p2) (Some th)) (fin p)).
Proof.
  intros T. assert (Y : vy p2 - vy p1 = 0) by (destruct (Req_dec (vy p2 - vy p1) 0); [assumption | exfalso; apply T; left; assumption]).
  assert (Z : vz p2 - vz p1 = 0) by (destruct (Req_dec (vz p2 - vz p1) 0); [assumption | exfalso; apply T; right; assumption]).
  unfold turning_matrix. cbv zeta. rewrite fin_sub.
  change (vx (fin ?q)) with (Some (vx q)). change (vy (fin ?q)) with (Some (vy q)). change (vz (fin ?q)) with (Some (vz q)).
  change (vy (vsub p2 p1)) with (vy p2 - vy p1). change (vz (vsub p2 p1)) with (vz p2 - vz p1). rewrite Y, Z.
  rewrite !some_mul, some_add, some_sqrt by (rnum; lra). change (@nadd R RNum (@nmul R RNum 0 0) (@nmul R RNum 0 0)) with (0 * 0 + 0 * 0). replace (0 * 0 + 0 * 0) with 0 by ring. rewrite sqrt_0, !some_opp, !some_div0.
  match goal with |- context [mul4 ?x (M4 ?a ?b ?c ?d)] => assert (N : q1 (mul4 x (M4 a b c d)) = V4 None None None None); [|set (m := mul4 x (M4 a b c d)) in *; clearbody m] end.
  { unfold mul4. cbv zeta. cbn [q1]. unfold dot4. cbn [wx wy wz ww]. rewrite !none_n, !none_r, !none_l. reflexivity. }
  rewrite (mul4_none _ m N). rewrite !(mul4_none _ (M4 (V4 None None None None) (V4 None None None None) (V4 None None None None) (V4 None None None None)) eq_refl). unfold turn_by, apply4, undefined. cbn [vx vy vz wx wy wz q0 q1 q2 q3]. unfold dot4. cbn [wx wy wz ww]. rewrite !none_n, !none_l. auto.
Qed.

(** ** Airfoils and meshes *)
Lemma linspace_some n : linspace01 n = map Some (@linspace01 R RNum n).
Proof.
  unfold linspace01. rewrite map_map. apply map_ext_in. intros i I. apply in_seq in I. destruct ((S i =? n)%nat && (1 <? n)%nat)%bool; [reflexivity|].
  destruct (1 <? n)%nat eqn:E; [|reflexivity]. apply Nat.ltb_lt in E. rewrite !some_Z, some_div by (rnum; apply not_0_IZR; lia). reflexivity.
Qed.
Lemma check_some m p t : check_naca_params (Some m) (Some p) (Some t) = check_naca_params m p t.
Proof. unfold check_naca_params. rewrite !some_dec by lia. reflexivity. Qed.
Lemma sq_ne a : a <> 0 -> a * a <> 0.
Proof. intros H Z. apply Rmult_integral in Z. destruct Z; contradiction. Qed.
Lemma camber_fin m p x : 0 <= p <= 9/10 -> get_y_camber (Some m) (Some p) (Some x) = rmap Some (get_y_camber m p x).
Proof.
  intros P. unfold get_y_camber. rewrite !some_Z, !some_ltb, !some_leb. destruct (nltb x p && nleb (nZ 0) x)%bool eqn:E.
  - rewrite !some_mul, !some_sub, some_mul, some_div; [reflexivity|]. apply andb_true_iff in E. destruct E as [A B]. apply Rltb_true in A. apply Rleb_true in B. apply sq_ne. rnum. lra.
  - destruct (nleb p x && nleb x (nZ 1))%bool; [|reflexivity]. rewrite !some_mul, !some_sub, !some_add, !some_sub, !some_mul, some_div; [reflexivity|]. apply sq_ne. rnum. lra.
Qed.
Lemma slope_fin m p x : 0 <= p <= 9/10 -> get_dy_dx_camber (Some m) (Some p) (Some x) = rmap Some (get_dy_dx_camber m p x).
Proof.
  intros P. unfold get_dy_dx_camber. rewrite !some_Z, !some_ltb, !some_leb. destruct (nltb x p && nleb (nZ 0) x)%bool eqn:E.
  - rewrite !some_sub, !some_mul, some_div; [reflexivity|]. apply andb_true_iff in E. destruct E as [A B]. apply Rltb_true in A. apply Rleb_true in B. apply sq_ne. rnum. lra.
  - destruct (nleb p x && nleb x (nZ 1))%bool; [|reflexivity]. rewrite !some_sub, !some_mul, some_div; [reflexivity|]. apply sq_ne. rnum. lra.
Qed.
Lemma thick_fin t x : 0 <= x -> get_camber_thickness (Some t) (Some x) = Some (get_camber_thickness t x).
Proof.
  intros X. unfold get_camber_thickness, thickness_poly. rewrite !some_dec, some_sqrt, !some_Z, !some_sub, !some_ltb by (lia || assumption). destruct (nltb _ _); reflexivity.
Qed.
Lemma foil_fin m p t n : VlmAirfoil (Some m) (Some p) (Some t) n = rmap finA (VlmAirfoil m p t n).
Proof.
  unfold VlmAirfoil. rewrite check_some. destruct (check_naca_params m p t) as [[]|] eqn:C; [|reflexivity]. apply check_ok in C. destruct C as (_ & P & _). cbn [bind]. cbv zeta.
  rewrite linspace_some.
  rewrite (mapM_lift (get_y_camber m p) (get_y_camber (Some m) (Some p)) Some Some) by (intros; apply camber_fin; assumption).
  destruct (mapM (get_y_camber m p) _) as [yc|]; [|reflexivity]. cbn [rmap bind].
  rewrite (mapM_lift (get_dy_dx_camber m p) (get_dy_dx_camber (Some m) (Some p)) Some Some) by (intros; apply slope_fin; assumption).
  destruct (mapM (get_dy_dx_camber m p) _) as [dy|]; [|reflexivity]. cbn [rmap bind].
  rewrite (map_lift (get_camber_thickness t) (get_camber_thickness (Some t)) Some Some) by (intros x I; apply linspace_range in I; apply thick_fin, I).
  rewrite (map_lift natan natan Some Some) by reflexivity. rewrite !combine_map2. unfold finA. cbn [af_xc af_yc af_yt af_xu af_xl af_yu af_yl].
  rewrite !map_map. reflexivity.
Qed.
Lemma segment_fin a b n : discrete_segment (fin a) (fin b) n = map fin (discrete_segment a b n).
Proof.
  unfold discrete_segment. rewrite map_app, map_map. cbn [map]. f_equal. apply map_ext_in. intros i I. apply in_seq in I.
  rewrite fin_sub, fin_divZ by (apply not_0_IZR; lia). rewrite some_Z, fin_scale, fin_add. reflexivity.
Qed.
Lemma add_chords_fin le ch : add_chords (map fin le) (map fin ch) = rmap (map fin) (add_chords le ch).
Proof.
  unfold add_chords. rewrite !map_length. destruct (_ =? _)%nat.
  - cbn [rmap]. f_equal. apply zip_lift. reflexivity.
  - destruct ch as [|c [|d ch]]; [reflexivity| |reflexivity]. cbn [map rmap]. f_equal. apply map_lift. reflexivity.
Qed.
Lemma section_fin n di ca k a b : airfoil_section n (map Some di) (map Some ca) k (fin a) (fin b) = rmap (map fin) (airfoil_section n di ca k a b).
Proof.
  unfold airfoil_section. rewrite !py_nth_map. destruct (py_nth di _) as [p|]; [|reflexivity]. cbn [bind]. destruct (py_nth ca _) as [m|]; [|reflexivity]. cbn [bind].
  rewrite some_Z, foil_fin. destruct (VlmAirfoil m p _ n) as [foil|]; [|reflexivity]. cbn [rmap bind]. f_equal. unfold finA. cbn [af_xc af_yc].
  rewrite !map_map. rewrite <- (map_map (fun x => (vx b - vx a) * x + vx a) Some), <- (map_map (fun x => (vx b - vx a) * x) Some). apply zip_lift. reflexivity.
Qed.
Lemma zero_mesh_fin a b nc ns ch di ca :
  zero_mesh (fin a) (fin b) nc ns (map Some ch) (map Some di) (map Some ca) = rmap (map (map fin)) (zero_mesh a b nc ns ch di ca).
Proof.
  unfold zero_mesh, make_airfoil_mesh. cbv zeta. rewrite segment_fin.
  rewrite (map_lift (fun c => V3 c (nZ 0) (nZ 0)) (fun c => V3 c (nZ 0) (nZ 0)) Some fin) by reflexivity.
  rewrite add_chords_fin. destruct (add_chords _ _) as [te|]; [|reflexivity]. cbn [rmap bind]. rewrite map_length, combine_map2.
  set (le := discrete_segment a b ns).
  replace (combine (seq 0 (length le)) (map (fun ab : vec R * vec R => (fin (fst ab), fin (snd ab))) (combine le te)))
    with (map (fun q : nat * (vec R * vec R) => (fst q, (fin (fst (snd q)), fin (snd (snd q))))) (combine (seq 0 (length le)) (combine le te)))
    by (rewrite <- (map_id (seq 0 (length le))) at 2; rewrite combine_map2; reflexivity).
  apply mapM_lift. intros [k [p q]] _. cbn [fst snd]. apply section_fin.
Qed.

(** ** Sails *)
Lemma heel_mesh_fin c m : heel_mesh (finC c) (map fin m) = map fin (heel_mesh c m).
Proof. unfold heel_mesh. apply map_lift. intros; apply turn_fin. Qed.
Lemma every_fin k l : every_nth k v0 (map fin l) = map fin (every_nth k v0 l).
Proof. rewrite <- every_nth_map, <- fin_v0. reflexivity. Qed.
Lemma transpose_fin c rows : transpose c v0 (map (map fin) rows) = map (map fin) (transpose c v0 rows).
Proof. rewrite <- transpose_map, <- fin_v0. reflexivity. Qed.
Lemma vclose_fin a b : vclose (fin a) (fin b) = vclose a b.
Proof. unfold vclose, close, fin. cbn [vx vy vz]. rewrite some_dec by lia. reflexivity. Qed.
Lemma all_close_fin l m : all_close (map fin l) (map fin m) = all_close l m.
Proof.
  revert m. induction l as [|a l IH]; intros [|b m]; try reflexivity. unfold all_close in *. cbn [map combine forallb fst snd]. rewrite IH, vclose_fin. reflexivity.
Qed.
Lemma all_same_some t0 tw : forallb (fun t => neqb t (Some t0)) (map Some tw) = forallb (fun t => neqb t t0) tw.
Proof. induction tw as [|t tw IH]; [reflexivity|]. cbn [map forallb]. rewrite IH. reflexivity. Qed.
Lemma le_fin pts p1 p2 tw : turnable p1 p2 ->
  rotate_points_around_le (map fin pts) (fin p1) (fin p2) (map Some tw) = rmap (map fin) (rotate_points_around_le pts p1 p2 tw).
Proof.
  intros T. unfold rotate_points_around_le. rewrite py_nth_map. destruct (py_nth tw 0) as [t0|]; [|reflexivity]. cbn [bind]. rewrite all_same_some.
  destruct (forallb _ tw); cbn [rmap]; f_equal.
  - unfold rotate_points_around_arbitrary_axis. rewrite map_length, rad_some. destruct (_ <=? 4)%nat; apply map_lift; intros p _; [apply arbitrary_fin|apply turning_fin]; exact T.
  - apply zip_lift. intros p t _. rewrite rad_some. apply arbitrary_fin. exact T.
Qed.
Lemma spread_some sh0 sh1 tw : spread_twist sh0 sh1 (map Some tw) = rmap (map Some) (spread_twist sh0 sh1 tw).
Proof.
  unfold spread_twist. rewrite <- map_repeat, <- concat_map, reshape_map. destruct (reshape sh1 sh0 _) as [rows|]; [|reflexivity].
  cbn [rmap bind]. f_equal. rewrite concat_map, <- transpose_map. reflexivity.
Qed.
(** the ends of the luff of a (flattened) mesh *)
Definition luff_ends (sh1 : nat) (mesh : list (vec R)) (p1 p2 : vec R) : Prop :=
  py_nth (every_nth sh1 v0 mesh) 0 = Ok p1 /\ py_nth (every_nth sh1 v0 mesh) (-1) = Ok p2.
Lemma twist_fin sh1 mesh tw : (forall p1 p2, luff_ends sh1 mesh p1 p2 -> turnable p1 p2) ->
  twist_mesh sh1 (map fin mesh) (map Some tw) = rmap (map fin) (twist_mesh sh1 mesh tw).
Proof.
  intros T. unfold twist_mesh. cbv zeta. rewrite every_fin, !py_nth_map. destruct (py_nth _ (-1)) as [p2|] eqn:P2; [|reflexivity]. cbn [bind].
  destruct (py_nth _ 0) as [p1|] eqn:P1; [|reflexivity]. cbn [bind]. rewrite le_fin by (apply T; split; assumption).
  destruct (rotate_points_around_le mesh p1 p2 tw) as [tr|]; [|reflexivity]. cbn [rmap bind]. rewrite every_fin, all_close_fin. destruct (all_close _ _); reflexivity.
Qed.
Lemma undefined_far a b : undefined a -> vclose a b = false.
Proof. intros (X & _). unfold vclose, close. rewrite X. reflexivity. Qed.
Lemma le_undef pts p1 p2 tw tr : ~ turnable p1 p2 -> rotate_points_around_le (map fin pts) (fin p1) (fin p2) (map Some tw) = Ok tr ->
  (forall q, In q tr -> undefined q) /\ (pts <> [] -> tr <> []).
Proof.
  intros T. unfold rotate_points_around_le. rewrite py_nth_map. destruct (py_nth tw 0) as [t0|] eqn:T0; [|discriminate]. cbn [bind rmap]. rewrite all_same_some.
  assert (J : forall a b : list (vec (option R)), Ok a = Ok b -> a = b) by (intros a b X; injection X; auto).
  destruct (forallb _ tw); intros E; apply J in E; subst tr; clear J; (split; [|intros N]).
  - unfold rotate_points_around_arbitrary_axis. rewrite rad_some. intros q I. destruct (_ <=? 4)%nat; apply in_map_iff in I; destruct I as (x & <- & I); apply in_map_iff in I; destruct I as (p & <- & _); [apply arbitrary_undef|apply turning_undef]; exact T.
  - unfold rotate_points_around_arbitrary_axis. destruct (_ <=? 4)%nat; (destruct pts; [contradiction | discriminate]).
  - intros q I. apply zipWith_in in I. destruct I as (x & t & X & TT & ->). apply in_map_iff in X. destruct X as (p & <- & _). apply in_map_iff in TT. destruct TT as (t' & <- & _). cbv beta. rewrite rad_some. apply arbitrary_undef. exact T.
  - destruct pts; [contradiction|]. destruct tw; [discriminate T0 | discriminate].
Qed.
Lemma every_nth_nil {A} k (d : A) : (1 <= k)%nat -> every_nth k d [] = [].
Proof. intros K. unfold every_nth. cbn [length]. rewrite Nat.div_small by lia. reflexivity. Qed.
Lemma every_nth_hd {A} k (d a : A) l : (1 <= k)%nat -> exists l', every_nth k d (a :: l) = a :: l'.
Proof.
  intros K. unfold every_nth. cbn [length]. replace (S (length l) + k - 1)%nat with (length l + 1 * k)%nat by lia. rewrite Nat.div_add by lia.
  replace (length l / k + 1)%nat with (S (length l / k)) by lia. cbn [seq map]. eexists. reflexivity.
Qed.
Lemma every_nth_0 {A} (d : A) l : every_nth 0 d l = [].
Proof. reflexivity. Qed.
Lemma twist_undef sh1 mesh tw p1 p2 : luff_ends sh1 mesh p1 p2 -> ~ turnable p1 p2 -> tw <> [] ->
  twist_mesh sh1 (map fin mesh) (map Some tw) = Raise AssertionError.
Proof.
  intros (P1 & P2) T N. unfold twist_mesh. cbv zeta. rewrite every_fin, !py_nth_map, P2, P1. cbn [rmap bind].
  destruct (rotate_points_around_le _ _ _ _) as [tr|e] eqn:E.
  - cbn [bind]. destruct sh1 as [|sh1]; [discriminate P1|].
    destruct mesh as [|q mesh]; [rewrite every_nth_nil in P1 by lia; discriminate P1|].
    destruct (le_undef _ _ _ _ _ T E) as [U V]. specialize (V ltac:(discriminate)). destruct tr as [|t tr]; [contradiction|].
    destruct (every_nth_hd (S sh1) v0 t tr ltac:(lia)) as [l ->]. destruct (every_nth_hd (S sh1) v0 q mesh ltac:(lia)) as [l' ->].
    unfold all_close. cbn [map combine forallb fst snd]. rewrite (undefined_far t) by (apply U; left; reflexivity). reflexivity.
  - unfold rotate_points_around_le in E. rewrite py_nth_map in E. destruct tw as [|t tw]; [contradiction|]. change (py_nth (t :: tw) 0) with (Ok t) in E. cbn [rmap bind] in E. destruct (forallb _ _) in E; discriminate E.
Qed.
(** either the checked image of the result on real numbers, or a failed assertion *)
Definition either {A B} (f : A -> B) (m' : res B) (m : res A) : Prop := m' = rmap f m \/ m' = Raise AssertionError.
Lemma twist_either sh1 mesh tw : either (map fin) (twist_mesh sh1 (map fin mesh) (map Some tw)) (twist_mesh sh1 mesh tw).
Proof.
  destruct tw as [|t tw].
  { left. unfold twist_mesh. cbv zeta. rewrite every_fin, !py_nth_map. destruct (py_nth _ (-1)); [|reflexivity]. cbn [rmap bind]. destruct (py_nth _ 0); reflexivity. }
  destruct (py_nth (every_nth sh1 v0 mesh) 0) as [p1|] eqn:P1.
  - destruct (py_nth (every_nth sh1 v0 mesh) (-1)) as [p2|] eqn:P2.
    + destruct (Req_dec (vy p2 - vy p1) 0) as [Y|Y]; [destruct (Req_dec (vz p2 - vz p1) 0) as [Z|Z]|].
      * right. apply (twist_undef sh1 mesh (t :: tw) p1 p2); [split; assumption | intros [H|H]; contradiction | discriminate].
      * left. apply twist_fin. intros q1 q2 (Q1 & Q2). rewrite P1 in Q1. rewrite P2 in Q2. injection Q1 as <-. injection Q2 as <-. right. exact Z.
      * left. apply twist_fin. intros q1 q2 (Q1 & Q2). rewrite P1 in Q1. rewrite P2 in Q2. injection Q1 as <-. injection Q2 as <-. left. exact Y.
    + left. apply twist_fin. intros q1 q2 (Q1 & Q2). rewrite P2 in Q2. discriminate.
  - left. apply twist_fin. intros q1 q2 (Q1 & Q2). rewrite P1 in Q1. discriminate.
Qed.
Lemma mesh_at_fin mesh i j : mesh_at (map (map fin) mesh) i j = fin (mesh_at mesh i j).
Proof. unfold mesh_at. change (nth i (map (map fin) mesh) []) with (nth i (map (map fin) mesh) (map fin [])). rewrite (map_nth (map fin) mesh [] i). rewrite fin_v0. apply map_nth. Qed.
Lemma make_panels_fin mesh : make_panels_from_mesh_spanwise (map (map fin) mesh)
  = rmap (fun r => let '(p, t, l) := r in (map finP p, t, l)) (make_panels_from_mesh_spanwise mesh).
Proof.
  unfold make_panels_from_mesh_spanwise. destruct mesh as [|row mesh]; [reflexivity|]. set (ms := row :: mesh).
  change (map (map fin) ms) with (map fin row :: map (map fin) mesh) at 1. cbv iota.
  rewrite map_length. cbn [rmap]. cbv zeta. change (map fin row :: map (map fin) mesh) with (map (map fin) ms). rewrite !map_length. f_equal. f_equal. f_equal. rewrite map_map. apply map_ext.
  intros [i j]. cbn [fst snd]. unfold finP. cbn [pp1 pp2 pp3 pp4]. rewrite !mesh_at_fin. reflexivity.
Qed.
Lemma py_min_some {A} (l : list R) (k : res A) : (do _ <- py_min (map Some l); k) = (do _ <- py_min l; k).
Proof. destruct l; reflexivity. Qed.
Definition fin2 (x : list (vec R) * list (vec R)) := (map fin (fst x), map fin (snd x)).
Definition twisted {F} `{Num F} (mode : option string) (sh0 sh1 : nat) (twist : list F) (m mu : list (vec F)) : res (list (vec F) * list (vec F)) :=
  match mode with
  | None => Ok (m, mu)
  | Some mode =>
    do _ <- py_min twist; do _ <- lookup_twist_mode mode; do tw <- spread_twist sh0 sh1 twist;
    do m' <- twist_mesh sh1 m tw; do mu' <- twist_mesh sh1 mu (rev tw); Ok (m', mu')
  end.
Lemma twisted_either mode sh0 sh1 tw m mu : either fin2 (twisted mode sh0 sh1 (map Some tw) (map fin m) (map fin mu)) (twisted mode sh0 sh1 tw m mu).
Proof.
  unfold twisted. destruct mode as [mode|]; [|left; reflexivity]. rewrite py_min_some. destruct (py_min tw); [|left; reflexivity]. cbn [bind].
  destruct (lookup_twist_mode mode); [|left; reflexivity]. cbn [bind]. rewrite spread_some. destruct (spread_twist sh0 sh1 tw) as [ts|]; [|left; reflexivity]. cbn [rmap bind].
  destruct (twist_either sh1 m ts) as [-> | ->]; [|right; reflexivity]. destruct (twist_mesh sh1 m ts) as [m'|]; [|left; reflexivity]. cbn [rmap bind].
  rewrite <- map_rev. destruct (twist_either sh1 mu (rev ts)) as [-> | ->]; [|right; reflexivity]. destruct (twist_mesh sh1 mu (rev ts)); left; reflexivity.
Qed.
Definition all_turnable (sh1 : nat) (m : list (vec R)) : Prop := forall p1 p2, luff_ends sh1 m p1 p2 -> turnable p1 p2.
Lemma twisted_fin mode sh0 sh1 tw m mu : (mode <> None -> all_turnable sh1 m /\ all_turnable sh1 mu) ->
  twisted mode sh0 sh1 (map Some tw) (map fin m) (map fin mu) = rmap fin2 (twisted mode sh0 sh1 tw m mu).
Proof.
  intros T. unfold twisted. destruct mode as [mode|]; [|reflexivity]. specialize (T ltac:(discriminate)). destruct T as [T U].
  rewrite py_min_some. destruct (py_min tw); [|reflexivity]. cbn [bind].
  destruct (lookup_twist_mode mode); [|reflexivity]. cbn [bind]. rewrite spread_some. destruct (spread_twist sh0 sh1 tw) as [ts|]; [|reflexivity]. cbn [rmap bind].
  rewrite twist_fin by exact T. destruct (twist_mesh sh1 m ts) as [m'|]; [|reflexivity]. cbn [rmap bind].
  rewrite <- map_rev, twist_fin by exact U. destruct (twist_mesh sh1 mu (rev ts)); reflexivity.
Qed.
Lemma sail_lift head tack c ns nc ch tw name mode ca di (P : Prop) :
  (forall mesh mesh_u, zero_mesh tack head nc ns ch di ca = Ok mesh -> zero_mesh (mount_mirror head) (mount_mirror tack) nc ns (rev ch) di (rev ca) = Ok mesh_u ->
     let m := heel_mesh c (List.concat mesh) in let mu := heel_mesh c (List.concat mesh_u) in
     twisted mode (ns + 1) (nc + 1) (map Some tw) (map fin m) (map fin mu) = rmap fin2 (twisted mode (ns + 1) (nc + 1) tw m mu) \/
     (P /\ twisted mode (ns + 1) (nc + 1) (map Some tw) (map fin m) (map fin mu) = Raise AssertionError)) ->
  SailGeometry (fin head) (fin tack) (finC c) ns nc (map Some ch) (map Some tw) name mode (map Some ca) (map Some di)
    = rmap finS (SailGeometry head tack c ns nc ch tw name mode ca di) \/
  (P /\ SailGeometry (fin head) (fin tack) (finC c) ns nc (map Some ch) (map Some tw) name mode (map Some ca) (map Some di) = Raise AssertionError).
Proof.
  intros T. unfold SailGeometry. cbv zeta. rewrite zero_mesh_fin. destruct (zero_mesh tack head nc ns ch di ca) as [mesh|] eqn:M; [|left; reflexivity]. cbn [rmap bind].
  rewrite transpose_fin, make_panels_fin. destruct (make_panels_from_mesh_spanwise (transpose (nc + 1) v0 mesh)) as [[[az ?] ?]|]; [|left; reflexivity]. cbn [rmap bind].
  change (mount_mirror (fin head)) with (fin (mount_mirror head)). change (mount_mirror (fin tack)) with (fin (mount_mirror tack)). rewrite <- !map_rev, zero_mesh_fin.
  destruct (zero_mesh (mount_mirror head) (mount_mirror tack) nc ns (rev ch) di (rev ca)) as [mesh_u|] eqn:MU; [|left; reflexivity]. cbn [rmap bind].
  rewrite transpose_fin, make_panels_fin. destruct (make_panels_from_mesh_spanwise (transpose (nc + 1) v0 mesh_u)) as [[[uz ?] ?]|]; [|left; reflexivity]. cbn [rmap bind].
  rewrite <- !concat_map, !heel_mesh_fin. specialize (T mesh mesh_u eq_refl eq_refl). cbv zeta in T.
  set (m := heel_mesh c (List.concat mesh)) in *. set (mu := heel_mesh c (List.concat mesh_u)) in *. clearbody m mu.
  change (match mode with None => Ok (map fin m, map fin mu) | Some mode => do _ <- py_min (map Some tw); do _ <- lookup_twist_mode mode; do tw <- spread_twist (ns + 1) (nc + 1) (map Some tw);
    do m' <- twist_mesh (nc + 1) (map fin m) tw; do mu' <- twist_mesh (nc + 1) (map fin mu) (rev tw); Ok (m', mu') end) with (twisted mode (ns + 1) (nc + 1) (map Some tw) (map fin m) (map fin mu)).
  change (match mode with None => Ok (m, mu) | Some mode => do _ <- py_min tw; do _ <- lookup_twist_mode mode; do tw <- spread_twist (ns + 1) (nc + 1) tw;
    do m' <- twist_mesh (nc + 1) m tw; do mu' <- twist_mesh (nc + 1) mu (rev tw); Ok (m', mu') end) with (twisted mode (ns + 1) (nc + 1) tw m mu).
  destruct T as [-> | [HP ->]]; [left | right; split; [exact HP | reflexivity]].
  destruct (twisted mode (ns + 1) (nc + 1) tw m mu) as [[m1 m2]|]; [|reflexivity]. cbn [rmap bind fin2 fst snd].
  rewrite !reshape_map. destruct (reshape _ _ m1) as [r1|]; [|reflexivity]. cbn [rmap bind]. destruct (reshape _ _ m2) as [r2|]; [|reflexivity]. cbn [rmap bind].
  rewrite !transpose_fin, !make_panels_fin. destruct (make_panels_from_mesh_spanwise (transpose _ v0 r1)) as [[[pa te] le]|]; [|reflexivity]. cbn [rmap bind].
  destruct (make_panels_from_mesh_spanwise (transpose _ v0 r2)) as [[[pu teu] leu]|]; [|reflexivity]. cbn [rmap bind].
  destruct (PyBase.guard (bools_eqb te teu) _) as [|]; [|reflexivity]. cbn [bind]. destruct (PyBase.guard (bools_eqb le leu) _) as [|]; reflexivity.
Qed.
Lemma sail_either head tack c ns nc ch tw name mode ca di :
  either finS (SailGeometry (fin head) (fin tack) (finC c) ns nc (map Some ch) (map Some tw) name mode (map Some ca) (map Some di))
    (SailGeometry head tack c ns nc ch tw name mode ca di).
Proof.
  destruct (sail_lift head tack c ns nc ch tw name mode ca di True) as [E|[_ E]]; [|left; exact E|right; exact E].
  intros mesh mesh_u _ _ m mu. destruct (twisted_either mode (ns + 1) (nc + 1) tw m mu) as [E|E]; auto.
Qed.

(** ** Mounting points *)
Lemma main_fin f luff boom : main_mounting (finF f) (Some luff) (Some boom) = (fin (fst (main_mounting f luff boom)), fin (snd (main_mounting f luff boom))).
Proof. unfold main_mounting, sheer_xyz, fa_rake, finF. cbn [fa_rake_deg fa_sheer]. rewrite rad_some. reflexivity. Qed.
(** the forestay triangle is not a point and the mast is not horizontal *)
Definition rigged (f : factory R) (base height : R) : Prop := sin (rad (fa_rake_deg f)) <> 0 /\ (base <> 0 \/ height <> 0).
Lemma triangle b h s c : s * s + c * c = 1 -> s <> 0 -> b <> 0 \/ h <> 0 ->
  0 < b * b + h * h - 2 * b * h * c /\ (h * s) * (h * s) <= b * b + h * h - 2 * b * h * c.
Proof.
  intros U S N. assert (E : b * b + h * h - 2 * b * h * c = (b - h * c) * (b - h * c) + (h * s) * (h * s)).
  { replace (h * h) with (h * h * (s * s + c * c)) by (rewrite U; ring). ring. }
  rewrite E. pose proof (Rle_0_sqr (b - h * c)). unfold Rsqr in *. split; [|lra]. apply squares_pos.
  destruct (Req_dec h 0) as [->|H0]; [left; destruct N; [|contradiction]; replace (b - 0 * c) with b by ring; assumption | right; apply Rmult_integral_contrapositive_currified; assumption].
Qed.
Lemma jib_fin f luff base height loa : rigged f base height ->
  jib_mounting (finF f) (Some luff) (Some base) (Some height) (Some loa) = (fin (fst (jib_mounting f luff base height loa)), fin (snd (jib_mounting f luff base height loa))).
Proof.
  intros (S & N). unfold jib_mounting, forestay_angle, forestay_length, sheer_xyz, fa_rake, finF. cbn [fa_rake_deg fa_sheer fa_csys fa_ns fa_nc]. rewrite rad_some. cbv zeta.
  set (r := deg2rad (fa_rake_deg f)) in *. assert (ER : r = rad (fa_rake_deg f)) by (unfold r; apply deg2rad_s). rewrite <- ER in S.
  change (@ncos (option R) CNum (Some r)) with (Some (cos r)). change (@nsin (option R) CNum (Some r)) with (Some (sin r)).
  assert (U : sin r * sin r + cos r * cos r = 1) by (pose proof (sin2_cos2 r); unfold Rsqr in *; lra).
  destruct (triangle base height (sin r) (cos r) U S N) as [P Q].
  rewrite !some_Z, !some_opp, !some_mul, !some_add, !some_sub, some_sqrt by (rnum; lra). change (@nmul R RNum) with Rmult. change (@nadd R RNum) with Rplus. change (@nsub R RNum) with Rminus. change (@nZ R RNum 2) with 2.
  set (L := base * base + height * height - 2 * base * height * cos r) in *. assert (LP : 0 < sqrt L) by (apply sqrt_lt_R0; exact P).
  rewrite !some_div by (try assumption; lra).
  assert (A : Rabs (height * sin r) <= sqrt L).
  { rewrite <- sqrt_Rsqr_abs. apply sqrt_le_1_alt. unfold Rsqr. exact Q. }
  assert (B : -1 <= height * sin r / sqrt L <= 1).
  { assert (H1 : - sqrt L <= height * sin r <= sqrt L) by (unfold Rabs in A; destruct (Rcase_abs (height * sin r)); lra).
    split; [apply Rmult_le_reg_r with (sqrt L)|apply Rmult_le_reg_r with (sqrt L)]; try exact LP; unfold Rdiv; rewrite Rmult_assoc, Rinv_l by lra; lra. }
  rewrite some_asin by exact B. reflexivity.
Qed.
(** conversely *)
Lemma jib_undef f luff base height loa : ~ rigged f base height ->
  let m := jib_mounting (finF f) (Some luff) (Some base) (Some height) (Some loa) in vx (fst m) = None.
Proof.
  intros NR. unfold jib_mounting, forestay_angle, forestay_length, sheer_xyz, fa_rake, finF. cbn [fa_rake_deg fa_sheer fa_csys fa_ns fa_nc]. rewrite rad_some. cbv zeta. cbn [fst vx].
  set (r := deg2rad (fa_rake_deg f)). assert (ER : r = rad (fa_rake_deg f)) by (unfold r; apply deg2rad_s).
  change (@nsin (option R) CNum (Some r)) with (Some (sin r)). destruct (Req_dec (sin r) 0) as [Z|Z].
  - rewrite Z. rewrite (some_div0 loa). reflexivity.
  - assert (B : base = 0) by (destruct (Req_dec base 0); [assumption | exfalso; apply NR; split; [rewrite <- ER; exact Z | auto]]).
    assert (H : height = 0) by (destruct (Req_dec height 0); [assumption | exfalso; apply NR; split; [rewrite <- ER; exact Z | auto]]).
    change (@ncos (option R) CNum (Some r)) with (Some (cos r)). rewrite B, H, !some_Z, !some_opp, !some_mul, !some_add, !some_sub, some_sqrt by (rnum; lra). rnum.
    replace (0 * 0 + 0 * 0 - 2 * 0 * 0 * cos r) with 0 by ring. rewrite sqrt_0, some_div0. apply none_r.
Qed.

(** ** Interpolation *)
Lemma interp_from_some pts : forall x0 y0 x, x0 <= x ->
  interp_from (Some x0) (Some y0) (map (fun p => (Some (fst p), Some (snd p))) pts) (Some x) = Some (interp_from x0 y0 pts x).
Proof.
  induction pts as [|[x1 y1] pts IH]; intros x0 y0 x H; [reflexivity|]. cbn [map interp_from fst snd]. rewrite some_ltb. destruct (nltb x x1) eqn:E.
  - apply Rltb_true in E. rewrite !some_sub, some_div by (rnum; lra). reflexivity.
  - apply Rltb_false in E. apply IH. exact E.
Qed.
Lemma np_interp_some xs xp fp : np_interp (map Some xs) (map Some xp) (map Some fp) = rmap (map Some) (np_interp xs xp fp).
Proof.
  unfold np_interp. rewrite !map_length. destruct (negb _); [reflexivity|]. rewrite combine_map2. destruct (combine xp fp) as [|[x0 y0] pts]; [reflexivity|]. cbn [map fst snd rmap]. f_equal.
  apply map_lift. intros x _. rewrite some_ltb. destruct (nltb x x0) eqn:E; [reflexivity|]. apply Rltb_false in E. apply interp_from_some. exact E.
Qed.
(** the spline on defined data, with defined results *)
Definition same_spline (sp : @spline_oracle R) (sp' : @spline_oracle (option R)) : Prop :=
  forall xs x y, sp' (map Some xs) (map Some x) (map Some y) = rmap (map Some) (sp xs x y).
Lemma girths_some sp sp' ty x y n : same_spline sp sp' ->
  interpolate_girths sp' ty (map Some x) (map Some y) n = rmap (map Some) (interpolate_girths sp ty x y n).
Proof. intros S. unfold interpolate_girths. rewrite linspace_some. destruct (String.eqb ty "linear"); [apply np_interp_some|]. destruct (String.eqb ty "spline"); [apply S | reflexivity]. Qed.

(** ** Hull *)
Lemma deck_fin b s x y : deck_line (Some b) (Some s) (map Some x) (map Some y) = map fin (deck_line b s x y).
Proof. unfold deck_line. cbv zeta. apply zip_lift. intros u v _. rewrite some_dec by lia. reflexivity. Qed.
Lemma hull_fin s b c clr : HullGeometry (Some s) (option_map Some b) (finC c) (fin clr) = rmap finH (HullGeometry s b c clr).
Proof.
  unfold HullGeometry. rewrite !some_dec, some_Z, foil_fin by lia. destruct (VlmAirfoil _ _ _ 51) as [a|]; [|reflexivity]. cbn [rmap bind].
  destruct b as [b|]; [|reflexivity]. cbn [option_map]. cbv zeta. unfold finA. cbn [af_xc af_yc af_yt af_xu af_xl af_yu af_yl].
  rewrite <- !map_rev, !some_Z, some_mul, (map_lift (fun _ : R => nZ 0) (fun _ : option R => Some (nZ 0)) Some Some) by reflexivity.
  rewrite !deck_fin. unfold finH. cbn [hu_centre hu_port hu_starboard hu_port_under hu_starboard_under hu_clr rmap]. f_equal.
  rewrite plain_turn_fin. f_equal; apply map_lift; intros; apply turn_fin.
Qed.
