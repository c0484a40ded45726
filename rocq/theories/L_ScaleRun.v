(** Lemmas about similar rigs: all lengths multiplied by one factor. *)

From Coq Require Import String ZArith Reals List Bool Lra Psatz Lia Arith.
From Verif Require Import Num PyBase RNum Spec M_Rotations M_Csys M_Mesher M_Panels M_Velocity M_Airfoil M_Coefs M_Forces M_Winds M_Vlm M_Interp M_Sail M_Results M_Hull M_Runner
  L_List L_Rot L_Vel L_Vel2 L_Csys L_Airfoil L_Mesh L_Sail L_Sail2 L_Lattice L_Vlm L_Vlm2 L_Results L_Runner L_Scale P_Scale P_Tack.
Import ListNotations.
Open Scope R_scope.

(** ** The scaled input *)
Definition scaled_csys (k : R) (c : csys R) : csys R := Csys (heel_deg c) (leeway_deg c) (sscale k (ref_vec c)).
Definition scaled_conditions (k : R) (cd : @conditions R) : @conditions R :=
  Conditions (cd_leeway cd) (cd_heel cd) (cd_sog cd) (cd_tws cd) (cd_alpha cd) (option_map (Rmult k) (cd_water_level cd)) (cd_exp_coeff cd)
    (option_map (Rmult k) (cd_ref_height cd)) (cd_rho cd) (cd_profile cd) (option_map (Rmult k) (cd_roughness cd)).
Definition scaled_rig (k : R) (r : @rig R) : @rig R :=
  Rig (option_map (Rmult k) (rg_main_luff r)) (option_map (Rmult k) (rg_jib_luff r)) (option_map (Rmult k) (rg_height r)) (option_map (Rmult k) (rg_base r))
    (k * rg_sheer r) (k * rg_boom r) (rg_rake r) (k * rg_mast_LOA r) (rg_sails_def r).
Definition scaled_sail (k : R) (s : @sail_def R) : @sail_def R :=
  SailDef (sd_twist s) (sd_girths s) (option_map (map (Rmult k)) (sd_chords s)) (sd_camber s) (sd_dist s).
(** the spline interpolation is an oracle; the scaled rig is similar if it is homogeneous *)
Definition homogeneous (k : R) (spline : spline_oracle) : Prop := forall xs x y, spline xs x (map (Rmult k) y) = rmap (map (Rmult k)) (spline xs x y).

Section ScaleRun.
Context (k : R) (HK : 0 < k).
Notation sc := (sscale k).

Lemma sc_v0 : sc v0 = v0.
Proof. unfold v0, sscale. rnum. cbn [vx vy vz]. vec_eq; ring. Qed.
Lemma sc_mapply m p : mapply m (sc p) = sc (mapply m p).
Proof. destruct m as [[a b c] [d e f] [g h i]], p as [x y z]. unfold mapply, vdot, sscale. vnum. vec_eq; ring. Qed.
Lemma pos_sc (a : R) : nltb (nZ 0) (k * a) = nltb (nZ 0) a.
Proof. rnum. rcases; try reflexivity; exfalso; nra. Qed.
Lemma rotate_sc c p : rotate_point_with_mirror (scaled_csys k c) (sc p) = sc (rotate_point_with_mirror c p).
Proof.
  unfold rotate_point_with_mirror. change (vz (sc p)) with (k * vz p). rewrite pos_sc.
  change (heeling_rotation_matrix (scaled_csys k c)) with (heeling_rotation_matrix c). change (reverse_heeling_rotation_matrix (scaled_csys k c)) with (reverse_heeling_rotation_matrix c).
  change (leeway_rotation_matrix (scaled_csys k c)) with (leeway_rotation_matrix c). destruct (nltb _ _); rewrite !sc_mapply; reflexivity.
Qed.
Lemma without_sc c p : rotate_point_without_mirror (scaled_csys k c) (sc p) = sc (rotate_point_without_mirror c p).
Proof. unfold rotate_point_without_mirror. rewrite <- !sc_mapply. reflexivity. Qed.

(** ** Rotation about a line *)
Definition sc4 (w : vec4 (F := R)) : vec4 := V4 (k * wx w) (k * wy w) (k * wz w) (ww w).
Ltac sc4s := intros [x y z w]; unfold apply4, dot4, sc4; cbn [wx wy wz ww q0 q1 q2 q3]; rnum; f_equal; unfold Rdiv; ring.
Lemma shift_sc4 x1 y1 z1 : forall w, apply4 (M4 (V4 1 0 0 (k * x1)) (V4 0 1 0 (k * y1)) (V4 0 0 1 (k * z1)) (V4 0 0 0 1)) (sc4 w)
  = sc4 (apply4 (M4 (V4 1 0 0 x1) (V4 0 1 0 y1) (V4 0 0 1 z1) (V4 0 0 0 1)) w).
Proof. sc4s. Qed.
Lemma turn_sc4 a b c d e f g h i : forall w, apply4 (M4 (V4 a b c 0) (V4 d e f 0) (V4 g h i 0) (V4 0 0 0 1)) (sc4 w)
  = sc4 (apply4 (M4 (V4 a b c 0) (V4 d e f 0) (V4 g h i 0) (V4 0 0 0 1)) w).
Proof. sc4s. Qed.
Lemma arbitrary_sc p1 p2 th p :
  rotate_point_around_arbitrary_axis (sc p1) (sc p2) th (sc p) = sc (rotate_point_around_arbitrary_axis p1 p2 th p).
Proof.
  unfold rotate_point_around_arbitrary_axis. cbv zeta.
  assert (A : vsub (sc p2) (sc p1) = sc (vsub p2 p1)) by (destruct p1 as [x1 y1 z1], p2 as [x2 y2 z2]; unfold sscale; vnum; vec_eq; ring).
  assert (N : vnorm (vsub (sc p2) (sc p1)) = k * vnorm (vsub p2 p1)). { rewrite A. tospec. apply sc_norm. exact HK. }
  rewrite N, A. set (d := vsub p2 p1). change (vx (sc d)) with (k * vx d). change (vy (sc d)) with (k * vy d). change (vz (sc d)) with (k * vz d).
  generalize (vx d) (vy d) (vz d) (vnorm d). clear d A N. intros a b c l.
  rnum. replace (k * b * (k * b) + k * c * (k * c)) with (k * k * (b * b + c * c)) by ring.
  assert (S2 : sqrt (k * k * (b * b + c * c)) = k * sqrt (b * b + c * c)). { rewrite sqrt_mult_alt by nra. rewrite sqrt_square by lra. reflexivity. }
  rewrite S2. generalize (sqrt (b * b + c * c)). intros v.
  replace (- (k * b) / (k * v)) with (- b / v) by (replace (- (k * b)) with (k * - b) by ring; symmetry; apply div_sc; exact HK).
  replace (- (k * a) / (k * l)) with (- a / l) by (replace (- (k * a)) with (k * - a) by ring; symmetry; apply div_sc; exact HK).
  rewrite !div_sc by exact HK.
  destruct p1 as [x1 y1 z1], p as [x y z]. unfold sscale. cbn [vx vy vz].
  change (V4 (k * x) (k * y) (k * z) 1) with (sc4 (V4 x y z 1)).
  replace (- (k * x1)) with (k * - x1) by ring. replace (- (k * y1)) with (k * - y1) by ring. replace (- (k * z1)) with (k * - z1) by ring.
  rewrite (shift_sc4 (- x1) (- y1) (- z1)), !turn_sc4, (shift_sc4 x1 y1 z1). reflexivity.
Qed.

(** ** The sails *)
Lemma le_sc pts p1 p2 tw : rotate_points_around_le (map sc pts) (sc p1) (sc p2) tw = rmap (map sc) (rotate_points_around_le pts p1 p2 tw).
Proof.
  unfold rotate_points_around_le. destruct (py_nth tw 0) as [t0|]; [|reflexivity]. unfold bind.
  destruct (forallb _ tw); cbn [rmap].
  - rewrite ?rotate_points_map. rewrite !map_map. f_equal. apply map_ext. intros p. apply arbitrary_sc.
  - f_equal. revert tw. induction pts as [|p pts IH]; intros [|t tw]; try reflexivity. cbn [map zipWith]. rewrite IH, arbitrary_sc. reflexivity.
Qed.
Lemma every_sc n l : every_nth n v0 (map sc l) = map sc (every_nth n v0 l).
Proof. rewrite <- every_nth_map, sc_v0. reflexivity. Qed.
Lemma transpose_sc c rows : transpose c v0 (map (map sc) rows) = map (map sc) (transpose c v0 rows).
Proof. rewrite <- transpose_map, sc_v0. reflexivity. Qed.
Lemma close_sc (a b : R) : k <= 1 -> close a b = true -> close (k * a) (k * b) = true.
Proof.
  unfold close. rnum. intros K1. replace (k * a - k * b) with (k * (a - b)) by ring. rewrite Rabs_mult, (Rabs_pos_eq k) by lra. pose proof (Rabs_pos (a - b)). rcases; try reflexivity; try discriminate. intros _. exfalso. nra.
Qed.
Lemma all_close_sc : k <= 1 -> forall l m, all_close l m = true -> all_close (map sc l) (map sc m) = true.
Proof.
  intros K1. induction l as [|a l IH]; intros [|b m]; try reflexivity. unfold all_close in *. cbn [map combine forallb fst snd]. intros E.
  apply andb_prop in E. destruct E as [E1 E2]. rewrite (IH m E2), andb_true_r. unfold vclose in *. apply andb_prop in E1. destruct E1 as [E1 Ez]. apply andb_prop in E1. destruct E1 as [Ex Ey].
  unfold sscale. cbn [vx vy vz]. rewrite !close_sc; auto.
Qed.
Lemma twist_sc sh1 mesh tw m : k <= 1 -> twist_mesh sh1 mesh tw = Ok m -> twist_mesh sh1 (map sc mesh) tw = Ok (map sc m).
Proof.
  intros K1. unfold twist_mesh. cbv zeta. rewrite every_sc, !py_nth_map.
  destruct (py_nth _ (-1)) as [p2|]; [|discriminate]. unfold bind. destruct (py_nth _ 0) as [p1|]; [|discriminate].
  rewrite le_sc. destruct (rotate_points_around_le mesh p1 p2 tw) as [tr|]; [|discriminate]. cbn [rmap].
  rewrite every_sc. destruct (all_close _ _) eqn:AC; [|discriminate]. intros E. injection E as ->. rewrite all_close_sc by assumption. reflexivity.
Qed.
Lemma mesh_at_sc mesh i j : mesh_at (map (map sc) mesh) i j = sc (mesh_at mesh i j).
Proof. unfold mesh_at. change (nth i (map (map sc) mesh) []) with (nth i (map (map sc) mesh) (map sc [])). rewrite (map_nth (map sc) mesh [] i). rewrite <- sc_v0 at 1. apply map_nth. Qed.
Lemma make_panels_sc mesh : make_panels_from_mesh_spanwise (map (map sc) mesh)
  = rmap (fun r => let '(p, t, l) := r in (map (enlarged k) p, t, l)) (make_panels_from_mesh_spanwise mesh).
Proof.
  unfold make_panels_from_mesh_spanwise. destruct mesh as [|row mesh]; [reflexivity|]. set (ms := row :: mesh).
  change (map (map sc) ms) with (map sc row :: map (map sc) mesh) at 1. cbv iota.
  rewrite map_length. cbn [rmap]. unfold ms at 6 7 8 9. cbv zeta. rewrite !map_length. f_equal. f_equal. f_equal. rewrite map_map. apply map_ext.
  intros [i j]. cbn [fst snd]. unfold enlarged. cbn [pp1 pp2 pp3 pp4]. rewrite !mesh_at_sc. reflexivity.
Qed.
Lemma segment_sc p1 p2 n : discrete_segment (sc p1) (sc p2) n = map sc (discrete_segment p1 p2 n).
Proof.
  unfold discrete_segment. cbv zeta. rewrite map_app, map_map. f_equal. apply map_ext. intros i. destruct p1 as [x1 y1 z1], p2 as [x2 y2 z2]. unfold sscale. vnum. vec_eq; unfold Rdiv; ring.
Qed.
Lemma add_chords_sc le ch : add_chords (map sc le) (map sc ch) = rmap (map sc) (add_chords le ch).
Proof.
  assert (A : forall a b, vadd (sc a) (sc b) = sc (vadd a b)) by (intros [x y z] [u v w]; unfold sscale; vnum; vec_eq; ring).
  unfold add_chords. rewrite !map_length. destruct (_ =? _)%nat.
  - cbn [rmap]. f_equal. apply zip_map. exact A.
  - destruct ch as [|c [|d ch]]; try reflexivity. cbn [map rmap]. f_equal. rewrite !map_map. apply map_ext. intros p. apply A.
Qed.
Lemma section_sc n di ca c p1 p2 : airfoil_section n di ca c (sc p1) (sc p2) = rmap (map sc) (airfoil_section n di ca c p1 p2).
Proof.
  unfold airfoil_section. rewrite rmap_bind. apply bind_ext. intros p _. rewrite rmap_bind. apply bind_ext. intros m _. rewrite rmap_bind. apply bind_ext. intros foil _.
  cbv zeta. cbn [rmap]. f_equal. destruct p1 as [x1 y1 z1], p2 as [x2 y2 z2]. unfold sscale at 1 2 3 4 5 6. cbn [vx vy vz]. generalize (af_xc foil) as xs, (af_yc foil) as ys.
  induction xs as [|x xs IH]; intros [|y ys]; try reflexivity. cbn [map zipWith]. rewrite IH. f_equal. unfold sscale. rnum. cbn [vx vy vz]. vec_eq; ring.
Qed.
Lemma mapM_map_rmap {A B C D} (f : A -> res B) (g : C -> res D) (h : A -> C) (j : B -> D) l : (forall a, g (h a) = rmap j (f a)) -> mapM g (map h l) = rmap (map j) (mapM f l).
Proof.
  intros E. induction l as [|a l IH]; [reflexivity|]. cbn [map mapM]. rewrite E. destruct (f a) as [b|]; [|reflexivity]. cbn [rmap]. unfold bind at 1 3. rewrite IH. destruct (mapM f l); reflexivity.
Qed.
Lemma combine_sc : forall (is : list nat) l m, map (fun q => (fst q, (sc (fst (snd q)), sc (snd (snd q))))) (combine is (combine l m)) = combine is (combine (map sc l) (map sc m)).
Proof. induction is as [|i is IH]; [reflexivity|]. intros [|x l] [|y m]; try reflexivity. cbn [combine map fst snd]. rewrite IH. reflexivity. Qed.
Lemma zero_mesh_sc a b nc ns ch di ca : zero_mesh (sc a) (sc b) nc ns (map (Rmult k) ch) di ca = rmap (map (map sc)) (zero_mesh a b nc ns ch di ca).
Proof.
  unfold zero_mesh, make_airfoil_mesh. cbv zeta. rewrite segment_sc.
  replace (map (fun c => V3 c (nZ 0) (nZ 0)) (map (Rmult k) ch)) with (map sc (map (fun c => V3 c (nZ 0) (nZ 0)) ch)).
  2:{ rewrite !map_map. apply map_ext. intros c. unfold sscale. rnum. cbn [vx vy vz]. vec_eq; ring. }
  rewrite add_chords_sc, bind_rmap, rmap_bind. apply bind_ext. intros te _. rewrite map_length.
  replace (combine (seq 0 (length (discrete_segment a b ns))) (combine (map sc (discrete_segment a b ns)) (map sc te)))
    with (map (fun q => (fst q, (sc (fst (snd q)), sc (snd (snd q))))) (combine (seq 0 (length (discrete_segment a b ns))) (combine (discrete_segment a b ns) te))).
  2:{ apply combine_sc. }
  apply mapM_map_rmap. intros [i [p q]]. cbn [fst snd]. apply section_sc.
Qed.
Lemma heel_mesh_sc c mesh : heel_mesh (scaled_csys k c) (map sc mesh) = map sc (heel_mesh c mesh).
Proof. unfold heel_mesh. rewrite !map_map. apply map_ext. intros p. apply rotate_sc. Qed.
Definition sail_sc (s : sail R) : sail R :=
  SailGeom (sl_name s) (scaled_csys k (sl_csys s)) (sc (sl_head s)) (sc (sl_tack s)) (map (enlarged k) (sl_above s)) (map (enlarged k) (sl_under s)) (sl_te s) (sl_le s)
    (map (enlarged k) (sl_above_zero s)) (map (enlarged k) (sl_under_zero s)).
Lemma mirror_sc p : mount_mirror (sc p) = sc (mount_mirror p).
Proof. unfold mount_mirror, sscale. rnum. cbn [vx vy vz]. vec_eq; ring. Qed.
Lemma sail_sc_spec head tack c ns nc ch tw name mode ca di s : k <= 1 ->
  SailGeometry head tack c ns nc ch tw name mode ca di = Ok s ->
  SailGeometry (sc head) (sc tack) (scaled_csys k c) ns nc (map (Rmult k) ch) tw name mode ca di = Ok (sail_sc s).
Proof.
  intros K1. unfold SailGeometry. cbv zeta. rewrite !mirror_sc, <- map_rev, !zero_mesh_sc.
  destruct (zero_mesh tack head _ _ _ _ _) as [mesh|]; [|discriminate]. cbn [rmap]. rewrite !bind_ret, transpose_sc, make_panels_sc.
  destruct (make_panels_from_mesh_spanwise (transpose (nc + 1) v0 mesh)) as [[[az ?] ?]|]; [|discriminate]. cbn [rmap]. rewrite !bind_ret.
  destruct (zero_mesh (mount_mirror head) _ _ _ _ _ _) as [mesh_u|]; [|discriminate]. cbn [rmap]. rewrite !bind_ret, transpose_sc, make_panels_sc.
  destruct (make_panels_from_mesh_spanwise (transpose (nc + 1) v0 mesh_u)) as [[[uz ?] ?]|]; [|discriminate]. cbn [rmap]. rewrite !bind_ret.
  rewrite <- !concat_map, !heel_mesh_sc. set (m := heel_mesh c (List.concat mesh)). set (mu := heel_mesh c (List.concat mesh_u)). clearbody m mu.
  intros E. apply bind_Ok in E. destruct E as ([m' mu'] & TW & E).
  match goal with |- bind ?x _ = _ => assert (T : x = Ok (map sc m', map sc mu')) end.
  { destruct mode as [mode|]; [|injection TW as <- <-; reflexivity].
    apply bind_Ok in TW. destruct TW as (u & -> & TW). cbn [bind]. apply bind_Ok in TW. destruct TW as (u' & -> & TW). cbn [bind].
    apply bind_Ok in TW. destruct TW as (t & -> & TW). cbn [bind]. apply bind_Ok in TW. destruct TW as (x & X & TW). rewrite (twist_sc _ _ _ _ K1 X). cbn [bind].
    apply bind_Ok in TW. destruct TW as (y & Y & TW). rewrite (twist_sc _ _ _ _ K1 Y). cbn [bind]. injection TW as -> ->. reflexivity. }
  rewrite T. rewrite bind_ret. clear T TW. revert E. rewrite !reshape_map.
  destruct (reshape _ _ m') as [ra|]; [|discriminate]. cbn [rmap]. rewrite !bind_ret. destruct (reshape _ _ mu') as [rb|]; [|discriminate]. cbn [rmap]. rewrite !bind_ret, !transpose_sc, !make_panels_sc.
  destruct (make_panels_from_mesh_spanwise (transpose (nc + 1) v0 ra)) as [[[pa ta] la]|]; [|discriminate]. cbn [rmap]. rewrite !bind_ret.
  destruct (make_panels_from_mesh_spanwise (transpose (nc + 1) v0 rb)) as [[[pb tb] lb]|]; [|discriminate]. cbn [rmap]. rewrite !bind_ret.
  destruct (guard (bools_eqb ta tb) _); [|discriminate]. cbn [bind]. destruct (guard (bools_eqb la lb) _); [|discriminate]. cbn [bind]. intros E. injection E as <-. reflexivity.
Qed.
Lemma interp_sc xs xp fp : np_interp xs xp (map (Rmult k) fp) = rmap (map (Rmult k)) (np_interp xs xp fp).
Proof.
  unfold np_interp. rewrite map_length. destruct (negb _); [reflexivity|].
  assert (C : combine xp (map (Rmult k) fp) = map (fun q => (fst q, k * snd q)) (combine xp fp)).
  { clear. revert fp. induction xp as [|x xp IH]; intros [|f fp]; try reflexivity. cbn [map combine]. rewrite IH. reflexivity. }
  rewrite C. destruct (combine xp fp) as [|[x0 y0] pts]; [reflexivity|]. cbn [map fst snd rmap]. f_equal. rewrite map_map. apply map_ext. intros x.
  destruct (nltb x x0); [reflexivity|]. clear. revert x0 y0. induction pts as [|[x1 y1] pts IH]; intros x0 y0; [reflexivity|].
  cbn [map fst snd interp_from]. destruct (nltb x x1); [|apply IH]. rnum. unfold Rdiv. ring.
Qed.
Lemma girths_sc spline ty g y n : homogeneous k spline -> interpolate_girths spline ty g (map (Rmult k) y) n = rmap (map (Rmult k)) (interpolate_girths spline ty g y n).
Proof. intros HO. unfold interpolate_girths. destruct (String.eqb ty "linear"); [apply interp_sc|]. destruct (String.eqb ty "spline"); [apply HO|reflexivity]. Qed.
Definition set_sc (s : sail_set R) : sail_set R :=
  SailSet_ (map sail_sc (ss_sails s)) (map (enlarged k) (ss_panels s)) (ss_te s) (ss_le s) (map (enlarged k) (ss_zero s)).
Lemma SailSet_sc sails : SailSet (map sail_sc sails) = rmap set_sc (SailSet sails).
Proof.
  unfold SailSet. destruct sails as [|s0 sails]; [reflexivity|]. set (l := s0 :: sails). change (map sail_sc l) with (sail_sc s0 :: map sail_sc sails) at 1. cbv iota.
  cbn [rmap]. unfold set_sc. cbn [ss_sails ss_panels ss_te ss_le ss_zero]. rewrite !map_app, !concat_map, !map_map. reflexivity.
Qed.
Definition scf (f : factory R) : factory R := Factory (scaled_csys k (fa_csys f)) (fa_ns f) (fa_nc f) (fa_rake_deg f) (k * fa_sheer f).
Definition scp (p : vec R * vec R) := (sc (fst p), sc (snd p)).
Lemma main_mounting_sc f luff boom : main_mounting (scf f) (k * luff) (k * boom) = scp (main_mounting f luff boom).
Proof. unfold main_mounting, scp, scf, sheer_xyz, sscale. cbv zeta. cbn [fst snd vx vy vz fa_sheer]. change (fa_rake (Factory _ _ _ (fa_rake_deg f) _)) with (fa_rake f). rnum. f_equal; vec_eq; ring. Qed.
Lemma forestay_sc f base height : forestay_length (scf f) (k * base) (k * height) = k * forestay_length f base height.
Proof.
  unfold forestay_length. change (fa_rake (scf f)) with (fa_rake f). rnum. match goal with |- sqrt ?a = k * sqrt ?b => replace a with (k * k * b) by ring end.
  rewrite sqrt_mult_alt by nra. rewrite sqrt_square by lra. reflexivity.
Qed.
Lemma jib_mounting_sc f luff base height LOA : jib_mounting (scf f) (k * luff) (k * base) (k * height) (k * LOA) = scp (jib_mounting f luff base height LOA).
Proof.
  unfold jib_mounting. cbv zeta. assert (A : forestay_angle (scf f) (k * base) (k * height) = forestay_angle f base height).
  { unfold forestay_angle. rewrite forestay_sc. change (fa_rake (scf f)) with (fa_rake f). rnum. f_equal. rewrite Rmult_assoc. apply div_sc. exact HK. }
  rewrite A. unfold scp, scf, sheer_xyz, sscale. cbn [fst snd vx vy vz fa_sheer]. change (fa_rake (Factory _ _ _ (fa_rake_deg f) _)) with (fa_rake f). rnum. unfold Rdiv. f_equal; vec_eq; ring.
Qed.
Lemma make_jib_sc f luff base height ch tw LOA mode ca di s : k <= 1 -> make_jib f luff base height ch tw LOA mode ca di = Ok s ->
  make_jib (scf f) (k * luff) (k * base) (k * height) (map (Rmult k) ch) tw (k * LOA) mode ca di = Ok (sail_sc s).
Proof.
  intros K1. unfold make_jib. rewrite jib_mounting_sc. destruct (jib_mounting f luff base height LOA) as [h t]. intros E. exact (sail_sc_spec _ _ _ _ _ _ _ _ _ _ _ _ K1 E).
Qed.
Lemma make_main_sc f luff boom ch tw mode ca di s : k <= 1 -> make_main_sail f luff boom ch tw mode ca di = Ok s ->
  make_main_sail (scf f) (k * luff) (k * boom) (map (Rmult k) ch) tw mode ca di = Ok (sail_sc s).
Proof.
  intros K1. unfold make_main_sail. rewrite main_mounting_sc. destruct (main_mounting f luff boom) as [h t]. intros E. exact (sail_sc_spec _ _ _ _ _ _ _ _ _ _ _ _ K1 E).
Qed.
Lemma get_sail_set_sc spline sv r main jib c s : k <= 1 -> homogeneous k spline -> get_sail_set spline sv r main jib c = Ok s ->
  get_sail_set spline sv (scaled_rig k r) (option_map (scaled_sail k) main) (option_map (scaled_sail k) jib) (scaled_csys k c) = Ok (set_sc s).
Proof.
  intros K1 HO. unfold get_sail_set. cbv zeta. change (rg_sails_def (scaled_rig k r)) with (rg_sails_def r).
  intros E. apply bind_Ok in E. destruct E as (js & EJ & E). apply bind_Ok in E. destruct E as (ms & EM & E).
  match goal with |- bind ?a _ = _ => assert (A : a = Ok (map sail_sc js)) end.
  { clear EM E. destruct (_ || _)%bool; [|injection EJ as <-; reflexivity]. destruct jib as [j|]; [|discriminate]. cbn [option_map bind] in *. unfold scaled_sail, scaled_rig. cbn [sd_twist sd_girths sd_chords sd_camber sd_dist rg_jib_luff rg_base rg_height rg_mast_LOA].
    apply bind_Ok in EJ. destruct EJ as (ch & EC & EJ). destruct (sd_girths j) as [g|]; [|discriminate]. destruct (sd_chords j) as [cc|]; [|discriminate]. cbn [need bind option_map] in *. rewrite (girths_sc _ _ _ _ _ HO), EC. cbn [rmap bind].
    apply bind_Ok in EJ. destruct EJ as (tw & ET & EJ). rewrite ET. cbn [bind]. apply bind_Ok in EJ. destruct EJ as (ca & ECA & EJ). rewrite ECA. cbn [bind]. apply bind_Ok in EJ. destruct EJ as (di & ED & EJ). rewrite ED. cbn [bind].
    destruct (rg_jib_luff r) as [lu|]; [|discriminate]. destruct (rg_base r) as [ba|]; [|discriminate]. destruct (rg_height r) as [he|]; [|discriminate]. cbn [need bind option_map] in *.
    apply bind_Ok in EJ. destruct EJ as (sl & ES & EJ). injection EJ as <-. apply (make_jib_sc _ _ _ _ _ _ _ _ _ _ _ K1) in ES. unfold scf in ES. cbn [fa_csys fa_ns fa_nc fa_rake_deg fa_sheer] in ES. cbn [rg_rake rg_sheer]. rewrite ES. reflexivity. }
  match goal with |- bind _ (fun jibs => bind ?a _) = _ => assert (B : a = Ok (map sail_sc ms)) end.
  { clear EJ E A. destruct (_ || _)%bool; [|injection EM as <-; reflexivity]. destruct main as [j|]; [|discriminate]. cbn [option_map bind] in *. unfold scaled_sail, scaled_rig. cbn [sd_twist sd_girths sd_chords sd_camber sd_dist rg_main_luff rg_boom].
    apply bind_Ok in EM. destruct EM as (ch & EC & EM). destruct (sd_girths j) as [g|]; [|discriminate]. destruct (sd_chords j) as [cc|]; [|discriminate]. cbn [need bind option_map] in *. rewrite (girths_sc _ _ _ _ _ HO), EC. cbn [rmap bind].
    apply bind_Ok in EM. destruct EM as (tw & ET & EM). rewrite ET. cbn [bind]. apply bind_Ok in EM. destruct EM as (ca & ECA & EM). rewrite ECA. cbn [bind]. apply bind_Ok in EM. destruct EM as (di & ED & EM). rewrite ED. cbn [bind].
    destruct (rg_main_luff r) as [lu|]; [|discriminate]. cbn [need bind option_map] in *.
    apply bind_Ok in EM. destruct EM as (sl & ES & EM). injection EM as <-. apply (make_main_sc _ _ _ _ _ _ _ _ _ K1) in ES. unfold scf in ES. cbn [fa_csys fa_ns fa_nc fa_rake_deg fa_sheer] in ES. cbn [rg_rake rg_sheer]. rewrite ES. reflexivity. }
  rewrite A. cbn [bind]. rewrite B. cbn [bind]. rewrite <- map_app, SailSet_sc, E. reflexivity.
Qed.

(** ** Wind, checks and hull *)
Lemma Wind_sc cd : Wind (scaled_conditions k cd) = rmap (stretched k) (Wind cd).
Proof.
  assert (I : forall o : option R, is_none (option_map (Rmult k) o) = is_none o) by (intros [|]; reflexivity).
  unfold Wind, Wind_post_init, scaled_conditions. cbn [cd_profile cd_roughness cd_ref_height cd_exp_coeff cd_water_level]. rewrite !I.
  destruct (_ && _)%bool; [reflexivity|]. destruct (_ && _)%bool; [reflexivity|]. destruct (_ && _)%bool; [reflexivity|]. cbn [bind rmap]. f_equal. unfold Wind_profile, stretched.
  cbn [cd_profile cd_roughness cd_ref_height cd_exp_coeff cd_water_level w_prof w_alpha_deg w_tws w_sog cd_alpha cd_tws cd_sog].
  destruct (String.eqb _ _); [reflexivity|]. destruct (String.eqb _ _); reflexivity.
Qed.
Lemma post_init_sc r main jib : Sail_post_init (scaled_rig k r) (option_map (scaled_sail k) main) (option_map (scaled_sail k) jib) = Sail_post_init r main jib.
Proof.
  assert (I : forall o : option R, is_none (option_map (Rmult k) o) = is_none o) by (intros [|]; reflexivity).
  assert (N : forall d, jib_none (scaled_rig k r) (scaled_sail k d) = jib_none r d) by (intros d; unfold jib_none, scaled_sail, scaled_rig; cbn; rewrite !I; reflexivity).
  assert (M : forall d, main_none (scaled_rig k r) (scaled_sail k d) = main_none r d) by (intros d; unfold main_none, scaled_sail, scaled_rig; cbn; rewrite !I; reflexivity).
  unfold Sail_post_init. cbv zeta. change (rg_sails_def (scaled_rig k r)) with (rg_sails_def r). destruct main as [m|], jib as [j|]; cbn [option_map]; rewrite ?bind_ret, ?N, ?M; reflexivity.
Qed.
Definition hull_sc (h : hull R) : hull R := Hull (map sc (hu_centre h)) (map sc (hu_port h)) (map sc (hu_starboard h)) (map sc (hu_port_under h)) (map sc (hu_starboard_under h)) (sc (hu_clr h)).
Lemma deck_sc b sh x y : deck_line (k * b) (k * sh) x y = map sc (deck_line b sh x y).
Proof.
  unfold deck_line. cbv zeta. revert y. induction x as [|a x IH]; intros [|c y]; try reflexivity. cbn [zipWith map]. rewrite IH. f_equal. unfold sscale. rnum. cbn [vx vy vz]. vec_eq; ring.
Qed.
Lemma HullGeometry_sc sheer base c clr : HullGeometry (k * sheer) (option_map (Rmult k) base) (scaled_csys k c) (sc clr) = rmap hull_sc (HullGeometry sheer base c clr).
Proof.
  unfold HullGeometry. rewrite rmap_bind. apply bind_ext. intros foil _. destruct base as [b|]; [|reflexivity]. cbn [option_map]. cbv zeta. cbn [rmap]. f_equal.
  assert (U : nmul (nZ (-1)) (k * sheer) = k * nmul (nZ (-1)) sheer) by (rnum; ring). rewrite U, !deck_sc.
  assert (T : forall l, map (rotate_point_with_mirror (scaled_csys k c)) (map sc l) = map sc (map (rotate_point_with_mirror c) l)) by (intros l; rewrite !map_map; apply map_ext; intros; apply rotate_sc).
  unfold hull_sc. cbn [hu_centre hu_port hu_starboard hu_port_under hu_starboard_under hu_clr]. rewrite !T, without_sc. reflexivity.
Qed.
End ScaleRun.
