(** C68: the other tack. *)

From Coq Require Import String ZArith Reals List Bool Lra Psatz Lia Arith.
From Verif Require Import Num PyBase RNum Spec M_Rotations M_Csys M_Mesher M_Panels M_Velocity M_Airfoil M_Coefs M_Forces M_Winds M_Vlm M_Interp M_Sail M_Results M_Hull M_Runner
  L_List L_Rot L_Vel L_Vel2 L_Csys L_Airfoil L_Mesh L_Sail L_Sail2 L_Lattice L_Vlm L_Vlm2 L_Results L_Demo L_DemoForce P_Airfoil P_Sail P_Interp P_Vlm P_Winds P_Results P_Coefs L_Runner P_Runner P_Run L_Tack.
Import ListNotations.
Open Scope R_scope.

(** ** Specification *)
(** starboard and port exchanged: for points, velocities and forces, and for moments *)
Definition sflip (p : vec R) : vec R := V3 (vx p) (- vy p) (vz p).
Definition mflip (p : vec R) : vec R := V3 (- vx p) (vy p) (- vz p).
Definition panel_flip (p : panel R) : panel R := Panel (sflip (pp1 p)) (sflip (pp2 p)) (sflip (pp3 p)) (sflip (pp4 p)).
(** the input data for the other tack *)
Definition other_csys (c : csys R) : csys R := Csys (- heel_deg c) (- leeway_deg c) (sflip (ref_vec c)).
Definition other_conditions (cd : @conditions R) : @conditions R :=
  Conditions (- cd_leeway cd) (- cd_heel cd) (cd_sog cd) (cd_tws cd) (- cd_alpha cd) (cd_water_level cd) (cd_exp_coeff cd) (cd_ref_height cd)
    (cd_rho cd) (cd_profile cd) (cd_roughness cd).
Definition other_sail (s : @sail_def R) : @sail_def R :=
  SailDef (option_map (map Ropp) (sd_twist s)) (sd_girths s) (sd_chords s) (sd_camber s) (sd_dist s).
Definition uncambered (s : option (@sail_def R)) : Prop := forall d l v, s = Some d -> sd_camber d = Some l -> In v l -> v = 0.

(** ** Maps over the building blocks *)
Definition rmap {A B} (f : A -> B) (m : res A) : res B := match m with Ok a => Ok (f a) | Raise e => Raise e end.
Lemma rmap_bind {A B C} (f : B -> C) (m : res A) (k : A -> res B) : rmap f (bind m k) = bind m (fun a => rmap f (k a)).
Proof. destruct m; reflexivity. Qed.
Lemma bind_rmap {A B C} (f : A -> B) (m : res A) (k : B -> res C) : bind (rmap f m) k = bind m (fun a => k (f a)).
Proof. destruct m; reflexivity. Qed.
Lemma bind_ret {A B} (a : A) (k : A -> res B) : bind (Ok a) k = k a.
Proof. reflexivity. Qed.
Lemma bind_ext {A B} (m : res A) (k k' : A -> res B) : (forall a, m = Ok a -> k a = k' a) -> bind m k = bind m k'.
Proof. intros H. destruct m; [apply H|]; reflexivity. Qed.
Lemma chunks_map {A B} (f : A -> B) s : forall l, chunks s (map f l) = map (map f) (chunks s l).
Proof. induction s as [|n s IH]; intros l; [reflexivity|]. cbn [chunks map]. rewrite <- IH, firstn_map, skipn_map. reflexivity. Qed.
Lemma reshape_map {A B} (f : A -> B) r c l : reshape r c (map f l) = rmap (map (map f)) (reshape r c l).
Proof. unfold reshape. rewrite map_length. destruct (_ =? _)%nat; [|reflexivity]. cbn [rmap]. rewrite chunks_map. reflexivity. Qed.
Lemma transpose_map {A B} (f : A -> B) c d rows : transpose c (f d) (map (map f) rows) = map (map f) (transpose c d rows).
Proof. unfold transpose. rewrite map_map. apply map_ext. intros j. rewrite !map_map. apply map_ext. intros row. apply map_nth. Qed.
Lemma every_nth_map {A B} (f : A -> B) k d l : every_nth k (f d) (map f l) = map f (every_nth k d l).
Proof. unfold every_nth. rewrite map_length, map_map. apply map_ext. intros i. apply map_nth. Qed.
Lemma array_split_map {A B} (f : A -> B) l n : array_split (map f l) n = rmap (map (map f)) (array_split l n).
Proof. unfold array_split. destruct n; [reflexivity|]. rewrite map_length. cbn [rmap]. rewrite chunks_map. reflexivity. Qed.
Lemma firstn_map' {A B} (f : A -> B) n l : firstn n (map f l) = map f (firstn n l).
Proof. apply firstn_map. Qed.

(** ** The reflection *)
Lemma iso_flip : iso (-1) sflip.
Proof. unfold sflip. constructor; intros; destruct a; try destruct b; svec; try vec_eq; ring. Qed.
Lemma flip_motion p : motion sflip szero p = sflip p.
Proof. unfold motion, sflip. destruct p as [x y z]. svec. vec_eq; ring. Qed.
Lemma flip_moved p : moved sflip szero p = panel_flip p.
Proof. unfold moved, panel_flip. rewrite !flip_motion. reflexivity. Qed.
Lemma flip_v0 : sflip v0 = v0.
Proof. unfold sflip, v0. rnum. cbn [vx vy vz]. vec_eq; ring. Qed.
Lemma flip_flip p : sflip (sflip p) = p.
Proof. unfold sflip. destruct p as [x y z]. cbn [vx vy vz]. vec_eq; ring. Qed.
Lemma flip_flat p : vy p = 0 -> sflip p = p.
Proof. unfold sflip. destruct p as [x y z]. cbn [vx vy vz]. intros ->. vec_eq; ring. Qed.
Lemma other_angles c : heel_a (other_csys c) = - heel_a c /\ leeway_a (other_csys c) = - leeway_a c.
Proof. unfold heel_a, leeway_a, other_csys; cbn [heel_deg leeway_deg]. rewrite !rad_opp. split; reflexivity. Qed.
Lemma heel_flip c p : mapply (heeling_rotation_matrix (other_csys c)) (sflip p) = sflip (mapply (heeling_rotation_matrix c) p).
Proof. rewrite !heel_apply. destruct (other_angles c) as [-> _]. rewrite cos_neg, sin_neg. unfold sflip. destruct p as [x y z]. cbn [vx vy vz]. vec_eq; ring. Qed.
Lemma rheel_flip c p : mapply (reverse_heeling_rotation_matrix (other_csys c)) (sflip p) = sflip (mapply (reverse_heeling_rotation_matrix c) p).
Proof. rewrite !rheel_apply. destruct (other_angles c) as [-> _]. rewrite cos_neg, sin_neg. unfold sflip. destruct p as [x y z]. cbn [vx vy vz]. vec_eq; ring. Qed.
Lemma leeway_flip c p : mapply (leeway_rotation_matrix (other_csys c)) (sflip p) = sflip (mapply (leeway_rotation_matrix c) p).
Proof. rewrite !leeway_apply. destruct (other_angles c) as [_ ->]. rewrite cos_neg, sin_neg. unfold sflip. destruct p as [x y z]. cbn [vx vy vz]. vec_eq; ring. Qed.
Lemma leeway_mflip c p : mapply (leeway_rotation_matrix (other_csys c)) (mflip p) = mflip (mapply (leeway_rotation_matrix c) p).
Proof. rewrite !leeway_apply. destruct (other_angles c) as [_ ->]. rewrite cos_neg, sin_neg. unfold mflip. destruct p as [x y z]. cbn [vx vy vz]. vec_eq; ring. Qed.
Lemma rotate_flip c p : rotate_point_with_mirror (other_csys c) (sflip p) = sflip (rotate_point_with_mirror c p).
Proof.
  unfold rotate_point_with_mirror. change (vz (sflip p)) with (vz p). destruct (nltb (nZ 0) (vz p)); rewrite ?heel_flip, ?rheel_flip; apply leeway_flip.
Qed.
Lemma without_flip c p : rotate_point_without_mirror (other_csys c) (sflip p) = sflip (rotate_point_without_mirror c p).
Proof. unfold rotate_point_without_mirror. rewrite heel_flip. apply leeway_flip. Qed.
Definition flip4 (w : vec4 (F := R)) : vec4 := V4 (wx w) (- wy w) (wz w) (ww w).
Ltac flip4s := intros [x y z w]; unfold apply4, dot4, flip4; cbn [wx wy wz ww q0 q1 q2 q3]; rnum; f_equal; unfold Rdiv; ring.
Lemma shift_flip4 x1 y1 z1 : forall w, apply4 (M4 (V4 1 0 0 x1) (V4 0 1 0 (- y1)) (V4 0 0 1 z1) (V4 0 0 0 1)) (flip4 w)
  = flip4 (apply4 (M4 (V4 1 0 0 x1) (V4 0 1 0 y1) (V4 0 0 1 z1) (V4 0 0 0 1)) w).
Proof. flip4s. Qed.
Lemma x_flip4 c b b' : forall w, apply4 (M4 (V4 1 0 0 0) (V4 0 c (- b) 0) (V4 0 (- b') c 0) (V4 0 0 0 1)) (flip4 w)
  = flip4 (apply4 (M4 (V4 1 0 0 0) (V4 0 c b 0) (V4 0 b' c 0) (V4 0 0 0 1)) w).
Proof. flip4s. Qed.
Lemma y_flip4 a b c d : forall w, apply4 (M4 (V4 a 0 b 0) (V4 0 1 0 0) (V4 c 0 d 0) (V4 0 0 0 1)) (flip4 w)
  = flip4 (apply4 (M4 (V4 a 0 b 0) (V4 0 1 0 0) (V4 c 0 d 0) (V4 0 0 0 1)) w).
Proof. flip4s. Qed.
Lemma z_flip4 ct st : forall w, apply4 (M4 (V4 ct (- - st) 0 0) (V4 (- st) ct 0 0) (V4 0 0 1 0) (V4 0 0 0 1)) (flip4 w)
  = flip4 (apply4 (M4 (V4 ct (- st) 0 0) (V4 st ct 0 0) (V4 0 0 1 0) (V4 0 0 0 1)) w).
Proof. flip4s. Qed.
Lemma arbitrary_flip p1 p2 th p :
  rotate_point_around_arbitrary_axis (sflip p1) (sflip p2) (- th) (sflip p) = sflip (rotate_point_around_arbitrary_axis p1 p2 th p).
Proof.
  unfold rotate_point_around_arbitrary_axis. cbv zeta.
  assert (B : vy (vsub (sflip p2) (sflip p1)) = - vy (vsub p2 p1)) by (destruct p1 as [x1 y1 z1], p2 as [x2 y2 z2]; unfold sflip; vnum; ring).
  assert (A : vx (vsub (sflip p2) (sflip p1)) = vx (vsub p2 p1)) by reflexivity.
  assert (C : vz (vsub (sflip p2) (sflip p1)) = vz (vsub p2 p1)) by reflexivity.
  assert (N : vnorm (vsub (sflip p2) (sflip p1)) = vnorm (vsub p2 p1)).
  { unfold vnorm, vdot. rewrite A, B, C. rnum. f_equal. ring. }
  rewrite A, B, C, N. generalize (vx (vsub p2 p1)) (vy (vsub p2 p1)) (vz (vsub p2 p1)) (vnorm (vsub p2 p1)). intros a b c l.
  rnum. replace (- b * - b + c * c) with (b * b + c * c) by ring. generalize (sqrt (b * b + c * c)). intros v.
  rewrite cos_neg, sin_neg. destruct p1 as [x1 y1 z1], p as [x y z]. unfold sflip. cbn [vx vy vz].
  change (V4 x (- y) z 1) with (flip4 (V4 x y z 1)).
  replace (- - b / v) with (- (- b / v)) by (unfold Rdiv; ring). replace (- b / v) with (- (b / v)) by (unfold Rdiv; ring).
  rewrite (shift_flip4 (- x1) (- y1) (- z1)), (x_flip4 (c / v) (- (b / v)) (b / v)), y_flip4, z_flip4, y_flip4.
  rewrite (x_flip4 (c / v) (b / v) (- (b / v))), (shift_flip4 x1 y1 z1). reflexivity.
Qed.
Lemma deg2rad_Ropp (t : R) : deg2rad (- t) = - deg2rad t.
Proof. rewrite !deg2rad_s. apply rad_opp. Qed.

(** ** The sails *)
Lemma le_flip pts p1 p2 tw : rotate_points_around_le (map sflip pts) (sflip p1) (sflip p2) (map Ropp tw) = rmap (map sflip) (rotate_points_around_le pts p1 p2 tw).
Proof.
  unfold rotate_points_around_le. rewrite py_nth_map. destruct (py_nth tw 0) as [t0|]; [|reflexivity]. unfold bind.
  assert (Q : forallb (fun t => neqb t (- t0)) (map Ropp tw) = forallb (fun t => neqb t t0) tw).
  { induction tw as [|t tw IH]; [reflexivity|]. cbn [map forallb]. rewrite IH. f_equal. rnum. rcases; (reflexivity || lra). }
  rewrite Q. destruct (forallb _ tw); cbn [rmap].
  - rewrite ?rotate_points_map. rewrite !map_map, deg2rad_Ropp. f_equal. apply map_ext. intros p. apply arbitrary_flip.
  - f_equal. clear Q. revert tw. induction pts as [|p pts IH]; intros [|t tw]; try reflexivity. cbn [map zipWith]. rewrite IH, deg2rad_Ropp, arbitrary_flip. reflexivity.
Qed.
Lemma vclose_flip a b : vclose (sflip a) (sflip b) = vclose a b.
Proof.
  unfold vclose, sflip, close. cbn [vx vy vz]. f_equal. f_equal. f_equal. rnum. replace (- vy a - - vy b) with (- (vy a - vy b)) by ring. apply Rabs_Ropp.
Qed.
Lemma all_close_flip l : forall m, all_close (map sflip l) (map sflip m) = all_close l m.
Proof.
  induction l as [|a l IH]; intros [|b m]; try reflexivity. unfold all_close in *. cbn [map combine forallb fst snd]. rewrite IH, vclose_flip. reflexivity.
Qed.
Lemma map_repeat {A B} (f : A -> B) a n : map f (repeat a n) = repeat (f a) n.
Proof. induction n as [|n IH]; [reflexivity|]. cbn [repeat map]. rewrite IH. reflexivity. Qed.
Lemma spread_flip sh0 sh1 tw : spread_twist sh0 sh1 (map Ropp tw) = rmap (map Ropp) (spread_twist sh0 sh1 tw).
Proof.
  unfold spread_twist. rewrite <- map_repeat, <- concat_map, reshape_map. destruct (reshape sh1 sh0 _) as [rows|]; [|reflexivity].
  unfold bind, rmap. f_equal. rewrite concat_map, <- transpose_map. replace (nZ 0) with 0 by reflexivity. rewrite Ropp_0. reflexivity.
Qed.
Lemma every_flip k l : every_nth k v0 (map sflip l) = map sflip (every_nth k v0 l).
Proof. rewrite <- every_nth_map, flip_v0. reflexivity. Qed.
Lemma transpose_flip c rows : transpose c v0 (map (map sflip) rows) = map (map sflip) (transpose c v0 rows).
Proof. rewrite <- transpose_map, flip_v0. reflexivity. Qed.
Lemma twist_flip sh1 mesh tw : twist_mesh sh1 (map sflip mesh) (map Ropp tw) = rmap (map sflip) (twist_mesh sh1 mesh tw).
Proof.
  unfold twist_mesh. cbv zeta. rewrite every_flip, !py_nth_map.
  destruct (py_nth _ (-1)) as [p2|]; [|reflexivity]. unfold bind. destruct (py_nth _ 0) as [p1|]; [|reflexivity].
  rewrite le_flip. destruct (rotate_points_around_le mesh p1 p2 tw) as [tr|]; [|reflexivity]. cbn [rmap].
  rewrite every_flip, all_close_flip. destruct (all_close _ _); reflexivity.
Qed.
Lemma mesh_at_flip mesh i j : mesh_at (map (map sflip) mesh) i j = sflip (mesh_at mesh i j).
Proof. unfold mesh_at. change (nth i (map (map sflip) mesh) []) with (nth i (map (map sflip) mesh) (map sflip [])). rewrite (map_nth (map sflip) mesh [] i). rewrite <- flip_v0 at 1. apply map_nth. Qed.
Lemma make_panels_flip mesh : make_panels_from_mesh_spanwise (map (map sflip) mesh)
  = rmap (fun r => let '(p, t, l) := r in (map panel_flip p, t, l)) (make_panels_from_mesh_spanwise mesh).
Proof.
  unfold make_panels_from_mesh_spanwise. destruct mesh as [|row mesh]; [reflexivity|]. set (ms := row :: mesh).
  change (map (map sflip) ms) with (map sflip row :: map (map sflip) mesh) at 1. cbv iota.
  rewrite map_length. cbn [rmap]. unfold ms at 6 7 8 9. cbv zeta. rewrite !map_length. f_equal. f_equal. f_equal. rewrite map_map. apply map_ext.
  intros [i j]. cbn [fst snd]. unfold panel_flip. cbn [pp1 pp2 pp3 pp4]. rewrite !mesh_at_flip. reflexivity.
Qed.

(** an uncambered sail lies in the plane of symmetry before it is twisted *)
Lemma camber_zero p x y : get_y_camber 0 p x = Ok y -> y = 0.
Proof.
  unfold get_y_camber. rnum. destruct (_ && _)%bool; [intros E|destruct (_ && _)%bool; [intros E|discriminate]].
  all: apply (f_equal (fun r => match r with Ok x => x | Raise _ => y end)) in E; cbv beta iota in E; subst y; unfold Rdiv; ring.
Qed.
Lemma mapM_all {A B} (f : A -> res B) (P : B -> Prop) l bs : (forall a b, f a = Ok b -> P b) -> mapM f l = Ok bs -> forall b, In b bs -> P b.
Proof.
  intros H E b Hb. apply mapM_Forall2 in E. induction E as [|x y l bs E F IH]; [destruct Hb|]. destruct Hb as [<-|Hb]; [eapply H; exact E | apply IH; exact Hb].
Qed.
Lemma zipWith_in {A B C} (f : A -> B -> C) l : forall m c, In c (zipWith f l m) -> exists a b, In a l /\ In b m /\ c = f a b.
Proof.
  induction l as [|a l IH]; intros [|b m] c H; try destruct H. - exists a, b. simpl. auto. - destruct (IH m c H) as (x & y & X & Y & Z). exists x, y. simpl. auto.
Qed.
Lemma py_nth_in {A} (l : list A) z a : py_nth l z = Ok a -> In a l.
Proof. unfold py_nth. destruct (_ || _)%bool; [discriminate|]. destruct (nth_error _ _) as [b|] eqn:E; [|discriminate]. intros X. injection X as <-. eapply nth_error_In. exact E. Qed.
Lemma zero_mesh_flat a b nc ns ch di ca mesh : (forall v, In v ca -> v = 0) -> zero_mesh a b nc ns ch di ca = Ok mesh -> forall row p, In row mesh -> In p row -> vy p = 0.
Proof.
  intros Z E. unfold zero_mesh, make_airfoil_mesh in E. cbv zeta in E. apply bind_Ok in E. destruct E as (te & _ & E).
  assert (H : forall row, In row mesh -> forall p, In p row -> vy p = 0); [|intros; eapply H; eassumption].
  refine (mapM_all _ (fun row => forall p, In p row -> vy p = 0) _ _ _ E). intros [k [p1 p2]] row X q Q. unfold airfoil_section in X. cbn [fst snd] in X.
  apply bind_Ok in X. destruct X as (p & _ & X). apply bind_Ok in X. destruct X as (m & M & X). apply py_nth_in, Z in M. subst m.
  apply bind_Ok in X. destruct X as (foil & FO & X). cbv zeta in X.
  unfold VlmAirfoil in FO. apply bind_Ok in FO. destruct FO as (u & _ & FO). cbv zeta in FO. apply bind_Ok in FO. destruct FO as (yc & YC & FO). apply bind_Ok in FO. destruct FO as (dy & _ & FO).
  injection FO as <-. cbn [af_xc af_yc] in X. injection X as <-.
  apply zipWith_in in Q. destruct Q as (x & y & _ & Y & ->). cbn [vy]. apply in_map_iff in Y. destruct Y as (y0 & <- & Y).
  rewrite (mapM_all _ (fun y => y = 0) _ _ (camber_zero p) YC y0 Y). rnum. ring.
Qed.
Lemma heel_mesh_flip c mesh : (forall p, In p mesh -> vy p = 0) -> heel_mesh (other_csys c) mesh = map sflip (heel_mesh c mesh).
Proof.
  intros Z. unfold heel_mesh. rewrite map_map. apply map_ext_in. intros p I. rewrite <- rotate_flip, (flip_flat p (Z p I)). reflexivity.
Qed.
Lemma mapM_flat_concat (mesh : list (list (vec R))) : (forall row p, In row mesh -> In p row -> vy p = 0) -> forall p, In p (List.concat mesh) -> vy p = 0.
Proof. intros H p I. apply in_concat in I. destruct I as (row & R1 & R2). eapply H; eassumption. Qed.
Definition sail_flip (s : sail R) : sail R :=
  SailGeom (sl_name s) (other_csys (sl_csys s)) (sl_head s) (sl_tack s) (map panel_flip (sl_above s)) (map panel_flip (sl_under s)) (sl_te s) (sl_le s) (sl_above_zero s) (sl_under_zero s).
Lemma py_min_any {A} (l : list R) (k : res A) : (do _ <- py_min (map Ropp l); k) = (do _ <- py_min l; k).
Proof. destruct l; reflexivity. Qed.
Lemma sail_flip_spec head tack c ns nc ch tw name mode ca di : (forall v, In v ca -> v = 0) ->
  SailGeometry head tack (other_csys c) ns nc ch (map Ropp tw) name mode ca di = rmap sail_flip (SailGeometry head tack c ns nc ch tw name mode ca di).
Proof.
  intros Z. unfold SailGeometry. cbv zeta. rewrite rmap_bind. apply bind_ext. intros mesh EM.
  rewrite rmap_bind. apply bind_ext. intros [[az ?] ?] _. rewrite rmap_bind. apply bind_ext. intros mesh_u EU. rewrite rmap_bind. apply bind_ext. intros [[uz ?] ?] _.
  rewrite !heel_mesh_flip by (apply mapM_flat_concat; eapply zero_mesh_flat; [|eassumption]; first [assumption | intros v V; apply Z, in_rev; assumption]).
  set (m := heel_mesh c (List.concat mesh)). set (mu := heel_mesh c (List.concat mesh_u)).
  set (tail := fun cc : csys R => fun mm : list (vec R) * list (vec R) => let '(m, mu) := mm in
    do m <- reshape (ns + 1) (nc + 1) m; do mu <- reshape (ns + 1) (nc + 1) mu;
    do (above, te, le) <- make_panels_from_mesh_spanwise (transpose (nc + 1) v0 m);
    do (under, te_u, le_u) <- make_panels_from_mesh_spanwise (transpose (nc + 1) v0 mu);
    do _ <- guard (bools_eqb te te_u) AssertionError; do _ <- guard (bools_eqb le le_u) AssertionError;
    Ok (SailGeom name cc head tack above under te le az uz)).
  assert (T : forall a b, tail (other_csys c) (map sflip a, map sflip b) = rmap sail_flip (tail c (a, b))).
  { intros a b. unfold tail. rewrite !reshape_map. destruct (reshape _ _ a) as [ra|]; [|reflexivity]. cbn [rmap]. unfold bind at 1 7. destruct (reshape _ _ b) as [rb|]; [|reflexivity]. cbn [rmap].
    unfold bind at 1 6. rewrite !transpose_flip, !make_panels_flip.
    destruct (make_panels_from_mesh_spanwise (transpose (nc + 1) v0 ra)) as [[[pa ta] la]|]; [|reflexivity]. cbn [rmap]. unfold bind at 1 5.
    destruct (make_panels_from_mesh_spanwise (transpose (nc + 1) v0 rb)) as [[[pb tb] lb]|]; [|reflexivity]. cbn [rmap]. unfold bind at 1 4.
    destruct (guard (bools_eqb ta tb) _); [|reflexivity]. unfold bind. destruct (guard (bools_eqb la lb) _); reflexivity. }
  assert (G : forall x : res (list (vec R) * list (vec R)), bind (rmap (fun ab => (map sflip (fst ab), map sflip (snd ab))) x) (tail (other_csys c)) = rmap sail_flip (bind x (tail c))).
  { intros [[a b]|]; [apply T|reflexivity]. }
  etransitivity; [|etransitivity; [apply G with (x := match mode with None => Ok (m, mu) | Some mode => do _ <- py_min tw; do _ <- lookup_twist_mode mode; do tw <- spread_twist (ns + 1) (nc + 1) tw;
      do m' <- twist_mesh (nc + 1) m tw; do mu' <- twist_mesh (nc + 1) mu (rev tw); Ok (m', mu') end)|]]; [|reflexivity].
  unfold tail. f_equal. destruct mode as [mode|]; [|reflexivity]. rewrite rmap_bind, py_min_any. apply bind_ext. intros _ _. rewrite rmap_bind. apply bind_ext. intros _ _.
  rewrite spread_flip, bind_rmap, rmap_bind. apply bind_ext. intros t _. rewrite twist_flip, bind_rmap, rmap_bind. apply bind_ext. intros m' _.
  rewrite <- map_rev, twist_flip, bind_rmap, rmap_bind. reflexivity.
Qed.

(** ** Interpolated data *)
Lemma interp_opp xs xp fp : np_interp xs xp (map Ropp fp) = rmap (map Ropp) (np_interp xs xp fp).
Proof.
  unfold np_interp. rewrite map_length. destruct (negb _); [reflexivity|].
  assert (C : combine xp (map Ropp fp) = map (fun q => (fst q, - snd q)) (combine xp fp)).
  { clear. revert fp. induction xp as [|x xp IH]; intros [|f fp]; try reflexivity. cbn [map combine]. rewrite IH. reflexivity. }
  rewrite C. destruct (combine xp fp) as [|[x0 y0] pts]; [reflexivity|]. cbn [map fst snd rmap]. f_equal. rewrite map_map. apply map_ext. intros x.
  destruct (nltb x x0); [reflexivity|]. clear. revert x0 y0. induction pts as [|[x1 y1] pts IH]; intros x0 y0; [reflexivity|].
  cbn [map fst snd interp_from]. destruct (nltb x x1); [|apply IH]. rnum. unfold Rdiv. ring.
Qed.
Lemma girths_opp spline g y n : interpolate_girths spline "linear" g (map Ropp y) n = rmap (map Ropp) (interpolate_girths spline "linear" g y n).
Proof. apply interp_opp. Qed.
Lemma girths_zero spline g y n l : (forall v, In v y -> v = 0) -> interpolate_girths spline "linear" g y n = Ok l -> forall v, In v l -> v = 0.
Proof.
  intros Z E v I. assert (Y : y = map Ropp y). { clear E. induction y as [|a y IH]; [reflexivity|]. cbn [map]. rewrite <- IH by (intros; apply Z; simpl; auto). rewrite (Z a) by (simpl; auto). rewrite Ropp_0. reflexivity. }
  pose proof (girths_opp spline g y n) as O. rewrite <- Y, E in O. cbn [rmap] in O. apply (f_equal (fun r => match r with Ok x => x | Raise _ => l end)) in O. cbv beta iota in O.
  destruct (In_nth_error _ _ I) as [k K]. pose proof K as K'. rewrite O, nth_error_map, K in K'. cbn [option_map] in K'. injection K' as K'. lra.
Qed.
Definition set_flip (s : sail_set R) : sail_set R :=
  SailSet_ (map sail_flip (ss_sails s)) (map panel_flip (ss_panels s)) (ss_te s) (ss_le s) (ss_zero s).
Lemma SailSet_flip sails : SailSet (map sail_flip sails) = rmap set_flip (SailSet sails).
Proof.
  unfold SailSet. destruct sails as [|s0 sails]; [reflexivity|]. set (l := s0 :: sails). change (map sail_flip l) with (sail_flip s0 :: map sail_flip sails) at 1. cbv iota.
  cbn [rmap]. unfold set_flip. cbn [ss_sails ss_panels ss_te ss_le ss_zero]. rewrite map_app, !concat_map, !map_map. reflexivity.
Qed.
Lemma get_sail_set_flip spline ns nc mode r main jib c : uncambered main -> uncambered jib ->
  get_sail_set spline (Solver ns nc "linear" mode) r (option_map other_sail main) (option_map other_sail jib) (other_csys c)
  = rmap set_flip (get_sail_set spline (Solver ns nc "linear" mode) r main jib c).
Proof.
  intros FM FJ. unfold get_sail_set. cbv zeta. cbn [sv_ns sv_nc sv_interp sv_LLT].
  match goal with |- bind ?a _ = rmap _ (bind ?b _) => assert (A : a = rmap (map sail_flip) b) end.
  { destruct (_ || _)%bool; [|reflexivity]. destruct jib as [j|]; [|reflexivity]. cbn [option_map]. rewrite !bind_ret. unfold other_sail. cbn [sd_twist sd_girths sd_chords sd_camber sd_dist].
    rewrite rmap_bind. apply bind_ext. intros ch _.
    destruct (sd_girths j) as [g|]; [|reflexivity]. destruct (sd_twist j) as [tw|]; [|reflexivity]. cbn [option_map need]. rewrite !bind_ret. rewrite girths_opp, bind_rmap.
    rewrite rmap_bind. apply bind_ext. intros t _. rewrite rmap_bind. apply bind_ext. intros ca EC. rewrite rmap_bind. apply bind_ext. intros di _.
    rewrite rmap_bind. apply bind_ext. intros luff _. rewrite rmap_bind. apply bind_ext. intros base _. rewrite rmap_bind. apply bind_ext. intros height _.
    unfold make_jib. cbn [fa_csys fa_ns fa_nc]. change (jib_mounting (Factory (other_csys c) ns nc (rg_rake r) (rg_sheer r))) with (jib_mounting (Factory c ns nc (rg_rake r) (rg_sheer r))).
    destruct (jib_mounting _ _ _ _ _) as [h t0]. cbn [fa_csys fa_ns fa_nc]. rewrite sail_flip_spec, bind_rmap, rmap_bind; [reflexivity|].
    unfold need, bind in EC. destruct (sd_camber j) as [cl|] eqn:CL; [|discriminate]. eapply girths_zero; [|exact EC]. intros v I. eapply FJ; [reflexivity|exact CL|exact I]. }
  match goal with |- bind _ (fun jibs => bind ?a _) = rmap _ (bind _ (fun jibs' => bind ?b _)) => assert (B : a = rmap (map sail_flip) b) end.
  { clear A. destruct (_ || _)%bool; [|reflexivity]. destruct main as [j|]; [|reflexivity]. cbn [option_map]. rewrite !bind_ret. unfold other_sail. cbn [sd_twist sd_girths sd_chords sd_camber sd_dist].
    rewrite rmap_bind. apply bind_ext. intros ch _.
    destruct (sd_girths j) as [g|]; [|reflexivity]. destruct (sd_twist j) as [tw|]; [|reflexivity]. cbn [option_map need]. rewrite !bind_ret. rewrite girths_opp, bind_rmap.
    rewrite rmap_bind. apply bind_ext. intros t _. rewrite rmap_bind. apply bind_ext. intros ca EC. rewrite rmap_bind. apply bind_ext. intros di _.
    rewrite rmap_bind. apply bind_ext. intros luff _.
    unfold make_main_sail. cbn [fa_csys fa_ns fa_nc]. change (main_mounting (Factory (other_csys c) ns nc (rg_rake r) (rg_sheer r))) with (main_mounting (Factory c ns nc (rg_rake r) (rg_sheer r))).
    destruct (main_mounting _ _ _) as [h t0]. cbn [fa_csys fa_ns fa_nc]. rewrite sail_flip_spec, bind_rmap, rmap_bind; [reflexivity|].
    unfold need, bind in EC. destruct (sd_camber j) as [cl|] eqn:CL; [|discriminate]. eapply girths_zero; [|exact EC]. intros v I. eapply FM; [reflexivity|exact CL|exact I]. }
  rewrite A, bind_rmap, rmap_bind. apply bind_ext. intros js _. rewrite B, bind_rmap, rmap_bind. apply bind_ext. intros ms _. rewrite <- map_app. apply SailSet_flip.
Qed.

(** ** Wind, solution and results *)
Definition other_wind (w : wind R) : wind R := Wind_ (- w_alpha_deg w) (w_tws w) (w_sog w) (w_prof w).
Lemma wind_flip cd : Wind (other_conditions cd) = rmap other_wind (Wind cd).
Proof. unfold Wind. change (Wind_post_init (other_conditions cd)) with (Wind_post_init cd). destruct (Wind_post_init cd); reflexivity. Qed.
Lemma true_wind_flip w h : get_true_wind_speed_at_h (other_wind w) h = rmap sflip (get_true_wind_speed_at_h w h).
Proof.
  unfold get_true_wind_speed_at_h. change (wind_speed_at_h (other_wind w) h) with (wind_speed_at_h w h). destruct (wind_speed_at_h w h) as [u|]; [|reflexivity].
  unfold bind, rmap. f_equal. unfold length_to_xyz_vector, w_alpha, other_wind, sflip. cbn [w_alpha_deg vx vy vz]. rewrite deg2rad_Ropp. rnum. rewrite cos_neg, sin_neg. vec_eq; ring.
Qed.
Lemma inlet_flip w cp ic : InletConditions w cp = Ok ic -> exists ic', InletConditions (other_wind w) (map sflip cp) = Ok ic' /\
  in_cp ic' = map sflip (in_cp ic) /\ in_tws ic' = map sflip (in_tws ic) /\ in_V ic' = map sflip (in_V ic).
Proof.
  unfold InletConditions. intros E. apply bind_Ok in E. destruct E as (us & M & E). injection E as <-. cbn [in_cp in_tws in_V].
  assert (M' : mapM (fun p => get_true_wind_speed_at_h (other_wind w) (nabs (vz p))) (map sflip cp) = Ok (map sflip us)).
  { revert us M. induction cp as [|p cp IH]; intros us M; [injection M as <-; reflexivity|]. cbn [mapM map] in *. apply bind_Ok in M. destruct M as (u & U & M). apply bind_Ok in M. destruct M as (v & V & M). injection M as <-.
    rewrite true_wind_flip. change (vz (sflip p)) with (vz p). rewrite U, (IH v V). reflexivity. }
  rewrite M', bind_ret. eexists. split; [reflexivity|]. cbn [in_cp in_tws in_V]. repeat (split; [reflexivity|]). rewrite !map_map. apply map_ext. intros [x y z]. reflexivity.
Qed.
Definition rigid_flip := rigid_solution (-1) sflip szero.
Lemma map_flip_motion l : map (motion sflip szero) l = map sflip l.
Proof. apply map_ext. intros. apply flip_motion. Qed.
Lemma map_flip_moved l : map (moved sflip szero) l = map panel_flip l.
Proof. apply map_ext. intros. apply flip_moved. Qed.
(** the solver on the other tack: circulations and pressures change sign, velocities and forces are reflected *)
Record flipped (o o' : vlm R) : Prop := {
  fl_cp : vl_cp o' = map sflip (vl_cp o);
  fl_inflow : in_V (vl_inlet o') = map sflip (in_V (vl_inlet o));
  fl_gamma : vl_gamma o' = map Ropp (vl_gamma o);
  fl_V_ind_ctrl : vl_V_ind_ctrl o' = map sflip (vl_V_ind_ctrl o);
  fl_V_ctrl : vl_V_ctrl o' = map sflip (vl_V_ctrl o);
  fl_V_ind_cp : vl_V_ind_cp o' = map sflip (vl_V_ind_cp o);
  fl_V_cp : vl_V_cp o' = map sflip (vl_V_cp o);
  fl_force : vl_force o' = map sflip (vl_force o);
  fl_lift : vl_lift o' = map sflip (vl_lift o);
  fl_drag : vl_drag o' = map sflip (vl_drag o);
  fl_pressure : vl_pressure o' = map Ropp (vl_pressure o);
  fl_pcoef : vl_pcoef o' = map Ropp (vl_pcoef o) }.
Theorem C68_solver : forall nc ns G panels rho w te le o, (0 < nc)%nat -> (0 < ns)%nat -> (0 < G)%nat -> flags nc ns G te le -> length panels = (G * (nc * ns))%nat ->
  Vlm panels nc ns rho w te le = Ok o -> exists o', Vlm (map panel_flip panels) nc ns rho (other_wind w) te le = Ok o' /\ flipped o o'.
Proof.
  intros nc ns G panels rho w te le o NC NS NG FG LP E. assert (LT : length te = length panels) by (rewrite LP; apply FG).
  destruct (Vlm_inv _ _ _ _ _ _ _ _ LT E) as (vars & ic & g & net & CV & LV & IC & LI & VS & FL).
  destruct (inlet_flip _ _ _ IC) as (ic' & IC' & _ & _ & EI).
  destruct (solve_rigid (-1) sflip szero iso_flip ltac:(lra) nc ns G panels rho te le vars ic ic' o NC NS NG FG LP CV LI EI VS) as (vars' & o' & CV' & VS' & CP & RS).
  rewrite map_flip_moved in CV', VS'. rewrite map_flip_motion in CP.
  assert (LT' : length te = length (map panel_flip panels)) by (rewrite map_length; exact LT).
  assert (E' : Vlm (map panel_flip panels) nc ns rho (other_wind w) te le = Ok o'). { unfold Vlm. rewrite gor_R, CV', bind_ret, CP, IC', bind_ret. exact VS'. }
  exists o'. split; [exact E'|].
  assert (IN : vl_inlet o = ic /\ vl_inlet o' = ic').
  { clear - VS VS'. split; [revert VS; generalize o as q, vars as vs, panels as ps | revert VS'; generalize o' as q, vars' as vs, (map panel_flip panels) as ps]; intros q vs ps Q; unfold vlm_solve in Q; cbv zeta in Q;
      destruct (calc_velocity_coefs _ _ _ _ _ _) as [? ?]; apply bind_Ok in Q; destruct Q as (? & _ & Q); destruct (calculate_app_fs _ _ _) as [? ?]; repeat (apply bind_Ok in Q; destruct Q as (? & _ & Q); try match type of Q with context [let '(_, _) := ?x in _] => destruct x as [[? ?] ?] end); injection Q as <-; reflexivity. }
  destruct IN as [I1 I2]. assert (ON : forall l : list R, map (Rmult (-1)) l = map Ropp l) by (intros; apply map_ext; intros; ring).
  destruct RS as [R0 R1 R2 R3 R4 R5 R6 R7 R8 R9 R10 R11]. rewrite map_flip_motion in R1. rewrite ON in R2, R10, R11. constructor; try assumption. rewrite I1, I2. exact EI.
Qed.
Lemma arm_flip d p : moment_arm (sflip d) (sflip p) = sflip (moment_arm d p).
Proof. unfold moment_arm, sflip. cbn [vx vy vz]. rnum. vec_eq; ring. Qed.
Lemma cross_flip a b : vcross (sflip a) (sflip b) = mflip (vcross a b).
Proof. destruct a as [x y z], b as [u v w]. unfold sflip, mflip. vnum. vec_eq; ring. Qed.
Lemma dot_flip a b : vdot (sflip a) (sflip b) = vdot a b.
Proof. destruct a as [x y z], b as [u v w]. unfold sflip. vnum. ring. Qed.
Lemma zip_map {A B C A' B' C'} (f : A -> B -> C) (f' : A' -> B' -> C') (g : A -> A') (h : B -> B') (k : C -> C') :
  (forall a b, f' (g a) (h b) = k (f a b)) -> forall l m, zipWith f' (map g l) (map h m) = map k (zipWith f l m).
Proof. intros H l. induction l as [|a l IH]; intros [|b m]; try reflexivity. cbn [map zipWith]. rewrite H, IH. reflexivity. Qed.
Lemma vsum_lin (f : vec R -> vec R) l : f v0 = v0 -> (forall a b, f (vadd a b) = vadd (f a) (f b)) -> vsum (map f l) = f (vsum l).
Proof.
  intros Z A. unfold vsum. assert (G : forall l acc, fold_left vadd (map f l) (f acc) = f (fold_left vadd l acc)).
  { clear l. intros l. induction l as [|a l IH]; intros acc; [reflexivity|]. cbn [map fold_left]. rewrite <- A. apply IH. }
  rewrite <- G, Z. reflexivity.
Qed.
Lemma vsum_flip l : vsum (map sflip l) = sflip (vsum l).
Proof. apply vsum_lin; [apply flip_v0|]. intros [x y z] [u v w]. unfold sflip. vnum. vec_eq; ring. Qed.
Lemma vsum_mflip l : vsum (map mflip l) = mflip (vsum l).
Proof. apply vsum_lin; [unfold mflip, v0; rnum; cbn [vx vy vz]; vec_eq; ring|]. intros [x y z] [u v w]. unfold mflip. vnum. vec_eq; ring. Qed.
Lemma moments_flip a f : calc_moments (map sflip a) (map sflip f) = map mflip (calc_moments a f).
Proof. apply zip_map. apply cross_flip. Qed.
Lemma determine_flip f d m : determine_vector_from_its_dot_and_cross_product (sflip f) d (mflip m) = sflip (determine_vector_from_its_dot_and_cross_product f d m).
Proof.
  unfold determine_vector_from_its_dot_and_cross_product. rewrite dot_flip. generalize (vdot f f). intros q. destruct f as [x y z], m as [u v w]. unfold sflip, mflip. vnum. unfold Rdiv. vec_eq; ring.
Qed.
Definition total_flip (t : sail_total R) : sail_total R := SailTotal (st_name t) (sflip (st_F t)) (mflip (st_M t)).
Record flow_flipped (fr fr' : flow_results R) : Prop := {
  ff_csys : fr_csys fr' = other_csys (fr_csys fr);
  ff_F : fr_F fr' = map sflip (fr_F fr);
  ff_F_total : fr_F_total fr' = sflip (fr_F_total fr);
  ff_arms : fr_arms fr' = map sflip (fr_arms fr);
  ff_sails : fr_sails fr' = map total_flip (fr_sails fr);
  ff_M : fr_M fr' = map mflip (fr_M fr);
  ff_M_total : fr_M_total fr' = mflip (fr_M_total fr);
  ff_coe : fr_coe fr' = sflip (fr_coe fr);
  ff_F_cl : fr_F_cl fr' = map sflip (fr_F_cl fr);
  ff_F_cl_total : fr_F_cl_total fr' = sflip (fr_F_cl_total fr);
  ff_M_cl : fr_M_cl fr' = map mflip (fr_M_cl fr);
  ff_M_cl_total : fr_M_cl_total fr' = mflip (fr_M_cl_total fr) }.
Lemma above_map {A B} (f : A -> B) l : above_water (map f l) = map f (above_water l).
Proof. unfold above_water. rewrite map_length, firstn_map. reflexivity. Qed.
Lemma results_flip s c v v' fr : flipped v v' -> InviscidFlowResults s c v = Ok fr ->
  exists fr', InviscidFlowResults (set_flip s) (other_csys c) v' = Ok fr' /\ flow_flipped fr fr'.
Proof.
  intros FL E. unfold InviscidFlowResults in *. cbv zeta in *. rewrite (fl_force _ _ FL), (fl_cp _ _ FL).
  change (ref_vec (other_csys c)) with (sflip (ref_vec c)).
  set (r := calc_moment_arm_in_shifted_csys (vl_cp v) (ref_vec c)) in *.
  assert (RF : calc_moment_arm_in_shifted_csys (map sflip (vl_cp v)) (sflip (ref_vec c)) = map sflip r).
  { unfold r, calc_moment_arm_in_shifted_csys. rewrite !map_map. apply map_ext. intros p. apply arm_flip. }
  rewrite RF. set (f := vl_force v) in *. clearbody r f. change (ss_sails (set_flip s)) with (map sail_flip (ss_sails s)). rewrite !map_length, !firstn_map, !array_split_map.
  apply bind_Ok in E. destruct E as (fch & EF & E). apply bind_Ok in E. destruct E as (rch & ER & E). rewrite EF, ER. cbn [rmap]. rewrite !bind_ret. injection E as <-.
  assert (CF : forall l, from_xyz_to_centerline_csys (other_csys c) (map sflip l) = map sflip (from_xyz_to_centerline_csys c l)).
  { intros l. unfold from_xyz_to_centerline_csys. rewrite !map_map. apply map_ext. intros. apply leeway_flip. }
  assert (CM : forall l, from_xyz_to_centerline_csys (other_csys c) (map mflip l) = map mflip (from_xyz_to_centerline_csys c l)).
  { intros l. unfold from_xyz_to_centerline_csys. rewrite !map_map. apply map_ext. intros. apply leeway_mflip. }
  eexists. split; [reflexivity|]. constructor; cbn [fr_csys fr_F fr_F_total fr_arms fr_sails fr_M fr_M_total fr_coe fr_F_cl fr_F_cl_total fr_M_cl fr_M_cl_total];
    rewrite ?moments_flip, ?CF, ?CM, ?above_map, ?vsum_flip, ?vsum_mflip; try reflexivity.
  - rewrite map_map. generalize (ss_sails s) as sails, 0%nat as a. intros sails. set (n := length sails). assert (LN : length sails = n) by reflexivity. clearbody n. revert n LN. induction sails as [|x sails IH]; intros n LN a; destruct n; try discriminate; [reflexivity|].
    cbn [map combine seq]. rewrite (IH n) by (injection LN; auto). f_equal. unfold total_flip. cbn [fst snd st_name st_F st_M sl_name sail_flip].
    change (@nil (vec R)) with (map sflip []). rewrite !map_nth, moments_flip, vsum_flip, vsum_mflip. reflexivity.
  - replace (zipWith vdot (map sflip r) (map sflip f)) with (zipWith vdot r f). { apply determine_flip. }
    rewrite (zip_map vdot vdot sflip sflip (fun x => x) dot_flip). rewrite map_id. reflexivity.
Qed.
Lemma keel_flip fr fr' clr : flow_flipped fr fr' -> keel_moment fr' (sflip clr) = (mflip (fst (keel_moment fr clr)), mflip (snd (keel_moment fr clr))).
Proof.
  intros FF. unfold keel_moment. cbv zeta. rewrite (ff_F_total _ _ FF), (ff_csys _ _ FF). cbn [fst snd].
  assert (X : vcross (sflip clr) (vopp (sflip (fr_F_total fr))) = mflip (vcross clr (vopp (fr_F_total fr)))).
  { rewrite <- cross_flip. f_equal. }
  rewrite X, leeway_mflip. reflexivity.
Qed.
Lemma post_init_flip r main jib : Sail_post_init r (option_map other_sail main) (option_map other_sail jib) = Sail_post_init r main jib.
Proof.
  assert (N : forall d, jib_none r (other_sail d) = jib_none r d) by (intros d; unfold jib_none, other_sail; cbn [sd_twist sd_girths sd_chords sd_camber sd_dist]; destruct (sd_twist d); reflexivity).
  assert (M : forall d, main_none r (other_sail d) = main_none r d) by (intros d; unfold main_none, other_sail; cbn [sd_twist sd_girths sd_chords sd_camber sd_dist]; destruct (sd_twist d); reflexivity).
  assert (A : forall d, check_input_arr_shapes (sail_arrays (other_sail d)) = check_input_arr_shapes (sail_arrays d)).
  { intros d. unfold check_input_arr_shapes, sail_arrays, other_sail. cbn [sd_twist sd_girths sd_chords sd_camber sd_dist hd mapM]. destruct (sd_twist d); [|reflexivity]. cbn [option_map]. rewrite map_length. reflexivity. }
  unfold Sail_post_init. cbv zeta. destruct main as [m|], jib as [j|]; cbn [option_map]; rewrite ?bind_ret, ?N, ?M, ?A; reflexivity.
Qed.

(** ** C68 *)
Record other_tack (rr rr' : @run_result R) : Prop := {
  ot_names : map sl_name (ss_sails (rr_set rr')) = map sl_name (ss_sails (rr_set rr));
  ot_panels : ss_panels (rr_set rr') = map panel_flip (ss_panels (rr_set rr));
  ot_clr : rr_clr rr' = sflip (rr_clr rr);
  ot_solution : flipped (rr_vlm rr) (rr_vlm rr');
  ot_results : flow_flipped (rr_flow rr) (rr_flow rr');
  ot_keel : keel_moment (rr_flow rr') (rr_clr rr') = (mflip (fst (keel_moment (rr_flow rr) (rr_clr rr))), mflip (snd (keel_moment (rr_flow rr) (rr_clr rr)))) }.
Theorem C68_run : forall spline cd ns nc mode r main jib ref clr rr, (1 <= ns)%nat -> (1 <= nc)%nat -> uncambered main -> uncambered jib ->
  run spline cd (Solver ns nc "linear" mode) r main jib ref clr = Ok rr ->
  exists rr', run spline (other_conditions cd) (Solver ns nc "linear" mode) r (option_map other_sail main) (option_map other_sail jib) (sflip ref) (sflip clr) = Ok rr' /\ other_tack rr rr'.
Proof.
  intros spline cd ns nc mode r main jib ref clr rr NS NC FM FJ E. destruct (run_inv _ _ _ _ _ _ _ _ _ E) as (w & EW & EP & EG & EH & EV & EF).
  set (c := Csys (cd_heel cd) (cd_leeway cd) ref) in *.
  pose proof (get_sail_set_flip spline ns nc mode r main jib c FM FJ) as GF. rewrite EG in GF. cbn [rmap] in GF.
  destruct (get_sail_set_inv _ _ _ _ _ _ _ EG) as (sails & SS & ES & _ & _ & B). cbn [sv_nc sv_ns] in B.
  destruct (sail_set_flags nc ns sails _ B SS) as [LP FG].
  assert (NG : (0 < 2 * length sails)%nat). { destruct sails; [discriminate SS|]. simpl. lia. }
  destruct (C68_solver nc ns (2 * length sails) _ _ w _ _ _ ltac:(lia) ltac:(lia) NG FG LP EV) as (v' & EV' & FL).
  destruct (results_flip _ _ _ _ _ FL EF) as (fr' & EF' & FF).
  destruct (rg_base r) as [b|] eqn:RB; [|rewrite hull_none in EH; discriminate].
  destruct (hull_ok (rg_sheer r) b c clr) as (h & H1 & H2). rewrite EH in H1. injection H1 as H1.
  destruct (hull_ok (rg_sheer r) b (other_csys c) (sflip clr)) as (h' & H1' & H2').
  assert (CL : hu_clr h' = sflip (hu_clr (rr_hull rr))) by (rewrite H2', H1, H2; apply without_flip).
  exists (RunResult (set_flip (rr_set rr)) h' v' fr'). split.
  - unfold run. rewrite wind_flip, EW. cbn [rmap]. rewrite bind_ret, post_init_flip, EP, bind_ret.
    change (Csys (cd_heel (other_conditions cd)) (cd_leeway (other_conditions cd)) (sflip ref)) with (other_csys c). rewrite GF, bind_ret, RB, H1', bind_ret. cbn [sv_nc sv_ns].
    change (cd_rho (other_conditions cd)) with (cd_rho cd). unfold set_flip at 1 2 3. cbn [ss_panels ss_te ss_le]. rewrite EV', bind_ret, EF', bind_ret. reflexivity.
  - unfold rr_clr. constructor; unfold rr_clr; cbn [rr_set rr_hull rr_vlm rr_flow set_flip ss_sails ss_panels].
    + rewrite map_map. reflexivity.
    + reflexivity.
    + exact CL.
    + exact FL.
    + exact FF.
    + rewrite CL. apply keel_flip. exact FF.
Qed.
(** The mirror image of a cambered sail has its camber on the other side, which a negative camber would express; the
    airfoil check refuses it. *)
Lemma airfoil_range m p t n foil : VlmAirfoil m p t n = Ok foil -> accepted m p t.
Proof. unfold VlmAirfoil. intros E. apply bind_Ok in E. destruct E as ([] & E & _). apply check_ok. exact E. Qed.
Lemma mapM_raise_first {A B} (f f' : A -> res B) e l bs : mapM f l = Ok bs -> (forall a b, f a = Ok b -> f' a = Ok b \/ f' a = Raise e) ->
  (exists a, In a l /\ f' a = Raise e) -> mapM f' l = Raise e.
Proof.
  intros E H. revert bs E. induction l as [|a l IH]; intros bs E (x & I & X); [destruct I|]. cbn [mapM] in *. apply bind_Ok in E. destruct E as (b & Eb & E). apply bind_Ok in E. destruct E as (bs' & Es & _).
  destruct (H a b Eb) as [Q|Q]; rewrite Q; [|reflexivity]. rewrite bind_ret. destruct I as [<-|I]; [congruence|]. rewrite (IH bs' Es) by eauto. reflexivity.
Qed.
Lemma section_negated n di ca k p1 p2 row : airfoil_section n di ca k p1 p2 = Ok row ->
  (exists m, nth_error ca k = Some m /\ 0 <= m) /\
  (airfoil_section n di (map Ropp ca) k p1 p2 = Ok row \/ airfoil_section n di (map Ropp ca) k p1 p2 = Raise (SystemExit 1)) /\
  (forall m, nth_error ca k = Some m -> m <> 0 -> airfoil_section n di (map Ropp ca) k p1 p2 = Raise (SystemExit 1)).
Proof.
  unfold airfoil_section. intros E. apply bind_Ok in E. destruct E as (p & P & E). apply bind_Ok in E. destruct E as (m & M & E). apply bind_Ok in E. destruct E as (foil & FO & E).
  pose proof (airfoil_range _ _ _ _ _ FO) as A. rewrite py_nth_map, P, M, !bind_ret.
  pose proof (py_nth_Ok_nat _ _ _ M) as N. split; [exists m; split; [exact N|]; unfold accepted in A; lra|].
  assert (BAD : m <> 0 -> VlmAirfoil (- m) p (nZ 0) n = Raise (SystemExit 1)).
  { intros Z. unfold VlmAirfoil. rewrite check_bad; [reflexivity|]. unfold accepted in *. lra. }
  split.
  - destruct (Req_dec m 0) as [->|Z]; [left; rewrite Ropp_0, FO; exact E | right; rewrite BAD by assumption; reflexivity].
  - intros m' M' Z. rewrite N in M'. injection M' as <-. rewrite BAD by assumption. reflexivity.
Qed.
Theorem C68_camber_rejected : forall head tack c c' ns nc ch tw tw' name mode ca di s k m,
  SailGeometry head tack c ns nc ch tw name mode ca di = Ok s -> (k <= ns)%nat -> nth_error ca k = Some m -> m <> 0 ->
  SailGeometry head tack c' ns nc ch tw' name mode (map Ropp ca) di = Raise (SystemExit 1).
Proof.
  intros head tack c c' ns nc ch tw tw' name mode ca di s k m E K M Z. unfold SailGeometry in *. cbv zeta in *. apply bind_Ok in E. destruct E as (mesh & E & _).
  assert (X : zero_mesh tack head nc ns ch di (map Ropp ca) = Raise (SystemExit 1)); [|rewrite X; reflexivity].
  unfold zero_mesh, make_airfoil_mesh in *. cbv zeta in *. apply bind_Ok in E. destruct E as (te & T & E). rewrite T, bind_ret.
  eapply mapM_raise_first; [exact E| |].
  - intros [i [p1 p2]] row. cbn [fst snd]. intros Q. apply section_negated in Q. apply Q.
  - set (le := discrete_segment tack head ns) in *. assert (LE : length le = S ns) by apply segment_length.
    assert (LT : length te = S ns).
    { unfold add_chords in T. destruct (_ =? _)%nat eqn:L in T.
      - apply Nat.eqb_eq in L. apply (f_equal (fun r => match r with Ok x => length x | Raise _ => 0%nat end)) in T. cbv beta iota in T. rewrite <- T, zipWith_length, L, LE. apply Nat.min_id.
      - destruct (map _ ch) as [|x [|]]; try discriminate. injection T as <-. rewrite map_length. exact LE. }
    destruct (nth_error_ex le k ltac:(lia)) as [p1 P1]. destruct (nth_error_ex te k ltac:(lia)) as [p2 P2].
    assert (NT : nth_error (combine (seq 0 (length le)) (combine le te)) k = Some (k, (p1, p2))).
    { apply nth_error_combine; [rewrite nth_error_seq by lia; reflexivity | apply nth_error_combine; assumption]. }
    exists (k, (p1, p2)). split; [eapply nth_error_In; exact NT|]. cbn [fst snd].
    destruct (mapM_nth _ _ _ _ _ E NT) as (row & _ & Q). cbn [fst snd] in Q. apply section_negated in Q. destruct Q as (_ & _ & Q). apply (Q m M Z).
Qed.

(** ** Concrete case: the flat sail at right angles to the wind, on both tacks *)
Example C68_case : forall spline, exists rr rr' f0 f1, run spline demo_conditions demo_solver (demo_rig (Some 4)) (Some demo_main) None szero szero = Ok rr /\
  run spline (other_conditions demo_conditions) demo_solver (demo_rig (Some 4)) (Some (other_sail demo_main)) None (sflip szero) (sflip szero) = Ok rr' /\
  other_tack rr rr' /\ cd_alpha (other_conditions demo_conditions) = -90 /\ vl_force (rr_vlm rr) = [f0; f1] /\ 0 < vy f0 /\
  exists g0 g1, vl_force (rr_vlm rr') = [g0; g1] /\ vy g0 < 0.
Proof.
  intros sp. destruct (demo_run sp 4 szero) as (rr & s & E & SS & _ & B & P & EV & _).
  destruct (C68_run sp demo_conditions 1 1 "real_twist" (demo_rig (Some 4)) (Some demo_main) None szero szero rr) as (rr' & E' & OT); auto.
  { intros d l v D L I. injection D as <-. injection L as <-. destruct I as [<-|[<-|[]]]; reflexivity. } { intros d l v D. discriminate. }
  destruct (demo_sail_set sp (Some 4)) as (s' & ss & GS & _ & _ & _ & _ & T & L). destruct (run_inv _ _ _ _ _ _ _ _ _ E) as (w & _ & _ & EG & _). cbn [demo_conditions cd_heel cd_leeway] in EG. rewrite GS in EG. injection EG as EG. subst ss.
  rewrite P, T, L in EV. destruct (demo_force 1 _ EV ltac:(lra)) as (f0 & f1 & _ & _ & F & Y & _).
  exists rr, rr', f0, f1. split; [exact E|]. split; [exact E'|]. split; [exact OT|]. split; [cbn; ring|]. split; [exact F|]. split; [exact Y|].
  pose proof (fl_force _ _ (ot_solution _ _ OT)) as FF. rewrite F in FF. exists (sflip f0), (sflip f1). split; [exact FF|]. unfold sflip. cbn [vy]. lra.
Qed.
Example C68_camber_case : exists s, SailGeometry (V3 0 0 (39/2)) (V3 0 0 (11/2)) (Csys 0 0 szero) 1 1 [48; 48] [0; 0] "main_sail" None [1/10; 1/10] [1/2; 1/2] = Ok s /\
  SailGeometry (V3 0 0 (39/2)) (V3 0 0 (11/2)) (Csys 0 0 szero) 1 1 [48; 48] [0; 0] "main_sail" None [- (1/10); - (1/10)] [1/2; 1/2] = Raise (SystemExit 1).
Proof.
  assert (G : good_sail (V3 0 0 (39/2)) (V3 0 0 (11/2)) (Csys 0 0 szero) 1 1 [48; 48] [0; 0] [1/10; 1/10] [1/2; 1/2] None).
  { constructor; try reflexivity; try lia; simpl; try lra; auto; intros m [<-|[<-|[]]]; lra. }
  destruct (good_sail_spec _ _ _ _ _ _ _ _ _ _ "main_sail"%string G) as (s & E & _). exists s. split; [exact E|].
  apply (C68_camber_rejected _ _ _ (Csys 0 0 szero) _ _ _ _ [0; 0] _ _ _ _ _ 0%nat (1/10) E); [lia|reflexivity|lra].
Qed.
Print Assumptions C68_solver.
Print Assumptions C68_run.
Print Assumptions C68_camber_rejected.
