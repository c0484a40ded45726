(** Complete runs on checked real numbers: configuration, sail set, results and tables. *)

From Coq Require Import String ZArith Reals List Bool Lra Psatz Lia Arith.
From Verif Require Import Num PyBase RNum CNum Spec M_Rotations M_Csys M_Airfoil M_Mesher M_Panels M_Velocity M_Solve M_Coefs M_Forces M_Winds M_Vlm
  M_Sail M_Interp M_Hull M_Results M_Runner L_List L_Rot L_Csys L_Vel L_Airfoil L_Mesh L_Sail L_Sail2 P_Tack L_ScaleRun P_ScaleRun L_Lift L_Lift2 L_Vlm2 L_LiftGeo L_Runner.
Import ListNotations.
Open Scope R_scope.

(** ** Images *)
Definition finCd (c : @conditions R) : @conditions (option R) :=
  Conditions (Some (cd_leeway c)) (Some (cd_heel c)) (Some (cd_sog c)) (Some (cd_tws c)) (Some (cd_alpha c)) (option_map Some (cd_water_level c))
    (option_map Some (cd_exp_coeff c)) (option_map Some (cd_ref_height c)) (Some (cd_rho c)) (cd_profile c) (option_map Some (cd_roughness c)).
Definition finL : option (list R) -> option (list (option R)) := option_map (map Some).
Definition finSD (s : @sail_def R) : @sail_def (option R) :=
  SailDef (finL (sd_twist s)) (finL (sd_girths s)) (finL (sd_chords s)) (finL (sd_camber s)) (finL (sd_dist s)).
Definition finRig (r : @rig R) : @rig (option R) :=
  Rig (option_map Some (rg_main_luff r)) (option_map Some (rg_jib_luff r)) (option_map Some (rg_height r)) (option_map Some (rg_base r))
    (Some (rg_sheer r)) (Some (rg_boom r)) (Some (rg_rake r)) (Some (rg_mast_LOA r)) (rg_sails_def r).
Definition finST (t : sail_total R) : sail_total (option R) := SailTotal (st_name t) (fin (st_F t)) (fin (st_M t)).

(** ** Configuration *)
Lemma is_none_map {A B} (f : A -> B) o : is_none (option_map f o) = is_none o.
Proof. destruct o; reflexivity. Qed.
Lemma Wind_fin c : Wind (finCd c) = rmap finW (Wind c).
Proof.
  unfold Wind. replace (Wind_post_init (finCd c)) with (Wind_post_init c) by (unfold Wind_post_init, finCd; cbn [cd_profile cd_roughness cd_ref_height cd_exp_coeff]; rewrite !is_none_map; reflexivity).
  destruct (Wind_post_init c); [|reflexivity]. cbn [bind rmap]. f_equal. unfold Wind_profile, finW, finCd. cbn [cd_profile cd_alpha cd_tws cd_sog cd_exp_coeff cd_ref_height cd_water_level cd_roughness w_alpha_deg w_tws w_sog w_prof].
  destruct (String.eqb _ "exponential"); [reflexivity|]. destruct (String.eqb _ "flat"); reflexivity.
Qed.
Lemma shapes_fin (l : list (option (list R))) : check_input_arr_shapes (map finL l) = check_input_arr_shapes l.
Proof.
  unfold check_input_arr_shapes. replace (hd None (map finL l)) with (finL (hd None l)) by (destruct l; reflexivity).
  set (h := hd None l). clearbody h. f_equal.
  rewrite (mapM_lift (fun a => match a, h with Some a, Some first => PyBase.guard (List.length a =? List.length first)%nat ValueError | _, _ => Raise AttributeError end)
     (fun a => match a, finL h with Some a, Some first => PyBase.guard (List.length a =? List.length first)%nat ValueError | _, _ => Raise AttributeError end) finL (fun x => x)).
  - match goal with |- rmap (map ?f) ?m = _ => destruct m; [cbn [rmap]; rewrite map_id|]; reflexivity end.
  - intros [a|] _; [|reflexivity]. destruct h as [b|]; [|reflexivity]. cbn [finL option_map]. rewrite !map_length. destruct (PyBase.guard _ _); reflexivity.
Qed.
Lemma jib_none_fin r j : jib_none (finRig r) (finSD j) = jib_none r j.
Proof. unfold jib_none, finRig, finSD, finL. cbn [rg_base rg_height rg_jib_luff sd_girths sd_twist sd_camber sd_dist]. rewrite !is_none_map. reflexivity. Qed.
Lemma main_none_fin r j : main_none (finRig r) (finSD j) = main_none r j.
Proof. unfold main_none, finRig, finSD, finL. cbn [rg_main_luff sd_girths sd_twist sd_camber sd_dist]. rewrite !is_none_map. reflexivity. Qed.
Lemma arrays_fin s : sail_arrays (finSD s) = map finL (sail_arrays s).
Proof. reflexivity. Qed.
Lemma post_init_fin r main jib : Sail_post_init (finRig r) (option_map finSD main) (option_map finSD jib) = Sail_post_init r main jib.
Proof.
  unfold Sail_post_init. change (rg_sails_def (finRig r)) with (rg_sails_def r). f_equal. f_equal.
  - destruct (String.eqb _ "jib"); [destruct jib; [cbn [option_map bind]; rewrite jib_none_fin|]; reflexivity|].
    destruct (String.eqb _ "main"); [destruct main; [cbn [option_map bind]; rewrite main_none_fin|]; reflexivity|].
    destruct (String.eqb _ "jib_and_main"); [|reflexivity]. destruct jib; [|reflexivity]. destruct main; [|reflexivity]. cbn [option_map bind]. rewrite jib_none_fin, main_none_fin. reflexivity.
  - destruct (String.eqb _ "jib"); [destruct jib; [cbn [option_map bind]; rewrite arrays_fin, shapes_fin|]; reflexivity|].
    destruct (String.eqb _ "main"); [destruct main; [cbn [option_map bind]; rewrite arrays_fin, shapes_fin|]; reflexivity|].
    destruct jib; [|reflexivity]. cbn [option_map bind]. rewrite arrays_fin, shapes_fin. destruct (check_input_arr_shapes _); [|reflexivity]. cbn [bind].
    destruct main; [|reflexivity]. cbn [option_map bind]. rewrite arrays_fin, shapes_fin. reflexivity.
Qed.

(** ** Sail set *)
Lemma need_map {A B} (f : A -> B) o : need (option_map f o) = rmap f (need o).
Proof. destruct o; reflexivity. Qed.
Lemma concat_lift {A B} (f : sail R -> list A) (g : sail (option R) -> list B) (h : A -> B) l : (forall s, g (finS s) = map h (f s)) ->
  List.concat (map g (map finS l)) = map h (List.concat (map f l)).
Proof. intros H. rewrite concat_map, !map_map. f_equal. apply map_ext. exact H. Qed.
Lemma SailSet_ne {F} `{Num F} (l : list (sail F)) : l <> [] -> SailSet l = Ok (SailSet_ l (List.concat (map sl_above l) ++ List.concat (map sl_under l))
  (List.concat (map sl_te l) ++ List.concat (map sl_te l)) (List.concat (map sl_le l) ++ List.concat (map sl_le l)) (List.concat (map sl_above_zero l) ++ List.concat (map sl_under_zero l))).
Proof. destruct l; [contradiction | reflexivity]. Qed.
Lemma set_fin l : SailSet (map finS l) = rmap finSet (SailSet l).
Proof.
  destruct l as [|s l]; [reflexivity|]. rewrite !SailSet_ne by discriminate.
  rewrite (concat_lift sl_above sl_above finP), (concat_lift sl_under sl_under finP), (concat_lift sl_above_zero sl_above_zero finP), (concat_lift sl_under_zero sl_under_zero finP) by reflexivity.
  rewrite (concat_lift sl_te sl_te (fun b => b)), (concat_lift sl_le sl_le (fun b => b)), !map_id by (intros; rewrite map_id; reflexivity).
  unfold finSet. cbn [rmap ss_sails ss_panels ss_te ss_le ss_zero]. rewrite !map_app. reflexivity.
Qed.
(** the foretriangle of a rig with a jib has defined mounting points *)
Definition rig_known (r : @rig R) : Prop :=
  rg_sails_def r <> "main"%string -> forall base height, rg_base r = Some base -> rg_height r = Some height ->
  sin (rad (rg_rake r)) <> 0 /\ (base <> 0 \/ height <> 0).
Lemma either_bind {A B C D} (f : A -> B) (g : C -> D) (m' : res B) (m : res A) (k' : B -> res D) (k : A -> res C) :
  either f m' m -> (forall a, m = Ok a -> either g (k' (f a)) (k a)) -> either g (bind m' k') (bind m k).
Proof.
  intros [-> | ->] H; [|right; reflexivity]. destruct m as [a|]; [|left; reflexivity]. cbn [rmap bind]. apply H. reflexivity.
Qed.
Lemma either_same {A B} (f : A -> B) m' m : m' = rmap f m -> either f m' m.
Proof. left. assumption. Qed.
Lemma sail_set_either sp sp' sv r main jib c : same_spline sp sp' -> rig_known r ->
  either finSet (get_sail_set sp' sv (finRig r) (option_map finSD main) (option_map finSD jib) (finC c)) (get_sail_set sp sv r main jib c).
Proof.
  intros SP RK. unfold get_sail_set. cbv zeta. change (rg_sails_def (finRig r)) with (rg_sails_def r).
  assert (IT : forall g y, (do g <- need (finL g); do y <- need (finL y); interpolate_girths sp' (sv_interp sv) g y (sv_ns sv + 1)) =
    rmap (map Some) (do g <- need g; do y <- need y; interpolate_girths sp (sv_interp sv) g y (sv_ns sv + 1))).
  { intros [g|] [y|]; try reflexivity. cbn [finL option_map need bind]. apply girths_some. exact SP. }
  apply (either_bind (map finS)).
  - destruct (String.eqb (rg_sails_def r) "jib" || String.eqb (rg_sails_def r) "jib_and_main")%bool eqn:J; [|left; reflexivity].
    destruct jib as [j|]; [|left; reflexivity]. cbn [option_map bind]. unfold finSD. cbn [sd_girths sd_chords sd_twist sd_camber sd_dist].
    apply (either_bind (map Some)); [left; apply IT|]. intros ch _. apply (either_bind (map Some)); [left; apply IT|]. intros tw _.
    apply (either_bind (map Some)); [left; apply IT|]. intros ca _. apply (either_bind (map Some)); [left; apply IT|]. intros di _.
    unfold finRig. cbn [rg_jib_luff rg_base rg_height rg_mast_LOA rg_rake rg_sheer].
    apply (either_bind Some); [left; apply need_map|]. intros luff _. apply (either_bind Some); [left; apply need_map|]. intros base B. apply (either_bind Some); [left; apply need_map|]. intros height H.
    apply (either_bind finS); [|intros s _; left; reflexivity]. unfold make_jib.
    change (Factory (finC c) (sv_ns sv) (sv_nc sv) (Some (rg_rake r)) (Some (rg_sheer r))) with (finF (Factory c (sv_ns sv) (sv_nc sv) (rg_rake r) (rg_sheer r))).
    rewrite jib_fin.
    + destruct (jib_mounting _ luff base height _) as [h t]. cbn [fst snd]. apply sail_either.
    + unfold rigged. cbn [fa_rake_deg]. apply RK.
      * intros X. rewrite X in J. discriminate J.
      * destruct (rg_base r); [injection B as ->; reflexivity | discriminate].
      * destruct (rg_height r); [injection H as ->; reflexivity | discriminate].
  - intros jibs _. apply (either_bind (map finS)).
    + destruct (String.eqb (rg_sails_def r) "main" || String.eqb (rg_sails_def r) "jib_and_main")%bool eqn:J; [|left; reflexivity].
      destruct main as [j|]; [|left; reflexivity]. cbn [option_map bind]. unfold finSD. cbn [sd_girths sd_chords sd_twist sd_camber sd_dist].
      apply (either_bind (map Some)); [left; apply IT|]. intros ch _. apply (either_bind (map Some)); [left; apply IT|]. intros tw _.
      apply (either_bind (map Some)); [left; apply IT|]. intros ca _. apply (either_bind (map Some)); [left; apply IT|]. intros di _.
      unfold finRig. cbn [rg_main_luff rg_boom rg_rake rg_sheer].
      apply (either_bind Some); [left; apply need_map|]. intros luff _.
      apply (either_bind finS); [|intros s _; left; reflexivity]. unfold make_main_sail.
      change (Factory (finC c) (sv_ns sv) (sv_nc sv) (Some (rg_rake r)) (Some (rg_sheer r))) with (finF (Factory c (sv_ns sv) (sv_nc sv) (rg_rake r) (rg_sheer r))).
      rewrite main_fin. destruct (main_mounting _ luff _) as [h t]. cbn [fst snd]. apply sail_either.
    + intros mains _. left. rewrite <- map_app. apply set_fin.
Qed.

(** ** Results *)
(** what the checked results hold: the angle of a velocity without x component and the centre of effort of a vanishing force are undefined *)
Definition chk_awa (v : vec R) : option R := if Reqb (vx v) 0 then None else Some (awa_app_fs v).
Definition chk_coe (f p : vec R) : vec (option R) := if zerob f then undef else fin p.
Definition chkFl (fr : flow_results R) : flow_results (option R) :=
  FlowResults (finC (fr_csys fr)) (map Some (fr_gamma fr)) (map Some (fr_pressure fr)) (map fin (fr_V_ind fr)) (map fin (fr_V_fs fr))
    (map chk_awa (fr_V_fs fr)) (map fin (fr_F fr)) (fin (fr_F_total fr)) (map fin (fr_arms fr)) (map finST (fr_sails fr)) (map fin (fr_M fr)) (fin (fr_M_total fr))
    (chk_coe (fr_F_total fr) (fr_coe fr)) (map fin (fr_F_cl fr)) (fin (fr_F_cl_total fr)) (map fin (fr_M_cl fr)) (fin (fr_M_cl_total fr)).
Lemma awa_chk v : awa_app_fs (fin v) = chk_awa v.
Proof.
  unfold awa_app_fs, chk_awa. change (vx (fin v)) with (Some (vx v)). change (vy (fin v)) with (Some (vy v)). destruct (Reqb (vx v) 0) eqn:E.
  - apply Reqb_true in E. rewrite E, some_div0. reflexivity.
  - apply Reqb_false in E. rewrite some_div by exact E. reflexivity.
Qed.
Lemma coe_chk f d m : determine_vector_from_its_dot_and_cross_product (fin f) (Some d) (fin m) = chk_coe f (determine_vector_from_its_dot_and_cross_product f d m).
Proof.
  unfold determine_vector_from_its_dot_and_cross_product, chk_coe. rewrite fin_cross, fin_scale, fin_add, fin_dot. destruct (zerob f) eqn:Z.
  - apply zerob_true in Z. subst f. replace (vdot szero szero) with 0 by (tospec; svec; ring). apply fin_divs0.
  - apply fin_divs. intros X. assert (f = szero); [|subst f; replace (zerob szero) with true in Z by (symmetry; apply zerob_true; reflexivity); discriminate].
    destruct f as [x y z]. revert X. tospec. svec. intros X. pose proof (Rle_0_sqr x). pose proof (Rle_0_sqr y). pose proof (Rle_0_sqr z). unfold Rsqr in *.
    unfold szero. f_equal; apply Rsqr_0_uniq; unfold Rsqr; lra.
Qed.
Lemma above_map {A B} (f : A -> B) l : above_water (map f l) = map f (above_water l).
Proof. unfold above_water. rewrite map_length, firstn_map. reflexivity. Qed.
Lemma arms_fin cps d : calc_moment_arm_in_shifted_csys (map fin cps) (fin d) = map fin (calc_moment_arm_in_shifted_csys cps d).
Proof.
  unfold calc_moment_arm_in_shifted_csys. apply map_lift. intros p _. unfold moment_arm. change (vz (fin p)) with (Some (vz p)). rewrite some_Z, some_ltb. unfold fin at 1 2 3 4 5 6. cbn [vx vy vz].
  destruct (nltb _ _); reflexivity.
Qed.
Lemma moments_fin a f : calc_moments (map fin a) (map fin f) = map fin (calc_moments a f).
Proof. unfold calc_moments. apply zip_lift. reflexivity. Qed.
Lemma cps_fin o : vl_cp (finO o) = map fin (vl_cp o).
Proof. unfold vl_cp, finO. cbn [vl_vars]. apply map_lift. reflexivity. Qed.
Lemma flow_chk s c o : InviscidFlowResults (finSet s) (finC c) (finO o) = rmap chkFl (InviscidFlowResults s c o).
Proof.
  unfold InviscidFlowResults. cbv zeta. rewrite cps_fin. change (ref_vec (finC c)) with (fin (ref_vec c)). rewrite arms_fin.
  set (arms := calc_moment_arm_in_shifted_csys (vl_cp o) (ref_vec c)). change (vl_force (finO o)) with (map fin (vl_force o)). change (vl_gamma (finO o)) with (map Some (vl_gamma o)).
  change (vl_pressure (finO o)) with (map Some (vl_pressure o)). change (vl_V_ind_cp (finO o)) with (map fin (vl_V_ind_cp o)). change (vl_V_cp (finO o)) with (map fin (vl_V_cp o)).
  change (ss_sails (finSet s)) with (map finS (ss_sails s)). rewrite !map_length, !firstn_map, !array_split_map.
  destruct (array_split (firstn _ (vl_force o)) _) as [fch|]; [|reflexivity]. cbn [rmap bind].
  destruct (array_split (firstn _ arms) _) as [rch|]; [|reflexivity]. cbn [rmap bind]. f_equal.
  rewrite moments_fin, !above_map, !centerline_fin, !above_map, !vsum_fin, (zip_lift vdot vdot fin fin Some) by reflexivity. rewrite above_map, nsum_some, coe_chk.
  unfold chkFl. cbn [fr_csys fr_gamma fr_pressure fr_V_ind fr_V_fs fr_awa_fs fr_F fr_F_total fr_arms fr_sails fr_M fr_M_total fr_coe fr_F_cl fr_F_cl_total fr_M_cl fr_M_cl_total].
  f_equal.
  - rewrite map_map. apply map_ext. intros v. apply awa_chk.
  - replace (combine (seq 0 (length (ss_sails s))) (map finS (ss_sails s))) with (combine (map (fun i : nat => i) (seq 0 (length (ss_sails s)))) (map finS (ss_sails s))) by (rewrite map_id; reflexivity).
    rewrite combine_map2. apply map_lift. intros [i sl] _. cbn [fst snd]. unfold finST. cbn [st_name st_F st_M].
    change (@nil (vec (option R))) with (map fin []). rewrite !map_nth, moments_fin, !vsum_fin. reflexivity.
Qed.

(** ** Tables *)
Definition finCol (c : column R) : column (option R) := match c with NumCol n l => NumCol n (map Some l) | StrCol n l => StrCol n l end.
Definition finRow (r : string * R) : string * option R := (fst r, Some (snd r)).
Lemma insert_lift {A B} (f : A -> B) ka kb (a : A) l : (forall a, kb (f a) = ka a) -> insert_by kb (f a) (map f l) = map f (insert_by ka a l).
Proof. intros K. induction l as [|b l IH]; [reflexivity|]. cbn [map insert_by]. rewrite !K. destruct (String.leb _ _); [reflexivity|]. cbn [map]. rewrite IH. reflexivity. Qed.
Lemma sort_lift {A B} (f : A -> B) ka kb l : (forall a, kb (f a) = ka a) -> sort_by kb (map f l) = map f (sort_by ka l).
Proof. intros K. induction l as [|b l IH]; [reflexivity|]. unfold sort_by in *. cbn [map fold_right]. rewrite IH. apply insert_lift. exact K. Qed.
Lemma dict_set_fin d k x : dict_set (map finRow d) k (Some x) = map finRow (dict_set d k x).
Proof. induction d as [|[k' x'] d IH]; [reflexivity|]. cbn [map dict_set finRow fst snd]. destruct (String.eqb _ _); [reflexivity|]. cbn [map]. rewrite <- IH. reflexivity. Qed.
Lemma py_dict_fin rows : py_dict (map finRow rows) = map finRow (py_dict rows).
Proof.
  unfold py_dict. change (@nil (string * option R)) with (map finRow []). generalize (@nil (string * R)). induction rows as [|r rows IH]; intros d; [reflexivity|].
  cbn [map fold_left]. change (snd (finRow r)) with (Some (snd r)). change (fst (finRow r)) with (fst r). rewrite dict_set_fin. apply IH.
Qed.
Lemma xyz_fin n a : xyz_rows n (fin a) = map finRow (xyz_rows n a). Proof. reflexivity. Qed.
Lemma cow_fin n a : cow_rows n (fin a) = map finRow (cow_rows n a). Proof. reflexivity. Qed.
Lemma keel_fin fr clr : keel_moment (chkFl fr) (fin clr) = (fin (fst (keel_moment fr clr)), fin (snd (keel_moment fr clr))).
Proof.
  unfold keel_moment. change (fr_F_total (chkFl fr)) with (fin (fr_F_total fr)). change (fr_csys (chkFl fr)) with (finC (fr_csys fr)). cbv zeta.
  rewrite fin_opp, fin_cross, lee_fin, mapply_fin. reflexivity.
Qed.
Lemma integral_fin fr clr : integral_table (chkFl fr) (fin clr) = map finRow (integral_table fr clr).
Proof.
  unfold integral_table. rewrite <- (sort_lift finRow fst fst), <- py_dict_fin by reflexivity. f_equal. f_equal.
  unfold integral_rows. rewrite keel_fin. destruct (keel_moment fr clr) as [m mc]. cbn [fst snd].
  change (fr_F_total (chkFl fr)) with (fin (fr_F_total fr)). change (fr_F_cl_total (chkFl fr)) with (fin (fr_F_cl_total fr)). change (fr_M_total (chkFl fr)) with (fin (fr_M_total fr)).
  change (fr_M_cl_total (chkFl fr)) with (fin (fr_M_cl_total fr)). change (fr_sails (chkFl fr)) with (map finST (fr_sails fr)). rewrite !fin_add, !xyz_fin, !cow_fin, !map_app.
  assert (FM : flat_map (fun t => xyz_rows ("F_" ++ st_name t ++ "_total_COG") (st_F t) ++ xyz_rows ("M_" ++ st_name t ++ "_total_COG") (st_M t)) (map finST (fr_sails fr)) =
    map finRow (flat_map (fun t => xyz_rows ("F_" ++ st_name t ++ "_total_COG") (st_F t) ++ xyz_rows ("M_" ++ st_name t ++ "_total_COG") (st_M t)) (fr_sails fr))).
  { rewrite !flat_map_concat_map, map_map, concat_map, map_map. reflexivity. }
  rewrite FM. reflexivity.
Qed.
Lemma vcols_fin n l : vcols n (map fin l) = map finCol (vcols n l).
Proof. unfold vcols. cbn [map finCol]. rewrite !map_map. reflexivity. Qed.
Lemma col_name_fin c : col_name (finCol c) = col_name c. Proof. destruct c; reflexivity. Qed.
Lemma lengths_fin l : map vnorm (map fin l) = map Some (map vnorm l).
Proof. apply map_lift. intros. apply fin_norm. Qed.
Lemma flow_df_fin fr : fr_awa_fs fr = map awa_app_fs (fr_V_fs fr) -> (forall v, In v (fr_V_fs fr) -> vx v <> 0) -> flow_df_full (chkFl fr) = map finCol (flow_df_full fr).
Proof.
  intros E X. unfold flow_df_full. rewrite <- (sort_lift finCol col_name col_name) by apply col_name_fin. f_equal. unfold flow_dict.
  replace (fr_awa_fs (chkFl fr)) with (map Some (fr_awa_fs fr)).
  2:{ rewrite E, map_map. apply map_ext_in. intros v I. unfold chk_awa. specialize (X v I). apply Reqb_false in X. rewrite X. reflexivity. }
  unfold chkFl. cbn [fr_gamma fr_V_ind fr_V_fs fr_pressure fr_F fr_M fr_F_cl fr_csys]. rewrite !vcols_fin, !lengths_fin, !map_app. cbn [map finCol].
  rewrite (map_lift rad2deg rad2deg Some Some) by (intros; apply rad2deg_some).
  rewrite (map_lift (fun a => (rad2deg a - leeway_deg (fr_csys fr))%N_) (fun a => (rad2deg a - leeway_deg (finC (fr_csys fr)))%N_) Some Some) by (intros; rewrite rad2deg_some; reflexivity).
  reflexivity.
Qed.
Lemma inlet_df_fin ic c : inlet_df_full (finI ic) (finC c) = map finCol (inlet_df_full ic c).
Proof.
  unfold inlet_df_full. rewrite <- (sort_lift finCol col_name col_name) by apply col_name_fin. f_equal. unfold inlet_dict, finI. cbn [in_cp in_tws in_V in_awa_deg].
  rewrite !vcols_fin, !lengths_fin, !map_app. cbn [map finCol].
  rewrite (map_lift (fun a => (a - leeway_deg c)%N_) (fun a => (a - leeway_deg (finC c))%N_) Some Some) by reflexivity. reflexivity.
Qed.
Lemma above_fin c : col_above (finCol c) = finCol (col_above c).
Proof. destruct c; cbn [finCol col_above]; rewrite ?map_length, ?firstn_map; reflexivity. Qed.
Lemma fold_max_some l : forall a, fold_left (fun m x => if nltb m x then x else m) (map Some l) (Some a) = Some (fold_left (fun m x : R => if nltb m x then x else m) l a).
Proof. induction l as [|b l IH]; intros a; [reflexivity|]. cbn [map fold_left]. rewrite some_ltb. destruct (nltb a b); apply IH. Qed.
Lemma max_some l : py_max (map Some l) = rmap Some (py_max l).
Proof. destruct l as [|a l]; [reflexivity|]. cbn [map py_max rmap]. rewrite fold_max_some. reflexivity. Qed.
Lemma upright_fin c l : get_cp_straight_yacht (finC c) (map fin l) = map fin (get_cp_straight_yacht c l).
Proof. unfold get_cp_straight_yacht. apply map_lift. intros a _. apply unturn_fin. Qed.
Lemma girth_fin l t : (forall m, py_max (map vz l) = Ok m -> m <> vz t) -> cp_to_girths (map fin l) (fin t) = rmap (map Some) (cp_to_girths l t).
Proof.
  intros D. unfold cp_to_girths. cbv zeta. rewrite (map_lift vz vz fin Some), max_some by reflexivity. destruct (py_max (map vz l)) as [m|]; [|reflexivity]. cbn [rmap bind]. f_equal.
  specialize (D m eq_refl). apply map_lift. intros z _. change (vz (fin t)) with (Some (vz t)). rewrite !some_sub. apply some_div. rnum. lra.
Qed.
(** the highest centre of pressure of every sail is not at the height of its tack, in the upright position *)
Definition above_tacks (s : sail_set R) (c : csys R) (cp : list (vec R)) : Prop :=
  forall ch i sl m, array_split cp (2 * length (ss_sails s)) = Ok ch -> nth_error (ss_sails s) i = Some sl ->
  py_max (map vz (get_cp_straight_yacht c (nth i ch [] ++ nth (i + length (ss_sails s)) ch []))) = Ok m -> m <> vz (sl_tack sl).
Definition fin_gu (x : list R * list (vec R)) := (map Some (fst x), map fin (snd x)).
Lemma girths_all_fin s c cp : above_tacks s c cp -> get_cp_z_as_girths_all (finSet s) (finC c) (map fin cp) = rmap fin_gu (get_cp_z_as_girths_all s c cp).
Proof.
  intros D. unfold get_cp_z_as_girths_all. cbv zeta. change (ss_sails (finSet s)) with (map finS (ss_sails s)). rewrite map_length, array_split_map.
  unfold above_tacks in D. destruct (array_split cp (2 * length (ss_sails s))) as [ch|] eqn:EC; [|reflexivity]. cbn [rmap bind]. specialize (fun i sl m => D ch i sl m eq_refl).
  set (n := length (ss_sails s)) in *.
  replace (combine (seq 0 n) (map finS (ss_sails s))) with (map (fun x => (fst x, finS (snd x))) (combine (seq 0 n) (ss_sails s))).
  2:{ rewrite <- (map_id (seq 0 n)) at 2. rewrite combine_map2. apply map_ext. reflexivity. }
  rewrite (mapM_lift (fun isl : nat * sail R => do g <- cp_to_girths (get_cp_straight_yacht c (nth (fst isl) ch [] ++ nth (fst isl + n) ch [])) (sl_tack (snd isl));
      Ok (g, get_cp_straight_yacht c (nth (fst isl) ch [] ++ nth (fst isl + n) ch [])))
      (fun isl : nat * sail (option R) => do g <- cp_to_girths (get_cp_straight_yacht (finC c) (nth (fst isl) (map (map fin) ch) [] ++ nth (fst isl + n) (map (map fin) ch) [])) (sl_tack (snd isl));
      Ok (g, get_cp_straight_yacht (finC c) (nth (fst isl) (map (map fin) ch) [] ++ nth (fst isl + n) (map (map fin) ch) []))) (fun x => (fst x, finS (snd x))) fin_gu).
  - destruct (mapM _ _) as [ps|]; [|reflexivity]. cbn [rmap bind]. f_equal. unfold fin_gu. cbn [fst snd]. f_equal; rewrite concat_map, !map_map; reflexivity.
  - intros [i sl] I. cbn [fst snd]. change (@nil (vec (option R))) with (map fin []). rewrite !map_nth, <- map_app, upright_fin. cbn [finS sl_tack].
    rewrite girth_fin; [destruct (cp_to_girths _ _); reflexivity|]. intros m. apply D. apply In_nth_error in I. destruct I as [k I]. apply nth_error_combine_inv in I. destruct I as [I1 I2].
    assert (K : (k < length (ss_sails s))%nat) by (apply nth_error_Some; rewrite I2; discriminate).
    rewrite (nth_error_nth' _ 0%nat) in I1 by (rewrite seq_length; exact K). injection I1 as I1. rewrite seq_nth in I1 by exact K. simpl in I1. subst k. exact I2.
Qed.
Definition fin_gn (x : list R * list string) := (map Some (fst x), snd x).
Lemma every_second_map {A B} (f : A -> B) : forall n l, (length l < n)%nat -> every_second (map f l) = map f (every_second l).
Proof. induction n as [|n IH]; [lia|]. intros [|a [|b l]] L; [reflexivity | reflexivity|]. cbn [map every_second length] in *. f_equal. apply IH. lia. Qed.
Lemma girths_above_fin g s : get_cp_z_as_girths_all_above (map Some g) (finSet s) = rmap fin_gn (get_cp_z_as_girths_all_above g s).
Proof.
  unfold get_cp_z_as_girths_all_above. cbv zeta. change (ss_sails (finSet s)) with (map finS (ss_sails s)). rewrite map_length, np_split_map. destruct (np_split g _) as [zs|]; [|reflexivity].
  cbn [rmap bind]. destruct (_ =? 0)%nat; [reflexivity|]. cbn [rmap]. unfold fin_gn. cbn [fst snd]. rewrite (every_second_map _ (S (length zs))) by lia. rewrite <- concat_map, map_length.
  f_equal. f_equal. rewrite !flat_map_concat_map, map_map. reflexivity.
Qed.
Lemma components_fin o c fr s : fr_awa_fs fr = map awa_app_fs (fr_V_fs fr) -> (forall v, In v (fr_V_fs fr) -> vx v <> 0) -> above_tacks s c (vl_cp o) ->
  components_table (finO o) (finC c) (chkFl fr) (finSet s) = rmap (map finCol) (components_table o c fr s).
Proof.
  intros E X D. unfold components_table. rewrite cps_fin, girths_all_fin by exact D. destruct (get_cp_z_as_girths_all s c (vl_cp o)) as [[g up]|]; [|reflexivity]. cbn [rmap bind fin_gu fst snd].
  rewrite girths_above_fin. destruct (get_cp_z_as_girths_all_above g s) as [[ga names]|]; [|reflexivity]. cbn [rmap bind fin_gn fst snd].
  change (ss_sails (finSet s)) with (map finS (ss_sails s)). rewrite map_length, array_split_map. destruct (array_split up _) as [ups|]; [|reflexivity]. cbn [rmap bind].
  rewrite py_nth_map. destruct (py_nth (ss_sails s) 0) as [sl0|]; [|reflexivity]. cbn [rmap bind]. f_equal.
  rewrite flow_df_fin by assumption. change (vl_inlet (finO o)) with (finI (vl_inlet o)). change (sl_csys (finS sl0)) with (finC (sl_csys sl0)). rewrite inlet_df_fin.
  rewrite !map_app, !(map_lift col_above col_above finCol finCol) by (intros; apply above_fin). cbn [map finCol].
  rewrite (every_second_map _ (S (length ups))), <- concat_map, (map_lift vz vz fin Some) by (reflexivity || lia). reflexivity.
Qed.
