(** C77 for complete runs: a model of a yacht to the scale [k]. *)

From Coq Require Import String ZArith Reals List Bool Lra Psatz Lia Arith.
From Verif Require Import Num PyBase RNum Spec M_Rotations M_Csys M_Mesher M_Panels M_Velocity M_Airfoil M_Coefs M_Forces M_Winds M_Vlm M_Interp M_Sail M_Results M_Hull M_Runner
  L_List L_Rot L_Vel L_Vel2 L_Csys L_Airfoil L_Mesh L_Sail L_Sail2 L_Lattice L_Vlm L_Vlm2 L_Results L_Solve L_Demo L_Runner L_Scale P_Run P_Scale P_Tack L_ScaleRun P_Lattice M_Plots L_Scene P_Scene.
Import ListNotations.
Open Scope R_scope.

(** ** Specification *)
Definition scaled_total (k : R) (t : sail_total R) : sail_total R := SailTotal (st_name t) (sscale (k ^ 2) (st_F t)) (sscale (k ^ 3) (st_M t)).
(** forces grow with the square, moments with the cube of the length; the centre of effort moves with the yacht *)
Record flow_scaled (k : R) (fr fr' : flow_results R) : Prop := {
  fs_gamma : fr_gamma fr' = map (Rmult k) (fr_gamma fr);
  fs_pressure : fr_pressure fr' = fr_pressure fr;
  fs_V_ind : fr_V_ind fr' = fr_V_ind fr;
  fs_V_fs : fr_V_fs fr' = fr_V_fs fr;
  fs_awa : fr_awa_fs fr' = fr_awa_fs fr;
  fs_F : fr_F fr' = map (sscale (k ^ 2)) (fr_F fr);
  fs_F_total : fr_F_total fr' = sscale (k ^ 2) (fr_F_total fr);
  fs_sails : fr_sails fr' = map (scaled_total k) (fr_sails fr);
  fs_M : fr_M fr' = map (sscale (k ^ 3)) (fr_M fr);
  fs_M_total : fr_M_total fr' = sscale (k ^ 3) (fr_M_total fr);
  fs_coe : fr_coe fr' = sscale k (fr_coe fr);
  fs_F_cl : fr_F_cl fr' = map (sscale (k ^ 2)) (fr_F_cl fr);
  fs_F_cl_total : fr_F_cl_total fr' = sscale (k ^ 2) (fr_F_cl_total fr);
  fs_M_cl : fr_M_cl fr' = map (sscale (k ^ 3)) (fr_M_cl fr);
  fs_M_cl_total : fr_M_cl_total fr' = sscale (k ^ 3) (fr_M_cl_total fr) }.
Record model_scale (k : R) (rr rr' : @run_result R) : Prop := {
  ms_names : map sl_name (ss_sails (rr_set rr')) = map sl_name (ss_sails (rr_set rr));
  ms_panels : ss_panels (rr_set rr') = map (enlarged k) (ss_panels (rr_set rr));
  ms_deck : hu_port (rr_hull rr') = map (sscale k) (hu_port (rr_hull rr)) /\ hu_starboard (rr_hull rr') = map (sscale k) (hu_starboard (rr_hull rr));
  ms_clr : rr_clr rr' = sscale k (rr_clr rr);
  ms_solution : similar k (rr_vlm rr) (rr_vlm rr');
  ms_results : flow_scaled k (rr_flow rr) (rr_flow rr');
  ms_keel : keel_moment (rr_flow rr') (rr_clr rr') = (sscale (k ^ 3) (fst (keel_moment (rr_flow rr) (rr_clr rr))), sscale (k ^ 3) (snd (keel_moment (rr_flow rr) (rr_clr rr)))) }.

(** ** Results *)
Section Results_.
Context (k : R) (HK : 0 < k).
Lemma sc_vcross a b : vcross (sscale k a) (sscale (k ^ 2) b) = sscale (k ^ 3) (vcross a b).
Proof. destruct a as [x y z], b as [u v w]. unfold sscale. vnum. vec_eq; ring. Qed.
Lemma sc_vdot a b : vdot (sscale k a) (sscale (k ^ 2) b) = k ^ 3 * vdot a b.
Proof. destruct a as [x y z], b as [u v w]. unfold sscale. vnum. ring. Qed.
Lemma vsum_sc c l : vsum (map (sscale c) l) = sscale c (vsum l).
Proof. apply vsum_lin; [apply sc_v0|]. intros [x y z] [u v w]. unfold sscale. vnum. vec_eq; ring. Qed.
Lemma nsum_sc (c : R) l : nsum (map (Rmult c) l) = c * nsum l.
Proof. rewrite !nsum_rsum. induction l as [|a l IH]; simpl; [ring|]. rewrite IH. ring. Qed.
Lemma nth_map_nil {A B} (f : A -> B) n l : nth n (map (map f) l) [] = map f (nth n l []).
Proof. change (@nil B) with (map f []) at 1. apply map_nth. Qed.
Lemma moments_sc a f : calc_moments (map (sscale k) a) (map (sscale (k ^ 2)) f) = map (sscale (k ^ 3)) (calc_moments a f).
Proof. apply zip_map. apply sc_vcross. Qed.
Lemma determine_sc f d m : determine_vector_from_its_dot_and_cross_product (sscale (k ^ 2) f) (k ^ 3 * d) (sscale (k ^ 3) m) = sscale k (determine_vector_from_its_dot_and_cross_product f d m).
Proof.
  unfold determine_vector_from_its_dot_and_cross_product. replace (vdot (sscale (k ^ 2) f) (sscale (k ^ 2) f)) with (k ^ 4 * vdot f f) by (destruct f as [x y z]; unfold sscale; vnum; ring).
  generalize (vdot f f). intros q. destruct f as [x y z], m as [u v w]. unfold sscale. vnum. unfold Rdiv. rewrite Rinv_mult. generalize (/ q). intros i.
  vec_eq; field; lra.
Qed.
Lemma centerline_sc c d l : from_xyz_to_centerline_csys (scaled_csys k c) (map (sscale d) l) = map (sscale d) (from_xyz_to_centerline_csys c l).
Proof. unfold from_xyz_to_centerline_csys. rewrite !map_map. apply map_ext. intros p. rewrite <- sc_mapply. reflexivity. Qed.
Lemma results_sc s c v v' fr : similar k v v' -> InviscidFlowResults s c v = Ok fr ->
  exists fr', InviscidFlowResults (set_sc k s) (scaled_csys k c) v' = Ok fr' /\ flow_scaled k fr fr' /\ fr_csys fr' = scaled_csys k (fr_csys fr).
Proof.
  intros FL E. unfold InviscidFlowResults in *. cbv zeta in *. rewrite (si_force _ _ _ FL), (si_cp _ _ _ FL).
  change (ref_vec (scaled_csys k c)) with (sscale k (ref_vec c)).
  set (r := calc_moment_arm_in_shifted_csys (vl_cp v) (ref_vec c)) in *.
  assert (RF : calc_moment_arm_in_shifted_csys (map (sscale k) (vl_cp v)) (sscale k (ref_vec c)) = map (sscale k) r).
  { unfold r, calc_moment_arm_in_shifted_csys. rewrite !map_map. apply map_ext. intros p. unfold moment_arm, sscale. cbn [vx vy vz]. rewrite pos_sc by exact HK. destruct (nltb _ _); rnum; vec_eq; ring. }
  rewrite RF. set (f := vl_force v) in *. clearbody r f. change (ss_sails (set_sc k s)) with (map (sail_sc k) (ss_sails s)). rewrite !map_length, !firstn_map, !array_split_map.
  apply bind_Ok in E. destruct E as (fch & EF & E). apply bind_Ok in E. destruct E as (rch & ER & E). rewrite EF, ER. cbn [rmap]. rewrite !bind_ret. injection E as <-.
  eexists. split; [reflexivity|]. split; [|reflexivity].
  constructor; cbn [fr_gamma fr_pressure fr_V_ind fr_V_fs fr_awa_fs fr_csys fr_F fr_F_total fr_arms fr_sails fr_M fr_M_total fr_coe fr_F_cl fr_F_cl_total fr_M_cl fr_M_cl_total];
    rewrite ?moments_sc, ?centerline_sc, ?above_map, ?vsum_sc; try reflexivity.
  - apply (si_gamma _ _ _ FL).
  - apply (si_pressure _ _ _ FL).
  - apply (si_V_ind_cp _ _ _ FL).
  - apply (si_V_cp _ _ _ FL).
  - rewrite (si_V_cp _ _ _ FL). reflexivity.
  - rewrite map_map. unfold scaled_total. pose proof moments_sc as MS. set (q2 := k ^ 2) in *. set (q3 := k ^ 3) in *. clearbody q2 q3. generalize (ss_sails s) as sails, 0%nat as a. intros sails. set (n := length sails). assert (LN : length sails = n) by reflexivity. clearbody n. revert n LN. induction sails as [|x sails IH]; intros n LN a; destruct n; try discriminate; [reflexivity|].
    cbn [map combine seq]. rewrite (IH n) by (injection LN; auto). f_equal. cbn [fst snd st_name st_F st_M sl_name sail_sc].
    rewrite !(nth_map_nil (sscale _)), MS, !vsum_sc. reflexivity.
  - rewrite (zip_map vdot vdot (sscale k) (sscale (k ^ 2)) (Rmult (k ^ 3)) sc_vdot), above_map, nsum_sc. apply determine_sc.
Qed.
Lemma keel_sc fr fr' clr : flow_scaled k fr fr' -> fr_csys fr' = scaled_csys k (fr_csys fr) ->
  keel_moment fr' (sscale k clr) = (sscale (k ^ 3) (fst (keel_moment fr clr)), sscale (k ^ 3) (snd (keel_moment fr clr))).
Proof.
  intros FF C. unfold keel_moment. cbv zeta. rewrite (fs_F_total _ _ _ FF), C. cbn [fst snd].
  assert (X : vcross (sscale k clr) (vopp (sscale (k ^ 2) (fr_F_total fr))) = sscale (k ^ 3) (vcross clr (vopp (fr_F_total fr)))).
  { rewrite <- sc_vcross. f_equal. destruct (fr_F_total fr) as [x y z]. unfold sscale. vnum. vec_eq; ring. }
  rewrite X, <- sc_mapply. reflexivity.
Qed.
End Results_.

(** ** C77 *)
Theorem C77_run : forall k spline cd sv r main jib ref clr rr, 0 < k <= 1 -> homogeneous k spline -> (1 <= sv_ns sv)%nat -> (1 <= sv_nc sv)%nat ->
  run spline cd sv r main jib ref clr = Ok rr -> same_cores k (rr_vlm rr) -> (forall a, In a (vl_areas (rr_vlm rr)) -> / 10 ^ 14 <= k ^ 2 * a) ->
  exists rr', run spline (scaled_conditions k cd) sv (scaled_rig k r) (option_map (scaled_sail k) main) (option_map (scaled_sail k) jib) (sscale k ref) (sscale k clr) = Ok rr'
    /\ model_scale k rr rr'.
Proof.
  intros k spline cd sv r main jib ref clr rr [HK K1] HO NS NC E CO AR. destruct (run_inv _ _ _ _ _ _ _ _ _ E) as (w & EW & EP & EG & EH & EV & EF).
  set (c := Csys (cd_heel cd) (cd_leeway cd) ref) in *.
  pose proof (get_sail_set_sc k HK spline sv r main jib c _ K1 HO EG) as GF.
  destruct (get_sail_set_inv _ _ _ _ _ _ _ EG) as (sails & SS & ES & _ & _ & B).
  destruct (sail_set_flags (sv_nc sv) (sv_ns sv) sails _ B SS) as [LP FG].
  assert (NG : (0 < 2 * length sails)%nat). { destruct sails; [discriminate SS|]. simpl. lia. }
  destruct (C77_solver k (sv_nc sv) (sv_ns sv) (2 * length sails) _ _ _ _ w _ HK ltac:(lia) ltac:(lia) NG FG LP EV CO AR) as (v' & EV' & FL).
  destruct (results_sc k HK _ _ _ _ _ FL EF) as (fr' & EF' & FF & FC).
  pose proof (HullGeometry_sc k HK (rg_sheer r) (rg_base r) c clr) as HG. rewrite EH in HG. cbn [rmap] in HG.
  exists (RunResult (set_sc k (rr_set rr)) (hull_sc k (rr_hull rr)) v' fr'). split.
  - unfold run. rewrite Wind_sc, EW. cbn [rmap]. rewrite bind_ret, post_init_sc, EP, bind_ret.
    change (Csys (cd_heel (scaled_conditions k cd)) (cd_leeway (scaled_conditions k cd)) (sscale k ref)) with (scaled_csys k c). rewrite GF, bind_ret.
    change (rg_sheer (scaled_rig k r)) with (k * rg_sheer r). change (rg_base (scaled_rig k r)) with (option_map (Rmult k) (rg_base r)). rewrite HG, bind_ret.
    change (cd_rho (scaled_conditions k cd)) with (cd_rho cd). unfold set_sc at 1 2 3. cbn [ss_panels ss_te ss_le]. rewrite EV', bind_ret, EF', bind_ret. reflexivity.
  - constructor; unfold rr_clr; cbn [rr_set rr_hull rr_vlm rr_flow set_sc ss_sails ss_panels hull_sc hu_clr hu_port hu_starboard].
    + rewrite map_map. reflexivity.
    + reflexivity.
    + split; reflexivity.
    + reflexivity.
    + exact FL.
    + exact FF.
    + apply keel_sc; assumption.
Qed.
Lemma demo_scaled k sp clr : 1/10 <= k <= 1 -> homogeneous k sp -> exists rr rr', run sp demo_conditions demo_solver (demo_rig (Some 4)) (Some demo_main) None szero clr = Ok rr /\ ss_panels (rr_set rr) = demo_panels /\
  same_cores k (rr_vlm rr) /\ (forall a, In a (vl_areas (rr_vlm rr)) -> / 10 ^ 14 <= k ^ 2 * a) /\
  run sp (scaled_conditions k demo_conditions) demo_solver (scaled_rig k (demo_rig (Some 4))) (Some (scaled_sail k demo_main)) None (sscale k szero) (sscale k clr) = Ok rr' /\ model_scale k rr rr'.
Proof.
  intros HK HO. destruct (demo_run sp 4 clr) as (rr & s & E & SS & NM & B & PP & EV & EF). exists rr.
  assert (VV : Vlm demo_panels 1 1 1 demo_wind [true; true] [false; false] = Ok (rr_vlm rr)).
  { pose proof E as E0. destruct (demo_sail_set sp (Some 4)) as (s' & ss & GS & _ & _ & _ & P & T & L).
    destruct (run_inv _ _ _ _ _ _ _ _ _ E0) as (w & _ & _ & GS' & _). cbn [demo_conditions cd_heel cd_leeway] in GS'. rewrite GS in GS'. injection GS' as ->. rewrite P, T, L in EV. exact EV. }
  assert (CO : same_cores k (rr_vlm rr)) by (apply (demo_same_cores 1); [lra|exact VV]).
  assert (AR : forall a, In a (vl_areas (rr_vlm rr)) -> / 10 ^ 14 <= k ^ 2 * a).
  { destruct (Vlm_inv _ _ _ _ _ _ _ _ (eq_refl : length [true; true] = length demo_panels) VV) as (vars & ic & g & net & _ & _ & _ & _ & _ & _ & FL).
    rewrite (f_areas _ _ _ _ _ _ _ _ _ _ _ _ _ _ FL), demo_areas. intros a A. assert (a = 672) as -> by (destruct A as [<-|[<-|[]]]; reflexivity). assert (/ 10 ^ 14 <= 1) by (simpl; lra). simpl. nra. }
  destruct (C77_run k sp _ demo_solver _ _ _ _ _ rr ltac:(lra) HO ltac:(simpl; lia) ltac:(simpl; lia) E CO AR) as (rr' & E' & M). exists rr'. auto 10.
Qed.
Example C77_run_case : exists sp, homogeneous (1/2) sp /\ exists rr, run sp demo_conditions demo_solver (demo_rig (Some 4)) (Some demo_main) None szero szero = Ok rr /\
  same_cores (1/2) (rr_vlm rr) /\ (forall a, In a (vl_areas (rr_vlm rr)) -> / 10 ^ 14 <= (1/2) ^ 2 * a).
Proof.
  exists np_interp. assert (HO : homogeneous (1/2) np_interp) by (intros xs x y; apply interp_sc). split; [exact HO|].
  destruct (demo_scaled (1/2) np_interp szero ltac:(lra) HO) as (rr & rr' & E & _ & CO & AR & _). exists rr. auto.
Qed.

(** *** the section plots: the same curves, drawn at the scaled heights *)
Section Plots_.
Context (k : R) (HK : 0 < k).
Lemma np_split_map {A B} (f : A -> B) l n : np_split (map f l) n = rmap (map (map f)) (np_split l n).
Proof. unfold np_split. destruct n; [reflexivity|]. rewrite map_length. destruct (_ =? _)%nat; [apply array_split_map|reflexivity]. Qed.
Lemma strip_sc (c : R) nc ns j l : strip nc ns (nZ 0) j (map (Rmult c) l) = rmap (map (Rmult c)) (strip nc ns (nZ 0) j l).
Proof.
  unfold strip. rewrite reshape_map, bind_rmap, rmap_bind. apply bind_ext. intros rows _. cbn [rmap]. f_equal. rewrite !map_map. apply map_ext. intros row.
  replace (nZ 0) with (c * nZ 0) at 1 by (rnum; ring). apply map_nth.
Qed.
Lemma div_sq (a b : R) : k ^ 2 * a / (k ^ 2 * b) = a / b.
Proof. unfold Rdiv. rewrite Rinv_mult. generalize (/ b). intros. field. lra. Qed.
Lemma mapM_ext {A B} (f g : A -> res B) l : (forall a, f a = g a) -> mapM f l = mapM g l.
Proof. intros H. induction l as [|a l IH]; [reflexivity|]. cbn [mapM]. rewrite H, IH. reflexivity. Qed.
Lemma section_coef_sc nc ns c ar j : section_coefficient nc ns c (map (Rmult (k ^ 2)) ar) j = section_coefficient nc ns c ar j.
Proof.
  unfold section_coefficient. apply bind_ext. intros cs _. rewrite strip_sc, bind_rmap. apply bind_ext. intros a _. f_equal.
  replace (zipWith nmul cs (map (Rmult (k ^ 2)) a)) with (map (Rmult (k ^ 2)) (zipWith nmul cs a)). { rewrite !nsum_sc. apply div_sq. }
  revert a. induction cs as [|x cs IH]; intros [|y a]; try reflexivity. cbn [zipWith map]. rewrite IH. f_equal. rnum. ring.
Qed.
Lemma panel_coef_sc rho f w a : panel_coefficient rho (sscale (k ^ 2) f) w (k ^ 2 * a) = panel_coefficient rho f w a.
Proof.
  unfold panel_coefficient. replace (vnorm (sscale (k ^ 2) f)) with (k ^ 2 * vnorm f). 2:{ tospec. rewrite snorm_scale, Rabs_pos_eq by nra. reflexivity. }
  generalize (vnorm f) (vnorm w) (ndec 5 1 : R). intros x y z. rnum. replace (z * rho * (y * y) * (k ^ 2 * a)) with (k ^ 2 * (z * rho * (y * y) * a)) by ring. apply div_sq.
Qed.
Lemma get_C_sc panels ar f w ns nc rho : get_C (map (enlarged k) panels) (map (Rmult (k ^ 2)) ar) (map (sscale (k ^ 2)) f) w ns nc rho = get_C panels ar f w ns nc rho.
Proof.
  unfold get_C. destruct (_ =? _)%nat; [reflexivity|]. cbv zeta. rewrite map_length. apply bind_ext. intros ws _. rewrite !np_split_map, bind_rmap. apply bind_ext. intros fs _. rewrite bind_rmap. apply bind_ext. intros as_ _.
  apply mapM_ext. intros i. apply mapM_ext. intros j. rewrite !nth_map_nil, section_coef_sc. f_equal.
  generalize (nth i fs []) (nth i ws []) (nth i as_ []). intros f0 w0 a0. clear - HK. revert w0 a0. induction f0 as [|x f0 IH]; intros [|y w0] [|z a0]; try reflexivity. cbn [map combine zipWith fst snd]. rewrite IH, panel_coef_sc. reflexivity.
Qed.
Definition heights_scaled (p : @plot R) : @plot R := Plot (pl_file p) (map (fun q => (fst q, map (Rmult k) (snd q))) (pl_points p)).
Lemma normalized_sc ar c : normalized_sections (map (Rmult (k ^ 2)) ar) c = normalized_sections ar c.
Proof.
  unfold normalized_sections, sail_coefficient. replace (zipWith nmul (map (Rmult (k ^ 2)) ar) c) with (map (Rmult (k ^ 2)) (zipWith nmul ar c)).
  { rewrite !nsum_sc. replace (ndiv (k ^ 2 * nsum (zipWith nmul ar c)) (k ^ 2 * nsum ar)) with (ndiv (nsum (zipWith nmul ar c)) (nsum ar)); [reflexivity|]. symmetry. apply div_sq. }
  revert c. induction ar as [|x ar IH]; intros [|y c]; try reflexivity. cbn [zipWith map]. rewrite IH. f_equal. rnum. ring.
Qed.
Lemma plot_data_sc panels ar li dr w cp ns nc rho :
  get_data_for_coeff_plot (map (enlarged k) panels) (map (Rmult (k ^ 2)) ar) (map (sscale (k ^ 2)) li) (map (sscale (k ^ 2)) dr) w (map (sscale k) cp) ns nc rho
  = rmap (fun d => let '(h, l, d) := d in (map (map (Rmult k)) h, l, d)) (get_data_for_coeff_plot panels ar li dr w cp ns nc rho).
Proof.
  unfold get_data_for_coeff_plot. rewrite !get_C_sc, map_length. rewrite rmap_bind. apply bind_ext. intros cl _. rewrite rmap_bind. apply bind_ext. intros cd _. cbv zeta.
  rewrite !np_split_map, bind_rmap, rmap_bind. apply bind_ext. intros as_ _. rewrite bind_rmap, rmap_bind. apply bind_ext. intros cps _.
  set (n := (length panels / (ns * nc * 2))%nat). clearbody n.
  assert (A : mapM (fun i => mapM (fun j => do a <- strip nc ns (nZ 0) j (nth i (map (map (Rmult (k ^ 2))) as_) []); Ok (nsum a)) (seq 0 ns)) (seq 0 n)
    = rmap (map (map (Rmult (k ^ 2)))) (mapM (fun i => mapM (fun j => do a <- strip nc ns (nZ 0) j (nth i as_ []); Ok (nsum a)) (seq 0 ns)) (seq 0 n))).
  { rewrite <- (map_id (seq 0 n)) at 1. apply mapM_map_rmap. intros i. rewrite <- (map_id (seq 0 ns)) at 1. apply mapM_map_rmap. intros j. cbv beta. rewrite nth_map_nil, strip_sc, bind_rmap, rmap_bind. apply bind_ext. intros a _. cbn [rmap]. rewrite nsum_sc. reflexivity. }
  rewrite A, bind_rmap, rmap_bind. apply bind_ext. intros sa _.
  assert (B : mapM (fun i => mapM (fun j => do a <- strip nc ns (nZ 0) j (map vz (nth i (map (map (sscale k)) cps) [])); Ok (ndiv (nsum a) (nZ (Z.of_nat nc)))) (seq 0 ns)) (seq 0 n)
    = rmap (map (map (Rmult k))) (mapM (fun i => mapM (fun j => do a <- strip nc ns (nZ 0) j (map vz (nth i cps [])); Ok (ndiv (nsum a) (nZ (Z.of_nat nc)))) (seq 0 ns)) (seq 0 n))).
  { rewrite <- (map_id (seq 0 n)) at 1. apply mapM_map_rmap. intros i. rewrite <- (map_id (seq 0 ns)) at 1. apply mapM_map_rmap. intros j. cbv beta. rewrite nth_map_nil.
    replace (map vz (map (sscale k) (nth i cps []))) with (map (Rmult k) (map vz (nth i cps []))) by (rewrite !map_map; apply map_ext; intros; reflexivity).
    rewrite strip_sc, bind_rmap, rmap_bind. apply bind_ext. intros a _. cbn [rmap]. rewrite nsum_sc. f_equal. rnum. unfold Rdiv. ring. }
  rewrite B, bind_rmap, rmap_bind. apply bind_ext. intros me _. cbn [rmap]. f_equal. f_equal; [f_equal|]; apply map_ext; intros i; rewrite nth_map_nil, normalized_sc; reflexivity.
Qed.
Lemma section_plot_sc x y name : plot_section_coeff x (map (map (Rmult k)) y) name = rmap heights_scaled (plot_section_coeff x y name).
Proof.
  unfold plot_section_coeff. destruct (negb _); [reflexivity|]. rewrite map_length, rmap_bind. cbv zeta.
  rewrite <- (map_id (seq 0 (length y))) at 1.
  rewrite (mapM_map_rmap (fun i => do x0 <- py_nth x (Z.of_nat i); do y0 <- py_nth y (Z.of_nat i); do lb <- py_nth ["jib"; "main"]%string (Z.of_nat i); Ok (lb, x0, y0)) _ (fun i => i) (fun q => (fst q, map (Rmult k) (snd q)))).
  - rewrite bind_rmap. reflexivity.
  - intros i. rewrite rmap_bind. apply bind_ext. intros x0 _. rewrite py_nth_map. destruct (py_nth y (Z.of_nat i)); [|reflexivity]. cbn [bind]. rewrite rmap_bind. reflexivity.
Qed.
End Plots_.
Lemma vlm_fields (panels : list (panel R)) nc ns rho w te le o : Vlm panels nc ns rho w te le = Ok o -> vl_panels o = panels /\ vl_ns o = ns /\ vl_nc o = nc /\ vl_rho o = rho.
Proof.
  unfold Vlm. intros E. apply bind_Ok in E. destruct E as (vars & _ & E). apply bind_Ok in E. destruct E as (ic & _ & Q). unfold vlm_solve in Q; cbv zeta in Q.
  destruct (calc_velocity_coefs _ _ _ _ _ _) as [? ?]; apply bind_Ok in Q; destruct Q as (? & _ & Q); destruct (calculate_app_fs _ _ _) as [? ?]; repeat (apply bind_Ok in Q; destruct Q as (? & _ & Q); try match type of Q with context [let '(_, _) := ?x in _] => destruct x as [[? ?] ?] end); injection Q as <-. auto.
Qed.
Theorem C77_plots : forall k spline cd sv r main jib ref clr rr, 0 < k <= 1 -> homogeneous k spline -> (1 <= sv_ns sv)%nat -> (1 <= sv_nc sv)%nat ->
  run spline cd sv r main jib ref clr = Ok rr -> same_cores k (rr_vlm rr) -> (forall a, In a (vl_areas (rr_vlm rr)) -> / 10 ^ 14 <= k ^ 2 * a) ->
  exists p q rr', cli_section_plots (rr_vlm rr) = Ok (p, q) /\ run spline (scaled_conditions k cd) sv (scaled_rig k r) (option_map (scaled_sail k) main) (option_map (scaled_sail k) jib) (sscale k ref) (sscale k clr) = Ok rr' /\
    cli_section_plots (rr_vlm rr') = Ok (heights_scaled k p, heights_scaled k q).
Proof.
  intros k spline cd sv r main jib ref clr rr HK HO NS NC E CO AR. destruct (C62_labels spline cd sv r main jib ref clr rr ltac:(lia) ltac:(lia) E) as (p & q & PL & _). destruct (C77_run k spline cd sv r main jib ref clr rr HK HO NS NC E CO AR) as (rr' & E' & M).
  exists p, q, rr'. split; [exact PL|]. split; [exact E'|]. destruct (run_inv _ _ _ _ _ _ _ _ _ E) as (w & _ & _ & EG & _ & EV & _). destruct (run_inv _ _ _ _ _ _ _ _ _ E') as (w' & _ & _ & EG' & _ & EV' & _).
  destruct (vlm_fields _ _ _ _ _ _ _ _ EV) as (P1 & P2 & P3 & P4). destruct (vlm_fields _ _ _ _ _ _ _ _ EV') as (Q1 & Q2 & Q3 & Q4).
  unfold cli_section_plots in *. rewrite P1, P2, P3, P4 in PL. rewrite Q1, Q2, Q3, Q4, (ms_panels _ _ _ M).
  destruct (ms_solution _ _ _ M) as [S1 S2 S3 S4 S5 S6 S7 S8 S9 S10 S11 S12 S13 S14 S15 S16]. rewrite S5, S13, S14, S6, S2. change (cd_rho (scaled_conditions k cd)) with (cd_rho cd).
  rewrite plot_data_sc by lra. destruct (get_data_for_coeff_plot _ _ _ _ _ _ _ _ _) as [[[h l] d]|]; [|discriminate]. cbn [rmap bind] in *.
  rewrite !section_plot_sc. destruct (plot_section_coeff d h _) as [p1|]; [|discriminate]. cbn [rmap bind] in *. destruct (plot_section_coeff l h _) as [p2|]; [|discriminate]. cbn [rmap bind] in *. injection PL as -> ->. reflexivity.
Qed.

(** *** small yachts in the picture *)
Lemma tallest_sc k ps m : 0 < k -> tallest ps m -> tallest (map (enlarged k) ps) (k * m).
Proof.
  intros HK [A (p & e & P & I & Q)].
  assert (EM : forall p, edge_middles (enlarged k p) = map (sscale k) (edge_middles p)).
  { intros [[? ? ?] [? ? ?] [? ? ?] [? ? ?]]. unfold edge_middles, mid, slerp, enlarged. cbn [map pp1 pp2 pp3 pp4]. f_equal; [|f_equal]; svec; vec_eq; field. }
  assert (AB : forall e, Rabs (vz (sscale k e)) = k * Rabs (vz e)) by (intros [x1 x2 x3]; unfold sscale; cbn [vz]; rewrite Rabs_mult, (Rabs_pos_eq k) by lra; reflexivity).
  split.
  - intros p' e' P' I'. apply in_map_iff in P'. destruct P' as (p0 & <- & P0). rewrite EM in I'. apply in_map_iff in I'. destruct I' as (e0 & <- & E0). rewrite AB. apply Rmult_le_compat_l; [lra|]. eapply A; eassumption.
  - exists (enlarged k p), (sscale k e). split; [apply in_map; exact P|]. split; [rewrite EM; apply in_map; exact I|]. rewrite AB, Q. reflexivity.
Qed.
(** at 7/10 of the size the middles reach 8.75 m and are outside the axes, at half the size they reach 6.25 m and are inside *)
Example C76_low_case : exists sp, forall k, (k = 1/2 \/ k = 7/10) -> exists rr fig m n,
  run sp (scaled_conditions k demo_conditions) demo_solver (scaled_rig k (demo_rig (Some 4))) (Some (scaled_sail k demo_main)) None (sscale k szero) (sscale k szero) = Ok rr /\
  cli_display rr = Ok fig /\ tallest (ss_panels (rr_set rr)) m /\ m <= 9 /\ IZR n - 1 < m <= IZR n /\ (k = 1/2 -> m <= IZR n - 1/2) /\ (k = 7/10 -> IZR n - 1/2 < m).
Proof.
  exists np_interp. intros k K. assert (HO : homogeneous k np_interp) by (intros xs x y; apply interp_sc).
  assert (HK : 1/10 <= k <= 1) by (destruct K as [-> | ->]; lra).
  destruct (demo_scaled k np_interp szero HK HO) as (rr & rr' & E & P & _ & _ & E' & M). exists rr'.
  assert (T : tallest (ss_panels (rr_set rr')) (k * (25/2))) by (rewrite (ms_panels _ _ _ M), P; apply tallest_sc; [lra|exact demo_tallest]).
  destruct (C76_picture _ _ demo_solver _ _ _ _ _ _ Nat.lt_0_1 Nat.lt_0_1 E') as (m & T' & _ & PO). rewrite (tallest_unique _ _ _ T T') in PO.
  destruct PO as (fig & ? & ? & D & _). { lra. } exists fig, (k * (25/2)), (if Rlt_dec k (6/10) then 7%Z else 9%Z). split; [exact E'|]. split; [exact D|]. split; [exact T|].
  destruct (Rlt_dec k (6/10)); destruct K as [-> | ->]; simpl; lra.
Qed.
Print Assumptions C77_run.
Print Assumptions C77_plots.
