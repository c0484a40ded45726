(** C87: a run depends on the wind, the speed of the yacht and the density only through the apparent wind, and scales with its speed. *)

From Coq Require Import String ZArith Reals List Bool Lra Psatz Lia Arith.
From Verif Require Import Num PyBase RNum Spec M_Csys M_Panels M_Airfoil M_Coefs M_Forces M_Winds M_Vlm M_Interp M_Sail M_Results M_Hull M_Runner
  L_List L_Rot L_Vel L_Csys L_Airfoil L_Sail L_Sail2 L_Lattice L_Vlm L_Vlm2 L_Demo L_Angle L_Runner P_Sail P_Interp P_Vlm P_Results P_Runner P_Run L_Scale L_ScaleRun P_Tack P_ScaleRun P_Scene.
Import ListNotations.
Open Scope R_scope.

(** at every height the apparent wind of [w'] is [k] times that of [w] *)
Definition apparent (k : R) (w w' : wind R) : Prop := forall h u, 0 <= h -> get_true_wind_speed_at_h w h = Ok u ->
  exists u', get_true_wind_speed_at_h w' h = Ok u' /\ get_app_infs_at_h w' u' = sscale k (get_app_infs_at_h w u).
(** circulations and velocities with factor [k], forces and moments with factor [q]; all else is equal *)
Definition total_times (q : R) (t : sail_total R) : sail_total R := SailTotal (st_name t) (sscale q (st_F t)) (sscale q (st_M t)).
Record flow_times (k q : R) (fr fr' : flow_results R) : Prop := {
  ft_csys : fr_csys fr' = fr_csys fr;
  ft_gamma : fr_gamma fr' = map (Rmult k) (fr_gamma fr);
  ft_pressure : fr_pressure fr' = map (Rmult q) (fr_pressure fr);
  ft_V_ind : fr_V_ind fr' = map (sscale k) (fr_V_ind fr);
  ft_V_fs : fr_V_fs fr' = map (sscale k) (fr_V_fs fr);
  ft_awa : fr_awa_fs fr' = fr_awa_fs fr;
  ft_F : fr_F fr' = map (sscale q) (fr_F fr);
  ft_F_total : fr_F_total fr' = sscale q (fr_F_total fr);
  ft_arms : fr_arms fr' = fr_arms fr;
  ft_sails : fr_sails fr' = map (total_times q) (fr_sails fr);
  ft_M : fr_M fr' = map (sscale q) (fr_M fr);
  ft_M_total : fr_M_total fr' = sscale q (fr_M_total fr);
  ft_coe : fr_coe fr' = fr_coe fr;
  ft_F_cl : fr_F_cl fr' = map (sscale q) (fr_F_cl fr);
  ft_F_cl_total : fr_F_cl_total fr' = sscale q (fr_F_cl_total fr);
  ft_M_cl : fr_M_cl fr' = map (sscale q) (fr_M_cl fr);
  ft_M_cl_total : fr_M_cl_total fr' = sscale q (fr_M_cl_total fr) }.

Lemma inlet_apparent k w w' cp ic : apparent k w w' -> InletConditions w cp = Ok ic -> exists ic', InletConditions w' cp = Ok ic' /\ in_V ic' = map (sscale k) (in_V ic).
Proof.
  intros A E. unfold InletConditions in *. apply bind_Ok in E. destruct E as (tws & M & E). injection E as <-. cbn [in_V].
  assert (X : exists tws', mapM (fun p => get_true_wind_speed_at_h w' (nabs (vz p))) cp = Ok tws' /\ map (get_app_infs_at_h w') tws' = map (sscale k) (map (get_app_infs_at_h w) tws)).
  { revert tws M. induction cp as [|p cp IH]; intros tws M; cbn [mapM] in *; [injection M as <-; exists []; split; reflexivity|].
    apply bind_Ok in M. destruct M as (u & U & M). apply bind_Ok in M. destruct M as (us & US & M). injection M as <-. destruct (IH us US) as (us' & E1 & E2).
    destruct (A _ _ (Rabs_pos (vz p)) U) as (u' & U' & EU). exists (u' :: us'). change (nabs (vz p)) with (Rabs (vz p)). rewrite U', E1. cbn [bind map]. rewrite EU, E2. split; reflexivity. }
  destruct X as (tws' & E1 & E2). rewrite E1. cbn [bind]. eexists. split; [reflexivity|]. cbn [in_V]. exact E2.
Qed.
Lemma solver_apparent panels nc ns rho w w' te le o k c : 0 < k -> 0 < c -> apparent k w w' -> length te = length panels -> Vlm panels nc ns rho w te le = Ok o ->
  exists o', Vlm panels nc ns (c * rho) w' te le = Ok o' /\ scaled k (c * k ^ 2) o o' /\ vl_pcoef o' = vl_pcoef o /\ vl_vars o' = vl_vars o /\ vl_areas o' = vl_areas o /\ in_V (vl_inlet o') = map (sscale k) (in_V (vl_inlet o)).
Proof.
  intros K C A LT E. destruct (Vlm_inv _ _ _ _ _ _ _ _ LT E) as (vars & ic & g & net & CV & LV & IC & LI & VS & _ & FL).
  destruct (inlet_apparent k w w' _ _ A IC) as (ic' & IC' & EI).
  destruct (C42_inflow panels nc ns rho te le vars ic ic' o k K LT LV LI EI VS) as (o1 & E1 & S1 & P1).
  assert (V1 : Vlm panels nc ns rho w' te le = Ok o1). { unfold Vlm. rewrite gor_R, CV. cbn [bind]. rewrite IC'. cbn [bind]. exact E1. }
  destruct (C42_density panels nc ns rho w' te le o1 c LT V1) as (o' & V' & S2 & P2). exists o'. split; [exact V'|].
  destruct (Vlm_inv _ _ _ _ _ _ _ _ LT V') as (vars2 & ic2 & g2 & net2 & CV2 & _ & IC2 & _ & _ & _ & FL2). rewrite CV in CV2. apply Ok_inj in CV2. subst vars2. rewrite IC' in IC2. apply Ok_inj in IC2. subst ic2.
  assert (MM : forall a b (l : list R), map (Rmult a) (map (Rmult b) l) = map (Rmult (a * b)) l) by (intros a b l; rewrite map_map; apply map_ext; intros; ring).
  assert (SM : forall a b l, map (sscale a) (map (sscale b) l) = map (sscale (a * b)) l) by (intros a b l; rewrite map_map; apply map_ext; intros [x y z]; svec; vec_eq; ring).
  destruct S1 as [A1 A2 A3 A4 A5 A6 A7 A8 A9], S2 as [B1 B2 B3 B4 B5 B6 B7 B8 B9]. split; [|split; [|split; [|split]]].
  - constructor; [rewrite B1, A1 | rewrite B2, A2 | rewrite B3, A3 | rewrite B4, A4 | rewrite B5, A5 | rewrite B6, A6 | rewrite B7, A7 | rewrite B8, A8 | rewrite B9, A9]; rewrite ?MM, ?SM, ?Rmult_1_l; reflexivity.
  - rewrite P2 by lra. exact P1.
  - rewrite (f_vars _ _ _ _ _ _ _ _ _ _ _ _ _ _ FL), (f_vars _ _ _ _ _ _ _ _ _ _ _ _ _ _ FL2). reflexivity.
  - rewrite (f_areas _ _ _ _ _ _ _ _ _ _ _ _ _ _ FL), (f_areas _ _ _ _ _ _ _ _ _ _ _ _ _ _ FL2). reflexivity.
  - rewrite (f_inlet _ _ _ _ _ _ _ _ _ _ _ _ _ _ FL), (f_inlet _ _ _ _ _ _ _ _ _ _ _ _ _ _ FL2). exact EI.
Qed.
Section Times.
Context (k q : R) (K : 0 < k) (Q : 0 < q).
Lemma times_cross a b : vcross a (sscale q b) = sscale q (vcross a b).
Proof. destruct a as [x y z], b as [u v w]. unfold sscale. vnum. vec_eq; ring. Qed.
Lemma times_dot a b : vdot a (sscale q b) = q * vdot a b.
Proof. destruct a as [x y z], b as [u v w]. unfold sscale. vnum. ring. Qed.
Lemma times_moments a f : calc_moments a (map (sscale q) f) = map (sscale q) (calc_moments a f).
Proof. rewrite <- (map_id a) at 1. apply zip_map. intros x y. apply times_cross. Qed.
Lemma times_determine f d m : determine_vector_from_its_dot_and_cross_product (sscale q f) (q * d) (sscale q m) = determine_vector_from_its_dot_and_cross_product f d m.
Proof.
  unfold determine_vector_from_its_dot_and_cross_product. replace (vdot (sscale q f) (sscale q f)) with (q ^ 2 * vdot f f) by (destruct f as [x y z]; unfold sscale; vnum; ring).
  generalize (vdot f f). intros s. destruct f as [x y z], m as [u v w]. unfold sscale. vnum. unfold Rdiv. rewrite Rinv_mult. generalize (/ s). intros i. vec_eq; field; lra.
Qed.
Lemma times_centerline c d l : from_xyz_to_centerline_csys c (map (sscale d) l) = map (sscale d) (from_xyz_to_centerline_csys c l).
Proof. unfold from_xyz_to_centerline_csys. rewrite !map_map. apply map_ext. intros p. rewrite <- sc_mapply. reflexivity. Qed.
Lemma results_times s c v v' fr : scaled k q v v' -> vl_vars v' = vl_vars v -> InviscidFlowResults s c v = Ok fr -> exists fr', InviscidFlowResults s c v' = Ok fr' /\ flow_times k q fr fr'.
Proof.
  intros SC EV E. unfold InviscidFlowResults in *. cbv zeta in *. rewrite (sc_force _ _ _ _ SC). assert (CP : vl_cp v' = vl_cp v) by (unfold vl_cp; rewrite EV; reflexivity). rewrite CP.
  set (r := calc_moment_arm_in_shifted_csys (vl_cp v) (ref_vec c)) in *. set (f := vl_force v) in *. clearbody r f. rewrite !map_length, !firstn_map, !array_split_map.
  apply bind_Ok in E. destruct E as (fch & EF & E). apply bind_Ok in E. destruct E as (rch & ER & E). rewrite EF, ER. cbn [rmap]. rewrite !bind_ret. injection E as <-.
  eexists. split; [reflexivity|].
  constructor; cbn [fr_gamma fr_pressure fr_V_ind fr_V_fs fr_awa_fs fr_csys fr_F fr_F_total fr_arms fr_sails fr_M fr_M_total fr_coe fr_F_cl fr_F_cl_total fr_M_cl fr_M_cl_total];
    rewrite ?times_moments, ?times_centerline, ?above_map, ?vsum_sc; try reflexivity.
  - apply (sc_gamma _ _ _ _ SC).
  - apply (sc_pressure _ _ _ _ SC).
  - apply (sc_V_ind_cp _ _ _ _ SC).
  - apply (sc_V_cp _ _ _ _ SC).
  - rewrite (sc_V_cp _ _ _ _ SC), map_map. apply map_ext. intros [x y z]. unfold awa_app_fs, sscale. cbn [vx vy]. f_equal. rnum. unfold Rdiv. rewrite Rinv_mult. generalize (/ x). intros i. field. lra.
  - rewrite map_map. apply map_ext. intros [i x]. unfold total_times. cbn [fst snd st_name st_F st_M]. rewrite !(nth_map_nil (sscale _)), times_moments, !vsum_sc. reflexivity.
  - replace (zipWith vdot r (map (sscale q) f)) with (map (Rmult q) (zipWith vdot r f)). { rewrite above_map, nsum_sc. apply times_determine. }
    symmetry. rewrite <- (map_id r) at 1. apply zip_map. intros a b. apply times_dot.
Qed.
Lemma times_keel fr fr' clr : flow_times k q fr fr' -> keel_moment fr' clr = (sscale q (fst (keel_moment fr clr)), sscale q (snd (keel_moment fr clr))).
Proof.
  intros FF. unfold keel_moment. cbv zeta. rewrite (ft_F_total _ _ _ _ FF), (ft_csys _ _ _ _ FF). cbn [fst snd].
  assert (X : vcross clr (vopp (sscale q (fr_F_total fr))) = sscale q (vcross clr (vopp (fr_F_total fr)))).
  { rewrite <- times_cross. f_equal. destruct (fr_F_total fr) as [x y z]. unfold sscale. vnum. vec_eq; ring. }
  rewrite X, <- sc_mapply. reflexivity.
Qed.
End Times.

(** ** Runs *)
Record run_times (k q : R) (rr rr' : @run_result R) : Prop := {
  rt_set : rr_set rr' = rr_set rr;
  rt_hull : rr_hull rr' = rr_hull rr;
  rt_solution : scaled k q (rr_vlm rr) (rr_vlm rr');
  rt_pcoef : vl_pcoef (rr_vlm rr') = vl_pcoef (rr_vlm rr);
  rt_results : flow_times k q (rr_flow rr) (rr_flow rr');
  rt_keel : keel_moment (rr_flow rr') (rr_clr rr') = (sscale q (fst (keel_moment (rr_flow rr) (rr_clr rr))), sscale q (snd (keel_moment (rr_flow rr) (rr_clr rr))));
  rt_plots : cli_section_plots (rr_vlm rr') = cli_section_plots (rr_vlm rr) }.
Lemma panel_coef_times k c rho f w a : 0 < k -> 0 < c -> panel_coefficient (c * rho) (sscale (c * k ^ 2) f) (sscale k w) a = panel_coefficient rho f w a.
Proof.
  intros K C. assert (0 < k ^ 2) by nra. assert (Q : 0 < c * k ^ 2) by nra. unfold panel_coefficient. replace (vnorm (sscale (c * k ^ 2) f)) with (c * k ^ 2 * vnorm f). 2:{ tospec. rewrite snorm_scale, Rabs_pos_eq by lra. reflexivity. }
  replace (vnorm (sscale k w)) with (k * vnorm w). 2:{ tospec. rewrite snorm_scale, Rabs_pos_eq by lra. reflexivity. }
  generalize (vnorm f) (vnorm w) (ndec 5 1 : R). intros x y z. rnum. replace (z * (c * rho) * (k * y * (k * y)) * a) with (c * k ^ 2 * (z * rho * (y * y) * a)) by ring.
  generalize (z * rho * (y * y) * a). intros d. unfold Rdiv. rewrite Rinv_mult. generalize (/ d). intros i. field. lra.
Qed.
Lemma get_C_times k c panels ar f w ns nc rho : 0 < k -> 0 < c -> get_C panels ar (map (sscale (c * k ^ 2)) f) (map (sscale k) w) ns nc (c * rho) = get_C panels ar f w ns nc rho.
Proof.
  intros K C. unfold get_C. destruct (_ =? _)%nat; [reflexivity|]. cbv zeta. rewrite !np_split_map, bind_rmap. apply bind_ext. intros ws _. rewrite bind_rmap. apply bind_ext. intros fs _. apply bind_ext. intros as_ _.
  apply mapM_ext. intros i. apply mapM_ext. intros j. rewrite !nth_map_nil. f_equal.
  generalize (nth i fs []) (nth i ws []) (nth i as_ []). intros f0 w0 a0. clear - K C. revert w0 a0. induction f0 as [|x f0 IH]; intros [|y w0] [|z a0]; try reflexivity. cbn [map combine zipWith fst snd]. rewrite IH, panel_coef_times by assumption. reflexivity.
Qed.
Theorem C87_run : forall k c spline cd cd' sv r main jib ref clr rr w w', 0 < k -> 0 < c ->
  run spline cd sv r main jib ref clr = Ok rr -> Wind cd = Ok w -> Wind cd' = Ok w' -> apparent k w w' -> cd_heel cd' = cd_heel cd -> cd_leeway cd' = cd_leeway cd -> cd_rho cd' = c * cd_rho cd ->
  exists rr', run spline cd' sv r main jib ref clr = Ok rr' /\ run_times k (c * k ^ 2) rr rr'.
Proof.
  intros k c spline cd cd' sv r main jib ref clr rr w w' K C E EW EW' A H1 H2 H3. destruct (run_inv _ _ _ _ _ _ _ _ _ E) as (w0 & EW0 & EP & EG & EH & EV & EF).
  rewrite EW in EW0. apply Ok_inj in EW0. subst w0. destruct (get_sail_set_inv _ _ _ _ _ _ _ EG) as (sails & SS & ES & _ & _ & B). destruct (sail_set_flags (sv_nc sv) (sv_ns sv) sails _ B SS) as [LP FG].
  pose proof (eq_trans (fl_te_len _ _ _ _ _ FG) (eq_sym LP)) as LT.
  destruct (solver_apparent _ _ _ _ _ _ _ _ _ k c K C A LT EV) as (v' & EV' & SC & PC & VA & AR & IV). assert (Q : 0 < c * k ^ 2) by (assert (0 < k ^ 2) by nra; nra).
  destruct (results_times k (c * k ^ 2) K Q _ _ _ _ _ SC VA EF) as (fr' & EF' & FT). exists (RunResult (rr_set rr) (rr_hull rr) v' fr'). split.
  - unfold run. rewrite EW'. cbn [bind]. rewrite EP. cbn [bind]. rewrite H1, H2, EG. cbn [bind]. rewrite EH. cbn [bind]. rewrite H3, EV'. cbn [bind]. rewrite EF'. reflexivity.
  - constructor; unfold rr_clr; cbn [rr_set rr_hull rr_vlm rr_flow]; try assumption; try reflexivity.
    + apply times_keel with (k := k). exact FT.
    + destruct (vlm_fields _ _ _ _ _ _ _ _ EV) as (P1 & P2 & P3 & P4). destruct (vlm_fields _ _ _ _ _ _ _ _ EV') as (Q1 & Q2 & Q3 & Q4).
      unfold cli_section_plots, get_data_for_coeff_plot. unfold vl_cp. rewrite P1, P2, P3, P4, Q1, Q2, Q3, Q4, VA, AR, IV, (sc_lift _ _ _ _ SC), (sc_drag _ _ _ _ SC), !get_C_times by assumption. reflexivity.
Qed.
(** *** more wind and speed, denser air *)
Definition stronger (k c : R) (cd : @conditions R) : @conditions R :=
  Conditions (cd_leeway cd) (cd_heel cd) (k * cd_sog cd) (k * cd_tws cd) (cd_alpha cd) (cd_water_level cd) (cd_exp_coeff cd) (cd_ref_height cd) (c * cd_rho cd) (cd_profile cd) (cd_roughness cd).
Theorem C87_stronger : forall k c spline cd sv r main jib ref clr rr, 0 < k -> 0 < c -> run spline cd sv r main jib ref clr = Ok rr ->
  exists rr', run spline (stronger k c cd) sv r main jib ref clr = Ok rr' /\ run_times k (c * k ^ 2) rr rr'.
Proof.
  intros k c spline cd sv r main jib ref clr rr K C E. destruct (run_inv _ _ _ _ _ _ _ _ _ E) as (w & EW & _).
  apply (C87_run k c spline cd (stronger k c cd) sv r main jib ref clr rr w (faster k w)); try assumption; try reflexivity.
  - unfold Wind in *. change (Wind_post_init (stronger k c cd)) with (Wind_post_init cd). apply bind_Ok in EW. destruct EW as (u & -> & EW). apply Ok_inj in EW. subst w. reflexivity.
  - intros h u _ U. exists (sscale k u). split; [apply wind_faster; exact U|]. unfold get_app_infs_at_h, faster. cbn [w_sog]. destruct u as [x y z]. unfold sscale. rnum. cbn [vx vy vz]. vec_eq; ring.
Qed.
Lemma flow_ext (a b : flow_results R) : fr_csys a = fr_csys b -> fr_gamma a = fr_gamma b -> fr_pressure a = fr_pressure b -> fr_V_ind a = fr_V_ind b -> fr_V_fs a = fr_V_fs b -> fr_awa_fs a = fr_awa_fs b ->
  fr_F a = fr_F b -> fr_F_total a = fr_F_total b -> fr_arms a = fr_arms b -> fr_sails a = fr_sails b -> fr_M a = fr_M b -> fr_M_total a = fr_M_total b -> fr_coe a = fr_coe b ->
  fr_F_cl a = fr_F_cl b -> fr_F_cl_total a = fr_F_cl_total b -> fr_M_cl a = fr_M_cl b -> fr_M_cl_total a = fr_M_cl_total b -> a = b.
Proof. destruct a as [a1 a2 a3 a4 a5 a6 a7 a8 a9 a10 a11 a12 a13 a14 a15 a16 a17], b as [b1 b2 b3 b4 b5 b6 b7 b8 b9 b10 b11 b12 b13 b14 b15 b16 b17]. cbn. intros. subst. reflexivity. Qed.
(** *** other winds and speeds that give the same apparent wind *)
Theorem C87_same_apparent : forall spline cd cd' sv r main jib ref clr rr w w',
  run spline cd sv r main jib ref clr = Ok rr -> Wind cd = Ok w -> Wind cd' = Ok w' -> apparent 1 w w' -> cd_heel cd' = cd_heel cd -> cd_leeway cd' = cd_leeway cd -> cd_rho cd' = cd_rho cd ->
  exists rr', run spline cd' sv r main jib ref clr = Ok rr' /\ rr_set rr' = rr_set rr /\ rr_flow rr' = rr_flow rr /\ vl_pcoef (rr_vlm rr') = vl_pcoef (rr_vlm rr) /\
    cli_section_plots (rr_vlm rr') = cli_section_plots (rr_vlm rr).
Proof.
  intros spline cd cd' sv r main jib ref clr rr w w' E EW EW' A H1 H2 H3. destruct (C87_run 1 1 spline cd cd' sv r main jib ref clr rr w w') as (rr' & E' & [T1 T2 T3 T4 T5 T6 T7]); try assumption; try lra.
  exists rr'. split; [exact E'|]. split; [exact T1|]. split; [|split; assumption].
  assert (M1 : forall q (l : list R), q = 1 -> map (Rmult q) l = l) by (intros q l ->; rewrite <- (map_id l) at 2; apply map_ext; intros; ring).
  assert (V1 : forall q v, q = 1 -> sscale q v = v) by (intros q [x y z] ->; svec; vec_eq; ring).
  assert (S1 : forall q l, q = 1 -> map (sscale q) l = l) by (intros q l Q; rewrite <- (map_id l) at 2; apply map_ext; intros; apply V1; exact Q).
  assert (TT : forall q l, q = 1 -> map (total_times q) l = l) by (intros q l Q; rewrite <- (map_id l) at 2; apply map_ext; intros [n f m]; unfold total_times; cbn [st_name st_F st_M]; rewrite !V1 by exact Q; reflexivity).
  assert (Q : 1 * 1 ^ 2 = 1) by ring. destruct T5 as [F1 F2 F3 F4 F5 F6 F7 F8 F9 F10 F11 F12 F13 F14 F15 F16 F17]. rewrite M1 in F2, F3 by (exact Q || reflexivity). rewrite S1 in F4, F5, F7, F11, F14, F16 by (exact Q || reflexivity). rewrite V1 in F8, F12, F15, F17 by exact Q. rewrite TT in F10 by exact Q.
  apply flow_ext; assumption.
Qed.
(** in a wind without gradient a sailing yacht has the results of one at rest in her apparent wind *)
Definition at_rest (tws alpha : R) (cd : @conditions R) : @conditions R :=
  Conditions (cd_leeway cd) (cd_heel cd) 0 tws alpha (cd_water_level cd) (cd_exp_coeff cd) (cd_ref_height cd) (cd_rho cd) (cd_profile cd) (cd_roughness cd).
Theorem C87_at_rest : forall spline cd sv r main jib ref clr rr, cd_profile cd = "flat"%string -> run spline cd sv r main jib ref clr = Ok rr ->
  exists tws alpha rr', 0 <= tws /\ tws * cos (rad alpha) = cd_tws cd * cos (rad (cd_alpha cd)) + cd_sog cd /\ tws * sin (rad alpha) = cd_tws cd * sin (rad (cd_alpha cd)) /\
    run spline (at_rest tws alpha cd) sv r main jib ref clr = Ok rr' /\ rr_flow rr' = rr_flow rr /\ vl_pcoef (rr_vlm rr') = vl_pcoef (rr_vlm rr).
Proof.
  intros spline cd sv r main jib ref clr rr FL E. destruct (run_inv _ _ _ _ _ _ _ _ _ E) as (w & EW & _). set (x := cd_tws cd * cos (rad (cd_alpha cd)) + cd_sog cd). set (y := cd_tws cd * sin (rad (cd_alpha cd))).
  assert (P : exists tws t, 0 <= tws /\ tws * cos t = x /\ tws * sin t = y).
  { destruct (Req_dec x 0) as [X|X]; [destruct (Req_dec y 0) as [Y|Y]; [exists 0, 0; rewrite X, Y; split; [lra|]; split; ring|]|]; (destruct (atan2_direction x y ltac:(auto)) as (_ & D1 & D2); exists (sqrt (x ^ 2 + y ^ 2)), (Ratan2 y x); split; [apply sqrt_pos|split; symmetry; assumption]). }
  destruct P as (tws & t & P0 & P1 & P2). exists tws, (t / PI * 180). assert (RT : rad (t / PI * 180) = t) by (unfold rad; field; apply PI_neq0).
  assert (EW' : Wind (at_rest tws (t / PI * 180) cd) = Ok (Wind_ (t / PI * 180) tws 0 Flat)).
  { unfold Wind in *. change (Wind_post_init (at_rest tws (t / PI * 180) cd)) with (Wind_post_init cd). apply bind_Ok in EW. destruct EW as (u & -> & EW). cbn [bind]. unfold Wind_profile. cbn [at_rest cd_profile cd_alpha cd_tws cd_sog]. rewrite FL. reflexivity. }
  assert (WF : w = Wind_ (cd_alpha cd) (cd_tws cd) (cd_sog cd) Flat). { unfold Wind in EW. apply bind_Ok in EW. destruct EW as (u & _ & EW). apply Ok_inj in EW. subst w. unfold Wind_profile. rewrite FL. reflexivity. }
  subst w. destruct (C87_same_apparent spline cd (at_rest tws (t / PI * 180) cd) sv r main jib ref clr rr _ _ E EW EW') as (rr' & E' & _ & F' & P' & _); try reflexivity.
  - intros h u _ U. unfold get_true_wind_speed_at_h, wind_speed_at_h, length_to_xyz_vector, w_alpha in *. cbn [w_prof w_tws w_alpha_deg bind] in *. apply Ok_inj in U. subst u. eexists. split; [reflexivity|].
    unfold get_app_infs_at_h. rewrite !deg2rad_s, RT. cbn [w_sog vx vy vz]. rnum. unfold sscale. cbn [vx vy vz]. fold y. rewrite P1, P2. unfold x, y. vec_eq; try match goal with |- context [@deg2rad R ?I ?a] => change (@deg2rad R I a) with (@deg2rad R RNum a); replace (@deg2rad R RNum a) with (rad a) by (symmetry; apply deg2rad_s) end; ring.
  - exists rr'. rewrite RT. auto 10.
Qed.
(** not in a sheared wind: its direction turns with the height for a yacht under way and does not for one at rest *)
Theorem C87_at_rest_refuted : exists cd w, valid_conditions cd /\ Wind cd = Ok w /\ 0 < cd_sog cd /\ forall w' k, w_sog w' = 0 -> k <> 0 -> ~ apparent k w w'.
Proof.
  exists (Conditions 0 0 4 3 90 (Some 0) (Some 1) (Some 10) 1 "exponential" None), (Wind_ 90 3 4 (Exp (Some 1) (Some 10) (Some 0))). split; [right; right; repeat split; discriminate|]. split; [reflexivity|]. split; [cbn; lra|].
  intros w' k S0 K A. unfold apparent, get_true_wind_speed_at_h, wind_speed_at_h at 1 in A. cbn [w_prof w_tws opt_arg bind] in A.
  destruct (A 10 _ ltac:(lra) eq_refl) as (u1 & U1 & E1). destruct (A 20 _ ltac:(lra) eq_refl) as (u2 & U2 & E2). apply bind_Ok in U1. destruct U1 as (s1 & _ & U1). apply bind_Ok in U2. destruct U2 as (s2 & _ & U2). apply Ok_inj in U1. apply Ok_inj in U2. subst u1 u2.
  unfold get_app_infs_at_h, length_to_xyz_vector, w_alpha in E1, E2. cbn [vx vy vz w_alpha_deg w_sog cd_alpha cd_sog] in E1, E2. rewrite S0 in E1, E2. 
  rewrite ?deg2rad_s in E1, E2. repeat match goal with H : context [@deg2rad R ?I 90] |- _ => replace (@deg2rad R I 90) with (rad 90) in H by (symmetry; apply deg2rad_s) end. replace (rad 90) with (PI / 2) in E1, E2 by (unfold rad; field). rnum.
  rewrite cos_PI2, sin_PI2 in E1, E2. unfold sscale in E1, E2. cbn [vx vy vz] in E1, E2.
  assert (R1 : Rpow ((10 - 0) / 10) 1 = 1). { unfold Rpow. destruct (Rlt_dec 0 _) as [_|N]; [rewrite Rpower_1 by lra; lra|exfalso; apply N; lra]. }
  assert (R2 : Rpow ((20 - 0) / 10) 1 = 2). { unfold Rpow. destruct (Rlt_dec 0 _) as [_|N]; [rewrite Rpower_1 by lra; lra|exfalso; apply N; lra]. }
  rewrite R1 in E1. rewrite R2 in E2. set (co := cos (rad (w_alpha_deg w'))) in *. set (si := sin (rad (w_alpha_deg w'))) in *. clearbody co si.
  injection E1 as X1 Y1. injection E2 as X2 Y2. assert (Z : (s1 * co) * (s2 * si) = (s1 * si) * (s2 * co)) by ring.
  replace (s1 * co) with (4 * k) in Z by lra. replace (s2 * si) with (6 * k) in Z by lra. replace (s1 * si) with (3 * k) in Z by lra. replace (s2 * co) with (4 * k) in Z by lra. nra.
Qed.

(** ** Concrete cases *)
Example C87_case : forall sp, exists rr rr', run sp demo_conditions demo_solver (demo_rig (Some 4)) (Some demo_main) None szero szero = Ok rr /\
  run sp (stronger 2 3 demo_conditions) demo_solver (demo_rig (Some 4)) (Some demo_main) None szero szero = Ok rr' /\ run_times 2 (3 * 2 ^ 2) rr rr' /\ cd_profile demo_conditions = "flat"%string.
Proof.
  intros sp. destruct (demo_run sp 4 szero) as (rr & s & E & _). destruct (C87_stronger 2 3 sp _ _ _ _ _ _ _ _ ltac:(lra) ltac:(lra) E) as (rr' & E' & T). exists rr, rr'. auto.
Qed.
Print Assumptions C87_run.
Print Assumptions C87_stronger.
Print Assumptions C87_same_apparent.
Print Assumptions C87_at_rest.
Print Assumptions C87_at_rest_refuted.
