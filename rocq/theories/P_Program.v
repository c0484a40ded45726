(** C90: the whole program with a valid configuration. *)

From Coq Require Import String ZArith Reals List Bool Lra Psatz Lia Arith.
From Verif Require Import Num PyBase RNum Spec M_Csys M_Panels M_Airfoil M_Coefs M_Forces M_Winds M_Vlm M_Interp M_Spline M_Sail M_Results M_Hull M_Runner M_Plots M_Output
  L_List L_Rot L_Vel L_Csys L_Airfoil L_Sail L_Sail2 L_Lattice L_Vlm L_Vlm2 L_Demo P_Sail P_Lattice P_Interp P_Vlm P_Winds P_Results P_Runner P_Run L_Runner L_Set P_Spline P_Plots L_Scene P_Scene P_SplineRun P_Output.
Import ListNotations.
Open Scope R_scope.

(** ** The sails of a valid configuration stand out of the water *)
Lemma heeled_height heel lee p : vy p = 0 -> vz (sheel heel lee (onto_plane p)) = cos (rad heel) * vz p.
Proof.
  intros Y. destruct p as [a b t]. simpl in Y. subst b. unfold sheel, onto_plane, srot. svec. rewrite !cos_neg, !sin_neg. ring.
Qed.
Lemma made_visible sp ns nc mode heel lee ref d name head tack ch tw ca di s : (1 <= ns)%nat -> (1 <= nc)%nat -> cos (rad heel) <> 0 ->
  made sp ns nc mode (Csys heel lee ref) d name head tack ch tw ca di s -> visible (sl_above s).
Proof.
  intros NS NC HC [_ _ _ _ GD (YH & YT & _) SE]. destruct (good_sail_spec _ _ _ _ _ _ _ _ _ _ name GD) as (s' & E & _ & _ & _ & _ & _ & _ & P).
  rewrite SE in E. apply Ok_inj in E. subst s'. destruct (P 0%nat 0%nat ltac:(lia) ltac:(lia)) as (PA & _). cbn [Nat.add Nat.mul] in PA.
  eexists. eexists. split; [eapply nth_error_In; exact PA|]. split; [left; reflexivity|]. cbn [pp2 pp3].
  pose proof (gs_dist _ _ _ _ _ _ _ _ _ _ GD) as LD. pose proof (gs_dist_ok _ _ _ _ _ _ _ _ _ _ GD) as DO. pose proof (gs_mode _ _ _ _ _ _ _ _ _ _ GD) as MO. cbv zeta in MO. cbn [heel_deg leeway_deg] in MO.
  pose proof (gs_head _ _ _ _ _ _ _ _ _ _ GD) as ZH. pose proof (gs_tack _ _ _ _ _ _ _ _ _ _ GD) as ZT.
  assert (D0 : forall k, (k <= ns)%nat -> 0 < nth k di 0) by (intros k K; apply DO, nth_In; lia).
  assert (NE : luff_a tack (Csys heel lee ref) <> luff_b head (Csys heel lee ref)).
  { unfold luff_a, luff_b, hl. cbn [heel_deg leeway_deg]. intros Q. rewrite Q in MO. destruct MO as [_ [X|X]]; apply X; reflexivity. }
  assert (SPK : forall k, (k <= ns)%nat -> spoint head tack (Csys heel lee ref) ns nc (fun k => nth k ch 0) (fun k => nth k tw 0) (fun k => nth k ca 0) (Some mode) k 0 (nth k di 0) = slerp (luff_a tack (Csys heel lee ref)) (luff_b head (Csys heel lee ref)) (INR k / INR ns)).
  { intros k K. unfold spoint. rewrite (zpoint_luff head tack (Csys heel lee ref) ns nc _ _ k _ (D0 k K)). apply srot_line_fix. exact NE. }
  rewrite !SPK by lia. unfold mid, slerp. cbn [vz sadd sscale ssub].
  replace (vz (luff_a tack (Csys heel lee ref))) with (cos (rad heel) * vz tack) by (symmetry; apply heeled_height; exact YT).
  replace (vz (luff_b head (Csys heel lee ref))) with (cos (rad heel) * vz head) by (symmetry; apply heeled_height; exact YH).
  pose proof (frac_bounds 1 ns NS NS) as B. simpl INR in *.   set (t := 1 / INR ns) in *. match goal with |- ?a <> 0 => replace a with (cos (rad heel) * ((1 - t / 2) * vz tack + t / 2 * vz head)) by (unfold t; field; apply not_0_INR; lia) end.
  apply Rmult_integral_contrapositive_currified; [exact HC|]. apply Rgt_not_eq. assert (0 < (1 - t / 2) * vz tack) by (apply Rmult_lt_0_compat; lra). assert (0 <= t / 2 * vz head) by (apply Rmult_le_pos; lra). lra.
Qed.
Lemma visible_incl l m : incl l m -> visible l -> visible m.
Proof. intros I (p & e & P & E & Z). exists p, e. auto. Qed.
Lemma linear_visible sp cd ns nc mode r main jib ref clr rr : (1 <= ns)%nat -> (1 <= nc)%nat -> In mode twist_modes -> cos (rad (cd_heel cd)) <> 0 -> valid_config r main jib ->
  run sp cd (Solver ns nc "linear" mode) r main jib ref clr = Ok rr -> visible (ss_panels (rr_set rr)).
Proof.
  intros NS NC MO HC VC E. destruct (run_inv _ _ _ _ _ _ _ _ _ E) as (w & EW & _ & EG & _ & EV & _). cbv zeta in EG. cbn [sv_nc sv_ns] in EV.
  destruct (set_made sp r main jib _ _ ref ns nc mode _ NS NC HC MO VC EG) as [SS MD].
  destruct (ss_sails (rr_set rr)) as [|s sails] eqn:ES; [discriminate SS|]. destruct (MD s ltac:(simpl; auto)) as (d & name & h & t & ch & tw & ca & di & _ & M).
  apply made_visible in M; [|assumption..]. revert M. apply visible_incl. unfold SailSet in SS. apply Ok_inj in SS. rewrite <- SS. cbn [ss_panels map List.concat]. intros p P. apply in_or_app. left. apply in_or_app. left. exact P.
Qed.
Lemma spline_visible cd ns nc mode r main jib ref clr rr : (1 <= ns)%nat -> (1 <= nc)%nat -> In mode twist_modes -> cos (rad (cd_heel cd)) <> 0 -> spline_config ns r main jib ->
  run scipy_spline cd (Solver ns nc "spline" mode) r main jib ref clr = Ok rr -> visible (ss_panels (rr_set rr)).
Proof.
  intros NS NC MO HC SC E. destruct (config_resampled _ _ _ _ SC) as (main' & jib' & HM & HJ & VI & VJ & VM).
  rewrite (C86_resampled (fun _ _ y => Ok y) cd ns nc mode r main jib main' jib' ref clr HM HJ (proj1 SC)) in E.
  refine (linear_visible _ cd ns nc mode r _ _ ref clr rr NS NC MO HC _ E). split; [exact VI|]. split; assumption.
Qed.

(** ** The program *)
(** Where the program works: the results go to the directory [name], which exists or can be made, the case file is at hand and none of the files written. *)
Definition workplace (ca : case R) (d : disk R) (name file case_dir case_name : string) : Prop :=
  ca_out ca = Output_ (Some case_name) (Some case_dir) (Some name) (Some file) /\ plain name /\ relative file /\ relative case_name /\ usable d name /\
  ~ In case_name [(file ++ ".xlsx")%string; "cp_plot.html"%string; "section_cl.png"%string; "section_cd.png"%string] /\
  path_join case_dir case_name <> in_dir name (file ++ ".xlsx") /\ path_join case_dir case_name <> in_dir name case_name /\ d_file d (path_join case_dir case_name) <> None.
(** What a finished program has left: the five files, one of them a copy of the case file, and nothing else changed. *)
Definition complete_output (d d' : disk R) (name file case_dir case_name : string) : Prop :=
  let files := [(file ++ ".xlsx")%string; case_name; "cp_plot.html"; "section_cl.png"; "section_cd.png"]%string in
  d_file d' (in_dir name case_name) = d_file d (path_join case_dir case_name) /\
  (exists sheets, d_file d' (in_dir name (file ++ ".xlsx")) = Some (Workbook sheets) /\ map fst sheets = ["Components"; "Integrals"; "IC_at_reference_height"]%string) /\
  (exists ps, d_file d' (in_dir name "cp_plot.html") = Some (PressurePlot ps)) /\
  (forall f, In f ["section_cl.png"; "section_cd.png"]%string -> exists pts, d_file d' (in_dir name f) = Some (SectionPlot pts)) /\
  (forall z, (forall f, In f files -> z <> in_dir name f) -> d_file d' z = d_file d z).
Lemma finish sp fmt ca d name file cdir cname (rr : @run_result R) : (0 < sv_ns (ca_solver ca))%nat -> (0 < sv_nc (ca_solver ca))%nat -> workplace ca d name file cdir cname ->
  run sp (ca_cond ca) (ca_solver ca) (ca_rig ca) (Some (ca_main ca)) (Some (ca_jib ca)) (ca_ref ca) (ca_clr ca) = Ok rr -> visible (ss_panels (rr_set rr)) ->
  exists d', cli_main sp fmt ca d = (d', Ok rr) /\ complete_output d d' name file cdir cname.
Proof.
  intros NS NC (OUT & PN & RF & RC & U & NI & N1 & N2 & Y) RUN VI. destruct (d_file d (path_join cdir cname)) as [y|] eqn:DY; [|contradiction].
  destruct (C70_files sp fmt ca rr name file cdir cname d y NS NC RUN VI OUT PN RF RC U NI N1 N2 DY) as (d' & wb & comps & ic & polys & p & q & E & _ & _ & _ & _ & (r1 & r2 & r3 & RW) & FI & OTHER & _).
  exists d'. split; [exact E|]. unfold complete_output. cbv zeta. rewrite DY. split; [apply FI; right; left; reflexivity|]. split.
  { rewrite RW in FI. eexists. split; [apply FI; left; reflexivity|reflexivity]. }
  split; [eexists; apply FI; right; right; left; reflexivity|]. split.
  { intros f [<-|[<-|[]]]; eexists; apply FI; [right; right; right; left; reflexivity|right; right; right; right; left; reflexivity]. }
  intros z Z. apply OTHER. intros f x I. apply Z. apply (in_map fst) in I. exact I.
Qed.
(** A valid case either delivers all files or stops, with the disk untouched, on a singular system or a panel that has no area. *)
Theorem C90_program : forall sp fmt ca d name file cdir cname ns nc mode, workplace ca d name file cdir cname ->
  (1 <= ns)%nat -> (1 <= nc)%nat -> In mode twist_modes -> cos (rad (cd_heel (ca_cond ca))) <> 0 -> ca_solver ca = Solver ns nc "linear" mode ->
  valid_conditions (ca_cond ca) -> valid_config (ca_rig ca) (Some (ca_main ca)) (Some (ca_jib ca)) -> rg_base (ca_rig ca) <> None ->
  (exists d' rr, cli_main sp fmt ca d = (d', Ok rr) /\ complete_output d d' name file cdir cname) \/
  cli_main sp fmt ca d = (d, Raise LinAlgError) \/ cli_main sp fmt ca d = (d, Raise ValueError).
Proof.
  intros sp fmt ca d name file cdir cname ns nc mode W NS NC MO HC SV VC VR HB.
  destruct (C67_run sp (ca_cond ca) ns nc mode (ca_rig ca) (Some (ca_main ca)) (Some (ca_jib ca)) (ca_ref ca) (ca_clr ca) NS NC MO HC VC VR HB) as [(rr & E & _)|(ss & _ & [E|[E _]])].
  - left. pose proof (linear_visible _ _ _ _ _ _ _ _ _ _ _ NS NC MO HC VR E) as VI. rewrite <- SV in E.
    destruct (finish sp fmt ca d name file cdir cname rr) as (d' & Q & C); try assumption; [rewrite SV; exact NS|rewrite SV; exact NC|]. exists d', rr. auto.
  - right. left. apply C70_nothing_on_error. rewrite SV. exact E.
  - right. right. apply C70_nothing_on_error. rewrite SV. exact E.
Qed.
Theorem C90_spline : forall fmt ca d name file cdir cname ns nc mode, workplace ca d name file cdir cname ->
  (1 <= ns)%nat -> (1 <= nc)%nat -> In mode twist_modes -> cos (rad (cd_heel (ca_cond ca))) <> 0 -> ca_solver ca = Solver ns nc "spline" mode ->
  valid_conditions (ca_cond ca) -> spline_config ns (ca_rig ca) (Some (ca_main ca)) (Some (ca_jib ca)) -> rg_base (ca_rig ca) <> None ->
  (exists d' rr, cli_main scipy_spline fmt ca d = (d', Ok rr) /\ complete_output d d' name file cdir cname) \/
  cli_main scipy_spline fmt ca d = (d, Raise LinAlgError) \/ cli_main scipy_spline fmt ca d = (d, Raise ValueError).
Proof.
  intros fmt ca d name file cdir cname ns nc mode W NS NC MO HC SV VC VR HB.
  destruct (C86_run (ca_cond ca) ns nc mode (ca_rig ca) (Some (ca_main ca)) (Some (ca_jib ca)) (ca_ref ca) (ca_clr ca) NS NC MO HC VC VR HB) as [(rr & E & _)|(ss & _ & [E|[E _]])].
  - left. pose proof (spline_visible _ _ _ _ _ _ _ _ _ _ NS NC MO HC VR E) as VI. rewrite <- SV in E.
    destruct (finish scipy_spline fmt ca d name file cdir cname rr) as (d' & Q & C); try assumption; [rewrite SV; exact NS|rewrite SV; exact NC|]. exists d', rr. auto.
  - right. left. apply C70_nothing_on_error. rewrite SV. exact E.
  - right. right. apply C70_nothing_on_error. rewrite SV. exact E.
Qed.
(** the configuration shipped with the package, on whatever grid *)
Theorem C90_shipped : forall fmt ca d name file cdir cname ns nc, workplace ca d name file cdir cname -> (1 <= ns)%nat -> (1 <= nc)%nat ->
  ca_cond ca = shipped_conditions -> ca_solver ca = Solver ns nc "spline" "real_twist" -> ca_rig ca = shipped_rig -> ca_main ca = shipped_main -> ca_jib ca = shipped_jib ->
  (exists d' rr, cli_main scipy_spline fmt ca d = (d', Ok rr) /\ complete_output d d' name file cdir cname) \/
  cli_main scipy_spline fmt ca d = (d, Raise LinAlgError) \/ cli_main scipy_spline fmt ca d = (d, Raise ValueError).
Proof.
  intros fmt ca d name file cdir cname ns nc W NS NC CD SV RG MA JI. apply (C90_spline fmt ca d name file cdir cname ns nc "real_twist" W NS NC); rewrite ?CD, ?RG, ?MA, ?JI.
  - simpl. auto.
  - cbn. apply Rgt_not_eq. apply cos_gt_0; unfold rad; pose proof PI_RGT_0; lra.
  - exact SV.
  - right. right. repeat split; discriminate.
  - apply shipped_config.
  - discriminate.
Qed.

(** ** Concrete cases *)
Definition office : disk R := demo_disk ["/home/me"; "old"]%string [("/home/me/variables.py", "my case"); ("old/run.xlsx", "an old workbook")]%string.
Definition office_out : output := (Output_ (Some "variables.py") (Some "/home/me") (Some "old") (Some "run"))%string.
Lemma office_place ca : ca_out ca = office_out -> workplace ca office "old" "run" "/home/me" "variables.py".
Proof.
  intros E. split; [exact E|]. split; [split; [discriminate|reflexivity]|]. split; [reflexivity|]. split; [reflexivity|]. split; [left; reflexivity|].
  split; [intros [X|[X|[X|[X|[]]]]]; discriminate X|]. split; [discriminate|]. split; discriminate.
Qed.
Example C90_case : forall sp fmt, let ca := demo_case office_out in
  workplace ca office "old" "run" "/home/me" "variables.py" /\ exists d' rr, cli_main sp fmt ca office = (d', Ok rr) /\ complete_output office d' "old" "run" "/home/me" "variables.py".
Proof.
  intros sp fmt ca. assert (W : workplace ca office "old" "run" "/home/me" "variables.py") by (apply office_place; reflexivity). split; [exact W|].
  destruct (demo_case_run sp (ca_out ca)) as (rr & RUN & VI). destruct (finish sp fmt ca office _ _ _ _ rr Nat.lt_0_1 Nat.lt_0_1 W RUN VI) as (d' & E & C). exists d', rr. auto.
Qed.
Example C90_shipped_case : forall fmt, let ca := Case office_out shipped_conditions (Solver 10 10 "spline" "real_twist") shipped_rig shipped_main shipped_jib szero szero in
  (exists d' rr, cli_main scipy_spline fmt ca office = (d', Ok rr) /\ complete_output office d' "old" "run" "/home/me" "variables.py") \/
  cli_main scipy_spline fmt ca office = (office, Raise LinAlgError) \/ cli_main scipy_spline fmt ca office = (office, Raise ValueError).
Proof. intros fmt ca. apply (C90_shipped fmt ca office "old" "run" "/home/me" "variables.py" 10 10); try reflexivity; try lia. apply office_place. reflexivity. Qed.
Print Assumptions C90_program.
Print Assumptions C90_spline.
Print Assumptions C90_shipped.
