(** C82: complete runs on checked numbers. *)

From Coq Require Import String ZArith Reals List Bool Lra Psatz Lia Arith.
From Verif Require Import Num PyBase RNum CNum Spec M_Rotations M_Csys M_Airfoil M_Mesher M_Panels M_Velocity M_Solve M_Coefs M_Forces M_Winds M_Vlm
  M_Sail M_Interp M_Hull M_Results M_Runner L_List L_Rot L_Csys L_Vel L_Airfoil L_Mesh L_Sail L_Sail2 L_Lattice L_Vlm L_Demo P_Sail P_Interp P_Tack L_ScaleRun P_ScaleRun L_Lift L_Lift2 L_Vlm2
  L_LiftGeo L_Runner P_Lift P_LiftGeo P_Run P_Scene.
From Verif Require Import L_LiftRun.
Import ListNotations.
Open Scope R_scope.

(** ** Valid configurations *)
Lemma main_image f r m sp sp' heel lee ref ns nc mode : (1 <= ns)%nat -> (1 <= nc)%nat -> cos (rad heel) <> 0 -> In mode twist_modes ->
  f = Factory (Csys heel lee ref) ns nc (rg_rake r) (rg_sheer r) -> valid_sail m -> valid_main_rig r -> 
  exists g ch tw ca di ch' tw' ca' di' luff s, sd_girths m = Some g /\ sd_chords m = Some ch /\ sd_twist m = Some tw /\ sd_camber m = Some ca /\ sd_dist m = Some di /\
    rg_main_luff r = Some luff /\
    interpolate_girths sp "linear" g ch (ns + 1) = Ok ch' /\ interpolate_girths sp "linear" g tw (ns + 1) = Ok tw' /\
    interpolate_girths sp "linear" g ca (ns + 1) = Ok ca' /\ interpolate_girths sp "linear" g di (ns + 1) = Ok di' /\
    interpolate_girths sp' "linear" (map Some g) (map Some ch) (ns + 1) = Ok (map Some ch') /\ interpolate_girths sp' "linear" (map Some g) (map Some tw) (ns + 1) = Ok (map Some tw') /\
    interpolate_girths sp' "linear" (map Some g) (map Some ca) (ns + 1) = Ok (map Some ca') /\ interpolate_girths sp' "linear" (map Some g) (map Some di) (ns + 1) = Ok (map Some di') /\
    make_main_sail f luff (rg_boom r) ch' tw' (Some mode) ca' di' = Ok s /\
    make_main_sail (finF f) (Some luff) (Some (rg_boom r)) (map Some ch') (map Some tw') (Some mode) (map Some ca') (map Some di') = Ok (finS s).
Proof.
  intros NS NC HC MO -> (g & ch & tw & ca & di & G & CH & TW & CA & DI & GN & GA & L1 & L2 & L3 & L4 & CO & DO) (RK & SB & luff & LU & LP).
  destruct (interp_valid sp g ch (ns + 1) (fun _ => True)) as (ch' & E1 & N1 & _); auto. destruct (interp_valid sp g tw (ns + 1) (fun _ => True)) as (tw' & E2 & N2 & _); auto.
  destruct (interp_valid sp g ca (ns + 1) (fun m => 0 <= m <= 3/10)) as (ca' & E3 & N3 & P3); auto. { apply between_range. }
  destruct (interp_valid sp g di (ns + 1) (fun d => 0 < d <= 9/10)) as (di' & E4 & N4 & P4); auto. { apply between_range'. }
  assert (SAME : forall y y', interpolate_girths sp "linear" g y (ns + 1) = Ok y' -> interpolate_girths sp' "linear" (map Some g) (map Some y) (ns + 1) = Ok (map Some y')).
  { intros y y' E. unfold interpolate_girths in *. rewrite linspace_some. cbn [String.eqb Ascii.eqb Bool.eqb] in *. rewrite np_interp_some, E. reflexivity. }
  exists g, ch, tw, ca, di, ch', tw', ca', di', luff. unfold make_main_sail. rewrite main_fin. destruct (main_mounting _ luff (rg_boom r)) as [h t] eqn:M. cbn [fst snd].
  unfold main_mounting, sheer_xyz, fa_rake in M. cbn [fa_rake_deg fa_sheer] in M. rewrite deg2rad_s in M. rnum. injection M as EH ET. cbn [fa_csys fa_ns fa_nc finF].
  set (rake := rad (rg_rake r)) in *. assert (LS : 0 < luff * sin rake) by nra.
  destruct (C81_luff h t (Csys heel lee ref) ns nc ch' tw' "main_sail" mode ca' di') as [(s & S1 & S2) _].
  - unfold meshed. rewrite <- EH, <- ET. cbn [vx vy vz]. repeat (split; [first [assumption | lia | nra]|]). assumption.
  - exact MO.
  - right. cbn [heel_deg leeway_deg]. apply heeled_luff; [assumption|]. rewrite <- EH, <- ET. cbn [vz]. lra.
  - exists s. repeat (split; [first [assumption | apply SAME; assumption]|]). exact S2.
Qed.
Lemma jib_image f r j sp sp' heel lee ref ns nc mode : (1 <= ns)%nat -> (1 <= nc)%nat -> cos (rad heel) <> 0 -> In mode twist_modes ->
  f = Factory (Csys heel lee ref) ns nc (rg_rake r) (rg_sheer r) -> valid_sail j -> valid_jib_rig r ->
  exists g ch tw ca di ch' tw' ca' di' luff base height s, sd_girths j = Some g /\ sd_chords j = Some ch /\ sd_twist j = Some tw /\ sd_camber j = Some ca /\ sd_dist j = Some di /\
    rg_jib_luff r = Some luff /\ rg_base r = Some base /\ rg_height r = Some height /\
    interpolate_girths sp "linear" g ch (ns + 1) = Ok ch' /\ interpolate_girths sp "linear" g tw (ns + 1) = Ok tw' /\
    interpolate_girths sp "linear" g ca (ns + 1) = Ok ca' /\ interpolate_girths sp "linear" g di (ns + 1) = Ok di' /\
    interpolate_girths sp' "linear" (map Some g) (map Some ch) (ns + 1) = Ok (map Some ch') /\ interpolate_girths sp' "linear" (map Some g) (map Some tw) (ns + 1) = Ok (map Some tw') /\
    interpolate_girths sp' "linear" (map Some g) (map Some ca) (ns + 1) = Ok (map Some ca') /\ interpolate_girths sp' "linear" (map Some g) (map Some di) (ns + 1) = Ok (map Some di') /\
    make_jib f luff base height ch' tw' (rg_mast_LOA r) (Some mode) ca' di' = Ok s /\
    make_jib (finF f) (Some luff) (Some base) (Some height) (map Some ch') (map Some tw') (Some (rg_mast_LOA r)) (Some mode) (map Some ca') (map Some di') = Ok (finS s).
Proof.
  intros NS NC HC MO -> (g & ch & tw & ca & di & G & CH & TW & CA & DI & GN & GA & L1 & L2 & L3 & L4 & CO & DO) (RK & SB & luff & base & height & LU & BA & HE & LP & HP).
  destruct (interp_valid sp g ch (ns + 1) (fun _ => True)) as (ch' & E1 & N1 & _); auto. destruct (interp_valid sp g tw (ns + 1) (fun _ => True)) as (tw' & E2 & N2 & _); auto.
  destruct (interp_valid sp g ca (ns + 1) (fun m => 0 <= m <= 3/10)) as (ca' & E3 & N3 & P3); auto. { apply between_range. }
  destruct (interp_valid sp g di (ns + 1) (fun d => 0 < d <= 9/10)) as (di' & E4 & N4 & P4); auto. { apply between_range'. }
  assert (SAME : forall y y', interpolate_girths sp "linear" g y (ns + 1) = Ok y' -> interpolate_girths sp' "linear" (map Some g) (map Some y) (ns + 1) = Ok (map Some y')).
  { intros y y' E. unfold interpolate_girths in *. rewrite linspace_some. cbn [String.eqb Ascii.eqb Bool.eqb] in *. rewrite np_interp_some, E. reflexivity. }
  exists g, ch, tw, ca, di, ch', tw', ca', di', luff, base, height. unfold make_jib. rewrite jib_fin by (split; [cbn [fa_rake_deg]; lra | right; lra]).
  destruct (jib_mounting _ luff base height (rg_mast_LOA r)) as [h t] eqn:M. cbn [fst snd].
  unfold jib_mounting, forestay_angle, forestay_length, sheer_xyz, fa_rake in M. cbn [fa_rake_deg fa_sheer] in M. rewrite deg2rad_s in M. cbv zeta in M. rnum.
  set (rake := rad (rg_rake r)) in *. destruct (forestay_facts base height rake) as [L C]. cbv zeta in L, C.
  set (len := sqrt (base * base + height * height - 2 * base * height * cos rake)) in *.
  assert (P0 : 0 <= len) by apply sqrt_pos. assert (HS : 0 < height * sin rake) by nra.
  assert (P : 0 < len). { destruct (Req_dec len 0) as [Z|Z]; [exfalso | destruct (Rdichotomy _ _ Z); lra]. rewrite Z in L. pose proof (pow2_ge_0 (base - height * cos rake)). assert (0 < (height * sin rake) ^ 2) by (apply pow_lt; exact HS). lra. }
  destruct (C (Rgt_not_eq _ _ P)) as [AR _]. set (ang := asin (height * sin rake / len)) in *.
  assert (SA : sin ang = height * sin rake / len) by (unfold ang; apply sin_asin; exact AR).
  assert (SP : 0 < luff * sin ang). { rewrite SA. apply Rmult_lt_0_compat; [assumption|]. apply Rdiv_lt_0_compat; assumption. }
  injection M as EH ET. cbn [fa_csys fa_ns fa_nc finF].
  destruct (C81_luff h t (Csys heel lee ref) ns nc ch' tw' "jib" mode ca' di') as [(s & S1 & S2) _].
  - unfold meshed. rewrite <- EH, <- ET. cbn [vx vy vz]. repeat (split; [first [assumption | lia | nra]|]). assumption.
  - exact MO.
  - right. cbn [heel_deg leeway_deg]. apply heeled_luff; [assumption|]. rewrite <- EH, <- ET. cbn [vz]. lra.
  - exists s. repeat (split; [first [assumption | apply SAME; assumption]|]). exact S2.
Qed.
Lemma set_image sp sp' r main jib heel lee ref ns nc mode : (1 <= ns)%nat -> (1 <= nc)%nat -> cos (rad heel) <> 0 -> In mode twist_modes -> valid_config r main jib ->
  exists ss, get_sail_set sp (Solver ns nc "linear" mode) r main jib (Csys heel lee ref) = Ok ss /\
    get_sail_set sp' (Solver ns nc "linear" mode) (finRig r) (option_map finSD main) (option_map finSD jib) (finC (Csys heel lee ref)) = Ok (finSet ss).
Proof.
  intros NS NC HC MO (I & HJ & HM). unfold get_sail_set. cbn [sv_interp sv_ns sv_nc sv_LLT]. change (rg_sails_def (finRig r)) with (rg_sails_def r). cbv zeta.
  set (f := Factory (Csys heel lee ref) ns nc (rg_rake r) (rg_sheer r)).
  change (Factory (finC (Csys heel lee ref)) ns nc (rg_rake (finRig r)) (rg_sheer (finRig r))) with (finF f).
  assert (J : In (rg_sails_def r) ["jib"; "jib_and_main"]%string -> exists j s, jib = Some j /\
    (do ch <- (do g <- need (sd_girths j); do y <- need (sd_chords j); interpolate_girths sp "linear" g y (ns + 1));
     do tw <- (do g <- need (sd_girths j); do y <- need (sd_twist j); interpolate_girths sp "linear" g y (ns + 1));
     do ca <- (do g <- need (sd_girths j); do y <- need (sd_camber j); interpolate_girths sp "linear" g y (ns + 1));
     do di <- (do g <- need (sd_girths j); do y <- need (sd_dist j); interpolate_girths sp "linear" g y (ns + 1));
     do luff <- need (rg_jib_luff r); do base <- need (rg_base r); do height <- need (rg_height r);
     do s <- make_jib f luff base height ch tw (rg_mast_LOA r) (Some mode) ca di; Ok [s]) = Ok [s] /\
    (do ch <- (do g <- need (sd_girths (finSD j)); do y <- need (sd_chords (finSD j)); interpolate_girths sp' "linear" g y (ns + 1));
     do tw <- (do g <- need (sd_girths (finSD j)); do y <- need (sd_twist (finSD j)); interpolate_girths sp' "linear" g y (ns + 1));
     do ca <- (do g <- need (sd_girths (finSD j)); do y <- need (sd_camber (finSD j)); interpolate_girths sp' "linear" g y (ns + 1));
     do di <- (do g <- need (sd_girths (finSD j)); do y <- need (sd_dist (finSD j)); interpolate_girths sp' "linear" g y (ns + 1));
     do luff <- need (rg_jib_luff (finRig r)); do base <- need (rg_base (finRig r)); do height <- need (rg_height (finRig r));
     do s <- make_jib (finF f) luff base height ch tw (rg_mast_LOA (finRig r)) (Some mode) ca di; Ok [s]) = Ok [finS s]).
  { intros X. destruct (HJ X) as (j & -> & VJ & RJ). exists j. unfold finSD, finRig. cbn [sd_girths sd_chords sd_twist sd_camber sd_dist rg_jib_luff rg_base rg_height rg_mast_LOA].
    destruct (jib_image f r j sp sp' heel lee ref ns nc mode NS NC HC MO eq_refl VJ RJ)
      as (g & ch & tw & ca & di & ch' & tw' & ca' & di' & luff & base & height & s & -> & -> & -> & -> & -> & -> & -> & -> & E1 & E2 & E3 & E4 & D1 & D2 & D3 & D4 & ES & DS).
    exists s. split; [reflexivity|]. cbn [finL option_map need bind]. rewrite E1, E2, E3, E4, D1, D2, D3, D4. cbn [bind]. rewrite ES, DS. auto. }
  assert (M : In (rg_sails_def r) ["main"; "jib_and_main"]%string -> exists j s, main = Some j /\
    (do ch <- (do g <- need (sd_girths j); do y <- need (sd_chords j); interpolate_girths sp "linear" g y (ns + 1));
     do tw <- (do g <- need (sd_girths j); do y <- need (sd_twist j); interpolate_girths sp "linear" g y (ns + 1));
     do ca <- (do g <- need (sd_girths j); do y <- need (sd_camber j); interpolate_girths sp "linear" g y (ns + 1));
     do di <- (do g <- need (sd_girths j); do y <- need (sd_dist j); interpolate_girths sp "linear" g y (ns + 1));
     do luff <- need (rg_main_luff r);
     do s <- make_main_sail f luff (rg_boom r) ch tw (Some mode) ca di; Ok [s]) = Ok [s] /\
    (do ch <- (do g <- need (sd_girths (finSD j)); do y <- need (sd_chords (finSD j)); interpolate_girths sp' "linear" g y (ns + 1));
     do tw <- (do g <- need (sd_girths (finSD j)); do y <- need (sd_twist (finSD j)); interpolate_girths sp' "linear" g y (ns + 1));
     do ca <- (do g <- need (sd_girths (finSD j)); do y <- need (sd_camber (finSD j)); interpolate_girths sp' "linear" g y (ns + 1));
     do di <- (do g <- need (sd_girths (finSD j)); do y <- need (sd_dist (finSD j)); interpolate_girths sp' "linear" g y (ns + 1));
     do luff <- need (rg_main_luff (finRig r));
     do s <- make_main_sail (finF f) luff (rg_boom (finRig r)) ch tw (Some mode) ca di; Ok [s]) = Ok [finS s]).
  { intros X. destruct (HM X) as (j & -> & VJ & RJ). exists j. unfold finSD, finRig. cbn [sd_girths sd_chords sd_twist sd_camber sd_dist rg_main_luff rg_boom].
    destruct (main_image f r j sp sp' heel lee ref ns nc mode NS NC HC MO eq_refl VJ RJ)
      as (g & ch & tw & ca & di & ch' & tw' & ca' & di' & luff & s & -> & -> & -> & -> & -> & -> & E1 & E2 & E3 & E4 & D1 & D2 & D3 & D4 & ES & DS).
    exists s. split; [reflexivity|]. cbn [finL option_map need bind]. rewrite E1, E2, E3, E4, D1, D2, D3, D4. cbn [bind]. rewrite ES, DS. auto. }
  destruct I as [E|[E|[E|[]]]]; rewrite <- E in *; cbn [String.eqb Ascii.eqb Bool.eqb orb].
  - destruct J as (j & s & -> & J1 & J2); [simpl; auto|]. cbn [option_map bind]. rewrite J1, J2. cbn [bind app]. eexists. split; [reflexivity|]. apply (set_fin [s]).
  - destruct M as (j & s & -> & J1 & J2); [simpl; auto|]. cbn [option_map bind]. rewrite J1, J2. cbn [bind app]. eexists. split; [reflexivity|]. apply (set_fin [s]).
  - destruct J as (j & s & -> & J1 & J2); [simpl; auto|]. destruct M as (m & s' & -> & M1 & M2); [simpl; auto|]. cbn [option_map bind]. rewrite J1, J2. cbn [bind]. rewrite M1, M2. cbn [bind app].
    eexists. split; [reflexivity|]. apply (set_fin [s; s']).
Qed.
Lemma Wind_is cd (w : wind R) : Wind cd = Ok w -> w = Wind_profile cd.
Proof. unfold Wind. destruct (Wind_post_init cd); [|discriminate]. cbn [bind]. intros X. injection X as <-. reflexivity. Qed.
Lemma set_lengths sp sv r main jib (c : csys R) ss : get_sail_set sp sv r main jib c = Ok ss -> length (ss_te ss) = length (ss_panels ss).
Proof.
  intros E. destruct (get_sail_set_inv _ _ _ _ _ _ _ E) as (sails & SS & _ & _ & _ & B). destruct (sail_set_flags _ _ sails ss B SS) as [L FG].
  rewrite L. apply (fl_te_len _ _ _ _ _ FG).
Qed.
Lemma flow_awa s c (v : vlm R) fr : InviscidFlowResults s c v = Ok fr -> fr_awa_fs fr = map awa_app_fs (fr_V_fs fr).
Proof.
  unfold InviscidFlowResults. cbv zeta. destruct (array_split _ _); [|discriminate]. destruct (array_split _ _); [|discriminate]. cbn [bind]. intros X. apply Ok_inj in X. subst fr. reflexivity.
Qed.

(** ** C82 *)
(** A run that returns on checked numbers: the sails, the hull, the inflow, the circulations, the lift and every force whose point
    of attack is off the wakes are defined and are those of the run on real numbers. *)
Theorem C82_returned : forall sp sp' cd sv r main jib ref clr RR, same_spline sp sp' -> rig_known r ->
  run sp' (finCd cd) sv (finRig r) (option_map finSD main) (option_map finSD jib) (fin ref) (fin clr) = Ok RR ->
  exists rr, run sp cd sv r main jib ref clr = Ok rr /\ rr_set RR = finSet (rr_set rr) /\ rr_hull RR = finH (rr_hull rr) /\
    vl_gamma (rr_vlm RR) = map Some (vl_gamma (rr_vlm rr)) /\ vl_lift (rr_vlm RR) = map fin (vl_lift (rr_vlm rr)) /\
    in_V (vl_inlet (rr_vlm RR)) = map fin (in_V (vl_inlet (rr_vlm rr))) /\
    forall k p, nth_error (vl_cp (rr_vlm rr)) k = Some p -> ~ on_wake (rr_vlm rr) p ->
      nth_error (vl_force (rr_vlm RR)) k = option_map fin (nth_error (vl_force (rr_vlm rr)) k).
Proof.
  intros sp sp' cd sv r main jib ref clr RR SP RK E. destruct (run_inv _ _ _ _ _ _ _ _ _ E) as (W & EW & EP & EG & EH & EV & EF).
  rewrite Wind_fin in EW. destruct (Wind cd) as [w|] eqn:EW0; [|discriminate]. cbn [rmap] in EW. apply Ok_inj in EW. subst W. rewrite post_init_fin in EP.
  change (Csys (cd_heel (finCd cd)) (cd_leeway (finCd cd)) (fin ref)) with (finC (Csys (cd_heel cd) (cd_leeway cd) ref)) in *. set (c := Csys (cd_heel cd) (cd_leeway cd) ref) in *.
  destruct (sail_set_either sp sp' sv r main jib c SP RK) as [Q|Q]; rewrite EG in Q; [|discriminate].
  destruct (get_sail_set sp sv r main jib c) as [s|] eqn:ES; [|discriminate]. cbn [rmap] in Q. apply Ok_inj in Q.
  change (rg_sheer (finRig r)) with (Some (rg_sheer r)) in EH. change (rg_base (finRig r)) with (option_map Some (rg_base r)) in EH. rewrite hull_fin in EH.
  destruct (HullGeometry (rg_sheer r) (rg_base r) c clr) as [h|] eqn:EH0; [|discriminate]. cbn [rmap] in EH. apply Ok_inj in EH.
  rewrite Q in EV. change (ss_panels (finSet s)) with (map finP (ss_panels s)) in EV. change (ss_te (finSet s)) with (ss_te s) in EV. change (ss_le (finSet s)) with (ss_le s) in EV.
  change (cd_rho (finCd cd)) with (Some (cd_rho cd)) in EV.
  destruct (C80_result _ _ _ _ _ _ _ _ (set_lengths _ _ _ _ _ _ _ ES) EV) as (o & EO & A1 & _ & A3 & _ & A5 & A6).
  assert (FR : exists fr, InviscidFlowResults s c o = Ok fr).
  { destruct (get_sail_set_inv _ _ _ _ _ _ _ ES) as (sails & SS & _ & _ & _ & B). apply (InviscidFlow_total _ _ _ _ _ _ _ c B SS EO). }
  destruct FR as [fr EFR]. exists (RunResult s h o fr). cbn [rr_set rr_hull rr_vlm].
  split. { unfold run. fold c. rewrite EW0. cbn [bind]. rewrite EP. cbn [bind]. rewrite ES. cbn [bind]. rewrite EH0. cbn [bind]. rewrite EO. cbn [bind]. rewrite EFR. reflexivity. }
  split; [exact Q|]. split; [symmetry; exact EH|]. split; [exact A1|]. split; [exact A3|]. split; [exact A5|]. intros k p K N. apply (A6 k p K). exact N.
Qed.
(** A valid configuration (that of C67): the run on real numbers is carried out on checked numbers with the same results as
    long as air density and inflow do not vanish, the wind formula is defined, the panels have area and no point is on a wake.
    [chkFl] says what the results are: everything is defined but the angle of a flow without x component and the centre of
    effort of a vanishing force. *)
Theorem C82_defined : forall sp sp' cd ns nc mode r main jib ref clr rr, (1 <= ns)%nat -> (1 <= nc)%nat -> In mode twist_modes -> cos (rad (cd_heel cd)) <> 0 ->
  valid_config r main jib -> run sp cd (Solver ns nc "linear" mode) r main jib ref clr = Ok rr ->
  cd_rho cd <> 0 -> (forall p, In p (ss_panels (rr_set rr)) -> spread p) ->
  (forall p, In p (vl_cp (rr_vlm rr)) -> wind_known (Wind_profile cd) (Rabs (vz p))) ->
  (forall v, In v (in_V (vl_inlet (rr_vlm rr))) -> v <> szero) ->
  (forall p, In p (vl_ctr (rr_vlm rr)) \/ In p (vl_cp (rr_vlm rr)) -> ~ on_wake (rr_vlm rr) p) ->
  run sp' (finCd cd) (Solver ns nc "linear" mode) (finRig r) (option_map finSD main) (option_map finSD jib) (fin ref) (fin clr) =
  Ok (RunResult (finSet (rr_set rr)) (finH (rr_hull rr)) (finO (rr_vlm rr)) (chkFl (rr_flow rr))).
Proof.
  intros sp sp' cd ns nc mode r main jib ref clr rr NS NC MO HC VC E RH SP WK NV CL.
  destruct (run_inv _ _ _ _ _ _ _ _ _ E) as (w & EW & EP & EG & EH & EV & EF). cbn [sv_nc sv_ns] in EV. rewrite <- (Wind_is _ _ EW) in WK.
  destruct (set_image sp sp' r main jib (cd_heel cd) (cd_leeway cd) ref ns nc mode NS NC HC MO VC) as (ss & G1 & G2).
  rewrite EG in G1. apply Ok_inj in G1. subst ss. unfold run.
  change (Csys (cd_heel (finCd cd)) (cd_leeway (finCd cd)) (fin ref)) with (finC (Csys (cd_heel cd) (cd_leeway cd) ref)). set (c := Csys (cd_heel cd) (cd_leeway cd) ref) in *.
  rewrite Wind_fin, EW. cbn [rmap bind]. rewrite post_init_fin, EP. cbn [bind]. rewrite G2. cbn [bind].
  change (rg_sheer (finRig r)) with (Some (rg_sheer r)). change (rg_base (finRig r)) with (option_map Some (rg_base r)). rewrite hull_fin, EH. cbn [rmap bind sv_nc sv_ns].
  change (ss_panels (finSet (rr_set rr))) with (map finP (ss_panels (rr_set rr))). change (ss_te (finSet (rr_set rr))) with (ss_te (rr_set rr)). change (ss_le (finSet (rr_set rr))) with (ss_le (rr_set rr)).
  change (cd_rho (finCd cd)) with (Some (cd_rho cd)). rewrite (C80_defined _ _ _ _ _ _ _ _ EV (set_lengths _ _ _ _ _ _ _ EG) RH SP WK NV CL). cbn [bind].
  rewrite flow_chk, EF. reflexivity.
Qed.
(** The two tables that follow from such results: the integral table is defined in any case; the components table if no flow
    velocity lacks an x component and no sail has its highest centre of pressure, upright, at the height of its tack. *)
Theorem C82_tables : forall sp cd sv r main jib ref clr rr, run sp cd sv r main jib ref clr = Ok rr ->
  let c := Csys (cd_heel cd) (cd_leeway cd) ref in
  integral_table (chkFl (rr_flow rr)) (rr_clr (RunResult (finSet (rr_set rr)) (finH (rr_hull rr)) (finO (rr_vlm rr)) (chkFl (rr_flow rr)))) =
    map (fun q => (fst q, Some (snd q))) (integral_table (rr_flow rr) (rr_clr rr)) /\
  ((forall v, In v (vl_V_cp (rr_vlm rr)) -> vx v <> 0) -> above_tacks (rr_set rr) c (vl_cp (rr_vlm rr)) ->
   components_table (finO (rr_vlm rr)) (finC c) (chkFl (rr_flow rr)) (finSet (rr_set rr)) = rmap (map finCol) (components_table (rr_vlm rr) c (rr_flow rr) (rr_set rr))).
Proof.
  intros sp cd sv r main jib ref clr rr E c. destruct (run_inv _ _ _ _ _ _ _ _ _ E) as (w & EW & EP & EG & EH & EV & EF). fold c in EF. split.
  - unfold rr_clr. cbn [rr_hull]. apply integral_fin.
  - intros X A. apply components_fin; [apply (flow_awa _ _ _ _ EF) | | exact A]. replace (fr_V_fs (rr_flow rr)) with (vl_V_cp (rr_vlm rr)); [exact X|].
    revert EF. unfold InviscidFlowResults. cbv zeta. destruct (array_split _ _); [|discriminate]. destruct (array_split _ _); [|discriminate]. cbn [bind]. intros Y. apply Ok_inj in Y. rewrite <- Y. reflexivity.
Qed.
(* the single flat panel of a main sail and its image *)
Lemma demo_clear rho o : Vlm demo_panels 1 1 rho demo_wind [true; true] [false; false] = Ok o ->
  (forall p, In p demo_panels -> spread p) /\ (forall v, In v (in_V (vl_inlet o)) -> v <> szero) /\ (forall p, In p (vl_ctr o) \/ In p (vl_cp o) -> ~ on_wake o p).
Proof.
  intros E. destruct (Vlm_inv demo_panels 1 1 rho demo_wind [true; true] [false; false] o eq_refl E) as (vars & ic & g & net & CV & LV & IC & LI & _ & _ & FL). cbv zeta in FL.
  assert (EVS : vars = [demo_vars 0; demo_vars 1]) by (rewrite demo_vars_ok in CV; congruence).
  assert (OV : vl_vars o = [demo_vars 0; demo_vars 1]). { rewrite <- EVS. etransitivity; [apply FL|]. symmetry. apply list_tab. exact LV. }
  assert (OI : in_V (vl_inlet o) = [V3 4 3 0; V3 4 3 0]).
  { replace (vl_inlet o) with ic by (symmetry; apply FL). destruct demo_inlet as (ic' & IC' & EI'). rewrite EVS in IC. congruence. }
  destruct demo_v0 as (N0 & C0 & P0 & R0 & _). pose proof demo_v1 as M.
  assert (C1 : pv_ctr (demo_vars 1) = V3 36 0 (-(25/2))) by (rewrite (mv_ctr _ _ M), C0; svec; reflexivity).
  assert (P1 : pv_cp (demo_vars 1) = V3 12 0 (-(25/2))) by (rewrite (mv_cp _ _ M), P0; svec; reflexivity).
  assert (R1 : pv_ring (demo_vars 1) = Ring (V3 60 0 (-(39/2))) (V3 12 0 (-(39/2))) (V3 12 0 (-(11/2))) (V3 60 0 (-(11/2)))) by (rewrite (mv_ring _ _ M), R0; reflexivity).
  split; [|split].
  - intros p I. unfold spread. destruct I as [<-|[<-|[]]]; unfold mirrored, demo_panel; cbn [pp1 pp2 pp3 pp4]; svec; intros Q; injection Q; lra.
  - rewrite OI. intros v [<-|[<-|[]]] Q; injection Q; lra.
  - intros p I (l & r & v & _ & W2 & W3 & W4). unfold vl_rings in W2. unfold vl_ctr, vl_cp in I. rewrite OV in W2, I. rewrite OI in W3. cbn [map] in W2, I. rewrite R0, R1 in W2. rewrite C0, C1, P0, P1 in I.
    assert (HZ : vz p = 25/2 \/ vz p = -(25/2)) by (destruct I as [[<-|[<-|[]]]|[<-|[<-|[]]]]; cbn [vz]; lra).
    destruct l as [|[|[|l]]]; try discriminate; injection W2 as <-; injection W3 as <-; cbn [rA rD] in W4;
      (destruct W4 as [W4|[(s & _ & W4)|(s & _ & W4)]]; [injection W4; lra | rewrite W4 in HZ; unfold sadd, sscale in HZ; cbn [vx vy vz] in HZ; destruct HZ; lra | rewrite W4 in HZ; unfold sadd, sscale in HZ; cbn [vx vy vz] in HZ; destruct HZ; lra]).
Qed.
(* a complete run on checked numbers *)
Example C82_case : forall sp sp' clr, exists rr, run sp demo_conditions demo_solver (demo_rig (Some 4)) (Some demo_main) None szero clr = Ok rr /\
  run sp' (finCd demo_conditions) demo_solver (finRig (demo_rig (Some 4))) (Some (finSD demo_main)) None (fin szero) (fin clr) =
  Ok (RunResult (finSet (rr_set rr)) (finH (rr_hull rr)) (finO (rr_vlm rr)) (chkFl (rr_flow rr))).
Proof.
  intros sp sp' clr. destruct (demo_run sp 4 clr) as (rr & s & E & SS & _ & B & P & EV & _). exists rr. split; [exact E|].
  destruct (demo_sail_set sp (Some 4)) as (s' & ss & GS & _ & _ & _ & P' & T & L).
  destruct (run_inv _ _ _ _ _ _ _ _ _ E) as (w & _ & _ & EG & _). cbn [demo_conditions cd_heel cd_leeway] in EG. rewrite EG in GS. apply Ok_inj in GS. subst ss. rewrite P', T, L in EV.
  destruct (demo_clear _ _ EV) as (A1 & A2 & A3). rewrite <- P' in A1.
  apply (C82_defined sp sp' demo_conditions 1 1 "real_twist" (demo_rig (Some 4)) (Some demo_main) None szero clr rr); try assumption; try lia.
  - simpl. auto.
  - cbn [demo_conditions cd_heel]. replace (rad 0) with 0 by (unfold rad; field). rewrite cos_0. lra.
  - apply demo_main_valid.
  - cbn [demo_conditions cd_rho]. lra.
  - intros p _. exact I.
Qed.
Print Assumptions C82_returned.
Print Assumptions C82_defined.
Print Assumptions C82_tables.
