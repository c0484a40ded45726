(** C86: runs with the interpolation "spline". *)

From Coq Require Import String ZArith Reals List Bool Lra Psatz Lia Arith.
From Verif Require Import Num PyBase RNum Spec M_Csys M_Panels M_Airfoil M_Coefs M_Forces M_Winds M_Vlm M_Interp M_Spline M_Mesher M_Sail M_Results M_Hull M_Runner
  L_List L_Rot L_Vel L_Csys L_Airfoil L_Sail L_Sail2 L_Lattice L_Vlm L_Demo L_Runner P_Sail P_Interp P_Vlm P_Results P_Runner P_Run L_Scale L_ScaleRun P_Tack L_Mesh P_Airfoil L_Spline P_Spline P_Scene.
Import ListNotations.
Open Scope R_scope.

(** five arrays of one length, at least four increasing girths *)
Definition spline_data (s : @sail_def R) : Prop := exists g ch tw ca di,
  sd_girths s = Some g /\ sd_chords s = Some ch /\ sd_twist s = Some tw /\ sd_camber s = Some ca /\ sd_dist s = Some di /\
  (4 <= length g)%nat /\ ascending g /\ length ch = length g /\ length tw = length g /\ length ca = length g /\ length di = length g.
(** [v] are the values of the spline through (g, y) at the n + 1 sections *)
Definition sampled (n : nat) (g y v : list R) : Prop := exists p, not_a_knot g y p /\ length v = (n + 1)%nat /\
  forall k u, nth_error v k = Some u -> spline_at g p (station (n + 1) k) u.
Definition resampled (n : nat) (s s' : @sail_def R) : Prop :=
  sd_girths s' = Some (map (station (n + 1)) (seq 0 (n + 1))) /\
  exists g ch tw ca di ch' tw' ca' di', sd_girths s = Some g /\
    sd_chords s = Some ch /\ sd_twist s = Some tw /\ sd_camber s = Some ca /\ sd_dist s = Some di /\
    sd_chords s' = Some ch' /\ sd_twist s' = Some tw' /\ sd_camber s' = Some ca' /\ sd_dist s' = Some di' /\
    sampled n g ch ch' /\ sampled n g tw tw' /\ sampled n g ca ca' /\ sampled n g di di'.

Lemma linspace_stations n : @linspace01 R RNum n = map (station n) (seq 0 n).
Proof.
  apply list_ext; [rewrite map_length, seq_length; apply linspace_length|]. intros k K. rewrite linspace_length in K. rewrite linspace_at by exact K. symmetry. apply nth_error_map_seq. exact K.
Qed.
Lemma stations_ascending n : ascending (map (station n) (seq 0 n)).
Proof.
  intros i a b X Y. apply nth_error_Some_lt in Y as L. rewrite map_length, seq_length in L. rewrite nth_error_map_seq in X, Y by lia. injection X as <-. injection Y as <-.
  unfold station. rewrite S_INR. unfold Rdiv. assert (0 < / INR (n - 1)) by (apply Rinv_0_lt_compat, lt_0_INR; lia). nra.
Qed.
Lemma linear_id sp n y : length y = (n + 1)%nat -> interpolate_girths sp "linear" (map (station (n + 1)) (seq 0 (n + 1))) y (n + 1) = Ok y.
Proof.
  intros L. set (g := map (station (n + 1)) (seq 0 (n + 1))). assert (LG : length g = (n + 1)%nat) by (unfold g; rewrite map_length, seq_length; reflexivity).
  assert (GN : g <> []). { intros E. rewrite E in LG. cbn in LG. lia. }
  destruct (C23_piecewise_linear sp g y (n + 1)) as (out & E & LO & _); [lia|exact GN|apply stations_ascending|]. rewrite E. f_equal.
  apply list_ext; [lia|]. intros k K. destruct (nth_error_ex out k K) as [u U]. destruct (nth_error_ex y k) as [v V]; [lia|]. rewrite U, V. f_equal.
  apply (C23_through_the_data sp g y (n + 1) out k u k v); try assumption; [lia|apply stations_ascending|]. unfold g. apply nth_error_map_seq. lia.
Qed.
Lemma spline_sampled n g y : ascending g -> (4 <= length g)%nat -> length y = length g -> exists v, interpolate_girths scipy_spline "spline" g y (n + 1) = Ok v /\ sampled n g y v.
Proof.
  intros A L LY. destruct (C85_spline g y A L LY) as (p & P & _ & W). destruct (W (linspace01 (n + 1))) as (v & E & LV & SP). rewrite linspace_length in LV. exists v. split; [exact E|].
  exists p. split; [exact P|]. split; [exact LV|]. intros k u U. apply (SP k); [|exact U]. apply linspace_at. rewrite <- LV. eapply nth_error_Some_lt; exact U.
Qed.
Lemma sampled_det n g y v : ascending g -> (4 <= length g)%nat -> length y = length g -> sampled n g y v -> interpolate_girths scipy_spline "spline" g y (n + 1) = Ok v.
Proof.
  intros A L LY (q & Q & LV & SV). destruct (spline_sampled n g y A L LY) as (u & E & (p & P & LU & SU)). rewrite E. f_equal. apply list_ext; [lia|].
  intros k K. destruct (nth_error_ex u k K) as [a U]. destruct (nth_error_ex v k) as [b V]; [lia|]. rewrite U, V. f_equal. apply (spline_det g y p q (station (n + 1) k) a b A L LY P Q (SU k a U) (SV k b V)).
Qed.
Lemma resample n s : spline_data s -> exists s', resampled n s s'.
Proof.
  intros (g & ch & tw & ca & di & G & CH & TW & CA & DI & L & A & L1 & L2 & L3 & L4).
  destruct (spline_sampled n g ch A L L1) as (ch' & _ & S1). destruct (spline_sampled n g tw A L L2) as (tw' & _ & S2). destruct (spline_sampled n g ca A L L3) as (ca' & _ & S3). destruct (spline_sampled n g di A L L4) as (di' & _ & S4).
  exists (SailDef (Some tw') (Some (map (station (n + 1)) (seq 0 (n + 1)))) (Some ch') (Some ca') (Some di')). split; [reflexivity|]. exists g, ch, tw, ca, di, ch', tw', ca', di'. cbn. auto 20.
Qed.
(** the four interpolations of the original data and of the samples give the same *)
Lemma resampled_interp n s s' : spline_data s -> resampled n s s' -> exists g ch tw ca di g' ch' tw' ca' di',
  (sd_girths s = Some g /\ sd_chords s = Some ch /\ sd_twist s = Some tw /\ sd_camber s = Some ca /\ sd_dist s = Some di) /\
  (sd_girths s' = Some g' /\ sd_chords s' = Some ch' /\ sd_twist s' = Some tw' /\ sd_camber s' = Some ca' /\ sd_dist s' = Some di') /\
  (length tw = length g /\ length ca = length g /\ length di = length g) /\
  (length g' = (n + 1)%nat /\ length ch' = (n + 1)%nat /\ length tw' = (n + 1)%nat /\ length ca' = (n + 1)%nat /\ length di' = (n + 1)%nat) /\
  (interpolate_girths scipy_spline "spline" g ch (n + 1) = Ok ch' /\ interpolate_girths scipy_spline "spline" g tw (n + 1) = Ok tw' /\
   interpolate_girths scipy_spline "spline" g ca (n + 1) = Ok ca' /\ interpolate_girths scipy_spline "spline" g di (n + 1) = Ok di') /\
  (forall sp, interpolate_girths sp "linear" g' ch' (n + 1) = Ok ch' /\ interpolate_girths sp "linear" g' tw' (n + 1) = Ok tw' /\
   interpolate_girths sp "linear" g' ca' (n + 1) = Ok ca' /\ interpolate_girths sp "linear" g' di' (n + 1) = Ok di').
Proof.
  intros (g & ch & tw & ca & di & G & CH & TW & CA & DI & L & A & L1 & L2 & L3 & L4) (G' & g0 & ch0 & tw0 & ca0 & di0 & ch' & tw' & ca' & di' & E1 & E2 & E3 & E4 & E5 & E6 & E7 & E8 & E9 & S1 & S2 & S3 & S4).
  rewrite G in E1. rewrite CH in E2. rewrite TW in E3. rewrite CA in E4. rewrite DI in E5. injection E1 as <-. injection E2 as <-. injection E3 as <-. injection E4 as <-. injection E5 as <-.
  assert (LS : forall y v, sampled n g y v -> length v = (n + 1)%nat) by (intros y v (p & _ & LV & _); exact LV).
  pose proof (LS _ _ S1) as Q1. pose proof (LS _ _ S2) as Q2. pose proof (LS _ _ S3) as Q3. pose proof (LS _ _ S4) as Q4. clear LS.
  do 10 eexists. split; [repeat split; eassumption|]. split; [repeat split; eassumption|]. split; [auto|]. split; [rewrite map_length, seq_length; auto|].
  split; [repeat split; apply sampled_det; assumption|]. intros sp. repeat split; apply linear_id; assumption.
Qed.
Definition names_sail (w : string) (r : @rig R) : Prop := rg_sails_def r = w \/ rg_sails_def r = "jib_and_main"%string.
(** A run with splines is the run with linear interpolation of the values of the splines at the sections. *)
Theorem C86_resampled : forall sp cd ns nc mode r main jib main' jib' ref clr,
  (names_sail "main" r -> exists m m', main = Some m /\ main' = Some m' /\ spline_data m /\ resampled ns m m') ->
  (names_sail "jib" r -> exists j j', jib = Some j /\ jib' = Some j' /\ spline_data j /\ resampled ns j j') ->
  In (rg_sails_def r) ["jib"; "main"; "jib_and_main"]%string ->
  run scipy_spline cd (Solver ns nc "spline" mode) r main jib ref clr = run sp cd (Solver ns nc "linear" mode) r main' jib' ref clr.
Proof.
  intros sp cd ns nc mode r main jib main' jib' ref clr HM HJ HN. unfold run. cbn [sv_nc sv_ns]. destruct (Wind cd) as [w|e]; [|reflexivity]. cbn [bind].
  assert (CS : forall g t c d g' t' c' d' : list R, length t = length g -> length c = length g -> length d = length g -> length g' = length t' -> length c' = length t' -> length d' = length t' ->
    check_input_arr_shapes [Some g; Some t; Some c; Some d] = Ok tt /\ check_input_arr_shapes [Some g'; Some t'; Some c'; Some d'] = Ok tt).
  { intros g t c d g' t' c' d' H1 H2 H3 H4 H5 H6. unfold check_input_arr_shapes. cbn [mapM hd]. rewrite H1, H2, H3, H4, H5, H6. rewrite !Nat.eqb_refl. split; reflexivity. }
  unfold Sail_post_init, get_sail_set. cbn [sv_interp sv_ns sv_nc sv_LLT]. destruct HN as [E|[E|[E|[]]]]; symmetry in E.
  - rewrite E. simpl String.eqb. cbv iota. cbn [orb]. destruct HJ as (j & j' & -> & -> & D & RS); [left; exact E|].
    destruct (resampled_interp _ _ _ D RS) as (g & ch & tw & ca & di & g' & ch' & tw' & ca' & di' & (G1 & G2 & G3 & G4 & G5) & (F1 & F2 & F3 & F4 & F5) & (L1 & L2 & L3) & (K1 & K2 & K3 & K4 & K5) & (I1 & I2 & I3 & I4) & J).
    destruct (J sp) as (J1 & J2 & J3 & J4). unfold jib_none, sail_arrays, need. cbn [bind]. rewrite G1, G2, G3, G4, G5, F1, F2, F3, F4, F5. destruct (CS g tw ca di g' tw' ca' di') as [-> ->]; try lia. cbn [bind]. unfold is_none. rewrite I1, I2, I3, I4, J1, J2, J3, J4. reflexivity.
  - rewrite E. simpl String.eqb. cbv iota. cbn [orb]. destruct HM as (j & j' & -> & -> & D & RS); [left; exact E|].
    destruct (resampled_interp _ _ _ D RS) as (g & ch & tw & ca & di & g' & ch' & tw' & ca' & di' & (G1 & G2 & G3 & G4 & G5) & (F1 & F2 & F3 & F4 & F5) & (L1 & L2 & L3) & (K1 & K2 & K3 & K4 & K5) & (I1 & I2 & I3 & I4) & J).
    destruct (J sp) as (J1 & J2 & J3 & J4). unfold main_none, sail_arrays, need. cbn [bind]. rewrite G1, G2, G3, G4, G5, F1, F2, F3, F4, F5. destruct (CS g tw ca di g' tw' ca' di') as [-> ->]; try lia. cbn [bind]. unfold is_none. rewrite I1, I2, I3, I4, J1, J2, J3, J4. reflexivity.
  - rewrite E. simpl String.eqb. cbv iota. cbn [orb]. destruct HJ as (j & j' & -> & -> & D & RS); [right; exact E|]. destruct HM as (m & m' & -> & -> & D' & RS'); [right; exact E|].
    destruct (resampled_interp _ _ _ D RS) as (g & ch & tw & ca & di & g' & ch' & tw' & ca' & di' & (G1 & G2 & G3 & G4 & G5) & (F1 & F2 & F3 & F4 & F5) & (L1 & L2 & L3) & (K1 & K2 & K3 & K4 & K5) & (I1 & I2 & I3 & I4) & J).
    destruct (J sp) as (J1 & J2 & J3 & J4).
    destruct (resampled_interp _ _ _ D' RS') as (_g & _ch & _tw & _ca & _di & _g' & _ch' & _tw' & _ca' & _di' & (_G1 & _G2 & _G3 & _G4 & _G5) & (_F1 & _F2 & _F3 & _F4 & _F5) & (_L1 & _L2 & _L3) & (_K1 & _K2 & _K3 & _K4 & _K5) & (_I1 & _I2 & _I3 & _I4) & _J).
    destruct (_J sp) as (_J1 & _J2 & _J3 & _J4).
    unfold jib_none, main_none, sail_arrays, need. cbn [bind]. rewrite G1, G2, G3, G4, G5, F1, F2, F3, F4, F5, _G1, _G2, _G3, _G4, _G5, _F1, _F2, _F3, _F4, _F5.
    destruct (CS g tw ca di g' tw' ca' di') as [-> ->]; try lia. destruct (CS _g _tw _ca _di _g' _tw' _ca' _di') as [-> ->]; try lia. cbn [bind]. rewrite I1, I2, I3, I4, J1, J2, J3, J4, _I1, _I2, _I3, _I4, _J1, _J2, _J3, _J4. reflexivity.
Qed.
Lemma resampled_set : forall sp ns nc mode r main jib main' jib' c,
  (names_sail "main" r -> exists m m', main = Some m /\ main' = Some m' /\ spline_data m /\ resampled ns m m') ->
  (names_sail "jib" r -> exists j j', jib = Some j /\ jib' = Some j' /\ spline_data j /\ resampled ns j j') ->
  In (rg_sails_def r) ["jib"; "main"; "jib_and_main"]%string ->
  get_sail_set scipy_spline (Solver ns nc "spline" mode) r main jib c = get_sail_set sp (Solver ns nc "linear" mode) r main' jib' c.
Proof.
  intros sp ns nc mode r main jib main' jib' c HM HJ HN. unfold get_sail_set. cbn [sv_interp sv_ns sv_nc sv_LLT]. destruct HN as [E|[E|[E|[]]]]; symmetry in E.
  - rewrite E. simpl String.eqb. cbv iota. cbn [orb]. destruct HJ as (j & j' & -> & -> & D & RS); [left; exact E|].
    destruct (resampled_interp _ _ _ D RS) as (g & ch & tw & ca & di & g' & ch' & tw' & ca' & di' & (G1 & G2 & G3 & G4 & G5) & (F1 & F2 & F3 & F4 & F5) & _ & _ & (I1 & I2 & I3 & I4) & J).
    destruct (J sp) as (J1 & J2 & J3 & J4). unfold need. cbn [bind]. rewrite G1, G2, G3, G4, G5, F1, F2, F3, F4, F5. cbn [bind]. rewrite I1, I2, I3, I4, J1, J2, J3, J4. reflexivity.
  - rewrite E. simpl String.eqb. cbv iota. cbn [orb]. destruct HM as (j & j' & -> & -> & D & RS); [left; exact E|].
    destruct (resampled_interp _ _ _ D RS) as (g & ch & tw & ca & di & g' & ch' & tw' & ca' & di' & (G1 & G2 & G3 & G4 & G5) & (F1 & F2 & F3 & F4 & F5) & _ & _ & (I1 & I2 & I3 & I4) & J).
    destruct (J sp) as (J1 & J2 & J3 & J4). unfold need. cbn [bind]. rewrite G1, G2, G3, G4, G5, F1, F2, F3, F4, F5. cbn [bind]. rewrite I1, I2, I3, I4, J1, J2, J3, J4. reflexivity.
  - rewrite E. simpl String.eqb. cbv iota. cbn [orb]. destruct HJ as (j & j' & -> & -> & D & RS); [right; exact E|]. destruct HM as (m & m' & -> & -> & D' & RS'); [right; exact E|].
    destruct (resampled_interp _ _ _ D RS) as (g & ch & tw & ca & di & g' & ch' & tw' & ca' & di' & (G1 & G2 & G3 & G4 & G5) & (F1 & F2 & F3 & F4 & F5) & _ & _ & (I1 & I2 & I3 & I4) & J).
    destruct (J sp) as (J1 & J2 & J3 & J4).
    destruct (resampled_interp _ _ _ D' RS') as (_g & _ch & _tw & _ca & _di & _g' & _ch' & _tw' & _ca' & _di' & (_G1 & _G2 & _G3 & _G4 & _G5) & (_F1 & _F2 & _F3 & _F4 & _F5) & _ & _ & (_I1 & _I2 & _I3 & _I4) & _J).
    destruct (_J sp) as (_J1 & _J2 & _J3 & _J4). unfold need. cbn [bind]. rewrite G1, G2, G3, G4, G5, F1, F2, F3, F4, F5, _G1, _G2, _G3, _G4, _G5, _F1, _F2, _F3, _F4, _F5. cbn [bind].
    rewrite I1, I2, I3, I4, J1, J2, J3, J4, _I1, _I2, _I3, _I4, _J1, _J2, _J3, _J4. reflexivity.
Qed.

(** ** Which configurations run *)
(** the values of the splines at the sections are in the ranges of the airfoil *)
Definition airfoil_ranges (n : nat) (s : @sail_def R) : Prop := forall g ca di v w, sd_girths s = Some g -> sd_camber s = Some ca -> sd_dist s = Some di ->
  sampled n g ca v -> sampled n g di w -> (forall m, In m v -> 0 <= m <= 3/10) /\ (forall d, In d w -> 0 < d <= 9/10).
Definition spline_config (n : nat) (r : @rig R) (main jib : option (@sail_def R)) : Prop :=
  In (rg_sails_def r) ["jib"; "main"; "jib_and_main"]%string /\
  (names_sail "jib" r -> exists j, jib = Some j /\ spline_data j /\ airfoil_ranges n j /\ valid_jib_rig r) /\
  (names_sail "main" r -> exists m, main = Some m /\ spline_data m /\ airfoil_ranges n m /\ valid_main_rig r).
Lemma resampled_valid n s s' : spline_data s -> airfoil_ranges n s -> resampled n s s' -> valid_sail s'.
Proof.
  intros D AR (G' & g & ch & tw & ca & di & ch' & tw' & ca' & di' & E1 & E2 & E3 & E4 & E5 & E6 & E7 & E8 & E9 & S1 & S2 & S3 & S4).
  destruct (AR g ca di ca' di' E1 E4 E5 S3 S4) as [RC RD]. assert (LS : forall y v, sampled n g y v -> length v = (n + 1)%nat) by (intros y v (p & _ & LV & _); exact LV).
  exists (map (station (n + 1)) (seq 0 (n + 1))), ch', tw', ca', di'. repeat (split; [assumption|]). rewrite map_length, seq_length.
  split; [intros E; apply (f_equal (@length R)) in E; rewrite map_length, seq_length in E; cbn in E; lia|]. split; [apply stations_ascending|]. repeat (split; [eapply LS; eassumption|]). auto.
Qed.
Lemma config_resampled n r main jib : spline_config n r main jib -> exists main' jib',
  (names_sail "main" r -> exists m m', main = Some m /\ main' = Some m' /\ spline_data m /\ resampled n m m') /\
  (names_sail "jib" r -> exists j j', jib = Some j /\ jib' = Some j' /\ spline_data j /\ resampled n j j') /\ valid_config r main' jib'.
Proof.
  intros (HN & HJ & HM).
  assert (J : exists jib', names_sail "jib" r -> exists j j', jib = Some j /\ jib' = Some j' /\ spline_data j /\ resampled n j j' /\ valid_sail j' /\ valid_jib_rig r).
  { destruct (in_dec string_dec (rg_sails_def r) ["jib"; "jib_and_main"]%string) as [I|I].
    - assert (N : names_sail "jib" r) by (destruct I as [I|[I|[]]]; symmetry in I; [left | right]; exact I). destruct (HJ N) as (j & -> & D & AR & V). destruct (resample n j D) as (j' & RS).
      exists (Some j'). intros _. exists j, j'. split; [reflexivity|]. split; [reflexivity|]. split; [exact D|]. split; [exact RS|]. split; [exact (resampled_valid n j j' D AR RS) | exact V].
    - exists None. intros [N|N]; exfalso; apply I; rewrite N; simpl; auto. }
  assert (M : exists main', names_sail "main" r -> exists j j', main = Some j /\ main' = Some j' /\ spline_data j /\ resampled n j j' /\ valid_sail j' /\ valid_main_rig r).
  { destruct (in_dec string_dec (rg_sails_def r) ["main"; "jib_and_main"]%string) as [I|I].
    - assert (N : names_sail "main" r) by (destruct I as [I|[I|[]]]; symmetry in I; [left | right]; exact I). destruct (HM N) as (j & -> & D & AR & V). destruct (resample n j D) as (j' & RS).
      exists (Some j'). intros _. exists j, j'. split; [reflexivity|]. split; [reflexivity|]. split; [exact D|]. split; [exact RS|]. split; [exact (resampled_valid n j j' D AR RS) | exact V].
    - exists None. intros [N|N]; exfalso; apply I; rewrite N; simpl; auto. }
  destruct J as (jib' & J). destruct M as (main' & M). exists main', jib'. split; [|split].
  - intros N. destruct (M N) as (j & j' & A & B & C & D & _). exists j, j'. auto.
  - intros N. destruct (J N) as (j & j' & A & B & C & D & _). exists j, j'. auto.
  - split; [exact HN|]. split.
    + intros I. assert (N : names_sail "jib" r) by (destruct I as [I|[I|[]]]; symmetry in I; [left | right]; exact I). destruct (J N) as (j & j' & A & B & C & D & E & G). exists j'. auto.
    + intros I. assert (N : names_sail "main" r) by (destruct I as [I|[I|[]]]; symmetry in I; [left | right]; exact I). destruct (M N) as (j & j' & A & B & C & D & E & G). exists j'. auto.
Qed.
Theorem C86_run : forall cd ns nc mode r main jib ref clr, (1 <= ns)%nat -> (1 <= nc)%nat -> In mode twist_modes -> cos (rad (cd_heel cd)) <> 0 ->
  valid_conditions cd -> spline_config ns r main jib -> rg_base r <> None ->
  (exists rr, run scipy_spline cd (Solver ns nc "spline" mode) r main jib ref clr = Ok rr /\ map sl_name (ss_sails (rr_set rr)) = sail_names (rg_sails_def r) /\
     length (ss_panels (rr_set rr)) = (2 * length (sail_names (rg_sails_def r)) * (nc * ns))%nat /\ length (vl_force (rr_vlm rr)) = length (ss_panels (rr_set rr)) /\
     length (vl_pcoef (rr_vlm rr)) = length (ss_panels (rr_set rr)) /\ map st_name (fr_sails (rr_flow rr)) = sail_names (rg_sails_def r)) \/
  exists ss, get_sail_set scipy_spline (Solver ns nc "spline" mode) r main jib (Csys (cd_heel cd) (cd_leeway cd) ref) = Ok ss /\
    (run scipy_spline cd (Solver ns nc "spline" mode) r main jib ref clr = Raise LinAlgError \/
     run scipy_spline cd (Solver ns nc "spline" mode) r main jib ref clr = Raise ValueError /\ exists a, In a (get_panels_area (ss_panels ss)) /\ a < 1 / 10 ^ 14).
Proof.
  intros cd ns nc mode r main jib ref clr NS NC MO HC VC SC HB. destruct (config_resampled _ _ _ _ SC) as (main' & jib' & HM & HJ & V). destruct SC as (HN & _).
  rewrite (C86_resampled scipy_spline cd ns nc mode r main jib main' jib' ref clr HM HJ HN), (resampled_set scipy_spline ns nc mode r main jib main' jib' _ HM HJ HN).
  apply C67_run; assumption.
Qed.
(** Constant camber and constant position of the camber suffice. *)
Lemma sampled_cubic n g c v : ascending g -> (4 <= length g)%nat -> sampled n g (map (value c) g) v -> v = map (value c) (@linspace01 R RNum (n + 1)).
Proof.
  intros A L SV. apply sampled_det in SV; [|exact A|exact L|apply map_length]. unfold interpolate_girths in SV. simpl String.eqb in SV. cbv iota in SV. rewrite C85_cubic_data in SV by assumption. symmetry. apply Ok_inj. exact SV.
Qed.
Lemma sampled_constant n g k v : ascending g -> (4 <= length g)%nat -> sampled n g (map (fun _ => k) g) v -> forall u, In u v -> u = k.
Proof.
  intros A L SV u U. replace (map (fun _ => k) g) with (map (value (Cubic k 0 0 0)) g) in SV by (apply map_ext; intros; unfold value; cbn [k0 k1 k2 k3]; ring).
  apply sampled_cubic in SV; [|exact A|exact L]. rewrite SV in U. apply in_map_iff in U. destruct U as (x & <- & _). unfold value. cbn [k0 k1 k2 k3]. ring.
Qed.
Definition constant (k : R) (l : list R) : Prop := forall v, In v l -> v = k.
Lemma constant_map {A} k (g : list A) l : constant k l -> length l = length g -> l = map (fun _ => k) g.
Proof.
  revert g. induction l as [|a l IH]; intros [|b g] C L; try discriminate; [reflexivity|]. cbn [map]. rewrite (C a) by (simpl; auto). f_equal. apply IH; [intros v V; apply C; simpl; auto|]. injection L as L. exact L.
Qed.
Theorem C86_constant : forall n s ca di k d, spline_data s -> sd_camber s = Some ca -> sd_dist s = Some di -> constant k ca -> constant d di -> 0 <= k <= 3/10 -> 0 < d <= 9/10 -> airfoil_ranges n s.
Proof.
  intros n s ca di k d (g & ch & tw & ca0 & di0 & G & CH & TW & CA & DI & L & A & L1 & L2 & L3 & L4) CA' DI' KC KD RK RD.
  rewrite CA in CA'. injection CA' as ->. rewrite DI in DI'. injection DI' as ->. intros g' ca' di' v w G' C' D'. rewrite G in G'. rewrite CA in C'. rewrite DI in D'. injection G' as <-. injection C' as <-. injection D' as <-.
  rewrite (constant_map k g ca KC L3), (constant_map d g di KD L4). intros SV SW. split.
  - intros m M. rewrite (sampled_constant n g k v A L SV m M). exact RK.
  - intros m M. rewrite (sampled_constant n g d w A L SW m M). exact RD.
Qed.

(** ** The configuration shipped with the package *)
(* variables.py 23-37 *)
Definition shipped_conditions : @conditions R := Conditions 5 10 (463/100) (463/100) 50 (Some 0) (Some (1428/10000)) (Some 10) (1225/1000) "exponential" (Some (5/100)).
(* variables.py 39-49 *)
Definition shipped_rig : @rig R := Rig (Some (124/10)) (Some 10) (Some (115/10)) (Some (39/10)) (12/10) (13/10) 92 (15/100) "jib_and_main".
(* variables.py 6-7, 53-67 *)
Definition mgirths : list R := [0; 1/8; 1/4; 1/2; 3/4; 7/8; 1].
Definition jgirths : list R := [0; 1/4; 1/2; 3/4; 1].
Definition shipped_main : @sail_def R := SailDef (Some (map (fun x => 12 * x + 5) mgirths)) (Some mgirths) (Some [4; 382/100; 364/100; 32/10; 264/100; 232/100; 2])
  (Some (map (fun x => 5 * x) (repeat (1/100) 7))) (Some (repeat (1/2) 7)).
Definition shipped_jib : @sail_def R := SailDef (Some (map (fun x => 15 * x + 7) jgirths)) (Some jgirths) (Some [38/10; 298/100; 215/100; 133/100; 1/2])
  (Some (map (fun x => 5 * x) (repeat (1/100) 5))) (Some (repeat (1/2) 5)).
Lemma shipped_config n : spline_config n shipped_rig (Some shipped_main) (Some shipped_jib).
Proof.
  assert (RK : 0 < sin (rad 92)). { apply sin_gt_0; unfold rad; pose proof PI_RGT_0; lra. }
  assert (JD : spline_data shipped_jib). { do 5 eexists. cbn [shipped_jib sd_girths sd_chords sd_twist sd_camber sd_dist]. repeat (split; [reflexivity|]). split; [cbn; lia|]. split; [|repeat split; reflexivity].
    intros [|[|[|[|[|i]]]]] a b X Y; simpl in *; try discriminate; injection X as <-; injection Y as <-; lra. }
  assert (MD : spline_data shipped_main). { do 5 eexists. cbn [shipped_main sd_girths sd_chords sd_twist sd_camber sd_dist]. repeat (split; [reflexivity|]). split; [cbn; lia|]. split; [|repeat split; reflexivity].
    intros [|[|[|[|[|[|[|i]]]]]]] a b X Y; simpl in *; try discriminate; injection X as <-; injection Y as <-; lra. }
  assert (CC : forall m, constant (5/100) (map (fun x => 5 * x) (repeat (1/100) m))). { intros m v V. apply in_map_iff in V. destruct V as (x & <- & V). apply repeat_spec in V. subst x. lra. }
  assert (DC : forall m, constant (1/2) (repeat (1/2) m)). { intros m v V. apply repeat_spec in V. exact V. }
  split; [simpl; auto|]. split; intros _; eexists; (split; [reflexivity|]).
  - split; [exact JD|]. split; [apply (C86_constant n _ _ _ (5/100) (1/2) JD eq_refl eq_refl); [apply CC|apply DC|lra|lra]|]. split; [exact RK|]. cbn. split; [lra|]. do 3 eexists. repeat (split; [reflexivity|]). lra.
  - split; [exact MD|]. split; [apply (C86_constant n _ _ _ (5/100) (1/2) MD eq_refl eq_refl); [apply CC|apply DC|lra|lra]|]. split; [exact RK|]. cbn. split; [lra|]. eexists. repeat (split; [reflexivity|]). lra.
Qed.
(** On every grid it passes all checks, both sails are built, and the run ends with complete results unless the system of equations is singular or a panel has almost no area. *)
Theorem C86_shipped : forall ns nc ref clr, (1 <= ns)%nat -> (1 <= nc)%nat ->
  let R := run scipy_spline shipped_conditions (Solver ns nc "spline" "real_twist") shipped_rig (Some shipped_main) (Some shipped_jib) ref clr in
  (exists rr, R = Ok rr /\ map sl_name (ss_sails (rr_set rr)) = ["jib"; "main_sail"]%string /\ length (vl_force (rr_vlm rr)) = (4 * (nc * ns))%nat) \/
  exists ss, get_sail_set scipy_spline (Solver ns nc "spline" "real_twist") shipped_rig (Some shipped_main) (Some shipped_jib) (Csys 10 5 ref) = Ok ss /\
    (R = Raise LinAlgError \/ R = Raise ValueError /\ exists a, In a (get_panels_area (ss_panels ss)) /\ a < 1 / 10 ^ 14).
Proof.
  intros ns nc ref clr NS NC. cbv zeta. destruct (C86_run shipped_conditions ns nc "real_twist" shipped_rig (Some shipped_main) (Some shipped_jib) ref clr NS NC) as [(rr & E & N & LP & LF & _)|X].
  - simpl. auto.
  - cbn. apply Rgt_not_eq. apply cos_gt_0; unfold rad; pose proof PI_RGT_0; lra.
  - right. right. repeat split; discriminate.
  - apply shipped_config.
  - discriminate.
  - left. exists rr. split; [exact E|]. split; [exact N|]. rewrite LF, LP. reflexivity.
  - right. exact X.
Qed.

(** ** Interpolated values outside the ranges of the airfoil *)
Lemma mapM_raise {A B} (f : A -> res B) e l : (forall a, In a l -> (exists b, f a = Ok b) \/ f a = Raise e) -> (exists a, In a l /\ f a = Raise e) -> mapM f l = Raise e.
Proof.
  induction l as [|a l IH]; intros H (x & I & X); [destruct I|]. cbn [mapM]. destruct (H a ltac:(simpl; auto)) as [(b & Q)|Q]; rewrite Q; [|reflexivity]. cbn [bind].
  destruct I as [->|I]; [congruence|]. rewrite IH; [reflexivity| |eauto]. intros y Y. apply H. simpl. auto.
Qed.
Lemma section_range n di ca k p1 p2 d m : nth_error di k = Some d -> nth_error ca k = Some m ->
  ((exists row, airfoil_section n di ca k p1 p2 = Ok row) \/ airfoil_section n di ca k p1 p2 = Raise (SystemExit 1)) /\ (~ accepted m d 0 -> airfoil_section n di ca k p1 p2 = Raise (SystemExit 1)).
Proof.
  intros D M. unfold airfoil_section. rewrite (py_nth_nat _ _ _ D), (py_nth_nat _ _ _ M). cbn [bind]. replace (nZ 0) with 0 by (rnum; reflexivity).
  destruct (C08_parameters_validated m d 0 n) as [OK BAD]. split; [|intros NA; rewrite (BAD NA); reflexivity].
  destruct (VlmAirfoil m d 0 n) as [foil|e] eqn:V; [left; eexists; reflexivity|]. right. cbn [bind]. enough (Raise e = @Raise (airfoil R) (SystemExit 1)) by congruence. apply BAD. intros AC. apply OK in AC. destruct AC as (f & AC). discriminate AC.
Qed.
Lemma geometry_refused head tack c ns nc ch tw name mode ca di k m d : length ch = (ns + 1)%nat -> length ca = (ns + 1)%nat -> length di = (ns + 1)%nat ->
  nth_error ca k = Some m -> nth_error di k = Some d -> ~ accepted m d 0 -> SailGeometry head tack c ns nc ch tw name mode ca di = Raise (SystemExit 1).
Proof.
  intros L1 L2 L3 M D NA. unfold SailGeometry. cbv zeta. assert (X : zero_mesh tack head nc ns ch di ca = Raise (SystemExit 1)); [|rewrite X; reflexivity].
  unfold zero_mesh, make_airfoil_mesh. cbv zeta. set (le := discrete_segment tack head ns). assert (LE : length le = S ns) by apply segment_length.
  unfold add_chords. rewrite map_length, L1, LE. replace (ns + 1 =? S ns)%nat with true by (symmetry; apply Nat.eqb_eq; lia). cbn [bind].
  set (te := zipWith vadd le _). assert (LT : length te = S ns) by (unfold te; rewrite zipWith_length, map_length; lia). apply mapM_raise.
  - intros [i [p1 p2]] I. cbn [fst snd]. apply in_combine_l in I. apply in_seq in I. destruct (nth_error_ex di i) as [d' D']; [lia|]. destruct (nth_error_ex ca i) as [m' M']; [lia|]. exact (proj1 (section_range _ _ _ _ p1 p2 _ _ D' M')).
  - assert (K : (k < length ca)%nat) by (eapply nth_error_Some_lt; exact M). destruct (nth_error_ex le k) as [p1 P1]; [lia|]. destruct (nth_error_ex te k) as [p2 P2]; [lia|]. exists (k, (p1, p2)). split.
    + apply (nth_error_In _ k). apply nth_error_combine; [apply nth_error_seq; lia | apply nth_error_combine; assumption].
    + cbn [fst snd]. exact (proj2 (section_range _ _ _ _ p1 p2 _ _ D M) NA).
Qed.
(** If the spline through the cambers leaves the range of the airfoil at a section then the program exits with status 1; the same for the position of the camber. *)
Theorem C86_range_exit : forall cd ns nc mode r s g ca di v w k m d ref clr, valid_conditions cd -> rg_sails_def r = "main"%string -> rg_main_luff r <> None -> spline_data s ->
  sd_girths s = Some g -> sd_camber s = Some ca -> sd_dist s = Some di -> sampled ns g ca v -> sampled ns g di w -> nth_error v k = Some m -> nth_error w k = Some d -> ~ accepted m d 0 ->
  run scipy_spline cd (Solver ns nc "spline" mode) r (Some s) None ref clr = Raise (SystemExit 1).
Proof.
  intros cd ns nc mode r s g ca di v w k m d ref clr VC SD ML DS G CA DI SV SW M D NA. destruct (valid_wind cd VC) as (wd & EW & _).
  destruct (resample ns s DS) as (s' & RS). rewrite (C86_resampled scipy_spline cd ns nc mode r (Some s) None (Some s') None ref clr).
  2: { intros _. exists s, s'. auto. } 2: { intros [N|N]; rewrite SD in N; discriminate. } 2: { rewrite SD. simpl. auto. }
  destruct (resampled_interp _ _ _ DS RS) as (g0 & ch0 & tw0 & ca0 & di0 & g' & ch' & tw' & ca' & di' & (G1 & G2 & G3 & G4 & G5) & (F1 & F2 & F3 & F4 & F5) & (L1 & L2 & L3) & (K1 & K2 & K3 & K4 & K5) & (I1 & I2 & I3 & I4) & J).
  rewrite G in G1. injection G1 as <-. rewrite CA in G4. injection G4 as <-. rewrite DI in G5. injection G5 as <-.
  destruct DS as (g1 & ch1 & tw1 & ca1 & di1 & E1 & _ & _ & E4 & E5 & LG & AG & _ & _ & LC & LD). rewrite G in E1. injection E1 as <-. rewrite CA in E4. injection E4 as <-. rewrite DI in E5. injection E5 as <-.
  pose proof (sampled_det ns g ca v AG LG LC SV) as X. rewrite I3 in X. apply Ok_inj in X. subst v. pose proof (sampled_det ns g di w AG LG LD SW) as X. rewrite I4 in X. apply Ok_inj in X. subst w.
  destruct (rg_main_luff r) as [luff|] eqn:LU; [|congruence]. destruct (J scipy_spline) as (J1 & J2 & J3 & J4).
  unfold run. rewrite EW. cbn [bind]. unfold Sail_post_init, get_sail_set. cbn [sv_interp sv_ns sv_nc sv_LLT]. rewrite SD. simpl String.eqb. cbv iota. cbn [orb]. unfold main_none, sail_arrays, need. cbn [bind]. rewrite F1, F2, F3, F4, F5, LU. cbn [is_none bind].
  unfold check_input_arr_shapes. cbn [mapM hd]. rewrite K1, K3, K4, K5, !Nat.eqb_refl. cbn [bind]. rewrite J1, J2, J3, J4. cbn [bind]. unfold make_main_sail. destruct (main_mounting _ _ _) as [h t].
  cbn [fa_ns fa_nc]. rewrite (geometry_refused _ _ _ _ _ _ _ _ _ ca' di' k m d); try assumption; reflexivity.
Qed.
(** All given cambers and positions are in range and the sail is accepted with linear interpolation; with splines the program exits. *)
Definition wavy_main : @sail_def R := SailDef (Some [0; 0; 0; 0]) (Some [0; 1/3; 2/3; 1]) (Some [4; 4; 4; 4]) (Some [0; 0; 2/27; 0]) (Some [1/2; 1/2; 1/2; 1/2]).
Lemma wavy_valid base : valid_config (demo_rig base) (Some wavy_main) None.
Proof.
  split; [simpl; auto|]. split; [intros [E|[E|[]]]; discriminate|]. intros _. exists wavy_main. split; [reflexivity|]. split.
  - do 5 eexists. cbn [wavy_main sd_girths sd_chords sd_twist sd_camber sd_dist]. repeat (split; [reflexivity|]). split; [discriminate|]. split; [exact thirds|].
    repeat (split; [reflexivity|]). split; intros x [<-|[<-|[<-|[<-|[]]]]]; lra.
  - destruct (demo_main_valid base) as (_ & _ & V). destruct V as (m & _ & _ & V); [simpl; auto|]. exact V.
Qed.
Theorem C86_camber_refuted : exists cd ns nc r main, valid_conditions cd /\ valid_config r (Some main) None /\ spline_data main /\
  (forall ref clr, run scipy_spline cd (Solver ns nc "spline" "real_twist") r (Some main) None ref clr = Raise (SystemExit 1)).
Proof.
  assert (DS : spline_data wavy_main). { do 5 eexists. cbn [wavy_main sd_girths sd_chords sd_twist sd_camber sd_dist]. do 5 (split; [reflexivity|]). split; [simpl; lia|]. split; [exact thirds|]. repeat split; reflexivity. }
  exists demo_conditions, 6%nat, 1%nat, (demo_rig (Some 4)), wavy_main. split; [exact demo_valid_conditions|]. split; [apply wavy_valid|]. split; [exact DS|]. intros ref clr.
  destruct (spline_sampled 6 [0; 1/3; 2/3; 1] [0; 0; 2/27; 0] thirds ltac:(simpl; lia) eq_refl) as (v & EV & SV). destruct (spline_sampled 6 [0; 1/3; 2/3; 1] [1/2; 1/2; 1/2; 1/2] thirds ltac:(simpl; lia) eq_refl) as (w & EW & SW).
  assert (LW : length w = 7%nat) by (destruct SW as (p & _ & LW & _); exact LW). destruct (nth_error_ex w 1) as [d D]; [lia|].
  apply (C86_range_exit demo_conditions 6 1 "real_twist" (demo_rig (Some 4)) wavy_main _ _ _ v w 1%nat (value wavy (station 7 1)) d ref clr demo_valid_conditions) with (4 := eq_refl) (5 := eq_refl) (6 := eq_refl); try assumption; try reflexivity.
  - discriminate.
  - rewrite <- wavy_data in SV. apply sampled_cubic in SV; [|exact thirds|simpl; lia]. rewrite SV. rewrite nth_error_map. rewrite linspace_at by lia. reflexivity.
  - unfold accepted, station, value, wavy. simpl. lra.
Qed.

(** ** Fewer than four girths, and what the scaling theorem needs *)
Theorem C86_few_girths : forall cd ns nc mode r s g ch ref clr, valid_conditions cd -> rg_sails_def r = "main"%string -> valid_config r (Some s) None -> sd_girths s = Some g -> sd_chords s = Some ch -> (length g < 4)%nat ->
  run scipy_spline cd (Solver ns nc "spline" mode) r (Some s) None ref clr = Raise TypeError.
Proof.
  intros cd ns nc mode r s g ch ref clr VC SD V G CH L. destruct (valid_wind cd VC) as (wd & EW & _). unfold run. rewrite EW. cbn [bind]. rewrite (valid_checked _ _ _ V). cbn [bind].
  unfold get_sail_set. cbn [sv_interp sv_ns sv_nc sv_LLT]. rewrite SD. simpl String.eqb. cbv iota. cbn [orb]. unfold need. cbn [bind]. rewrite G, CH. cbn [bind]. unfold interpolate_girths. simpl String.eqb. cbv iota.
  rewrite (proj1 (proj2 (C85_refused _ g ch)) L). reflexivity.
Qed.
Lemma zip_self (f : R -> R -> R) (l : list R) : zipWith f l l = map (fun x => f x x) l.
Proof. induction l as [|a l IH]; [reflexivity|]. simpl. rewrite IH. reflexivity. Qed.
Theorem C86_homogeneous : forall k, homogeneous k scipy_spline.
Proof.
  intros k x_new xs ys. destruct (scipy_spline x_new xs ys) as [o|e] eqn:E.
  - pose proof (C85_linear x_new xs ys ys (k - 1) o o E E) as X. rewrite !zip_self in X. cbn [rmap].
    assert (M : forall l : list R, map (fun x => x + (k - 1) * x) l = map (Rmult k) l) by (intros l; apply map_ext; intros; ring). rewrite !M in X. exact X.
  - cbn [rmap]. destruct (C85_refused x_new xs (map (Rmult k) ys)) as (A1 & A2 & A3). destruct (C85_refused x_new xs ys) as (B1 & B2 & B3). rewrite map_length in A1, A3.
    destruct (Nat.eq_dec (length ys) (length xs)) as [LY|LY]; [|rewrite A1 by assumption; rewrite B1 in E by assumption; congruence].
    destruct (le_lt_dec 4 (length xs)) as [L|L]; [|rewrite A2 by assumption; rewrite B2 in E by assumption; congruence].
    destruct (increasing xs) eqn:I.
    + apply increasing_ascending in I. destruct (C85_spline xs ys I L LY) as (p & _ & _ & W). destruct (W x_new) as (o & EO & _). congruence.
    + assert (NI : ~ ascending xs) by (intros A; apply increasing_ascending in A; congruence). rewrite A3 by assumption. rewrite B3 in E by assumption. congruence.
Qed.

(** ** Concrete cases *)
Example C86_case : valid_conditions shipped_conditions /\ spline_config 10 shipped_rig (Some shipped_main) (Some shipped_jib) /\ cos (rad (cd_heel shipped_conditions)) <> 0.
Proof.
  split; [right; right; repeat split; discriminate|]. split; [apply shipped_config|]. cbn. apply Rgt_not_eq. apply cos_gt_0; unfold rad; pose proof PI_RGT_0; lra.
Qed.
Example C86_few_case : run scipy_spline demo_conditions (Solver 1 1 "spline" "real_twist") (demo_rig (Some 4)) (Some demo_main) None szero szero = Raise TypeError.
Proof. apply (C86_few_girths _ _ _ _ _ _ [0; 1] [48; 48]); try reflexivity; [exact demo_valid_conditions | apply demo_main_valid | simpl; lia]. Qed.
Print Assumptions C86_resampled.
Print Assumptions C86_run.
Print Assumptions C86_constant.
Print Assumptions C86_shipped.
Print Assumptions C86_range_exit.
Print Assumptions C86_camber_refuted.
Print Assumptions C86_few_girths.
Print Assumptions C86_homogeneous.
