(** Whole runs of the command line program: C55 (fore triangle), C62, C67. *)

From Coq Require Import String ZArith Reals List Bool Lra Psatz Lia Arith.
From Verif Require Import Num PyBase RNum Spec M_Csys M_Panels M_Airfoil M_Coefs M_Forces M_Winds M_Vlm M_Interp M_Sail M_Results M_Hull M_Runner
  L_List L_Rot L_Vel L_Csys L_Airfoil L_Sail L_Sail2 L_Lattice L_Vlm L_Vlm2 L_Results L_Demo P_Airfoil P_Sail P_Interp P_Vlm P_Winds P_Results P_Coefs L_Runner P_Runner.
Import ListNotations.
Open Scope R_scope.

(** what a finished run consists of *)
Lemma run_inv {F} {NF : Num F} spline cd sv r main jib (ref clr : vec F) rr : run spline cd sv r main jib ref clr = Ok rr ->
  let c := Csys (cd_heel cd) (cd_leeway cd) ref in
  exists w, Wind cd = Ok w /\ Sail_post_init r main jib = Ok tt /\ get_sail_set spline sv r main jib c = Ok (rr_set rr) /\
    HullGeometry (rg_sheer r) (rg_base r) c clr = Ok (rr_hull rr) /\
    Vlm (ss_panels (rr_set rr)) (sv_nc sv) (sv_ns sv) (cd_rho cd) w (ss_te (rr_set rr)) (ss_le (rr_set rr)) = Ok (rr_vlm rr) /\
    InviscidFlowResults (rr_set rr) c (rr_vlm rr) = Ok (rr_flow rr).
Proof.
  unfold run. cbv zeta. intros E. unbind. injection E as <-. destruct x0. eexists. cbn [rr_set rr_hull rr_vlm rr_flow]. eauto 10.
Qed.

(** ** C62 *)
(** one curve per sail, labelled by its position: the first "jib", the second "main" *)
Theorem C62_labels : forall spline cd sv r main jib ref clr rr, (0 < sv_nc sv)%nat -> (0 < sv_ns sv)%nat -> run spline cd sv r main jib ref clr = Ok rr ->
  exists p q, cli_section_plots (rr_vlm rr) = Ok (p, q) /\
    length (pl_points p) = length (ss_sails (rr_set rr)) /\ length (pl_points q) = length (ss_sails (rr_set rr)) /\
    forall i, (i < length (ss_sails (rr_set rr)))%nat -> curve_label p i = nth_error ["jib"; "main"]%string i /\ curve_label q i = nth_error ["jib"; "main"]%string i.
Proof.
  intros spline cd sv r main jib ref clr rr NC NS E. destruct (run_inv _ _ _ _ _ _ _ _ _ E) as (w & EW & _ & EG & _ & EV & _).
  destruct (get_sail_set_inv _ _ _ _ _ _ _ EG) as (sails & SS & -> & I & NM & B).
  assert (LS : (length sails <= 2)%nat). { rewrite <- (map_length sl_name), NM. unfold sail_names. destruct (String.eqb _ "jib"); [simpl; lia|]. destruct (String.eqb _ "main"); simpl; lia. }
  destruct (C52_plot_data _ _ sails _ _ _ _ NC NS B SS EV) as (h & l & d & GD & LH & LL & LD & _).
  unfold cli_section_plots. rewrite GD. unfold bind at 1.
  destruct (plot_spec d h "lift" "section_cl") as (p & -> & _ & P2 & P3); [congruence|lia|auto|].
  destruct (plot_spec l h "drag" "section_cd") as (q & -> & _ & Q2 & Q3); [congruence|lia|auto|].
  exists p, q. unfold bind. split; [reflexivity|]. rewrite P2, Q2, LH. split; [reflexivity|]. split; [reflexivity|]. intros i Hi. rewrite LH in P3, Q3. split; [apply P3 | apply Q3]; assumption.
Qed.
(** with a jib, or with both sails, the labels are right *)
Theorem C62_right : forall spline cd sv r main jib ref clr rr, (0 < sv_nc sv)%nat -> (0 < sv_ns sv)%nat -> run spline cd sv r main jib ref clr = Ok rr ->
  rg_sails_def r <> "main"%string -> exists p q, cli_section_plots (rr_vlm rr) = Ok (p, q) /\
  forall i s, nth_error (ss_sails (rr_set rr)) i = Some s ->
    exists label, curve_label p i = Some label /\ curve_label q i = Some label /\ (label = "jib" /\ sl_name s = "jib" \/ label = "main" /\ sl_name s = "main_sail")%string.
Proof.
  intros spline cd sv r main jib ref clr rr NC NS E NM. destruct (C62_labels _ _ _ _ _ _ _ _ _ NC NS E) as (p & q & PQ & _ & _ & L). exists p, q. split; [exact PQ|].
  destruct (run_inv _ _ _ _ _ _ _ _ _ E) as (w & _ & _ & EG & _). destruct (get_sail_set_inv _ _ _ _ _ _ _ EG) as (sails & _ & ES & I & N & _). rewrite ES in *.
  intros i s Hi. pose proof (nth_error_Some_lt _ _ _ Hi) as HL. destruct (L i HL) as [-> ->].
  assert (NS' : nth_error (map sl_name sails) i = Some (sl_name s)) by (rewrite nth_error_map, Hi; reflexivity). rewrite N in NS'.
  destruct I as [I|[I|[I|[]]]]; rewrite <- I in *; [|congruence|]; unfold sail_names in NS'; simpl in NS'.
  - destruct i as [|[|i]]; try discriminate. injection NS' as NS'. exists "jib"%string. auto.
  - destruct i as [|[|[|i]]]; try discriminate; injection NS' as NS'; [exists "jib"%string|exists "main"%string]; auto.
Qed.
(** a main sail on its own is always shown as "jib" *)
Theorem C62_main_alone : forall spline cd sv r main jib ref clr rr, (0 < sv_nc sv)%nat -> (0 < sv_ns sv)%nat -> run spline cd sv r main jib ref clr = Ok rr ->
  rg_sails_def r = "main"%string -> exists p q, cli_section_plots (rr_vlm rr) = Ok (p, q) /\ map sl_name (ss_sails (rr_set rr)) = ["main_sail"%string] /\
  length (pl_points p) = 1%nat /\ length (pl_points q) = 1%nat /\ curve_label p 0 = Some "jib"%string /\ curve_label q 0 = Some "jib"%string.
Proof.
  intros spline cd sv r main jib ref clr rr NC NS E NM. destruct (C62_labels _ _ _ _ _ _ _ _ _ NC NS E) as (p & q & PQ & L1 & L2 & L). exists p, q. split; [exact PQ|].
  destruct (run_inv _ _ _ _ _ _ _ _ _ E) as (w & _ & _ & EG & _). destruct (get_sail_set_inv _ _ _ _ _ _ _ EG) as (sails & _ & ES & I & N & _). rewrite ES in *.
  rewrite NM in N. unfold sail_names in N. simpl in N. split; [exact N|]. assert (LS : length sails = 1%nat) by (rewrite <- (map_length sl_name), N; reflexivity).
  rewrite LS in *. repeat (split; [assumption|]). apply L. lia.
Qed.
(** more than two sails cannot be plotted *)
Theorem C62_third_sail : forall (F : Type) (x y : list (list F)) name, (name = "lift" \/ name = "drag")%string -> length x = length y -> (2 < length y)%nat ->
  plot_section_coeff x y name = Raise IndexError.
Proof.
  intros F x y name N L G. unfold plot_section_coeff. destruct y as [|y0 [|y1 [|y2 y]]]; simpl in G; try lia. destruct x as [|x0 [|x1 [|x2 x]]]; try discriminate.
  set (X := x0 :: x1 :: x2 :: x). set (Y := y0 :: y1 :: y2 :: y).
  assert (M : forall k z, (fun i => do x <- py_nth X (Z.of_nat i); do y <- py_nth Y (Z.of_nat i); do lb <- py_nth ["jib"; "main"]%string (Z.of_nat i); Ok (lb, x, y)) 0%nat = Ok k ->
    (fun i => do x <- py_nth X (Z.of_nat i); do y <- py_nth Y (Z.of_nat i); do lb <- py_nth ["jib"; "main"]%string (Z.of_nat i); Ok (lb, x, y)) 1%nat = Ok z ->
    mapM (fun i => do x <- py_nth X (Z.of_nat i); do y <- py_nth Y (Z.of_nat i); do lb <- py_nth ["jib"; "main"]%string (Z.of_nat i); Ok (lb, x, y)) (seq 0 (length Y)) = Raise IndexError).
  { intros k z K Z. change (seq 0 (length Y)) with (0 :: 1 :: 2 :: seq 3 (length y))%nat. cbn [mapM]. cbv beta in K, Z. rewrite K. unfold bind at 1. rewrite Z. unfold bind at 1.
    rewrite (py_nth_nat X 2 x2), (py_nth_nat Y 2 y2) by reflexivity. reflexivity. }
  erewrite M; [|cbv beta; rewrite (py_nth_nat X 0 x0), (py_nth_nat Y 0 y0) by reflexivity; reflexivity | cbv beta; rewrite (py_nth_nat X 1 x1), (py_nth_nat Y 1 y1) by reflexivity; reflexivity].
  destruct N as [-> | ->]; reflexivity.
Qed.
Theorem C62_refuted : exists spline cd sv r main jib ref clr rr p q, run spline cd sv r main jib ref clr = Ok rr /\ cli_section_plots (rr_vlm rr) = Ok (p, q) /\
  map sl_name (ss_sails (rr_set rr)) = ["main_sail"%string] /\ curve_label p 0 = Some "jib"%string.
Proof.
  set (sp := (fun _ _ y => Ok y) : @spline_oracle R). destruct (demo_run sp 1 szero) as (rr & s & E & _). destruct (C62_main_alone _ _ demo_solver _ _ _ _ _ _ Nat.lt_0_1 Nat.lt_0_1 E eq_refl) as (p & q & PQ & N & _ & _ & L & _).
  do 8 eexists. exists rr, p, q. split; [exact E|]. auto.
Qed.

(** ** C67 *)
(** wind data that are complete for the profile they name *)
Definition valid_conditions (cd : @conditions R) : Prop :=
  cd_profile cd = "flat"%string /\ cd_exp_coeff cd <> None /\ cd_ref_height cd <> None \/
  cd_profile cd = "logarithmic"%string /\ cd_roughness cd <> None /\ cd_ref_height cd <> None \/
  cd_profile cd = "exponential"%string /\ cd_exp_coeff cd <> None /\ cd_ref_height cd <> None /\ cd_water_level cd <> None.
Lemma valid_wind cd : valid_conditions cd -> exists w, Wind cd = Ok w /\ complete_wind w.
Proof.
  unfold Wind, Wind_post_init, Wind_profile.
  intros [(-> & A & B)|[(-> & A & B)|(-> & A & B & C)]]; destruct (cd_ref_height cd); try contradiction.
  - destruct (cd_exp_coeff cd); [|contradiction]. simpl. eexists. split; [reflexivity|]. exact I.
  - destruct (cd_roughness cd); [|contradiction]. simpl. eexists. split; [reflexivity|]. split; discriminate.
  - destruct (cd_exp_coeff cd); [|contradiction]. destruct (cd_water_level cd); [|contradiction]. simpl. eexists. split; [reflexivity|]. repeat split; discriminate.
Qed.
Lemma valid_checked r main jib : valid_config r main jib -> Sail_post_init r main jib = Ok tt.
Proof.
  intros (I & HJ & HM).
  assert (A : forall s, valid_sail s -> arrays_ok s). { intros s (g & ch & tw & ca & di & G & C & T & CA & D & _ & _ & L1 & L2 & L3 & L4 & _). exists g, tw, ca, di. auto 10. }
  assert (J : forall s, valid_sail s -> valid_jib_rig r -> jib_ok r s). { intros s V (_ & _ & l & b & h & E1 & E2 & E3 & _). unfold jib_ok. rewrite E1, E2, E3. repeat (split; [discriminate|]). auto. }
  assert (M : forall s, valid_sail s -> valid_main_rig r -> main_ok r s). { intros s V (_ & _ & l & E1 & _). unfold main_ok. rewrite E1. split; [discriminate|auto]. }
  destruct I as [E|[E|[E|[]]]]; rewrite <- E in HJ, HM; symmetry in E.
  - destruct HJ as (j & -> & V & VR); [simpl; auto|]. apply (C55_checked R RNum r j j); auto.
  - destruct HM as (m & -> & V & VR); [simpl; auto|]. apply (C55_checked R RNum r m m); auto.
  - destruct HJ as (j & -> & V & VR); [simpl; auto|]. destruct HM as (m & -> & V' & VR'); [simpl; auto|]. apply (C55_checked R RNum r j m); auto.
Qed.
Lemma InviscidFlow_total nc ns sails ss rho w v c : (forall s, In s sails -> built nc ns s) -> SailSet sails = Ok ss ->
  Vlm (ss_panels ss) nc ns rho w (ss_te ss) (ss_le ss) = Ok v -> exists fr, InviscidFlowResults ss c v = Ok fr.
Proof. intros B S V. destruct (C48_run _ _ _ _ _ _ _ c B S V) as (fr & E & _). eauto. Qed.

Theorem C67_run : forall spline cd ns nc mode r main jib ref clr, (1 <= ns)%nat -> (1 <= nc)%nat -> In mode twist_modes -> cos (rad (cd_heel cd)) <> 0 ->
  valid_conditions cd -> valid_config r main jib -> rg_base r <> None ->
  (exists rr, run spline cd (Solver ns nc "linear" mode) r main jib ref clr = Ok rr /\ map sl_name (ss_sails (rr_set rr)) = sail_names (rg_sails_def r) /\
     length (ss_panels (rr_set rr)) = (2 * length (sail_names (rg_sails_def r)) * (nc * ns))%nat /\ length (vl_force (rr_vlm rr)) = length (ss_panels (rr_set rr)) /\
     length (vl_pcoef (rr_vlm rr)) = length (ss_panels (rr_set rr)) /\ map st_name (fr_sails (rr_flow rr)) = sail_names (rg_sails_def r)) \/
  exists ss, get_sail_set spline (Solver ns nc "linear" mode) r main jib (Csys (cd_heel cd) (cd_leeway cd) ref) = Ok ss /\
    (run spline cd (Solver ns nc "linear" mode) r main jib ref clr = Raise LinAlgError \/
     run spline cd (Solver ns nc "linear" mode) r main jib ref clr = Raise ValueError /\ exists a, In a (get_panels_area (ss_panels ss)) /\ a < 1 / 10 ^ 14).
Proof.
  intros spline cd ns nc mode r main jib ref clr NS NC MO HC VC VR HB.
  destruct (valid_wind cd VC) as (w & EW & CW). destruct (valid_sail_set spline r main jib (cd_heel cd) (cd_leeway cd) ref ns nc mode NS NC HC MO VR) as (sails & ss & EG & SS & ES & NM & B).
  destruct (rg_base r) as [b|] eqn:RB; [|contradiction]. destruct (hull_ok (rg_sheer r) b (Csys (cd_heel cd) (cd_leeway cd) ref) clr) as (h & EH & _).
  assert (RE : run spline cd (Solver ns nc "linear" mode) r main jib ref clr =
    (do v <- Vlm (ss_panels ss) nc ns (cd_rho cd) w (ss_te ss) (ss_le ss); do fr <- InviscidFlowResults ss (Csys (cd_heel cd) (cd_leeway cd) ref) v; Ok (RunResult ss h v fr))).
  { unfold run. rewrite EW. unfold bind at 1. rewrite (valid_checked _ _ _ VR). unfold bind at 1. rewrite EG. unfold bind at 1. rewrite RB, EH. reflexivity. }
  rewrite RE. destruct (Vlm (ss_panels ss) nc ns (cd_rho cd) w (ss_te ss) (ss_le ss)) as [v|e] eqn:EV; unfold bind at 1 2 3.
  - left. destruct (C48_run _ _ _ _ _ _ _ (Csys (cd_heel cd) (cd_leeway cd) ref) B SS EV) as (fr & EF & LF & _ & SR). rewrite EF. unfold bind. exists (RunResult ss h v fr). cbn [rr_set rr_vlm rr_flow].
    split; [reflexivity|]. rewrite ES, NM. split; [reflexivity|]. destruct (sail_set_flags nc ns sails ss B SS) as [LP FG].
    destruct (C60_complete_results _ _ _ _ _ _ _ _ (eq_trans (fl_te_len _ _ _ _ _ FG) (eq_sym LP)) EV) as (_ & _ & _ & _ & _ & _ & _ & _ & _ & _ & LV & _ & _ & _ & LC).
    rewrite <- NM, map_length. repeat (split; [assumption|]). apply list_ext; rewrite !map_length; [assumption|]. intros i Hi. rewrite LF in Hi. destruct (nth_error_ex sails i Hi) as [s HS].
    destruct (SR i s HS) as (t & HT & N & _). rewrite !nth_error_map, HS, HT. simpl. congruence.
  - right. exists ss. split; [exact EG|]. destruct (C60_failures nc ns sails ss (cd_rho cd) w e NC NS B SS CW EV) as [[-> _]|[-> A]]; [left|right]; auto.
Qed.

(** without a fore triangle base, which a rig with only a main sail may leave out, the data pass the check and
    the sails are made, but every run ends with a TypeError *)
Theorem C55_base_needed : forall spline cd ns nc mode r main ref clr, (1 <= ns)%nat -> (1 <= nc)%nat -> In mode twist_modes -> cos (rad (cd_heel cd)) <> 0 ->
  valid_conditions cd -> valid_config r main None -> rg_base r = None ->
  Sail_post_init r main None = Ok tt /\
  (exists ss, get_sail_set spline (Solver ns nc "linear" mode) r main None (Csys (cd_heel cd) (cd_leeway cd) ref) = Ok ss) /\
  run spline cd (Solver ns nc "linear" mode) r main None ref clr = Raise TypeError.
Proof.
  intros spline cd ns nc mode r main ref clr NS NC MO HC VC VR HB. pose proof (valid_checked _ _ _ VR) as CK. split; [exact CK|].
  destruct (valid_wind cd VC) as (w & EW & CW). destruct (valid_sail_set spline r main None (cd_heel cd) (cd_leeway cd) ref ns nc mode NS NC HC MO VR) as (sails & ss & EG & _).
  split; [eauto|]. unfold run. rewrite EW. unfold bind at 1. rewrite CK. unfold bind at 1. rewrite EG. unfold bind at 1. rewrite HB, hull_none. reflexivity.
Qed.

(** ** Concrete cases *)
Example C62_case : forall spline, exists rr, run spline demo_conditions demo_solver (demo_rig (Some 4)) (Some demo_main) None szero szero = Ok rr /\ rg_sails_def (demo_rig (Some 4)) = "main"%string.
Proof. intros sp. destruct (demo_run sp 4 szero) as (rr & s & E & _). eauto. Qed.
Lemma demo_valid_conditions : valid_conditions demo_conditions.
Proof. left. repeat split; discriminate. Qed.
Example C67_case : In "real_twist"%string twist_modes /\ cos (rad (cd_heel demo_conditions)) <> 0 /\ valid_conditions demo_conditions /\
  valid_config (demo_rig (Some 4)) (Some demo_main) None /\ rg_base (demo_rig (Some 4)) <> None.
Proof.
  split; [simpl; auto|]. split; [cbn [demo_conditions cd_heel]; replace (rad 0) with 0 by (unfold rad; field); rewrite cos_0; lra|]. split; [apply demo_valid_conditions|]. split; [apply demo_main_valid|discriminate].
Qed.
Example C55_base_case : valid_config (demo_rig None) (Some demo_main) None /\ rg_base (demo_rig None) = None.
Proof. split; [apply demo_main_valid|reflexivity]. Qed.

Print Assumptions C62_labels.
Print Assumptions C62_right.
Print Assumptions C62_main_alone.
Print Assumptions C62_third_sail.
Print Assumptions C62_refuted.
Print Assumptions C67_run.
Print Assumptions C55_base_needed.
