(** The sails of a valid configuration, described by the data they were made from. *)

From Coq Require Import String ZArith Reals List Bool Lra Psatz Lia Arith.
From Verif Require Import Num PyBase RNum Spec M_Csys M_Panels M_Airfoil M_Coefs M_Forces M_Winds M_Vlm M_Interp M_Sail M_Results M_Hull M_Runner
  L_List L_Rot L_Vel L_Csys L_Airfoil L_Sail L_Sail2 L_Lattice L_Demo P_Sail P_Interp P_Vlm P_Results L_Runner.
Import ListNotations.
Open Scope R_scope.

(** sail [s] was made from the definition [d], interpolated linearly, on a luff from [tack] to [head] *)
Record made (sp : list R -> list R -> list R -> res (list R)) (ns nc : nat) (mode : string) (c : csys R) (d : @sail_def R) (name : string) (head tack : vec R) (ch tw ca di : list R) (s : sail R) : Prop := {
  md_ch : exists g y, sd_girths d = Some g /\ sd_chords d = Some y /\ length g = length y /\ g <> [] /\ ascending g /\ interpolate_girths sp "linear" g y (ns + 1) = Ok ch;
  md_tw : exists g y, sd_girths d = Some g /\ sd_twist d = Some y /\ length g = length y /\ g <> [] /\ ascending g /\ interpolate_girths sp "linear" g y (ns + 1) = Ok tw;
  md_ca : exists g y, sd_girths d = Some g /\ sd_camber d = Some y /\ length g = length y /\ g <> [] /\ ascending g /\ interpolate_girths sp "linear" g y (ns + 1) = Ok ca;
  md_di : exists g y, sd_girths d = Some g /\ sd_dist d = Some y /\ length g = length y /\ g <> [] /\ ascending g /\ interpolate_girths sp "linear" g y (ns + 1) = Ok di;
  md_good : good_sail head tack c ns nc ch tw ca di (Some mode);
  md_y : vy head = 0 /\ vy tack = 0 /\ vz tack < vz head;
  md_sail : SailGeometry head tack c ns nc ch tw name (Some mode) ca di = Ok s }.

Lemma valid_main_made spline f r m heel lee ref ns nc mode : (1 <= ns)%nat -> (1 <= nc)%nat -> cos (rad heel) <> 0 -> In mode twist_modes ->
  f = Factory (Csys heel lee ref) ns nc (rg_rake r) (rg_sheer r) -> valid_sail m -> valid_main_rig r ->
  exists g ch tw ca di ch' tw' ca' di' luff s, sd_girths m = Some g /\ sd_chords m = Some ch /\ sd_twist m = Some tw /\ sd_camber m = Some ca /\ sd_dist m = Some di /\
    rg_main_luff r = Some luff /\
    interpolate_girths spline "linear" g ch (ns + 1) = Ok ch' /\ interpolate_girths spline "linear" g tw (ns + 1) = Ok tw' /\
    interpolate_girths spline "linear" g ca (ns + 1) = Ok ca' /\ interpolate_girths spline "linear" g di (ns + 1) = Ok di' /\
    make_main_sail f luff (rg_boom r) ch' tw' (Some mode) ca' di' = Ok s /\ exists head tack, (head, tack) = main_mounting f luff (rg_boom r) /\
    made spline ns nc mode (Csys heel lee ref) m "main_sail" head tack ch' tw' ca' di' s.
Proof.
  intros NS NC HC MO -> (g & ch & tw & ca & di & G & CH & TW & CA & DI & GN & GA & L1 & L2 & L3 & L4 & CO & DO) (RK & SB & luff & LU & LP).
  destruct (interp_valid spline g ch (ns + 1) (fun _ => True)) as (ch' & E1 & N1 & _); auto. destruct (interp_valid spline g tw (ns + 1) (fun _ => True)) as (tw' & E2 & N2 & _); auto.
  destruct (interp_valid spline g ca (ns + 1) (fun m => 0 <= m <= 3/10)) as (ca' & E3 & N3 & P3); auto. { apply between_range. }
  destruct (interp_valid spline g di (ns + 1) (fun d => 0 < d <= 9/10)) as (di' & E4 & N4 & P4); auto. { apply between_range'. }
  exists g, ch, tw, ca, di, ch', tw', ca', di', luff. unfold make_main_sail. destruct (main_mounting _ luff (rg_boom r)) as [h t] eqn:M.
  unfold main_mounting, sheer_xyz, fa_rake in M. cbn [fa_rake_deg fa_sheer] in M. rewrite deg2rad_s in M. rnum. injection M as M1 M2. cbn [fa_csys fa_ns fa_nc].
  set (rake := rad (rg_rake r)) in *. assert (LS : 0 < luff * sin rake) by nra.
  assert (GS : good_sail h t (Csys heel lee ref) ns nc ch' tw' ca' di' (Some mode)).
  { rewrite <- M1, <- M2. constructor; try assumption; try lia; cbn [vx vy vz heel_deg leeway_deg].
    - nra.
    - nra.
    - split; [exact MO|]. right. apply heeled_luff; [assumption|]. cbn [vz]. lra. }
  destruct (good_sail_spec _ _ _ _ _ _ _ _ _ _ "main_sail" GS) as (s & E & NM & _).
  exists s. repeat (split; [assumption|]). exists h, t. split; [reflexivity|]. constructor; try assumption; try (exists g; eexists; repeat (split; [eassumption || (symmetry; assumption)|]); assumption).
  rewrite <- M1, <- M2. cbn [vy vz]. split; [reflexivity|]. split; [reflexivity|]. lra.
Qed.
Lemma valid_jib_made spline f r j heel lee ref ns nc mode : (1 <= ns)%nat -> (1 <= nc)%nat -> cos (rad heel) <> 0 -> In mode twist_modes ->
  f = Factory (Csys heel lee ref) ns nc (rg_rake r) (rg_sheer r) -> valid_sail j -> valid_jib_rig r ->
  exists g ch tw ca di ch' tw' ca' di' luff base height s, sd_girths j = Some g /\ sd_chords j = Some ch /\ sd_twist j = Some tw /\ sd_camber j = Some ca /\ sd_dist j = Some di /\
    rg_jib_luff r = Some luff /\ rg_base r = Some base /\ rg_height r = Some height /\
    interpolate_girths spline "linear" g ch (ns + 1) = Ok ch' /\ interpolate_girths spline "linear" g tw (ns + 1) = Ok tw' /\
    interpolate_girths spline "linear" g ca (ns + 1) = Ok ca' /\ interpolate_girths spline "linear" g di (ns + 1) = Ok di' /\
    make_jib f luff base height ch' tw' (rg_mast_LOA r) (Some mode) ca' di' = Ok s /\ exists head tack, (head, tack) = jib_mounting f luff base height (rg_mast_LOA r) /\
    made spline ns nc mode (Csys heel lee ref) j "jib" head tack ch' tw' ca' di' s.
Proof.
  intros NS NC HC MO -> (g & ch & tw & ca & di & G & CH & TW & CA & DI & GN & GA & L1 & L2 & L3 & L4 & CO & DO) (RK & SB & luff & base & height & LU & BA & HE & LP & HP).
  destruct (interp_valid spline g ch (ns + 1) (fun _ => True)) as (ch' & E1 & N1 & _); auto. destruct (interp_valid spline g tw (ns + 1) (fun _ => True)) as (tw' & E2 & N2 & _); auto.
  destruct (interp_valid spline g ca (ns + 1) (fun m => 0 <= m <= 3/10)) as (ca' & E3 & N3 & P3); auto. { apply between_range. }
  destruct (interp_valid spline g di (ns + 1) (fun d => 0 < d <= 9/10)) as (di' & E4 & N4 & P4); auto. { apply between_range'. }
  exists g, ch, tw, ca, di, ch', tw', ca', di', luff, base, height. unfold make_jib. destruct (jib_mounting _ luff base height (rg_mast_LOA r)) as [h t] eqn:M.
  unfold jib_mounting, forestay_angle, forestay_length, sheer_xyz, fa_rake in M. cbn [fa_rake_deg fa_sheer] in M. rewrite deg2rad_s in M. cbv zeta in M. rnum.
  set (rake := rad (rg_rake r)) in *. destruct (forestay_facts base height rake) as [L C]. cbv zeta in L, C.
  set (len := sqrt (base * base + height * height - 2 * base * height * cos rake)) in *.
  assert (P0 : 0 <= len) by apply sqrt_pos. assert (HS : 0 < height * sin rake) by nra.
  assert (P : 0 < len). { destruct (Req_dec len 0) as [Z|Z]; [exfalso | destruct (Rdichotomy _ _ Z); lra]. rewrite Z in L. pose proof (pow2_ge_0 (base - height * cos rake)). assert (0 < (height * sin rake) ^ 2) by (apply pow_lt; exact HS). lra. }
  destruct (C (Rgt_not_eq _ _ P)) as [AR _]. set (ang := asin (height * sin rake / len)) in *.
  assert (SA : sin ang = height * sin rake / len) by (unfold ang; apply sin_asin; exact AR).
  assert (SP : 0 < luff * sin ang). { rewrite SA. apply Rmult_lt_0_compat; [assumption|]. apply Rdiv_lt_0_compat; assumption. }
  injection M as M1 M2. cbn [fa_csys fa_ns fa_nc].
  assert (GS : good_sail h t (Csys heel lee ref) ns nc ch' tw' ca' di' (Some mode)).
  { rewrite <- M1, <- M2. constructor; try assumption; try lia; cbn [vx vy vz heel_deg leeway_deg].
    - nra.
    - nra.
    - split; [exact MO|]. right. apply heeled_luff; [assumption|]. cbn [vz]. lra. }
  destruct (good_sail_spec _ _ _ _ _ _ _ _ _ _ "jib" GS) as (s & E & NM & _).
  exists s. repeat (split; [assumption|]). exists h, t. split; [reflexivity|]. constructor; try assumption; try (exists g; eexists; repeat (split; [eassumption || (symmetry; assumption)|]); assumption).
  rewrite <- M1, <- M2. cbn [vy vz]. split; [reflexivity|]. split; [reflexivity|]. lra.
Qed.
(** every sail of the set was made from the definition of that name *)
Lemma set_made spline r main jib heel lee ref ns nc mode ss : (1 <= ns)%nat -> (1 <= nc)%nat -> cos (rad heel) <> 0 -> In mode twist_modes -> valid_config r main jib ->
  get_sail_set spline (Solver ns nc "linear" mode) r main jib (Csys heel lee ref) = Ok ss ->
  SailSet (ss_sails ss) = Ok ss /\ forall s, In s (ss_sails ss) -> exists d name head tack ch tw ca di, (main = Some d /\ name = "main_sail" \/ jib = Some d /\ name = "jib")%string /\
    made spline ns nc mode (Csys heel lee ref) d name head tack ch tw ca di s.
Proof.
  intros NS NC HC MO (I & HJ & HM) EG. unfold get_sail_set in EG. cbn [sv_interp sv_ns sv_nc sv_LLT] in EG.
  destruct I as [E|[E|[E|[]]]]; rewrite <- E in *; simpl String.eqb in EG; simpl orb in EG; cbv iota in EG.
  - destruct HJ as (j & -> & VJ & RJ); [simpl; auto|].
    unfold bind, need in EG. destruct (valid_jib_made spline _ r j heel lee ref ns nc mode NS NC HC MO eq_refl VJ RJ) as (g & ch & tw & ca & di & ch' & tw' & ca' & di' & luff & base & height & s & Q1 & Q2 & Q3 & Q4 & Q5 & Q6 & Q7 & Q8 & E1 & E2 & E3 & E4 & ES & h & t & _ & B).
    rewrite Q1, Q2, Q3, Q4, Q5, Q6, Q7, Q8, E1, E2, E3, E4, ES in EG. cbn [app] in EG. injection EG as <-. cbn [ss_sails]. split; [reflexivity|].
    intros x [<-|[]]. do 8 eexists. split; [|exact B]. auto.
  - destruct HM as (m & -> & VM & RM); [simpl; auto|].
    unfold bind, need in EG. destruct (valid_main_made spline _ r m heel lee ref ns nc mode NS NC HC MO eq_refl VM RM) as (g & ch & tw & ca & di & ch' & tw' & ca' & di' & luff & s & Q1 & Q2 & Q3 & Q4 & Q5 & Q6 & E1 & E2 & E3 & E4 & ES & h & t & _ & B).
    rewrite Q1, Q2, Q3, Q4, Q5, Q6, E1, E2, E3, E4, ES in EG. cbn [app] in EG. injection EG as <-. cbn [ss_sails]. split; [reflexivity|].
    intros x [<-|[]]. do 8 eexists. split; [|exact B]. auto.
  - destruct HJ as (j & -> & VJ & RJ); [simpl; auto|]. destruct HM as (m & -> & VM & RM); [simpl; auto|].
    unfold bind, need in EG. destruct (valid_jib_made spline _ r j heel lee ref ns nc mode NS NC HC MO eq_refl VJ RJ) as (g & ch & tw & ca & di & ch' & tw' & ca' & di' & luff & base & height & s & Q1 & Q2 & Q3 & Q4 & Q5 & Q6 & Q7 & Q8 & E1 & E2 & E3 & E4 & ES & h & t & _ & B).
    rewrite Q1, Q2, Q3, Q4, Q5, Q6, Q7, Q8, E1, E2, E3, E4, ES in EG.
    destruct (valid_main_made spline _ r m heel lee ref ns nc mode NS NC HC MO eq_refl VM RM) as (g_ & ch_ & tw_ & ca_ & di_ & ch'_ & tw'_ & ca'_ & di'_ & luff_ & s_ & Q1_ & Q2_ & Q3_ & Q4_ & Q5_ & Q6_ & E1_ & E2_ & E3_ & E4_ & ES_ & h_ & t_ & _ & B_).
    rewrite Q1_, Q2_, Q3_, Q4_, Q5_, Q6_, E1_, E2_, E3_, E4_, ES_ in EG. cbn [app] in EG. injection EG as <-. cbn [ss_sails]. split; [reflexivity|].
    intros x [<-|[<-|[]]]; do 8 eexists; (split; [|eassumption]); auto.
Qed.
