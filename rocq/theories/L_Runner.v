(** Valid configurations: every step before the solver succeeds. *)

From Coq Require Import String ZArith Reals List Bool Lra Psatz Lia Arith.
From Verif Require Import Num PyBase RNum Spec M_Csys M_Panels M_Airfoil M_Coefs M_Forces M_Winds M_Vlm M_Interp M_Sail M_Results M_Hull M_Runner
  L_List L_Rot L_Vel L_Csys L_Airfoil L_Sail L_Sail2 L_Lattice L_Demo P_Sail P_Interp P_Vlm P_Results.
Import ListNotations.
Open Scope R_scope.

Lemma interp_valid spline g y n (P : R -> Prop) : length g = length y -> g <> [] -> ascending g -> (forall v, In v y -> P v) ->
  (forall a b v, P a -> P b -> Rmin a b <= v <= Rmax a b -> P v) ->
  exists out, interpolate_girths spline "linear" g y n = Ok out /\ length out = n /\ forall v, In v out -> P v.
Proof.
  intros L N A Y C. destruct (C23_piecewise_linear spline g y n L N A) as (out & E & LO & _). exists out. split; [exact E|]. split; [exact LO|].
  intros v I. destruct (In_nth_error _ _ I) as [k K]. destruct (C23_between_neighbours spline g y n out k v L N A E K) as (i & a & b & NA & NB & B).
  apply (C a b); [apply Y; eapply nth_error_In; eassumption| |exact B]. destruct NB as [NB| ->]; apply Y; eapply nth_error_In; eassumption.
Qed.
Lemma between_range lo hi a b v : lo <= a <= hi -> lo <= b <= hi -> Rmin a b <= v <= Rmax a b -> lo <= v <= hi.
Proof. unfold Rmin, Rmax. destruct (Rle_dec a b); lra. Qed.
Lemma between_range' hi a b v : 0 < a <= hi -> 0 < b <= hi -> Rmin a b <= v <= Rmax a b -> 0 < v <= hi.
Proof. unfold Rmin, Rmax. destruct (Rle_dec a b); lra. Qed.

(** ** Valid configurations *)
(** the data of one sail: five equally long arrays over ascending girths; camber and its position in the ranges of the airfoil *)
Definition valid_sail (s : @sail_def R) : Prop := exists g ch tw ca di,
  sd_girths s = Some g /\ sd_chords s = Some ch /\ sd_twist s = Some tw /\ sd_camber s = Some ca /\ sd_dist s = Some di /\
  g <> [] /\ ascending g /\ length ch = length g /\ length tw = length g /\ length ca = length g /\ length di = length g /\
  (forall m, In m ca -> 0 <= m <= 3/10) /\ (forall d, In d di -> 0 < d <= 9/10).
(** a rig that carries the sail above the water; the mast does not lie down *)
Definition valid_main_rig (r : @rig R) : Prop := 0 < sin (rad (rg_rake r)) /\ 0 < rg_sheer r + rg_boom r /\ exists luff, rg_main_luff r = Some luff /\ 0 < luff.
Definition valid_jib_rig (r : @rig R) : Prop := 0 < sin (rad (rg_rake r)) /\ 0 < rg_sheer r /\
  exists luff base height, rg_jib_luff r = Some luff /\ rg_base r = Some base /\ rg_height r = Some height /\ 0 < luff /\ 0 < height.

Lemma heeled_luff heel lee (tack head : vec R) : cos (rad heel) <> 0 -> vz tack <> vz head ->
  vz (sheel heel lee (onto_plane tack)) <> vz (sheel heel lee (onto_plane head)).
Proof.
  intros C D E. apply D. apply (Rmult_eq_reg_l (cos (rad heel))); [|assumption]. destruct tack as [a b t], head as [d e h]. unfold sheel, onto_plane, srot in E. svec.
  rewrite !cos_neg, !sin_neg in E. lra.
Qed.
Lemma valid_main spline f r m heel lee ref ns nc mode : (1 <= ns)%nat -> (1 <= nc)%nat -> cos (rad heel) <> 0 -> In mode twist_modes ->
  f = Factory (Csys heel lee ref) ns nc (rg_rake r) (rg_sheer r) -> valid_sail m -> valid_main_rig r ->
  exists g ch tw ca di ch' tw' ca' di' luff s, sd_girths m = Some g /\ sd_chords m = Some ch /\ sd_twist m = Some tw /\ sd_camber m = Some ca /\ sd_dist m = Some di /\
    rg_main_luff r = Some luff /\
    interpolate_girths spline "linear" g ch (ns + 1) = Ok ch' /\ interpolate_girths spline "linear" g tw (ns + 1) = Ok tw' /\
    interpolate_girths spline "linear" g ca (ns + 1) = Ok ca' /\ interpolate_girths spline "linear" g di (ns + 1) = Ok di' /\
    make_main_sail f luff (rg_boom r) ch' tw' (Some mode) ca' di' = Ok s /\ built nc ns s /\ sl_name s = "main_sail"%string.
Proof.
  intros NS NC HC MO -> (g & ch & tw & ca & di & G & CH & TW & CA & DI & GN & GA & L1 & L2 & L3 & L4 & CO & DO) (RK & SB & luff & LU & LP).
  destruct (interp_valid spline g ch (ns + 1) (fun _ => True)) as (ch' & E1 & N1 & _); auto. destruct (interp_valid spline g tw (ns + 1) (fun _ => True)) as (tw' & E2 & N2 & _); auto.
  destruct (interp_valid spline g ca (ns + 1) (fun m => 0 <= m <= 3/10)) as (ca' & E3 & N3 & P3); auto. { apply between_range. }
  destruct (interp_valid spline g di (ns + 1) (fun d => 0 < d <= 9/10)) as (di' & E4 & N4 & P4); auto. { apply between_range'. }
  exists g, ch, tw, ca, di, ch', tw', ca', di', luff. unfold make_main_sail. destruct (main_mounting _ luff (rg_boom r)) as [h t] eqn:M.
  unfold main_mounting, sheer_xyz, fa_rake in M. cbn [fa_rake_deg fa_sheer] in M. rewrite deg2rad_s in M. rnum. injection M as <- <-. cbn [fa_csys fa_ns fa_nc vx vy vz].
  set (rake := rad (rg_rake r)) in *.
  edestruct good_sail_spec as (s & E & NM & _).
  2: { exists s. repeat (split; [assumption|]). split; [exact E|]. split; [|exact NM]. red. do 9 eexists. exact E. }
  constructor; try assumption; try lia; cbn [vx vy vz heel_deg leeway_deg].
  - assert (0 < luff * sin rake) by nra. nra.
  - nra.
  - split; [exact MO|]. right. apply heeled_luff; [assumption|]. cbn [vz]. assert (0 < luff * sin rake) by nra. lra.
Qed.
Lemma valid_jib spline f r j heel lee ref ns nc mode : (1 <= ns)%nat -> (1 <= nc)%nat -> cos (rad heel) <> 0 -> In mode twist_modes ->
  f = Factory (Csys heel lee ref) ns nc (rg_rake r) (rg_sheer r) -> valid_sail j -> valid_jib_rig r ->
  exists g ch tw ca di ch' tw' ca' di' luff base height s, sd_girths j = Some g /\ sd_chords j = Some ch /\ sd_twist j = Some tw /\ sd_camber j = Some ca /\ sd_dist j = Some di /\
    rg_jib_luff r = Some luff /\ rg_base r = Some base /\ rg_height r = Some height /\
    interpolate_girths spline "linear" g ch (ns + 1) = Ok ch' /\ interpolate_girths spline "linear" g tw (ns + 1) = Ok tw' /\
    interpolate_girths spline "linear" g ca (ns + 1) = Ok ca' /\ interpolate_girths spline "linear" g di (ns + 1) = Ok di' /\
    make_jib f luff base height ch' tw' (rg_mast_LOA r) (Some mode) ca' di' = Ok s /\ built nc ns s /\ sl_name s = "jib"%string.
Proof.
  intros NS NC HC MO -> (g & ch & tw & ca & di & G & CH & TW & CA & DI & GN & GA & L1 & L2 & L3 & L4 & CO & DO) (RK & SB & luff & base & height & LU & BA & HE & LP & HP).
  destruct (interp_valid spline g ch (ns + 1) (fun _ => True)) as (ch' & E1 & N1 & _); auto. destruct (interp_valid spline g tw (ns + 1) (fun _ => True)) as (tw' & E2 & N2 & _); auto.
  destruct (interp_valid spline g ca (ns + 1) (fun m => 0 <= m <= 3/10)) as (ca' & E3 & N3 & P3); auto. { apply between_range. }
  destruct (interp_valid spline g di (ns + 1) (fun d => 0 < d <= 9/10)) as (di' & E4 & N4 & P4); auto. { apply between_range'. }
  exists g, ch, tw, ca, di, ch', tw', ca', di', luff, base, height. unfold make_jib. destruct (jib_mounting _ luff base height (rg_mast_LOA r)) as [h t] eqn:M.
  unfold jib_mounting, forestay_angle, forestay_length, sheer_xyz, fa_rake in M. cbn [fa_rake_deg fa_sheer] in M. rewrite deg2rad_s in M. cbv zeta in M. rnum.
  set (rake := rad (rg_rake r)) in *. destruct (forestay_facts base height rake) as [L C]. cbv zeta in L, C.
  set (len := sqrt (base * base + height * height - 2 * base * height * cos rake)) in *.
  assert (P0 : 0 <= len) by apply sqrt_pos. assert (HS : 0 < height * sin rake) by nra.
  assert (P : 0 < len). { destruct (Req_dec len 0) as [Z|Z]; [exfalso | destruct (Rdichotomy _ _ Z); lra]. rewrite Z in L. pose proof (pow2_ge_0 (base - height * cos rake)). assert (0 < (height * sin rake) ^ 2) by (apply pow_lt; exact HS). lra. }
  destruct (C (Rgt_not_eq _ _ P)) as [AR _]. set (ang := asin (height * sin rake / len)) in *.
  assert (SA : sin ang = height * sin rake / len) by (unfold ang; apply sin_asin; exact AR).
  assert (SP : 0 < luff * sin ang). { rewrite SA. apply Rmult_lt_0_compat; [assumption|]. apply Rdiv_lt_0_compat; assumption. }
  injection M as <- <-. cbn [fa_csys fa_ns fa_nc vx vy vz].
  edestruct good_sail_spec as (s & E & NM & _).
  2: { exists s. repeat (split; [assumption|]). split; [exact E|]. split; [|exact NM]. red. do 9 eexists. exact E. }
  constructor; try assumption; try lia; cbn [vx vy vz heel_deg leeway_deg].
  - nra.
  - nra.
  - split; [exact MO|]. right. apply heeled_luff; [assumption|]. cbn [vz]. lra.
Qed.

(** The sails that the configuration names *)
Definition valid_config (r : @rig R) (main jib : option (@sail_def R)) : Prop :=
  In (rg_sails_def r) ["jib"; "main"; "jib_and_main"]%string /\
  (In (rg_sails_def r) ["jib"; "jib_and_main"]%string -> exists j, jib = Some j /\ valid_sail j /\ valid_jib_rig r) /\
  (In (rg_sails_def r) ["main"; "jib_and_main"]%string -> exists m, main = Some m /\ valid_sail m /\ valid_main_rig r).
(** names of the sails of the sail set, in order *)
Definition sail_names (sails_def : string) : list string :=
  if String.eqb sails_def "jib" then ["jib"]%string else if String.eqb sails_def "main" then ["main_sail"]%string else ["jib"; "main_sail"]%string.

Lemma valid_sail_set spline r main jib heel lee ref ns nc mode : (1 <= ns)%nat -> (1 <= nc)%nat -> cos (rad heel) <> 0 -> In mode twist_modes -> valid_config r main jib ->
  exists sails ss, get_sail_set spline (Solver ns nc "linear" mode) r main jib (Csys heel lee ref) = Ok ss /\ SailSet sails = Ok ss /\ ss_sails ss = sails /\
    map sl_name sails = sail_names (rg_sails_def r) /\ forall s, In s sails -> built nc ns s.
Proof.
  intros NS NC HC MO (I & HJ & HM). unfold get_sail_set, sail_names. cbn [sv_interp sv_ns sv_nc sv_LLT].
  destruct I as [E|[E|[E|[]]]]; rewrite <- E in *; simpl String.eqb; simpl orb; cbv iota.
  - destruct HJ as (j & -> & VJ & RJ); [simpl; auto|].
    unfold bind, need. destruct (valid_jib spline _ r j heel lee ref ns nc mode NS NC HC MO eq_refl VJ RJ) as (g & ch & tw & ca & di & ch' & tw' & ca' & di' & luff & base & height & s & -> & -> & -> & -> & -> & -> & -> & -> & E1 & E2 & E3 & E4 & ES & B & NM).
    rewrite E1, E2, E3, E4, ES. exists [s]. eexists. split; [reflexivity|]. split; [reflexivity|]. split; [reflexivity|]. cbn [map]. rewrite NM. split; [reflexivity|]. intros x [<-|[]]. exact B.
  - destruct HM as (j & -> & VJ & RJ); [simpl; auto|].
    unfold bind, need. destruct (valid_main spline _ r j heel lee ref ns nc mode NS NC HC MO eq_refl VJ RJ) as (g & ch & tw & ca & di & ch' & tw' & ca' & di' & luff & s & -> & -> & -> & -> & -> & -> & E1 & E2 & E3 & E4 & ES & B & NM).
    rewrite E1, E2, E3, E4, ES. exists [s]. eexists. split; [reflexivity|]. split; [reflexivity|]. split; [reflexivity|]. cbn [map]. rewrite NM. split; [reflexivity|]. intros x [<-|[]]. exact B.
  - destruct HJ as (j & -> & VJ & RJ); [simpl; auto|]. destruct HM as (m & -> & VM & RM); [simpl; auto|].
    unfold bind, need. destruct (valid_jib spline _ r j heel lee ref ns nc mode NS NC HC MO eq_refl VJ RJ) as (g & ch & tw & ca & di & ch' & tw' & ca' & di' & luff & base & height & s & -> & -> & -> & -> & -> & -> & -> & -> & E1 & E2 & E3 & E4 & ES & B & NM).
    destruct (valid_main spline _ r m heel lee ref ns nc mode NS NC HC MO eq_refl VM RM) as (g_ & ch_ & tw_ & ca_ & di_ & ch'_ & tw'_ & ca'_ & di'_ & luff_ & s_ & -> & -> & -> & -> & -> & -> & E1_ & E2_ & E3_ & E4_ & ES_ & B_ & NM_).
    rewrite E1, E2, E3, E4, ES. rewrite E1_, E2_, E3_, E4_, ES_. exists [s; s_]. eexists. split; [reflexivity|]. split; [reflexivity|]. split; [reflexivity|]. cbn [map]. rewrite NM, NM_.
    split; [reflexivity|]. intros x [<-|[<-|[]]]; assumption.
Qed.

(** the hull of a rig with a fore triangle base *)
Lemma hull_ok sheer b c clr : exists h, HullGeometry sheer (Some b) c clr = Ok h /\ hu_clr h = rotate_point_without_mirror c clr.
Proof.
  unfold HullGeometry. rewrite VlmAirfoil_ok.
  - unfold bind. eexists. split; [reflexivity|reflexivity].
  - unfold accepted. rewrite !ndec_R. rnum. simpl. lra.
Qed.
Lemma hull_none sheer (c : csys R) clr : HullGeometry sheer None c clr = Raise TypeError.
Proof.
  unfold HullGeometry. rewrite VlmAirfoil_ok; [reflexivity|]. unfold accepted. rewrite !ndec_R. rnum. simpl. lra.
Qed.

(** ** Whatever the configuration: the sails of a sail set that was made *)
Lemma sail_name {F} {NF : Num F} head tack c ns nc chords twist name mode camber dist (s : sail F) :
  SailGeometry head tack c ns nc chords twist name mode camber dist = Ok s -> sl_name s = name.
Proof.
  unfold SailGeometry. cbv zeta. intros H.
  repeat match type of H with
  | bind ?m _ = Ok _ => let x := fresh "x" in let E := fresh "E" in
      apply bind_Ok in H; destruct H as [x [E H]]; try (destruct x as [x ?]); try (destruct x as [x ?]) end.
  injection H as <-. reflexivity.
Qed.
Ltac unbind := repeat match goal with H : bind ?m _ = Ok _ |- _ => apply bind_Ok in H; let x := fresh "x" in let E := fresh "E" in destruct H as (x & E & H) end.
Lemma make_jib_built {F} {NF : Num F} f luff base height ch tw loa mode ca di (s : sail F) : make_jib f luff base height ch tw loa mode ca di = Ok s ->
  sl_name s = "jib"%string /\ built (fa_nc f) (fa_ns f) s.
Proof. unfold make_jib. destruct (jib_mounting _ _ _ _ _) as [h t]. intros E. split; [eapply sail_name; exact E|]. do 9 eexists. exact E. Qed.
Lemma make_main_built {F} {NF : Num F} f luff boom ch tw mode ca di (s : sail F) : make_main_sail f luff boom ch tw mode ca di = Ok s ->
  sl_name s = "main_sail"%string /\ built (fa_nc f) (fa_ns f) s.
Proof. unfold make_main_sail. destruct (main_mounting _ _ _) as [h t]. intros E. split; [eapply sail_name; exact E|]. do 9 eexists. exact E. Qed.
Lemma get_sail_set_inv {F} {NF : Num F} spline sv r main jib (c : csys F) ss : get_sail_set spline sv r main jib c = Ok ss ->
  exists sails, SailSet sails = Ok ss /\ ss_sails ss = sails /\ In (rg_sails_def r) ["jib"; "main"; "jib_and_main"]%string /\
    map sl_name sails = sail_names (rg_sails_def r) /\ forall s, In s sails -> built (sv_nc sv) (sv_ns sv) s.
Proof.
  unfold get_sail_set, sail_names. cbv zeta. intros E.
  assert (L : forall sails, SailSet sails = Ok ss -> ss_sails ss = sails). { intros [|x l] Q; [discriminate|]. injection Q as <-. reflexivity. }
  destruct (String.eqb_spec (rg_sails_def r) "jib") as [->|N1]; [|destruct (String.eqb_spec (rg_sails_def r) "main") as [->|N2]; [|destruct (String.eqb_spec (rg_sails_def r) "jib_and_main") as [->|N3]]];
    simpl orb in E; cbv iota in E; unbind.
  - repeat match goal with H : Ok _ = Ok _ |- _ => injection H as <- end.
    match goal with H : make_jib _ _ _ _ _ _ _ _ _ _ = Ok ?s |- _ => apply make_jib_built in H; destruct H as [N B]; exists [s] end.
    split; [exact E|]. split; [apply L; exact E|]. split; [simpl; auto|]. cbn [map]. rewrite N. split; [reflexivity|]. intros z [<-|[]]. exact B.
  - repeat match goal with H : Ok _ = Ok _ |- _ => injection H as <- end.
    match goal with H : make_main_sail _ _ _ _ _ _ _ _ = Ok ?s |- _ => apply make_main_built in H; destruct H as [N B]; exists [s] end.
    split; [exact E|]. split; [apply L; exact E|]. split; [simpl; auto|]. cbn [map]. rewrite N. split; [reflexivity|]. intros z [<-|[]]. exact B.
  - repeat match goal with H : Ok _ = Ok _ |- _ => injection H as <- end.
    match goal with H : make_jib _ _ _ _ _ _ _ _ _ _ = Ok ?s, H' : make_main_sail _ _ _ _ _ _ _ _ = Ok ?s' |- _ =>
      apply make_jib_built in H; destruct H as [N B]; apply make_main_built in H'; destruct H' as [N' B']; exists [s; s'] end.
    split; [exact E|]. split; [apply L; exact E|]. split; [simpl; auto|]. cbn [map]. rewrite N, N'. split; [reflexivity|]. intros z [<-|[<-|[]]]; assumption.
  - repeat match goal with H : Ok _ = Ok _ |- _ => injection H as <- end. discriminate.
Qed.

(** ** A complete run: the flat sail of L_Demo as a main sail on a vertical mast *)
Definition demo_rig (base : option R) : @rig R := Rig (Some 14) None None base 1 (9/2) 90 0 "main".
Definition demo_main : @sail_def R := SailDef (Some [0; 0]) (Some [0; 1]) (Some [48; 48]) (Some [0; 0]) (Some [1/2; 1/2]).
Definition demo_conditions : @conditions R := Conditions 0 0 4 3 90 (Some 0) (Some (1/7)) (Some 10) 1 "flat" None.
Definition demo_solver : solver := Solver 1 1 "linear" "real_twist".
Lemma demo_main_valid base : valid_config (demo_rig base) (Some demo_main) None.
Proof.
  split; [simpl; auto|]. split; [intros [E|[E|[]]]; discriminate|]. intros _. exists demo_main. split; [reflexivity|]. split.
  - do 5 eexists. cbn [demo_main sd_girths sd_chords sd_twist sd_camber sd_dist]. repeat (split; [reflexivity|]). split; [discriminate|].
    split. { intros [|[|i]] a b A B; simpl in *; try discriminate. injection A as <-. injection B as <-. lra. }
    repeat (split; [reflexivity|]). split; intros x [<-|[<-|[]]]; lra.
  - unfold valid_main_rig. cbn [demo_rig rg_rake rg_sheer rg_boom rg_main_luff]. replace (rad 90) with (PI / 2) by (unfold rad; field). rewrite sin_PI2. split; [lra|]. split; [lra|]. exists 14. split; [reflexivity|lra].
Qed.
Lemma const_interp spline (v : R) : interpolate_girths spline "linear" [0; 1] [v; v] 2 = Ok [v; v].
Proof.
  destruct (interp_valid spline [0; 1] [v; v] 2 (fun x => x = v)) as (out & E & L & P); auto.
  - discriminate.
  - intros [|[|i]] a b A B; simpl in *; try discriminate. injection A as <-. injection B as <-. lra.
  - intros x [<-|[<-|[]]]; reflexivity.
  - intros a b x -> ->. unfold Rmin, Rmax. destruct (Rle_dec v v); lra.
  - rewrite E. destruct out as [|a [|b [|]]]; try discriminate. rewrite (P a), (P b); simpl; auto.
Qed.
Lemma demo_sail_set spline base : exists s ss, get_sail_set spline demo_solver (demo_rig base) (Some demo_main) None (Csys 0 0 szero) = Ok ss /\ SailSet [s] = Ok ss /\
  sl_name s = "main_sail"%string /\ built 1 1 s /\ ss_panels ss = demo_panels /\ ss_te ss = [true; true] /\ ss_le ss = [false; false].
Proof.
  destruct (flat_sail_mode 48 "main_sail" (Some "real_twist"%string)) as (_ & s & ss & ES & SS & E1 & E2 & E3); [lra|auto|].
  exists s, ss. split; [|split; [exact SS|]; split; [eapply sail_name; exact ES|]; split; [do 9 eexists; exact ES|]; auto].
  unfold get_sail_set. cbn [demo_rig rg_sails_def demo_solver sv_interp sv_ns sv_nc sv_LLT demo_main sd_girths sd_chords sd_twist sd_camber sd_dist rg_main_luff rg_boom rg_rake rg_sheer]. simpl String.eqb. simpl orb. cbv iota.
  unfold bind at 1. unfold need, bind. cbn [demo_main sd_girths sd_chords sd_twist sd_camber sd_dist]. simpl Nat.add. cbn iota. rewrite !const_interp. unfold make_main_sail.
  destruct (main_mounting _ _ _) as [h t] eqn:M. unfold main_mounting, sheer_xyz, fa_rake in M. cbn [fa_rake_deg fa_sheer] in M. rewrite deg2rad_s in M.
  replace (rad 90) with (PI / 2) in M by (unfold rad; field). rnum. rewrite cos_PI2, sin_PI2 in M. cbn [vx vz] in M. injection M as <- <-. cbn [fa_csys fa_ns fa_nc].
  match goal with |- context [SailGeometry ?h ?t] => replace h with (V3 0 0 (39/2)) by (vec_eq; lra); replace t with (V3 0 0 (11/2)) by (vec_eq; lra) end.
  rewrite ES. exact SS.
Qed.
Lemma demo_run spline b clr : exists rr s, run spline demo_conditions demo_solver (demo_rig (Some b)) (Some demo_main) None szero clr = Ok rr /\
  SailSet [s] = Ok (rr_set rr) /\ sl_name s = "main_sail"%string /\ built 1 1 s /\ ss_panels (rr_set rr) = demo_panels /\
  Vlm (ss_panels (rr_set rr)) 1 1 1 demo_wind (ss_te (rr_set rr)) (ss_le (rr_set rr)) = Ok (rr_vlm rr) /\ InviscidFlowResults (rr_set rr) (Csys 0 0 szero) (rr_vlm rr) = Ok (rr_flow rr).
Proof.
  destruct (demo_sail_set spline (Some b)) as (s & ss & GS & SS & NM & B & P & T & L). destruct (demo_Vlm 1) as [v EV].
  assert (EV' : Vlm (ss_panels ss) 1 1 1 demo_wind (ss_te ss) (ss_le ss) = Ok v) by (rewrite P, T, L; exact EV).
  destruct (C48_run 1 1 [s] ss 1 demo_wind v (Csys 0 0 szero)) as (fr & EF & _); [intros x [<-|[]]; exact B|exact SS|exact EV'|].
  destruct (hull_ok 1 b (Csys 0 0 szero) clr) as (h & EH & _).
  exists (RunResult ss h v fr), s. cbn [rr_set rr_vlm rr_flow]. split; [|auto 10].
  unfold run. cbn [demo_conditions cd_heel cd_leeway]. replace (Wind _) with (Ok demo_wind) by reflexivity. unfold bind at 1.
  replace (Sail_post_init _ _ _) with (Ok tt) by reflexivity. unfold bind at 1. rewrite GS. unfold bind at 1.
  cbn [demo_rig rg_sheer rg_base]. rewrite EH. unfold bind at 1. cbn [demo_solver sv_nc sv_ns demo_conditions cd_rho]. rewrite EV'. unfold bind at 1. rewrite EF. reflexivity.
Qed.
