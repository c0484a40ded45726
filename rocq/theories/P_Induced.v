(** C76, with the induced wind shown; C55, the default sails. *)

From Coq Require Import String ZArith Reals List Bool Lra Psatz Lia Arith.
From Verif Require Import Num PyBase RNum Spec M_Csys M_Panels M_Airfoil M_Mesher M_Coefs M_Forces M_Winds M_Vlm M_Interp M_Sail M_Results M_Hull M_Runner M_Plots
  L_List L_Rot L_Vel L_Csys L_Airfoil L_Mesh L_Sail L_Sail2 L_Lattice L_Vlm L_Vlm2 L_Results L_Demo L_DemoForce P_Rot P_Airfoil P_Sail P_Lattice P_Vlm P_Winds P_Interp P_Results L_Runner P_Runner P_Run P_Plots L_Scene P_Scene.
Import ListNotations.
Open Scope R_scope.

(** ** C76 with the induced wind: its arrows start at the centres of pressure of the first row and show the
    difference between the velocity there and the apparent wind; the figure has three arrows for each of them. *)
Theorem C76_induced : forall spline cd sv r main jib ref clr rr fig0 sailopt, (0 < sv_ns sv)%nat -> (0 < sv_nc sv)%nat -> run spline cd sv r main jib ref clr = Ok rr ->
  display_panels_xyz_and_winds (rr_vlm rr) (rr_flow rr) (vl_inlet (rr_vlm rr)) (rr_hull rr) false sailopt = Ok fig0 ->
  let ns := sv_ns sv in let nc := sv_nc sv in let n := length (ss_sails (rr_set rr)) in let N := (2 * n * ns)%nat in
  exists fig, display_panels_xyz_and_winds (rr_vlm rr) (rr_flow rr) (vl_inlet (rr_vlm rr)) (rr_hull rr) true sailopt = Ok fig /\
  length (fi_winds fig) = (3 * N)%nat /\
  forall g j, (g < 2 * n)%nat -> (j < ns)%nat -> exists p a v colour strong,
    nth_error (vl_cp (rr_vlm rr)) (cell nc ns g 0 j) = Some p /\ nth_error (in_V (vl_inlet (rr_vlm rr))) (cell nc ns g 0 j) = Some a /\
    nth_error (vl_V_cp (rr_vlm rr)) (cell nc ns g 0 j) = Some v /\ nth_error (arrow_colours n) g = Some colour /\ (strong = true <-> 0 < vz p) /\
    nth_error (fi_winds fig) (2 * N + (g * ns + j)) = Some (Arrow colour p (V3 (vx p + (vx v - vx a)) (vy p + (vy v - vy a)) (vz p)) strong).
Proof.
  intros spline cd sv r main jib ref clr rr fig0 so NS NC E D ns nc n N.
  destruct (run_inv _ _ _ _ _ _ _ _ _ E) as (w & EW & _ & EG & _ & EV & EF). destruct (get_sail_set_inv _ _ _ _ _ _ _ EG) as (sails & SS & ES & _ & NM & B).
  assert (HN : (n = 1 \/ n = 2)%nat). { unfold n. rewrite ES, <- (map_length sl_name), NM. unfold sail_names. destruct (String.eqb _ "jib"); [auto|]. destruct (String.eqb _ "main"); simpl; auto. }
  destruct (sail_set_flags _ _ sails _ B SS) as [LP FG]. fold nc ns in LP, FG.
  assert (LT : length (ss_te (rr_set rr)) = length (ss_panels (rr_set rr))) by (rewrite LP; apply FG).
  destruct (Vlm_inv _ _ _ _ _ _ _ _ LT EV) as (vars & ic & g0 & net & CV & LV & IC & LI & VS & SO & FL). cbv zeta in SO, FL. set (K := length (ss_panels (rr_set rr))) in *.
  assert (LK : K = (2 * n * (nc * ns))%nat) by (unfold n; rewrite ES; exact LP).
  assert (EI : vl_inlet (rr_vlm rr) = ic) by apply (f_inlet _ _ _ _ _ _ _ _ _ _ _ _ _ _ FL).
  assert (ECP : vl_cp (rr_vlm rr) = in_cp ic /\ length (in_cp ic) = (2 * n * (nc * ns))%nat /\ length (in_tws ic) = (2 * n * (nc * ns))%nat).
  { pose proof IC as IC'. unfold InletConditions in IC'. destruct (mapM _ (map pv_cp vars)) as [tws|] eqn:MT; [|discriminate]. injection IC' as <-. cbn [in_cp in_tws].
    assert (VV : vl_vars (rr_vlm rr) = vars). { rewrite (f_vars _ _ _ _ _ _ _ _ _ _ _ _ _ _ FL). symmetry. apply list_tab. assumption. }
    split; [unfold vl_cp; rewrite VV; reflexivity|]. rewrite (mapM_length _ _ _ MT), map_length, LV, LK. split; reflexivity. }
  destruct ECP as (ECP & LC & LTW). rewrite EI in D |- *.
  destruct (flow_results_fields _ _ _ _ EF) as (_ & _ & FI & _ & _).
  assert (LIN : length (fr_V_ind (rr_flow rr)) = (2 * n * (nc * ns))%nat) by (rewrite FI, (f_V_ind_cp _ _ _ _ _ _ _ _ _ _ _ _ _ _ FL), tab_length; exact LK).
  unfold display_panels_xyz_and_winds in D. cbv zeta in D. apply bind_Ok in D. destruct D as (pic & DP & _).
  unfold display_panels_xyz_and_winds. cbv zeta. rewrite DP. cbn [bind]. rewrite (f_ns _ _ _ _ _ _ _ _ _ _ _ _ _ _ FL), (f_nc _ _ _ _ _ _ _ _ _ _ _ _ _ _ FL).
  destruct (C65_arrows R RNum (nZ (pi_water pic)) ic (Some (fr_V_ind (rr_flow rr))) ns nc n NS NC HN LC LTW ltac:(rewrite LI; exact LK)) as (arrows & D & LN & P).
  { intros v Q. injection Q as <-. exact LIN. }
  change (sv_ns sv) with ns. change (sv_nc sv) with nc. rewrite D. cbn [bind]. eexists. split; [reflexivity|]. cbn [fi_winds]. split; [exact LN|]. intros g j G J.
  destruct (P g j G J) as (p & t & a & P1 & P2 & P3 & _ & _ & Q). destruct (Q _ eq_refl) as (i & colour & I1 & I2 & I3). clear P Q.
  assert (CK : (cell nc ns g 0 j < K)%nat) by (apply nth_error_Some_lt in P1; rewrite LC, <- LK in P1; exact P1).
  rewrite FI, (f_V_ind_cp _ _ _ _ _ _ _ _ _ _ _ _ _ _ FL), tab_nth_error in I1 by exact CK. injection I1 as <-.
  pose proof (f_V_cp _ _ _ _ _ _ _ _ _ _ _ _ _ _ FL) as FV. 
  exists p, a. eexists. exists colour, (Rltb 0 (vz p)). rewrite ECP, FV, tab_nth_error by exact CK. split; [exact P1|]. split; [exact P3|]. split; [reflexivity|]. split; [exact I2|]. split; [apply Rltb_true|].
  unfold N. rewrite I3. rewrite (nth_error_nth _ _ szero P3). unfold wind_arrow. set (q := wash _ _ _ _ _ _). clearbody q. destruct a as [a1 a2 a3], q as [q1 q2 q3], p as [p1 p2 p3]. unfold sadd. cbn [vx vy vz]. rnum. f_equal. f_equal. f_equal; ring.
Qed.

Example C76_induced_case : forall sp, exists rr fig0 fig, run sp demo_conditions demo_solver (demo_rig (Some 4)) (Some demo_main) None szero szero = Ok rr /\
  display_panels_xyz_and_winds (rr_vlm rr) (rr_flow rr) (vl_inlet (rr_vlm rr)) (rr_hull rr) false false = Ok fig0 /\
  display_panels_xyz_and_winds (rr_vlm rr) (rr_flow rr) (vl_inlet (rr_vlm rr)) (rr_hull rr) true false = Ok fig /\ fi_winds fig <> [].
Proof.
  intros sp. destruct (demo_figure sp) as (rr & fig0 & E & _ & D & _). exists rr, fig0. destruct (C76_induced _ _ demo_solver _ _ _ _ _ _ _ false Nat.lt_0_1 Nat.lt_0_1 E D) as (fig & D' & L & _). exists fig.
  split; [exact E|]. split; [exact D|]. split; [exact D'|]. intros Q. rewrite Q in L. destruct (run_inv _ _ _ _ _ _ _ _ _ E) as (w & _ & _ & EG & _). destruct (get_sail_set_inv _ _ _ _ _ _ _ EG) as (sails & _ & ES & _ & NM & _).
  rewrite ES, <- (map_length sl_name), NM in L. discriminate L.
Qed.

(** ** C55: the default twist and the default sails *)
Theorem C55_twist_values : forall girths chords camber dist (twist : arg (list R)) s, twist = Omitted \/ twist = Given None ->
  (MainSail twist girths chords camber dist = Ok s -> exists g, sd_girths s = Some g /\ sd_twist s = Some (map (fun x => 5 + 12 * x) g)) /\
  (JibSail twist girths chords camber dist = Ok s -> exists g, sd_girths s = Some g /\ sd_twist s = Some (map (fun x => 7 + 15 * x) g)).
Proof.
  intros gi ch ca di tw s T. assert (M : forall a b (g : list R), map (fun x => nadd (nmul a x) b) g = map (fun x => b + a * x) g) by (intros; apply map_ext; intros; rnum; ring).
  assert (N : (match tw with Omitted => None | Given t => t end) = None) by (destruct T as [-> | ->]; reflexivity). unfold MainSail, JibSail. rewrite N. cbv zeta.
  split; intros E; (match type of E with context [value ?d gi] => destruct (value d gi) as [g|] end; cbn [fill_twist bind] in E; [|discriminate E]; apply Ok_inj in E; subst s; cbn [sd_girths sd_twist]; exists g; split; [reflexivity|]; rewrite M; reflexivity).
Qed.
(** the default sails can be rigged: as many chords as girths, in the ranges that are accepted; and their dimensions *)
Theorem C55_default_sails : exists m j : @sail_def R, MainSail Omitted Omitted Omitted Omitted Omitted = Ok m /\ JibSail Omitted Omitted Omitted Omitted Omitted = Ok j /\ valid_sail m /\ valid_sail j /\
  sd_girths m = Some [0; 1/8; 1/4; 1/2; 3/4; 7/8; 1] /\ sd_chords m = Some [4; 382/100; 364/100; 32/10; 264/100; 232/100; 2] /\
  sd_twist m = Some [5; 13/2; 8; 11; 14; 31/2; 17] /\ sd_camber m = Some (repeat (5/100) 7) /\ sd_dist m = Some (repeat (1/2) 7) /\
  sd_girths j = Some [0; 1/4; 1/2; 3/4; 1] /\ sd_chords j = Some [38/10; 298/100; 215/100; 133/100; 1/2] /\
  sd_twist j = Some [7; 43/4; 29/2; 73/4; 22] /\ sd_camber j = Some (repeat 0 5) /\ sd_dist j = Some (repeat (1/2) 5).
Proof.
  assert (T : forall (m j : @sail_def R),
    sd_girths m = Some [0; 1/8; 1/4; 1/2; 3/4; 7/8; 1] /\ sd_chords m = Some [4; 382/100; 364/100; 32/10; 264/100; 232/100; 2] /\
    sd_twist m = Some [5; 13/2; 8; 11; 14; 31/2; 17] /\ sd_camber m = Some (repeat (5/100) 7) /\ sd_dist m = Some (repeat (1/2) 7) /\
    sd_girths j = Some [0; 1/4; 1/2; 3/4; 1] /\ sd_chords j = Some [38/10; 298/100; 215/100; 133/100; 1/2] /\
    sd_twist j = Some [7; 43/4; 29/2; 73/4; 22] /\ sd_camber j = Some (repeat 0 5) /\ sd_dist j = Some (repeat (1/2) 5) -> valid_sail m /\ valid_sail j).
  { intros m j (G & C & W & A & D & G' & C' & W' & A' & D'). split; do 5 eexists.
    - split; [exact G|]. split; [exact C|]. split; [exact W|]. split; [exact A|]. split; [exact D|]. split; [discriminate|]. split; [|do 4 (split; [reflexivity|]); split; intros x I; apply repeat_spec in I; lra].
      intros k a b P Q. do 7 (destruct k as [|k]; [cbn in P, Q; try discriminate Q; injection P as <-; injection Q as <-; lra|]). destruct k; discriminate.
    - split; [exact G'|]. split; [exact C'|]. split; [exact W'|]. split; [exact A'|]. split; [exact D'|]. split; [discriminate|]. split; [|do 4 (split; [reflexivity|]); split; intros x I; apply repeat_spec in I; lra].
      intros k a b P Q. do 5 (destruct k as [|k]; [cbn in P, Q; try discriminate Q; injection P as <-; injection Q as <-; lra|]). destruct k; discriminate. }
  unfold MainSail, JibSail. cbn [bind fill_twist value map repeat]. do 2 eexists. split; [reflexivity|]. split; [reflexivity|].
  match goal with |- valid_sail ?m /\ valid_sail ?j /\ ?P => assert (Q : P) end.
  { cbn [sd_girths sd_chords sd_twist sd_camber sd_dist repeat]. rewrite !ndec_R. change (10 ^ 2)%Z with 100%Z. change (10 ^ 1)%Z with 10%Z. rnum. repeat split; apply (f_equal Some); repeat (apply (f_equal2 cons); [lra|]); reflexivity. }
  destruct (T _ _ Q) as [V1 V2]. split; [exact V1|]. split; [exact V2|]. exact Q.
Qed.
Example C55_twist_case : exists s, MainSail Omitted (Given (Some [0; 1/2; 1])) (Given (Some [3; 2; 1])) Omitted Omitted = Ok s /\ sd_twist s = Some (map (fun x => 5 + 12 * x) [0; 1/2; 1]).
Proof.
  eexists. split; [reflexivity|]. match goal with |- sd_twist ?s = _ => destruct (proj1 (C55_twist_values (Given (Some [0; 1/2; 1])) (Given (Some [3; 2; 1])) Omitted Omitted Omitted s (or_introl eq_refl)) eq_refl) as (g & G & T) end.
  rewrite T. apply (f_equal Some). cbn [sd_girths value] in G. injection G as <-. reflexivity.
Qed.

Print Assumptions C76_induced. Print Assumptions C55_twist_values. Print Assumptions C55_default_sails.
