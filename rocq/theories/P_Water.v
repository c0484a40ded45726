(** C88: the water surface in a whole run. *)

From Coq Require Import String ZArith Reals List Bool Lra Psatz Lia Arith.
From Verif Require Import Num PyBase RNum Spec M_Csys M_Panels M_Airfoil M_Coefs M_Forces M_Winds M_Vlm M_Interp M_Spline M_Sail M_Results M_Hull M_Runner
  L_List L_Rot L_Vel L_Csys L_Airfoil L_Sail L_Sail2 L_Lattice L_Vlm L_Vlm2 L_Demo P_Sail P_Interp P_Vlm P_Winds P_Results P_Runner P_Run L_Runner L_Set P_Spline P_Scene P_SplineRun.
Import ListNotations.
Open Scope R_scope.

(** the place of the largest camber is the same at all girths *)
Definition even_position (s : option (@sail_def R)) : Prop :=
  forall d l, s = Some d -> sd_dist d = Some l -> forall a b, In a l -> In b l -> a = b.
(** every number of an image panel is that of the panel it is the image of, every vector its mirror image *)
Definition water_symmetric (nc ns : nat) (rr : @run_result R) : Prop :=
  let n := length (ss_sails (rr_set rr)) in forall g i j, (g < n)%nat -> (i < nc)%nat -> (j < ns)%nat ->
    mirror_solution (rr_vlm rr) (cell nc ns g i j) (cell nc ns (n + g) i (ns - 1 - j)).
(** no flow through the water: the apparent wind of whatever height and the velocities induced by the sails
    together are horizontal at all points of the surface *)
Definition water_tight (cd : @conditions R) (rr : @run_result R) : Prop :=
  forall w h t p, Wind cd = Ok w -> get_true_wind_speed_at_h w h = Ok t -> vz p = 0 ->
    horizontal (sadd (get_app_infs_at_h w t) (induced (rr_vlm rr) p)).

Lemma wind_level (w : wind R) h t : get_true_wind_speed_at_h w h = Ok t -> horizontal (get_app_infs_at_h w t).
Proof.
  unfold get_true_wind_speed_at_h. destruct (wind_speed_at_h w h) as [s|]; [|discriminate]. cbn [bind]. intros E. apply Ok_inj in E. subst t.
  unfold horizontal, get_app_infs_at_h, length_to_xyz_vector. cbn [vz]. rnum. try reflexivity; try ring.
Qed.
Lemma even_interp sp g y n out : length g = length y -> g <> [] -> ascending g -> (forall a b, In a y -> In b y -> a = b) ->
  interpolate_girths sp "linear" g y n = Ok out -> forall a b, In a out -> In b out -> a = b.
Proof.
  intros L N A C E a b IA IB. destruct y as [|v y]; [destruct g; [contradiction|discriminate]|].
  destruct (interp_valid sp g (v :: y) n (fun x => x = v) L N A) as (out' & E' & _ & P).
  { intros x I. apply C; [exact I|left; reflexivity]. }
  { intros x x' u -> -> [U1 U2]. rewrite Rmin_left in U1 by lra. rewrite Rmax_left in U2 by lra. lra. }
  rewrite E in E'. apply Ok_inj in E'. subst out'. rewrite (P a IA), (P b IB). reflexivity.
Qed.

Theorem C88_run : forall sp cd ns nc mode r main jib ref clr rr, (1 <= ns)%nat -> (1 <= nc)%nat -> In mode twist_modes -> cos (rad (cd_heel cd)) <> 0 ->
  valid_config r main jib -> even_position main -> even_position jib ->
  run sp cd (Solver ns nc "linear" mode) r main jib ref clr = Ok rr -> water_symmetric nc ns rr /\ water_tight cd rr.
Proof.
  intros sp cd ns nc mode r main jib ref clr rr NS NC MO HC VC EM EJ E. destruct (run_inv _ _ _ _ _ _ _ _ _ E) as (w & EW & _ & EG & _ & EV & _). cbv zeta in EG. cbn [sv_nc sv_ns] in EV.
  destruct (set_made sp r main jib _ _ ref ns nc mode _ NS NC HC MO VC EG) as [SS MD].
  assert (MS : forall s, In s (ss_sails (rr_set rr)) -> mirror_sail nc ns s).
  { intros s I. destruct (MD s I) as (d & name & h & t & ch & tw & ca & di & WH & [_ _ _ (g & y & G & Y & L & GN & A & EI) GD _ SE]).
    exists h, t, (Csys (cd_heel cd) (cd_leeway cd) ref), ch, tw, ca, di, (Some mode), name. split; [exact GD|]. split; [|exact SE].
    apply (even_interp sp g y (ns + 1) di L GN A); [|exact EI]. destruct WH as [[W _]|[W _]]; [apply (EM d y W Y)|apply (EJ d y W Y)]. }
  destruct (C41_sail_sets nc ns _ _ _ _ _ NC NS MS SS EV) as [S1 S2]. split; [exact S1|].
  intros w' h t p EW' T P. rewrite EW in EW'. apply Ok_inj in EW'. subst w'. apply S2; [exact P|]. exact (wind_level w h t T).
Qed.

(** the same with spline interpolation *)
Theorem C88_spline : forall cd ns nc mode r main jib ref clr rr, (1 <= ns)%nat -> (1 <= nc)%nat -> In mode twist_modes -> cos (rad (cd_heel cd)) <> 0 ->
  spline_config ns r main jib -> even_position main -> even_position jib ->
  run scipy_spline cd (Solver ns nc "spline" mode) r main jib ref clr = Ok rr -> water_symmetric nc ns rr /\ water_tight cd rr.
Proof.
  intros cd ns nc mode r main jib ref clr rr NS NC MO HC SC EM EJ E. destruct (config_resampled _ _ _ _ SC) as (main' & jib' & HM & HJ & VI & VJ & VM). pose proof (proj1 SC) as HN.
  assert (EP : forall s s' d d', s = Some d -> s' = Some d' -> spline_data d -> resampled ns d d' -> even_position s -> even_position s').
  { intros s s' d d' -> -> (g0 & _ & _ & _ & di0 & G0 & _ & _ & _ & D0 & L & A & _ & _ & _ & LD) (_ & g & ch & tw & ca & di & ch' & tw' & ca' & di' & G & _ & _ & _ & D & _ & _ & _ & D' & _ & _ & _ & S4) EV e l Q QL a b IA IB.
    rewrite G in G0. injection G0 as <-. rewrite D in D0. injection D0 as <-. injection Q as <-. rewrite D' in QL. injection QL as <-.
    destruct di as [|k di]; [destruct g; simpl in L, LD; lia|]. pose proof (EV d (k :: di) eq_refl D) as C.
    assert (K : constant k (k :: di)) by (intros v I; apply C; [exact I|left; reflexivity]). rewrite (constant_map k g _ K LD) in S4.
    rewrite (sampled_constant ns g k di' A L S4 a IA), (sampled_constant ns g k di' A L S4 b IB). reflexivity. }
  set (named := fun x (s : option (@sail_def R)) => if in_dec string_dec (rg_sails_def r) [x; "jib_and_main"]%string then s else None).
  assert (NI : forall x, names_sail x r <-> In (rg_sails_def r) [x; "jib_and_main"]%string).
  { intros x. unfold names_sail. simpl. split; [intros [N|N]; auto|intros [N|[N|[]]]; auto]. }
  assert (NE : forall x s, names_sail x r -> named x s = s). { intros x s N. unfold named. apply NI in N. destruct (in_dec _ _ _); [reflexivity|contradiction]. }
  rewrite (C86_resampled (fun _ _ y => Ok y) cd ns nc mode r main jib (named "main"%string main') (named "jib"%string jib') ref clr) in E; [|intros N; rewrite (NE _ _ N); auto|intros N; rewrite (NE _ _ N); auto|exact HN].
  refine (C88_run _ cd ns nc mode r _ _ ref clr rr NS NC MO HC _ _ _ E).
  - split; [exact HN|]. split; intros I; rewrite NE by (apply NI; exact I); auto.
  - unfold named. destruct (in_dec _ _ _) as [I|I]; [|intros d l Q; discriminate]. apply NI in I. destruct (HM I) as (m & m' & A & B & C & D). exact (EP _ _ _ _ A B C D EM).
  - unfold named. destruct (in_dec _ _ _) as [I|I]; [|intros d l Q; discriminate]. apply NI in I. destruct (HJ I) as (m & m' & A & B & C & D). exact (EP _ _ _ _ A B C D EJ).
Qed.

(** every finished run of the shipped configuration, on whatever grid *)
Lemma shipped_even : even_position (Some shipped_main) /\ even_position (Some shipped_jib).
Proof.
  split; intros d l Q D a b A B; injection Q as <-; injection D as <-; simpl in A, B; intuition congruence.
Qed.
Theorem C88_shipped : forall ns nc ref clr rr, (1 <= ns)%nat -> (1 <= nc)%nat ->
  run scipy_spline shipped_conditions (Solver ns nc "spline" "real_twist") shipped_rig (Some shipped_main) (Some shipped_jib) ref clr = Ok rr ->
  water_symmetric nc ns rr /\ water_tight shipped_conditions rr.
Proof.
  intros ns nc ref clr rr NS NC E. refine (C88_spline _ ns nc "real_twist" _ _ _ ref clr rr NS NC _ _ (shipped_config ns) (proj1 shipped_even) (proj2 shipped_even) E).
  - simpl. auto.
  - cbn. apply Rgt_not_eq. apply cos_gt_0; unfold rad; pose proof PI_RGT_0; lra.
Qed.

(** ** Concrete cases *)
Definition calm_main : @sail_def R := SailDef (Some [0; 0; 0; 0]) (Some [0; 1/3; 2/3; 1]) (Some [48; 48; 48; 48]) (Some [0; 0; 0; 0]) (Some [1/2; 1/2; 1/2; 1/2]).
Lemma calm_data : spline_data calm_main.
Proof. do 5 eexists. cbn [calm_main sd_girths sd_chords sd_twist sd_camber sd_dist]. do 5 (split; [reflexivity|]). split; [simpl; lia|]. split; [exact thirds|]. repeat split; reflexivity. Qed.
Lemma calm_sampled k : sampled 1 [0; 1/3; 2/3; 1] [k; k; k; k] [k; k].
Proof.
  destruct (spline_sampled 1 [0; 1/3; 2/3; 1] [k; k; k; k] thirds ltac:(simpl; lia) eq_refl) as (v & _ & SV). pose proof SV as (_ & _ & LV & _).
  pose proof (sampled_constant 1 [0; 1/3; 2/3; 1] k v thirds ltac:(simpl; lia) SV) as C. destruct v as [|a [|b [|]]]; try discriminate.
  rewrite (C a), (C b) in SV by (simpl; auto). exact SV.
Qed.
Lemma calm_resampled : resampled 1 calm_main demo_main.
Proof.
  split. { unfold demo_main, station. cbn [sd_girths map seq Nat.add]. f_equal. f_equal; [simpl; lra|f_equal; simpl; lra]. }
  do 9 eexists. cbn [calm_main demo_main sd_girths sd_chords sd_twist sd_camber sd_dist]. do 9 (split; [reflexivity|]). repeat split; apply calm_sampled.
Qed.
Example C88_case : forall sp, exists rr, In "real_twist"%string twist_modes /\ cos (rad (cd_heel demo_conditions)) <> 0 /\ valid_config (demo_rig (Some 4)) (Some demo_main) None /\
  even_position (Some demo_main) /\ even_position None /\ run sp demo_conditions (Solver 1 1 "linear" "real_twist") (demo_rig (Some 4)) (Some demo_main) None szero szero = Ok rr.
Proof.
  intros sp. destruct (demo_run sp 4 szero) as (rr & _ & E & _). exists rr. destruct C67_case as (A & B & _ & C & _). repeat (split; [assumption|]). split; [|split; [|exact E]].
  - intros d l Q D a b I J. injection Q as <-. injection D as <-. simpl in I, J. intuition congruence.
  - intros d l Q. discriminate.
Qed.
Example C88_spline_case : exists rr, spline_config 1 (demo_rig (Some 4)) (Some calm_main) None /\ even_position (Some calm_main) /\
  run scipy_spline demo_conditions (Solver 1 1 "spline" "real_twist") (demo_rig (Some 4)) (Some calm_main) None szero szero = Ok rr.
Proof.
  set (sp := (fun _ _ y => Ok y) : @spline_oracle R). destruct (demo_run sp 4 szero) as (rr & _ & E & _). exists rr. split; [|split].
  - split; [simpl; auto|]. split; [intros [N|N]; discriminate|]. intros _. exists calm_main. split; [reflexivity|]. split; [exact calm_data|]. split.
    + apply (C86_constant 1 _ _ _ 0 (1/2) calm_data eq_refl eq_refl); try lra; intros v V; simpl in V; intuition congruence.
    + destruct (demo_main_valid (Some 4)) as (_ & _ & V). destruct V as (m & _ & _ & V); [simpl; auto|]. exact V.
  - intros d l Q D a b I J. injection Q as <-. injection D as <-. simpl in I, J. intuition congruence.
  - rewrite (C86_resampled sp demo_conditions 1 1 "real_twist" (demo_rig (Some 4)) (Some calm_main) None (Some demo_main) None szero szero); [exact E| | |simpl; auto].
    + intros _. exists calm_main, demo_main. split; [reflexivity|]. split; [reflexivity|]. split; [exact calm_data|exact calm_resampled].
    + intros [N|N]; discriminate.
Qed.

Print Assumptions C88_run.
Print Assumptions C88_spline.
Print Assumptions C88_shipped.
Print Assumptions C88_spline_case.
