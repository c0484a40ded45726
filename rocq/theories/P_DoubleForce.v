(** C97: the rounding of the forces, pressures and totals of a run in double arithmetic. *)

From Coq Require Import String ZArith Reals List Bool Lra Psatz Lia.
From Flocq Require Import Core BinarySingleNaN.
From Verif Require Import Num PyBase RNum Spec M_Csys M_Rotations M_Panels M_Velocity M_Solve M_Coefs M_Forces M_Winds M_Sail M_Vlm M_Results L_List L_Rot L_Lift2 L_Vlm2 P_Double P_DoubleRun Double L_Double L_Near L_NearRot P_DoubleRot L_NearLine L_NearVel P_DoubleVel P_DoubleFlux L_Accept L_Accept2 P_DoubleAccept.
Import ListNotations.
Open Scope R_scope.

(** ** Specification *)
(** the circulation of a bound vortex: that of its own ring, less that of the ring upstream unless the panel is at the leading edge; [B] is the sum of their absolute values *)
Definition net_of (gamma : list double) (le : list bool) (ns i : nat) (G B : R) : Prop :=
  exists g, nth_error gamma i = Some g /\
    ((nth_error le i = Some true \/ ~ In true le) /\ G = val g /\ B = Rabs (val g) \/
     nth_error le i = Some false /\ In true le /\ exists g', nth_error gamma (if (ns <=? i)%nat then i - ns else i + length gamma - ns) = Some g' /\ G = val g - val g' /\ B = Rabs (val g) + Rabs (val g')).
(** the force of the air with velocity [v] on a vortex along [s] *)
Definition exact_force (rho G : R) (v s : vec R) : vec R := sscale rho (scross v (sscale G s)).
Definition force_terms (rho : double) (B : R) (v s : vec double) : vec R := mscale (Rabs (val rho)) (mcross (vabs v) (mscale B (vabs s))).
(** [F] and the absolute values [A] of its terms, for panel [i] of a solution *)
Definition force_on (o : vlm double) (i : nat) (F A : vec R) : Prop :=
  exists v s G B, nth_error (vl_V_cp o) i = Some v /\ nth_error (vl_spans o) i = Some s /\ net_of (vl_gamma o) (vl_le o) (vl_ns o) i G B /\
    F = exact_force (val (vl_rho o)) G (vvals v) (vvals s) /\ A = force_terms (vl_rho o) B v s.
(** within [k] roundings of terms of the size [A] *)
Definition rounded (k : nat) (x : double) (X A : R) : Prop := Rabs (val x - X) <= ((1 + / 2 ^ 53) ^ k - 1) * A.
Definition vrounded (k : nat) (v : vec double) (V A : vec R) : Prop := rounded k (vx v) (vx V) (vx A) /\ rounded k (vy v) (vy V) (vy A) /\ rounded k (vz v) (vz V) (vz A).
(** the arm of a force *)
Definition exact_arm (ref p : vec double) : vec R :=
  V3 (val (vx p) - val (vx ref)) (val (vy p) - val (vy ref)) (if Rlt_dec 0 (val (vz p)) then val (vz p) - val (vz ref) else val (vz p) + val (vz ref)).
Definition arm_terms (ref p : vec double) : vec R := sadd (vabs p) (vabs ref).

(** ** Proofs *)
Lemma near_rounded k x X A : near_of k x X A -> rounded k x X A.
Proof. intros [_ _ E]. unfold rounded. rewrite <- u_pow. exact E. Qed.
Lemma vnear_rounded k v V A : vnear_of k v V A -> vrounded k v V A.
Proof. intros (X & Y & Z). split; [|split]; apply near_rounded; assumption. Qed.
Lemma net_near e gamma le ns i g : @net_circulation _ (Double e) gamma le ns i = Ok g -> fin g -> exists G B, net_of gamma le ns i G B /\ near_of 1 g G B.
Proof.
  unfold net_circulation. cbv zeta. destruct (py_nth le (Z.of_nat i)) as [l|] eqn:EL; [|discriminate]. cbn [bind]. destruct (py_nth gamma (Z.of_nat i)) as [g1|] eqn:EG; [|discriminate]. cbn [bind]. apply py_nth_Ok_nat in EL. apply py_nth_Ok_nat in EG.
  destruct (l || negb (existsb (fun b => b) le))%bool eqn:C.
  - intros [= <-] F. exists (val g1), (Rabs (val g1)). split; [|apply (near_of_more 0); [lia|]; apply near_of_exact; exact F]. exists g1. split; [exact EG|]. left. split; [|split; reflexivity].
    apply Bool.orb_true_iff in C. destruct C as [->|C]; [left; exact EL|right]. intros I. apply Bool.negb_true_iff in C. assert (T : existsb (fun b => b) le = true) by (apply existsb_exists; exists true; split; [exact I|reflexivity]). congruence.
  - apply Bool.orb_false_iff in C. destruct C as [-> C]. apply Bool.negb_false_iff in C. apply existsb_exists in C. destruct C as (t & IT & ->).
    destruct (py_nth gamma (Z.of_nat i - Z.of_nat ns)) as [g2|] eqn:EG2; [|discriminate]. cbn [bind]. intros H F. assert (HO : forall A (p q : A), Ok p = Ok q -> p = q) by (intros A p q [= Q]; exact Q). apply HO in H. subst g. destruct (sub_fin e _ _ F) as [F1 F2].
    exists (val g1 - val g2), (Rabs (val g1) + Rabs (val g2)). split; [|apply near_of_sub; [exact F|apply near_of_exact; exact F1|apply near_of_exact; exact F2]].
    exists g1. split; [exact EG|]. right. split; [exact EL|]. split; [exact IT|]. exists g2. split; [|split; reflexivity].
    unfold py_nth in EG2. cbv zeta in EG2. destruct (Nat.leb_spec ns i) as [L|L].
    + replace (Z.of_nat i - Z.of_nat ns <? 0)%Z with false in EG2 by (symmetry; apply Z.ltb_ge; lia). destruct (_ || _)%bool; [discriminate|]. replace (Z.to_nat (Z.of_nat i - Z.of_nat ns)) with (i - ns)%nat in EG2 by lia. destruct (nth_error gamma (i - ns)) as [q|]; [|discriminate]. apply HO in EG2. subst q. reflexivity.
    + replace (Z.of_nat i - Z.of_nat ns <? 0)%Z with true in EG2 by (symmetry; apply Z.ltb_lt; lia). destruct (_ || _)%bool; [discriminate|]. replace (Z.to_nat (Z.of_nat i - Z.of_nat ns + Z.of_nat (length gamma))) with (i + length gamma - ns)%nat in EG2 by lia. destruct (nth_error gamma (i + length gamma - ns)) as [q|]; [|discriminate]. apply HO in EG2. subst q. reflexivity.
Qed.
Lemma force_near e rho V spans gamma le ns forces i f : @panel_forces _ (Double e) rho V spans gamma le ns = Ok forces -> nth_error forces i = Some f -> vfin f ->
  exists v s G B, nth_error V i = Some v /\ nth_error spans i = Some s /\ net_of gamma le ns i G B /\ vnear_of 5 f (exact_force (val rho) G (vvals v) (vvals s)) (force_terms rho B v s).
Proof.
  intros E NF F. unfold panel_forces in E. pose proof (nth_error_Some_lt _ _ _ NF) as Hi. rewrite (mapM_length _ _ _ E) in Hi. destruct (nth_error_ex _ _ Hi) as [[j [v s]] C].
  destruct (mapM_nth _ _ _ _ _ E C) as (b & NB & EB). rewrite NF in NB. injection NB as <-. cbn [fst snd] in EB.
  apply nth_error_combine_inv in C. destruct C as [CJ C]. apply nth_error_combine_inv in C. destruct C as [CV CS].
  assert (J : j = i). { pose proof (nth_error_Some_lt _ _ _ CJ) as LJ. rewrite seq_length in LJ. rewrite (nth_error_nth' _ 0%nat) in CJ by (rewrite seq_length; exact LJ). rewrite seq_nth in CJ by exact LJ. injection CJ as <-. reflexivity. } subst j.
  destruct (net_circulation _ _ _ _) as [g|] eqn:EN; [|discriminate EB]. cbn [bind] in EB. assert (HO : forall A (p q : A), Ok p = Ok q -> p = q) by (intros A p q [= Q]; exact Q). apply HO in EB. subst f.
  destruct (vscale_fin e _ _ F) as [FR FC]. destruct (vcross_fin e _ _ FC) as [FV FS]. destruct (vscale_fin e _ _ FS) as [FG FSP].
  destruct (net_near e gamma le ns i g EN FG) as (G & B & NO & NG). exists v, s, G, B. split; [exact CV|]. split; [exact CS|]. split; [exact NO|].
  pose proof (vnear_of_scale e 1 0 g s _ _ _ _ FS NG (vnear_of_exact s FSP)) as N1. pose proof (vnear_of_cross e 0 2 v _ _ _ _ _ FC (vnear_of_exact v FV) N1) as N2. exact (vnear_of_scale e 0 4 rho _ _ _ _ _ F (near_of_exact rho FR) N2).
Qed.
Lemma solve_force e panels nc ns rho te le vars ic o : @vlm_solve _ (Double e) panels nc ns rho te le vars ic = Ok o ->
  vl_ns o = ns /\ vl_rho o = rho /\ vl_le o = le /\ vl_vars o = vars /\ @panel_forces _ (Double e) rho (vl_V_cp o) (vl_spans o) (vl_gamma o) le ns = Ok (vl_force o) /\ vl_pressure o = @calc_pressure _ (Double e) (vl_force o) (vl_normals o) (vl_areas o) /\ length (vl_V_cp o) = Nat.min (length (in_V ic)) (length vars).
Proof.
  intros H. unfold vlm_solve in H. cbv zeta in H. destruct (calc_velocity_coefs _ _ _ _ _ _) as [coeff vind] eqn:CC. destruct (solve_eq _ _) as [gamma|] eqn:SO; [|discriminate H]. cbn [bind] in H.
  destruct (calculate_app_fs _ _ _) as [ind ctrl] eqn:AP. destruct (is_no_flux_BC_satisfied _ _ _) as [b|] eqn:NF; [|discriminate H]. cbn [bind] in H. destruct (guard b AssertionError); [|discriminate H]. cbn [bind] in H.
  destruct (calc_force_wrapper _ _ _ _ _ _ _ _ _ _ "force_xyz"%string _) as [[[f vc] vi]|] eqn:CF; [|discriminate H]. cbn [bind] in H.
  destruct (calc_force_wrapper _ _ _ _ _ _ _ _ _ _ "lift"%string _) as [[[f1 vc1] vi1]|]; [|discriminate H]. cbn [bind] in H.
  destruct (calc_force_wrapper _ _ _ _ _ _ _ _ _ _ "drag"%string _) as [[[f2 vc2] vi2]|]; [|discriminate H]. cbn [bind] in H.
  assert (HO : forall A (p q : A), Ok p = Ok q -> p = q) by (intros A p q [= Q]; exact Q). apply HO in H. subst o. unfold vl_spans, vl_normals. cbn [vl_ns vl_rho vl_le vl_vars vl_V_cp vl_gamma vl_force vl_pressure vl_areas].
  split; [reflexivity|]. split; [reflexivity|]. split; [reflexivity|]. split; [reflexivity|].
  clear CC AP SO NF. unfold calc_force_wrapper in CF. change (negb (existsb (String.eqb "force_xyz") ["lift"; "drag"; "force_xyz"]%string)) with false in CF. change ("force_xyz" =? "lift")%string with false in CF. change ("force_xyz" =? "drag")%string with false in CF. cbv iota beta zeta in CF. destruct (calc_velocity_coefs _ _ _ _ _ _) as [co vi'] eqn:CC. destruct (calculate_app_fs _ _ _) as [vi2' va] eqn:AP. 
  destruct (panel_forces _ _ _ _ _ _) as [ff|] eqn:PF; [|discriminate CF]. cbn [bind] in CF. apply HO in CF. apply pair_equal_spec in CF. destruct CF as [CF _]. apply pair_equal_spec in CF. destruct CF as [<- <-]. split; [exact PF|]. split; [reflexivity|].
  apply (f_equal snd) in AP. apply (f_equal snd) in CC. cbn [snd] in AP, CC. rewrite <- AP, <- CC. unfold calculate_app_fs, calc_velocity_coefs, calc_induced_velocity. cbn [snd]. rewrite zipWith_length, !map_length. reflexivity.
Qed.

Section Run.
Context (e : elementary).
Lemma run_forces panels nc ns rho w te le o : @Vlm _ (Double e) panels nc ns rho w te le = Ok o ->
  @panel_forces _ (Double e) (vl_rho o) (vl_V_cp o) (vl_spans o) (vl_gamma o) (vl_le o) (vl_ns o) = Ok (vl_force o) /\ vl_pressure o = @calc_pressure _ (Double e) (vl_force o) (vl_normals o) (vl_areas o) /\ vl_rho o = rho /\ vl_le o = le /\ vl_ns o = ns /\ length (vl_force o) = length (vl_cp o).
Proof.
  intros E. unfold Vlm in E. destruct (calculate_vlm_variables _ _ _ _ _) as [vars|]; [|discriminate]. cbn [bind] in E. destruct (InletConditions _ _) as [ic|] eqn:IC; [|discriminate]. cbn [bind] in E.
  destruct (solve_force e _ _ _ _ _ _ _ _ _ E) as (E1 & E2 & E3 & E4 & E5 & E6 & E7). rewrite E1, E2, E3. split; [exact E5|]. split; [exact E6|]. split; [reflexivity|]. split; [reflexivity|]. split; [reflexivity|].
  unfold panel_forces in E5. rewrite (mapM_length _ _ _ E5), !combine_length, seq_length, E7. unfold vl_spans, vl_cp. rewrite E4, !map_length, (inlet_length _ _ _ IC), map_length. lia.
Qed.

(** a force whose components are finite is within five roundings of the force on its vortex *)
Theorem C97_force panels nc ns rho w te le o i f : @Vlm _ (Double e) panels nc ns rho w te le = Ok o -> nth_error (vl_force o) i = Some f -> vfin f ->
  exists F A, force_on o i F A /\ vrounded 5 f F A.
Proof.
  intros E NF FF. destruct (run_forces _ _ _ _ _ _ _ _ E) as (PF & _). destruct (force_near e _ _ _ _ _ _ _ i f PF NF FF) as (v & s & G & B & H1 & H2 & H3 & H4).
  eexists. eexists. split; [|exact (vnear_rounded _ _ _ _ H4)]. exists v, s, G, B. split; [exact H1|]. split; [exact H2|]. split; [exact H3|]. split; reflexivity.
Qed.
(** a finite pressure on a finite area is within nine roundings of the normal force by the area *)
Theorem C97_pressure panels nc ns rho w te le o i p a : length te = length panels -> @Vlm _ (Double e) panels nc ns rho w te le = Ok o -> nth_error (vl_pressure o) i = Some p -> fin p -> nth_error (vl_areas o) i = Some a -> fin a ->
  exists F A n, nth_error (vl_normals o) i = Some n /\ force_on o i F A /\ rounded 9 p (sdot F (vvals n) / val a) (mdot A (vabs n) / val a + bpow radix2 (-1000)).
Proof.
  intros LT E NP FP NA FA. destruct (C96_run e _ _ _ _ _ _ _ _ LT E) as (_ & _ & _ & _ & _ & _ & AR & _). pose proof (proj2 (proj1 (Forall_forall _ _) AR a (nth_error_In _ _ NA)) FA) as PA. clear AR.
  destruct (run_forces _ _ _ _ _ _ _ _ E) as (PF & EP & _). rewrite EP in NP. unfold calc_pressure in NP. apply nth_error_zipWith_inv in NP. destruct NP as ([f n] & a' & C & NA' & ->). rewrite NA in NA'. injection NA' as <-. apply nth_error_combine_inv in C. destruct C as [NF NN]. cbn [fst snd] in *.
  pose proof (div_fin e _ _ FP FA) as FD. destruct (vdot_fin e _ _ FD) as [FF FN]. destruct (force_near e _ _ _ _ _ _ _ i f PF NF FF) as (v & s & G & B & H1 & H2 & H3 & H4).
  eexists. eexists. exists n. split; [exact NN|]. split; [exists v, s, G, B; split; [exact H1|]; split; [exact H2|]; split; [exact H3|]; split; reflexivity|].
  apply near_rounded. pose proof (near_of_dot e 5 0 f n _ _ _ _ FD H4 (vnear_of_exact n FN)) as N1. pose proof (near_of_div e _ _ a _ _ FP FA ltac:(lra) N1) as N2. rewrite (Rabs_pos_eq (val a)) in N2 by lra. exact N2.
Qed.

Lemma fold_sadd l X : fold_left sadd l X = fold_right sadd X l.
Proof. apply fold_symmetric; intros; unfold sadd; cbn [vx vy vz]; f_equal; ring. Qed.
Lemma vsum_near k l L : vfin (@vsum _ (Double e) l) -> Forall2 (fun a B => vnear_of k a (fst B) (snd B)) l L -> vnear_of (k + length l) (@vsum _ (Double e) l) (ssum (map fst L)) (ssum (map snd L)).
Proof.
  intros F H. unfold vsum in *. destruct (dint e 0 ltac:(lia)) as [Z1 Z2].
  assert (N0 : vnear_of k (@v0 _ (Double e)) szero szero). { assert (K : near_of k (@nZ _ (Double e) 0) 0 0) by (constructor; [exact Z1|rewrite Rabs_R0; lra|rewrite Z2, Rminus_0_r, Rabs_R0; lra]). split; [|split]; exact K. }
  pose proof (vnear_of_sum e k l L (@v0 _ (Double e)) szero szero F N0 H) as N. rewrite !fold_sadd in N. exact N.
Qed.
Lemma choose_all {A} (P : nat -> A -> Prop) n : (forall i, (i < n)%nat -> exists a, P i a) -> exists l, length l = n /\ forall i, (i < n)%nat -> exists a, nth_error l i = Some a /\ P i a.
Proof.
  revert P. induction n as [|n IH]; intros P H; [exists []; split; [reflexivity|intros i Hi; lia]|]. destruct (H 0%nat ltac:(lia)) as [a PA]. destruct (IH (fun i => P (S i)) ltac:(intros i Hi; apply H; lia)) as (l & L & R).
  exists (a :: l). split; [cbn [length]; lia|]. intros [|i] Hi; [exists a; split; [reflexivity|exact PA]|]. destruct (R i ltac:(lia)) as (b & B1 & B2). exists b. split; assumption.
Qed.
Lemma Forall2_of_nth {A B} (R : A -> B -> Prop) l L : length l = length L -> (forall i a b, nth_error l i = Some a -> nth_error L i = Some b -> R a b) -> Forall2 R l L.
Proof.
  revert L. induction l as [|a l IH]; intros [|b L] H Q; cbn [length] in H; try discriminate; constructor; [exact (Q 0%nat a b eq_refl eq_refl)|]. apply IH; [lia|]. intros i x y X Y. exact (Q (S i) x y X Y).
Qed.
Lemma results_totals s c o fr : @InviscidFlowResults _ (Double e) s c o = Ok fr ->
  fr_F_total fr = @vsum _ (Double e) (above_water (vl_force o)) /\ fr_M_total fr = @vsum _ (Double e) (above_water (@calc_moments _ (Double e) (@calc_moment_arm_in_shifted_csys _ (Double e) (vl_cp o) (ref_vec c)) (vl_force o))).
Proof.
  intros E. unfold InviscidFlowResults in E. cbv zeta in E. destruct (array_split _ _) as [f|] in E; [|discriminate]. cbn [bind] in E. destruct (array_split _ _) as [r|] in E; [|discriminate]. cbn [bind] in E.
  assert (HO : forall A (p q : A), Ok p = Ok q -> p = q) by (intros A p q [= Q]; exact Q). apply HO in E. subst fr. split; reflexivity.
Qed.

(** a finite total force is the sum of the forces on the vortices above the water, within five roundings and one for each panel *)
Theorem C97_total panels nc ns rho w te le o s c fr : @Vlm _ (Double e) panels nc ns rho w te le = Ok o -> @InviscidFlowResults _ (Double e) s c o = Ok fr -> vfin (fr_F_total fr) ->
  let n := (length (vl_force o) / 2)%nat in
  exists L, length L = n /\ (forall i F A, nth_error L i = Some (F, A) -> force_on o i F A) /\ vrounded (5 + n) (fr_F_total fr) (ssum (map fst L)) (ssum (map snd L)).
Proof.
  intros E EF FF n. destruct (run_forces _ _ _ _ _ _ _ _ E) as (PF & _). destruct (results_totals _ _ _ _ EF) as [EFT _]. rewrite EFT in *. clear E EF EFT. unfold above_water in *. fold n in FF |- *. set (l := firstn n (vl_force o)) in *.
  assert (LL : length l = n) by (unfold l; rewrite firstn_length; apply Nat.min_l; unfold n; apply Nat.div_le_upper_bound; lia).
  destruct (sum_fin e _ _ FF) as [_ FA].
  destruct (choose_all (fun i (B : vec R * vec R) => force_on o i (fst B) (snd B) /\ forall f, nth_error l i = Some f -> vnear_of 5 f (fst B) (snd B)) n) as (L & L1 & L2).
  { intros i Hi. rewrite <- LL in Hi. destruct (nth_error_ex _ _ Hi) as [f NF]. pose proof (proj1 (Forall_forall _ _) FA f (nth_error_In _ _ NF)) as FI. pose proof NF as NF2. unfold l in NF2. rewrite nth_error_firstn in NF2 by (rewrite LL in Hi; exact Hi).
    destruct (force_near e _ _ _ _ _ _ _ i f PF NF2 FI) as (v & sp & G & B & H1 & H2 & H3 & H4). exists (exact_force (val (vl_rho o)) G (vvals v) (vvals sp), force_terms (vl_rho o) B v sp). cbn [fst snd].
    split; [exists v, sp, G, B; split; [exact H1|]; split; [exact H2|]; split; [exact H3|]; split; reflexivity|]. intros f' NF'. rewrite NF in NF'. injection NF' as <-. exact H4. }
  exists L. split; [exact L1|]. split.
  - intros i F A NL. pose proof (nth_error_Some_lt _ _ _ NL) as Hi. rewrite L1 in Hi. destruct (L2 i Hi) as (B & NB & H & _). rewrite NL in NB. injection NB as <-. exact H.
  - apply vnear_rounded. rewrite <- LL. apply vsum_near; [exact FF|]. apply Forall2_of_nth; [lia|]. intros i f B NF NB. pose proof (nth_error_Some_lt _ _ _ NB) as Hi. rewrite L1 in Hi. destruct (L2 i Hi) as (B' & NB' & _ & H). rewrite NB in NB'. injection NB' as <-. apply H. exact NF.
Qed.
Lemma arm_near ref p : vfin (@moment_arm _ (Double e) ref p) -> vnear_of 1 (@moment_arm _ (Double e) ref p) (exact_arm ref p) (arm_terms ref p).
Proof.
  intros (X & Y & Z). destruct (dint e 0 ltac:(lia)) as [Z1 Z2]. unfold moment_arm, exact_arm, arm_terms, sadd, vabs in *. cbn [vx vy vz] in *. destruct (sub_fin e _ _ X), (sub_fin e _ _ Y).
  split; [|split]; cbn [vx vy vz]; try (apply near_of_sub; [assumption|apply near_of_exact; assumption|apply near_of_exact; assumption]).
  destruct (@nltb _ (Double e) (@nZ _ (Double e) 0) (vz p)) eqn:T.
  - destruct (sub_fin e _ _ Z) as [ZP ZR]. apply (dltb e _ _ Z1 ZP) in T. rewrite Z2 in T. destruct (Rlt_dec 0 (val (vz p))); [|lra]. apply near_of_sub; [exact Z|apply near_of_exact; exact ZP|apply near_of_exact; exact ZR].
  - destruct (add_fin e _ _ Z) as [ZP ZR]. destruct (Rlt_dec 0 (val (vz p))) as [Q|Q]; [exfalso|apply near_of_add; [exact Z|apply near_of_exact; exact ZP|apply near_of_exact; exact ZR]].
    assert (T2 : @nltb _ (Double e) (@nZ _ (Double e) 0) (vz p) = true) by (apply (dltb e _ _ Z1 ZP); rewrite Z2; exact Q). congruence.
Qed.
(** a finite total moment likewise *)
Theorem C97_moment panels nc ns rho w te le o s c fr : @Vlm _ (Double e) panels nc ns rho w te le = Ok o -> @InviscidFlowResults _ (Double e) s c o = Ok fr -> vfin (fr_M_total fr) ->
  let n := (length (vl_force o) / 2)%nat in
  exists L, length L = n /\ (forall i M B, nth_error L i = Some (M, B) -> exists p F A, nth_error (vl_cp o) i = Some p /\ force_on o i F A /\ M = scross (exact_arm (ref_vec c) p) F /\ B = mcross (arm_terms (ref_vec c) p) A) /\
    vrounded (8 + n) (fr_M_total fr) (ssum (map fst L)) (ssum (map snd L)).
Proof.
  intros E EF FF n. destruct (run_forces _ _ _ _ _ _ _ _ E) as (PF & _ & _ & _ & _ & LC). symmetry in LC. destruct (results_totals _ _ _ _ EF) as [_ EM]. rewrite EM in *. clear E EF EM. unfold above_water in *.
  assert (LM : length (@calc_moments _ (Double e) (@calc_moment_arm_in_shifted_csys _ (Double e) (vl_cp o) (ref_vec c)) (vl_force o)) = length (vl_force o)) by (unfold calc_moments, calc_moment_arm_in_shifted_csys; rewrite zipWith_length, map_length, LC; apply Nat.min_id).
  rewrite LM in *. fold n in FF |- *. set (l := firstn n _) in *.
  assert (LL : length l = n) by (unfold l; rewrite firstn_length, LM; apply Nat.min_l; unfold n; apply Nat.div_le_upper_bound; lia).
  destruct (sum_fin e _ _ FF) as [_ FA].
  destruct (choose_all (fun i (MB : vec R * vec R) => (exists p F A, nth_error (vl_cp o) i = Some p /\ force_on o i F A /\ fst MB = scross (exact_arm (ref_vec c) p) F /\ snd MB = mcross (arm_terms (ref_vec c) p) A) /\ forall m, nth_error l i = Some m -> vnear_of 8 m (fst MB) (snd MB)) n) as (L & L1 & L2).
  { intros i Hi. rewrite <- LL in Hi. destruct (nth_error_ex _ _ Hi) as [m NM]. pose proof (proj1 (Forall_forall _ _) FA m (nth_error_In _ _ NM)) as FI. pose proof NM as NM2. unfold l in NM2. rewrite nth_error_firstn in NM2 by (rewrite LL in Hi; exact Hi).
    unfold calc_moments in NM2. apply nth_error_zipWith_inv in NM2. destruct NM2 as (a & f & NA & NF & EQ). unfold calc_moment_arm_in_shifted_csys in NA. apply nth_map_inv in NA. destruct NA as (p & NP & ->). subst m.
    destruct (vcross_fin e _ _ FI) as [FAR FFO]. destruct (force_near e _ _ _ _ _ _ _ i f PF NF FFO) as (v & sp & G & B & H1 & H2 & H3 & H4).
    exists (scross (exact_arm (ref_vec c) p) (exact_force (val (vl_rho o)) G (vvals v) (vvals sp)), mcross (arm_terms (ref_vec c) p) (force_terms (vl_rho o) B v sp)). cbn [fst snd]. split.
    - eexists. eexists. eexists. split; [exact NP|]. split; [exists v, sp, G, B; split; [exact H1|]; split; [exact H2|]; split; [exact H3|]; split; reflexivity|]. split; reflexivity.
    - intros m' NM'. rewrite NM in NM'. injection NM' as <-. exact (vnear_of_cross e 1 5 _ _ _ _ _ _ FI (arm_near _ _ FAR) H4). }
  exists L. split; [exact L1|]. split.
  - intros i M B NL. pose proof (nth_error_Some_lt _ _ _ NL) as Hi. rewrite L1 in Hi. destruct (L2 i Hi) as (B' & NB & (p & F & A & Q1 & Q2 & Q3 & Q4) & _). rewrite NL in NB. injection NB as <-. cbn [fst snd] in Q3, Q4. exists p, F, A. split; [exact Q1|]. split; [exact Q2|]. split; [exact Q3|exact Q4].
  - apply vnear_rounded. rewrite <- LL. apply vsum_near; [exact FF|]. apply Forall2_of_nth; [lia|]. intros i f B NF NB. pose proof (nth_error_Some_lt _ _ _ NB) as Hi. rewrite L1 in Hi. destruct (L2 i Hi) as (B' & NB' & _ & H). rewrite NB in NB'. injection NB' as <-. apply H. exact NF.
Qed.
End Run.
(** what [k] roundings amount to *)
Theorem C97_relative k x X A : INR k <= 1000000 -> 0 <= A -> rounded k x X A -> Rabs (val x - X) <= INR k * (112 / 1000000000000000000) * A.
Proof.
  intros K PA H. apply Rle_trans with (1 := H). apply Rmult_le_compat_r; [exact PA|].
  assert (P : forall m, INR m <= 1000000 -> (1 + / 2 ^ 53) ^ m - 1 <= INR m * (112 / 1000000000000000000)).
  { induction m as [|m IH]; intros M; [simpl; lra|]. rewrite S_INR in *. pose proof (pos_INR m) as PM. specialize (IH ltac:(lra)).
    rewrite <- u_pow in *. pose proof u_val as U. assert (TT : u <= 1112 / 10000000000000000000) by (rewrite U; clear; lra). clear U. pose proof u_pos. change ((1 + u) ^ S m) with ((1 + u) * (1 + u) ^ m). set (q := (1 + u) ^ m) in *. clearbody q. assert (Q1 : u * q <= u * (1 + 112 / 1000000000000)) by (apply Rmult_le_compat_l; lra).
    lra. }
  apply P. exact K.
Qed.

(** a sail and its mirror image, solved in a wind of 4 m/s for every library that is exact at 0: forces, pressures and totals are finite *)
Definition mirrored : list (panel double) := [tilted 0 (-5) (-1) 1; tilted 0 (-5) (-1) (-3)].
Definition mirrored_set : sail_set double :=
  let c := Csys (dZ 0) (dZ 0) (dv 1 0 2) in
  SailSet_ [SailGeom "sail" c (dv 0 0 3) (dv 0 0 1) (firstn 1 mirrored) (skipn 1 mirrored) [true] [false] [] []] mirrored [true; true] [false; false] [].
Example C97_case : forall e, exact_at_0 e -> exists o fr, @Vlm _ (Double e) mirrored 1 1 (dZ 1) (from_ahead 4) [true; true] [false; false] = Ok o /\ @InviscidFlowResults _ (Double e) mirrored_set (Csys (dZ 0) (dZ 0) (dv 1 0 2)) o = Ok fr /\
  length (vl_force o) = 2%nat /\ Forall vfin (vl_force o) /\ Forall (fun p => fin p) (vl_pressure o) /\ Forall (fun a => fin a) (vl_areas o) /\ vfin (fr_F_total fr) /\ vfin (fr_M_total fr).
Proof.
  intros e E.
  pose (vf := fun v : vec double => (is_finite (vx v) && is_finite (vy v) && is_finite (vz v))%bool).
  assert (VF : forall v, vf v = true -> vfin v) by (intros v H; apply Bool.andb_true_iff in H; destruct H as [H Z]; apply Bool.andb_true_iff in H; destruct H as [X Y]; split; [exact X|split; [exact Y|exact Z]]).
  assert (K : forall cp tws awa, (do vars <- @calculate_vlm_variables _ (Double e) mirrored [true; true] (@vlm_gor _ (Double e)) 1 1; do o <- @vlm_solve _ (Double e) mirrored 1 1 (dZ 1) [true; true] [false; false] vars (Inlet cp tws (map (fun _ => inflow 4) (map pv_cp vars)) awa);
     do fr <- @InviscidFlowResults _ (Double e) mirrored_set (Csys (dZ 0) (dZ 0) (dv 1 0 2)) o;
     Ok (length (vl_force o), (forallb vf (vl_force o) && forallb is_finite (vl_pressure o) && forallb is_finite (vl_areas o) && vf (fr_F_total fr) && vf (fr_M_total fr))%bool)) = Ok (2%nat, true)) by (intros; vm_compute; reflexivity).
  clearbody vf. unfold Vlm. destruct (calculate_vlm_variables _ _ _ _ _) as [vars|]; [|specialize (K [] [] []); discriminate K]. cbn [bind] in K |- *. destruct (flat_inlet e 4 (map pv_cp vars) E) as (tws & awa & ->). cbn [bind]. specialize (K (map pv_cp vars) tws awa).
  destruct (vlm_solve _ _ _ _ _ _ _ _) as [o|]; [|discriminate K]. cbn [bind] in K. destruct (InviscidFlowResults _ _ _) as [fr|] eqn:EF; [|discriminate K]. cbn [bind] in K.
  assert (HO : forall A (p q : A), Ok p = Ok q -> p = q) by (intros A p q [= Q]; exact Q). apply HO in K. apply pair_equal_spec in K. destruct K as [K1 K2].
  apply Bool.andb_true_iff in K2. destruct K2 as [K2 K6]. apply Bool.andb_true_iff in K2. destruct K2 as [K2 K5]. apply Bool.andb_true_iff in K2. destruct K2 as [K2 K4]. apply Bool.andb_true_iff in K2. destruct K2 as [K2 K3].
  exists o, fr. split; [reflexivity|]. split; [exact EF|]. split; [exact K1|]. split; [apply Forall_forall; intros x I; apply VF; exact (proj1 (forallb_forall _ _) K2 x I)|].
  split; [apply Forall_forall; intros x I; exact (proj1 (forallb_forall _ _) K3 x I)|]. split; [apply Forall_forall; intros x I; exact (proj1 (forallb_forall _ _) K4 x I)|]. split; [apply VF; exact K5|apply VF; exact K6].
Qed.

Print Assumptions C97_force.
Print Assumptions C97_pressure.
Print Assumptions C97_total.
Print Assumptions C97_moment.
Print Assumptions C97_relative.
