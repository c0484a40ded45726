(** C96: what an accepted run in double arithmetic guarantees, whatever the sizes of its numbers. *)

From Coq Require Import String ZArith Reals List Bool Lra Psatz Lia.
From Flocq Require Import Core BinarySingleNaN.
From Verif Require Import Num PyBase RNum Spec M_Rotations M_Panels M_Velocity M_Solve M_Coefs M_Forces M_Winds M_Vlm L_List L_Rot L_Lift2 L_Vlm2 P_Double P_DoubleRun Double L_Double L_Near L_NearRot P_DoubleRot L_NearLine L_NearVel P_DoubleVel P_DoubleFlux L_Accept.
Import ListNotations.
Open Scope R_scope.

(** ** Specification *)
(** the absolute values of the terms of one component of the velocity, and of the flux *)
Definition terms (c : vec double -> double) (V : vec double) (row : list (vec double)) (g : list double) : R :=
  Rabs (val (c V)) + fold_right (fun ag s => Rabs (val (snd ag)) * Rabs (val (c (fst ag))) + bpow radix2 (-1000) + s) 0 (combine row g).
Definition flux_terms (V : vec double) (row : list (vec double)) (g : list double) (n : vec double) : R :=
  (terms vx V row g * Rabs (val (vx n)) + bpow radix2 (-1000)) + (terms vy V row g * Rabs (val (vy n)) + bpow radix2 (-1000)) + (terms vz V row g * Rabs (val (vz n)) + bpow radix2 (-1000)).
(** the rounding of a flux with [N] rings *)
Definition running_error (N : nat) (V : vec double) (row : list (vec double)) (g : list double) (n : vec double) : R :=
  ((1 + / 2 ^ 53) ^ (N + 5) - 1) * flux_terms V row g n.

(** ** Proofs *)
Section Run.
Context (e : elementary).
Notation D := (Double e).
Lemma u_pow : u = / 2 ^ 53.
Proof. unfold u. change (bpow radix2 (-52)) with (/ 4503599627370496). lra. Qed.
Lemma vadd_fin a b : vfin (@vadd _ D a b) -> vfin a /\ vfin b.
Proof. intros (X & Y & Z). unfold vadd in *. cbn [vx vy vz] in *. destruct (add_fin e _ _ X), (add_fin e _ _ Y), (add_fin e _ _ Z). split; (split; [|split]); assumption. Qed.
Lemma sum_fin l : forall x, vfin (fold_left (@vadd _ D) l x) -> vfin x /\ Forall vfin l.
Proof.
  induction l as [|a l IH]; intros x H; cbn [fold_left] in H; [split; [exact H|constructor]|]. destruct (IH _ H) as [H1 H2]. destruct (vadd_fin _ _ H1) as [H3 H4]. split; [exact H3|]. constructor; assumption.
Qed.
Lemma vscale_fin g a : vfin (@vscale _ D g a) -> fin g /\ vfin a.
Proof. intros (X & Y & Z). unfold vscale in *. cbn [vx vy vz] in *. destruct (mul_fin e _ _ X), (mul_fin e _ _ Y), (mul_fin e _ _ Z). split; [assumption|]. split; [|split]; assumption. Qed.
Lemma vdot_fin a b : fin (@vdot _ D a b) -> vfin a /\ vfin b.
Proof.
  intros H. unfold vdot in H. destruct (add_fin e _ _ H) as [H1 Z]. destruct (add_fin e _ _ H1) as [X Y]. destruct (mul_fin e _ _ X), (mul_fin e _ _ Y), (mul_fin e _ _ Z). split; (split; [|split]); assumption.
Qed.
Lemma vopp_fin a : vfin (@vopp _ D a) -> vfin a.
Proof. intros (X & Y & Z). unfold vopp in *. cbn [vx vy vz] in *. split; [|split]; apply (opp_fin e); assumption. Qed.
Lemma scaled_fin row g : length row = length g -> Forall vfin (zipWith (fun a c => @vscale _ D c a) row g) -> Forall vfin row /\ Forall (fun c => fin c) g.
Proof.
  revert g. induction row as [|a row IH]; intros [|c g] L F; cbn [length] in L; try discriminate; [split; constructor|]. cbn [zipWith] in F. inversion_clear F as [|? ? F1 F2]. destruct (vscale_fin _ _ F1). destruct (IH g ltac:(lia) F2). split; constructor; assumption.
Qed.
Lemma flux_fin v row g n : length row = length g -> fin (@vdot _ D (@vopp _ D (@vadd _ D v (@induced_at _ D row g))) n) ->
  vfin v /\ vfin n /\ vfin (@induced_at _ D row g) /\ vfin (@vadd _ D v (@induced_at _ D row g)) /\ Forall vfin row /\ Forall (fun c => fin c) g.
Proof.
  intros L H. destruct (vdot_fin _ _ H) as [H1 N]. apply vopp_fin in H1. destruct (vadd_fin _ _ H1) as [HV HI]. destruct (sum_fin _ _ HI) as [_ HS]. destruct (scaled_fin _ _ L HS) as [HR HG]. split; [exact HV|]. split; [exact N|]. split; [exact HI|]. split; [exact H1|]. split; [exact HR|exact HG].
Qed.

(* one component of the velocity *)
Lemma comp_sum (c : vec double -> double) (C : vec R -> R) (HC : forall a b, c (@vadd _ D a b) = @nadd _ D (c a) (c b)) (HF : forall a, vfin a -> fin (c a)) :
  forall l (L : list (R * R)) k x X A, vfin (fold_left (@vadd _ D) l x) -> near_of (S k) (c x) X A -> Forall2 (fun a B => near_of 1 (c a) (fst B) (snd B)) l L ->
  near_of (S k + length l) (c (fold_left (@vadd _ D) l x)) (fold_right (fun B s => fst B + s) X L) (fold_right (fun B s => snd B + s) A L).
Proof.
  intros l L k x X A F N H. revert k x X A F N. induction H as [|a B l L HA H IH]; intros k x X A F N; cbn [fold_left fold_right length] in *; [rewrite Nat.add_0_r; exact N|].
  assert (F1 : fin (@nadd _ D (c x) (c a))). { rewrite <- HC. apply HF. apply (sum_fin _ _ F). }
  pose proof (near_of_add e (S k) (c x) (c a) X (fst B) A (snd B) F1 N (near_of_more 1 (S k) _ _ _ ltac:(lia) HA)) as N1. rewrite <- HC in N1.
  specialize (IH (S k) _ _ _ F N1). replace (S k + S (length l))%nat with (S (S k) + length l)%nat by lia.
  assert (E : forall (h : R * R -> R) M p q, fold_right (fun B s => h B + s) (p + q) M = q + fold_right (fun B s => h B + s) p M).
  { intros h M. induction M as [|m M IM]; intros p q; cbn [fold_right]; [ring|rewrite IM; ring]. }
  rewrite !(E _ L) in IH. exact IH.
Qed.
Lemma comp_velocity (c : vec double -> double) (C : vec R -> R) v row g :
  (forall a b, c (@vadd _ D a b) = @nadd _ D (c a) (c b)) -> (forall a, vfin a -> fin (c a)) -> (forall k a, c (@vscale _ D k a) = @nmul _ D k (c a)) -> c (@v0 _ D) = @nZ _ D 0 ->
  (forall a, C (vvals a) = val (c a)) -> (forall a b, C (sadd a b) = C a + C b) -> (forall k a, C (sscale k a) = k * C a) -> length row = length g -> vfin (@vadd _ D v (@induced_at _ D row g)) ->
  near_of (length g + 2) (c (@vadd _ D v (@induced_at _ D row g))) (C (exact_velocity (vvals v) (map vvals row) (map (fun x => val x) g))) (terms c v row g).
Proof.
  intros HA HF HS H0 CV CA CS L F. destruct (vadd_fin _ _ F) as [FV FI]. destruct (sum_fin _ _ FI) as [_ FT].
  pose (L2 := map (fun ag : vec double * double => (val (snd ag) * val (c (fst ag)), Rabs (val (snd ag)) * Rabs (val (c (fst ag))) + floor)) (combine row g)).
  assert (T : Forall2 (fun a B => near_of 1 (c a) (fst B) (snd B)) (zipWith (fun a k => @vscale _ D k a) row g) L2).
  { unfold L2. clear F FI L2. revert g L FT. induction row as [|a row IH]; intros [|k g] L FT; cbn [length] in L; try discriminate; cbn [zipWith combine map] in *; constructor.
    - inversion_clear FT as [|? ? F1 F2]. cbn [fst snd]. pose proof (HF _ F1) as F3. rewrite HS in F3 |- *. apply near_of_mul; [exact F3|]. apply near_of_exact. apply (mul_fin e _ _ F3).
    - inversion_clear FT as [|? ? F1 F2]. apply IH; [lia|exact F2]. }
  destruct (dint e 0 ltac:(lia)) as [Z1 Z2].
  assert (N0 : near_of 1 (c (@v0 _ D)) 0 0). { rewrite H0. constructor; [exact Z1|rewrite Rabs_R0; lra|]. rewrite Z2. rewrite Rminus_0_r, Rabs_R0. lra. }
  pose proof (comp_sum c C HA HF _ _ 0 (@v0 _ D) 0 0 FI N0 T) as N1. fold (@induced_at _ D row g) in N1.
  rewrite zipWith_length, L, Nat.min_id in N1.
  pose proof (HF _ F) as F5. rewrite HA in F5 |- *.
  pose proof (near_of_add e (1 + length g) _ _ _ _ _ _ F5 (near_of_more 0 _ _ _ _ ltac:(lia) (near_of_exact _ (HF _ FV))) N1) as N2.
  replace (length g + 2)%nat with (S (1 + length g)) by lia.
  assert (E1 : C (exact_velocity (vvals v) (map vvals row) (map (fun x => val x) g)) = val (c v) + fold_right (fun B s => fst B + s) 0 L2).
  { unfold L2. clear -CV CA CS L. revert g L. unfold exact_velocity. induction row as [|a row IH]; intros [|k g] L; cbn [length] in L; try discriminate; cbn [map combine fold_right fst snd]; [rewrite CV; ring|]. rewrite CA, CS, CV, IH by lia. ring. }
  assert (E2 : terms c v row g = Rabs (val (c v)) + fold_right (fun B s => snd B + s) 0 L2).
  { unfold terms, L2. f_equal. clear. induction (combine row g) as [|ag l IH]; cbn [map fold_right fst snd]; [reflexivity|]. rewrite IH. unfold floor. reflexivity. }
  rewrite E1, E2. exact N2.
Qed.
Lemma flux_running v row g n : length row = length g -> fin (@vdot _ D (@vopp _ D (@vadd _ D v (@induced_at _ D row g))) n) ->
  Rabs (val (@vdot _ D (@vopp _ D (@vadd _ D v (@induced_at _ D row g))) n) + exact_flux v row g n) <= running_error (length g) v row g n.
Proof.
  intros L H. destruct (flux_fin _ _ _ _ L H) as (_ & _ & _ & FV & _).
  pose proof (comp_velocity vx vx v row g ltac:(reflexivity) ltac:(intros a (Q & _); exact Q) ltac:(reflexivity) ltac:(reflexivity) ltac:(reflexivity) ltac:(reflexivity) ltac:(reflexivity) L FV) as NX.
  pose proof (comp_velocity vy vy v row g ltac:(reflexivity) ltac:(intros a (_ & Q & _); exact Q) ltac:(reflexivity) ltac:(reflexivity) ltac:(reflexivity) ltac:(reflexivity) ltac:(reflexivity) L FV) as NY.
  pose proof (comp_velocity vz vz v row g ltac:(reflexivity) ltac:(intros a (_ & _ & Q); exact Q) ltac:(reflexivity) ltac:(reflexivity) ltac:(reflexivity) ltac:(reflexivity) ltac:(reflexivity) L FV) as NZ.
  set (w := @vadd _ D v (@induced_at _ D row g)) in *. set (W := exact_velocity _ _ _) in *.
  apply (near_of_opp e) in NX. apply (near_of_opp e) in NY. apply (near_of_opp e) in NZ.
  unfold vdot, vopp in H |- *. cbn [vx vy vz] in H |- *. pose proof (add_fin e _ _ H) as [H1 HZ]. pose proof (add_fin e _ _ H1) as [HX HY].
  pose proof (near_of_mul e _ _ _ _ _ HX NX) as MX. pose proof (near_of_mul e _ _ _ _ _ HY NY) as MY. pose proof (near_of_mul e _ _ _ _ _ HZ NZ) as MZ.
  pose proof (near_of_add e _ _ _ _ _ _ _ H1 MX MY) as M1. pose proof (near_of_add e _ _ _ _ _ _ _ H M1 (near_of_more _ _ _ _ _ (Nat.le_succ_diag_r _) MZ)) as [_ _ E].
  unfold running_error, flux_terms, exact_flux. fold W. rewrite <- u_pow. unfold floor in E.
  replace (S (S (S (length g + 2)))) with (length g + 5)%nat in E by lia.
  match type of E with Rabs (?f - _) <= _ => replace (f + sdot W (vvals n)) with (f - (- vx W * val (vx n) + - vy W * val (vy n) + - vz W * val (vz n))) by (unfold sdot, vvals; cbn [vx vy vz]; ring) end. exact E.
Qed.
End Run.

Lemma existsb_false_In {A} (f : A -> bool) l a : existsb f l = false -> In a l -> f a = false.
Proof. intros X I. apply Bool.not_true_iff_false. intros T. apply (Bool.eq_true_false_abs (existsb f l)); [|exact X]. apply existsb_exists. exists a. split; assumption. Qed.
Lemma flux_kept e f : (@nltb _ (Double e) (@ndec _ (Double e) 1 12) (@nabs _ (Double e) f) || @nisnan _ (Double e) f)%bool = false -> fin f /\ Rabs (val f) <= 1001 / 1000000000000000.
Proof.
  intros H. apply Bool.orb_false_iff in H. destruct H as [H1 H2]. destruct flux_limit as [L FL].
  assert (F : fin f). { destruct f as [s|s| |s m z B]; try reflexivity; [|discriminate H2]. revert H1. destruct s; vm_compute; discriminate. }
  split; [exact F|]. destruct (dabs e f F) as [FA VA]. destruct (Rle_or_lt (Rabs (val f)) (val (dec 1 12))) as [Q|Q]; [lra|]. exfalso.
  assert (T : @nltb _ (Double e) (dec 1 12) (@nabs _ (Double e) f) = true) by (apply (dltb e (dec 1 12) _ FL FA); rewrite VA; exact Q).
  change (dec 1 12) with (@ndec _ (Double e) 1 12) in T. congruence.
Qed.

(** the test accepts only numbers, and the exact flux through every panel is then within the limit and the rounding of the flux *)
Theorem C96_test e V vind g normals areas b i v row n :
  @is_no_flux_BC_satisfied _ (Double e) (snd (@calculate_app_fs _ (Double e) V vind g)) areas normals = Ok b ->
  at_panel i V vind normals v row n -> length row = length g ->
  vfin v /\ vfin n /\ Forall vfin row /\ Forall (fun c => fin c) g /\ vfin (@induced_at _ (Double e) row g) /\ vfin (@vadd _ (Double e) v (@induced_at _ (Double e) row g)) /\
  Rabs (exact_flux v row g n) <= 1001 / 1000000000000000 + running_error (length g) v row g n.
Proof.
  intros H (EV & ER & EN) L. unfold is_no_flux_BC_satisfied in H. destruct (existsb _ areas); [discriminate H|]. destruct (existsb _ (zipWith _ _ _)) eqn:X in H; [discriminate H|]. clear H.
  assert (IN : In (@vdot _ (Double e) (@vopp _ (Double e) (@vadd _ (Double e) v (@induced_at _ (Double e) row g))) n) (zipWith (fun v n => @vdot _ (Double e) (@vopp _ (Double e) v) n) (snd (@calculate_app_fs _ (Double e) V vind g)) normals)).
  { apply (nth_error_In _ i). apply (nth_error_zipWith (fun v n => @vdot _ (Double e) (@vopp _ (Double e) v) n)); [|exact EN]. unfold calculate_app_fs. cbn [snd]. apply nth_error_zipWith; [exact EV|].
    exact (map_nth_error (fun row => @induced_at _ (Double e) row g) i vind ER). }
  pose proof (existsb_false_In _ _ _ X IN) as Q. cbv beta in Q. destruct (flux_kept e _ Q) as [F B].
  destruct (flux_fin e v row g n L F) as (P1 & P2 & P3 & P4 & P5 & P6). split; [exact P1|]. split; [exact P2|]. split; [exact P5|]. split; [exact P6|]. split; [exact P3|]. split; [exact P4|].
  pose proof (flux_running e v row g n L F) as R. revert B R. generalize (val (@vdot _ (Double e) (@vopp _ (Double e) (@vadd _ (Double e) v (@induced_at _ (Double e) row g))) n)) (exact_flux v row g n). intros y z B R. unfold Rabs in *. repeat destruct Rcase_abs; lra.
Qed.
(** the test refuses an area that is not a number or below the limit *)
Theorem C96_areas e V areas normals b a : @is_no_flux_BC_satisfied _ (Double e) V areas normals = Ok b -> In a areas -> is_nan a = false /\ (fin a -> 999 / 100000000000000000 < val a).
Proof.
  intros H I. unfold is_no_flux_BC_satisfied in H. destruct (existsb _ areas) eqn:X in H; [discriminate H|]. clear H. pose proof (existsb_false_In _ _ _ X I) as Q. cbv beta in Q. apply Bool.orb_false_iff in Q. destruct Q as [Q1 Q2].
  split; [exact Q1|]. intros F. destruct area_limit as [_ FL]. destruct (Rlt_or_le (val a) (val (dec 1 14))) as [T|T].
  - exfalso. assert (@nltb _ (Double e) a (dec 1 14) = true) by (apply (dltb e a (dec 1 14) F FL); exact T). change (dec 1 14) with (@ndec _ (Double e) 1 14) in *. congruence.
  - apply Rlt_le_trans with (2 := T). rewrite (dec_val 1 14 6338253001141147 (-99)) by (vm_compute; reflexivity). change (bpow radix2 (-99)) with (/ 633825300114114700748351602688). lra.
Qed.

Lemma solve_accepts e panels nc ns rho te le vars ic o : length te = length panels -> length vars = length panels -> length (in_V ic) = length panels ->
  @vlm_solve _ (Double e) panels nc ns rho te le vars ic = Ok o ->
  vl_inlet o = ic /\ vl_vars o = vars /\ vl_panels o = panels /\ vl_areas o = @get_panels_area _ (Double e) panels /\ length (vl_vind o) = length panels /\ Forall (fun row => length row = length panels) (vl_vind o) /\ length (vl_gamma o) = length panels /\
  (vl_V_ind_ctrl o, vl_V_ctrl o) = @calculate_app_fs _ (Double e) (in_V ic) (vl_vind o) (vl_gamma o) /\
  exists b, @is_no_flux_BC_satisfied _ (Double e) (vl_V_ctrl o) (vl_areas o) (map pv_n vars) = Ok b.
Proof.
  intros LT LV LI H. unfold vlm_solve in H. cbv zeta in H. destruct (calc_velocity_coefs _ _ _ _ _ _) as [coeff vind] eqn:CC. destruct (solve_eq _ _) as [gamma|] eqn:SO; [|discriminate H]. cbn [bind] in H.
  destruct (calculate_app_fs _ _ _) as [ind ctrl] eqn:AP. destruct (is_no_flux_BC_satisfied _ _ _) as [b|] eqn:NF; [|discriminate H]. cbn [bind] in H. destruct (guard b AssertionError); [|discriminate H]. cbn [bind] in H.
  destruct (calc_force_wrapper _ _ _ _ _ _ _ _ _ _ "force_xyz"%string _) as [[[f vc] vi]|]; [|discriminate H]. cbn [bind] in H.
  destruct (calc_force_wrapper _ _ _ _ _ _ _ _ _ _ "lift"%string _) as [[[f1 vc1] vi1]|]; [|discriminate H]. cbn [bind] in H.
  destruct (calc_force_wrapper _ _ _ _ _ _ _ _ _ _ "drag"%string _) as [[[f2 vc2] vi2]|]; [|discriminate H]. cbn [bind] in H.
  assert (HO : forall A (p q : A), Ok p = Ok q -> p = q) by (intros A p q [= Q]; exact Q). apply HO in H. clear HO. subst o. cbn [vl_inlet vl_vars vl_panels vl_areas vl_vind vl_gamma vl_V_ind_ctrl vl_V_ctrl].
  apply solve_length in SO. unfold calc_velocity_coefs in CC. cbv zeta in CC. apply pair_equal_spec in CC. destruct CC as [CC1 CC2]. subst vind coeff.
  rewrite zipWith_length, !map_length, Nat.min_id in SO.
  split; [reflexivity|]. split; [reflexivity|]. split; [reflexivity|]. split; [reflexivity|]. split; [rewrite !map_length; exact LV|]. split; [|split; [lia|split; [symmetry; exact AP|exists b; exact NF]]].
  apply Forall_forall. intros row I. apply in_map_iff in I. destruct I as (p & <- & _). unfold influence_row. rewrite ?zipWith_length, ?map_length, ?combine_length, ?map_length. lia.
Qed.
(** every run that is accepted: the wind, the normals, the influence coefficients, the circulations and the velocities at the control points are all finite numbers *)
Theorem C96_run e panels nc ns rho w te le o : length te = length panels -> @Vlm _ (Double e) panels nc ns rho w te le = Ok o ->
  Forall vfin (in_V (vl_inlet o)) /\ Forall vfin (vl_normals o) /\ Forall (Forall vfin) (vl_vind o) /\ Forall (fun c => fin c) (vl_gamma o) /\ Forall vfin (vl_V_ind_ctrl o) /\ Forall vfin (vl_V_ctrl o) /\
  Forall (fun a => is_nan a = false /\ (fin a -> 999 / 100000000000000000 < val a)) (vl_areas o) /\
  forall i v row n, at_panel i (in_V (vl_inlet o)) (vl_vind o) (vl_normals o) v row n -> Rabs (exact_flux v row (vl_gamma o) n) <= 1001 / 1000000000000000 + running_error (length panels) v row (vl_gamma o) n.
Proof.
  intros LT E. unfold Vlm in E. destruct (calculate_vlm_variables _ _ _ _ _) as [vars|] eqn:CV; [|discriminate]. cbn [bind] in E. destruct (InletConditions _ _) as [ic|] eqn:IC; [|discriminate]. cbn [bind] in E.
  pose proof (vlm_vars_length _ _ _ _ _ _ LT CV) as LV. pose proof (inlet_length _ _ _ IC) as LI. rewrite map_length, LV in LI.
  destruct (solve_accepts e panels nc ns rho te le vars ic o LT LV LI E) as (EI & EV & EP & EA & L1 & L2 & L3 & AP & b & NF). clear E CV IC. unfold vl_normals. rewrite EI, EV.
  apply pair_equal_spec in AP. destruct AP as [AP1 AP2].
  assert (LN : length (map pv_n vars) = length panels) by (rewrite map_length; exact LV). set (normals := map pv_n vars) in *. clearbody normals. clear EV LV vars. set (V := in_V ic) in *. clearbody V. clear EI ic.
  assert (T : forall i, (i < length panels)%nat -> exists v row n, at_panel i V (vl_vind o) normals v row n).
  { intros i Hi. destruct (nth_error_ex V i ltac:(lia)) as [v Q1]. destruct (nth_error_ex (vl_vind o) i ltac:(lia)) as [row Q2]. destruct (nth_error_ex normals i ltac:(lia)) as [n Q3]. exists v, row, n. split; [exact Q1|split; [exact Q2|exact Q3]]. }
  assert (LR : forall i v row n, at_panel i V (vl_vind o) normals v row n -> length row = length (vl_gamma o)).
  { intros i v row n (_ & Q & _). rewrite L3. exact (proj1 (Forall_forall _ _) L2 row (nth_error_In _ _ Q)). }
  assert (NF2 : @is_no_flux_BC_satisfied _ (Double e) (snd (@calculate_app_fs _ (Double e) V (vl_vind o) (vl_gamma o))) (vl_areas o) normals = Ok b) by (cbn [snd calculate_app_fs]; rewrite <- AP2; exact NF).
  pose proof (fun i v row n A => C96_test e V (vl_vind o) (vl_gamma o) normals (vl_areas o) b i v row n NF2 A (LR i v row n A)) as R.
  split; [|split; [|split; [|split; [|split; [|split; [|split]]]]]].
  - apply Forall_forall. intros x I. apply In_nth_error in I. destruct I as [i I]. destruct (T i) as (v & row & n & A); [rewrite <- LI; apply (nth_error_Some_lt _ _ _ I)|]. pose proof (proj1 (R _ _ _ _ A)) as Q. destruct A as (A & _). rewrite A in I. injection I as <-. exact Q.
  - apply Forall_forall. intros x I. apply In_nth_error in I. destruct I as [i I]. destruct (T i) as (v & row & n & A); [rewrite <- LN; apply (nth_error_Some_lt _ _ _ I)|]. destruct (R _ _ _ _ A) as (_ & Q & _). destruct A as (_ & _ & A). rewrite A in I. injection I as <-. exact Q.
  - apply Forall_forall. intros x I. apply In_nth_error in I. destruct I as [i I]. destruct (T i) as (v & row & n & A); [rewrite <- L1; apply (nth_error_Some_lt _ _ _ I)|]. destruct (R _ _ _ _ A) as (_ & _ & Q & _). destruct A as (_ & A & _). rewrite A in I. injection I as <-. exact Q.
  - destruct (vl_gamma o) as [|g0 gs] eqn:EG; [constructor|]. destruct (T 0%nat) as (v & row & n & A); [rewrite <- L3; cbn [length]; lia|]. destruct (R _ _ _ _ A) as (_ & _ & _ & Q & _). exact Q.
  - rewrite AP1. apply Forall_forall. intros x I. apply In_nth_error in I. destruct I as [i I]. pose proof I as I2. unfold calc_induced_velocity in I2. apply nth_map_inv in I2. destruct I2 as (row' & I2 & ->).
    destruct (T i) as (v & row & n & A); [rewrite <- L1; apply (nth_error_Some_lt _ _ _ I2)|]. destruct (R _ _ _ _ A) as (_ & _ & _ & _ & Q & _). destruct A as (_ & A & _). rewrite A in I2. injection I2 as <-. exact Q.
  - rewrite AP2. apply Forall_forall. intros x I. apply In_nth_error in I. destruct I as [i I]. apply nth_error_zipWith_inv in I. destruct I as (v' & ind & I1 & I2 & ->). unfold calc_induced_velocity in I2. apply nth_map_inv in I2. destruct I2 as (row' & I2 & ->).
    destruct (T i) as (v & row & n & A); [rewrite <- L1; apply (nth_error_Some_lt _ _ _ I2)|]. destruct (R _ _ _ _ A) as (_ & _ & _ & _ & _ & Q & _). destruct A as (A1 & A & _). rewrite A in I2. injection I2 as <-. rewrite A1 in I1. injection I1 as <-. exact Q.
  - apply Forall_forall. intros a I. exact (C96_areas e _ _ _ _ a NF I).
  - intros i v row n A. pose proof (R _ _ _ _ A) as (_ & _ & _ & _ & _ & _ & Q). rewrite L3 in Q. exact Q.
Qed.

(** the test looks at the control points only: in this run it is passed, and the force on the second sail, whose centre of pressure lies on the edge of the wake of the first, is not a number *)
Definition tilted (x0 y0 y1 z0 : Z) : panel double := Panel (V3 (dZ (x0 + 2)) (dZ y1) (dZ z0)) (V3 (dZ x0) (dZ y0) (dZ z0)) (V3 (dZ x0) (dZ y0) (dZ (z0 + 2))) (V3 (dZ (x0 + 2)) (dZ y1) (dZ (z0 + 2))).
Definition in_wake : list (panel double) := [tilted 0 (-5) (-1) 1; tilted 6 1 (-3) 2].
Definition exact_at_0 (e : elementary) : Prop := e_cos e (dZ 0) = dZ 1 /\ e_sin e (dZ 0) = dZ 0.
Definition from_ahead (speed : Z) : wind double := Wind_ (dZ 0) (dZ speed) (dZ 0) Flat.
Definition inflow (speed : Z) : vec double := V3 (Bplus mode_NE (Bmult mode_NE (dZ speed) (dZ 1)) (dZ 0)) (Bmult mode_NE (dZ speed) (dZ 0)) (dZ 0).
Lemma flat_inlet e speed cp : exact_at_0 e -> exists tws awa, @InletConditions _ (Double e) (from_ahead speed) cp = Ok (Inlet cp tws (map (fun _ => inflow speed) cp) awa).
Proof.
  intros [C S]. unfold InletConditions, get_true_wind_speed_at_h, wind_speed_at_h. cbn [from_ahead w_prof w_tws bind].
  assert (M : forall A B (y : B) (l : list A), mapM (fun _ : A => Ok y) l = Ok (map (fun _ => y) l)).
  { intros A B y l. induction l as [|a l IH]; [reflexivity|]. cbn [mapM map]. rewrite IH. reflexivity. }
  rewrite M. cbn [bind]. rewrite map_map. unfold length_to_xyz_vector. replace (@w_alpha _ (Double e) (from_ahead speed)) with (dZ 0) by (vm_compute; reflexivity). cbn [ncos nsin Double]. rewrite C, S. eexists. eexists. reflexivity.
Qed.
Lemma wake_runs e : exact_at_0 e -> exists o, @Vlm _ (Double e) in_wake 1 1 (dZ 1) (from_ahead 4) [true; true] [false; false] = Ok o /\ forallb (fun v => negb (is_finite (vx v)) && negb (is_finite (vy v)))%bool (skipn 1 (vl_force o)) = true /\ length (vl_force o) = 2%nat /\ map is_finite (vl_pressure o) = [true; false].
Proof.
  intros E. unfold Vlm.
  assert (K : forall cp tws awa, (do vars <- @calculate_vlm_variables _ (Double e) in_wake [true; true] (@vlm_gor _ (Double e)) 1 1; do o <- @vlm_solve _ (Double e) in_wake 1 1 (dZ 1) [true; true] [false; false] vars (Inlet cp tws (map (fun _ => inflow 4) (map pv_cp vars)) awa);
     Ok (forallb (fun v => negb (is_finite (vx v)) && negb (is_finite (vy v)))%bool (skipn 1 (vl_force o)), length (vl_force o), map is_finite (vl_pressure o))) = Ok (true, 2%nat, [true; false])) by (intros; vm_compute; reflexivity).
  destruct (calculate_vlm_variables _ _ _ _ _) as [vars|]; [|specialize (K [] [] []); discriminate K]. cbn [bind] in K |- *. destruct (flat_inlet e 4 (map pv_cp vars) E) as (tws & awa & ->). cbn [bind]. specialize (K (map pv_cp vars) tws awa).
  destruct (vlm_solve _ _ _ _ _ _ _ _) as [o|]; [|discriminate K]. cbn [bind] in K. exists o. split; [reflexivity|]. assert (HO : forall A (p q : A), Ok p = Ok q -> p = q) by (intros A p q [= Q]; exact Q). apply HO in K. apply pair_equal_spec in K. destruct K as [K K3]. apply pair_equal_spec in K. destruct K as [K1 K2]. split; [exact K1|]. split; [exact K2|exact K3].
Qed.
Theorem C96_wake_refuted : exists panels w, forall e, exact_at_0 e -> exists o, @Vlm _ (Double e) panels 1 1 (dZ 1) w [true; true] [false; false] = Ok o /\ ~ Forall vfin (vl_force o) /\ ~ Forall (fun p => fin p) (vl_pressure o).
Proof.
  exists in_wake, (from_ahead 4). intros e E. destruct (wake_runs e E) as (o & R & F & L & P). exists o. split; [exact R|]. split; intros A.
  - destruct (vl_force o) as [|a [|b l]]; try discriminate L. cbn [skipn forallb] in F. inversion_clear A as [|? ? _ A2]. inversion_clear A2 as [|? ? (X & _) _]. rewrite X in F. discriminate F.
  - destruct (vl_pressure o) as [|a [|b l]]; try discriminate P. injection P as _ P _. inversion_clear A as [|? ? _ A2]. inversion_clear A2 as [|? ? X _]. rewrite X in P. discriminate P.
Qed.

(** the numbers of C94_case pass the test; a library with exact sines and cosines of 0, for which the two sails are solved *)
Definition stub : elementary := Elementary (fun _ => dZ 0) (fun _ => dZ 1) (fun x => x) (fun x => x) (fun x => x) (fun x _ => x) (fun x => x) (fun x _ => x).
Example C96_case : exact_at_0 stub /\ (exists o, @Vlm _ (Double stub) in_wake 1 1 (dZ 1) (from_ahead 4) [true; true] [false; false] = Ok o /\ length (vl_gamma o) = 2%nat) /\
  forall e, @is_no_flux_BC_satisfied _ (Double e) (snd (@calculate_app_fs _ (Double e) [dv 10 3 0] [[dv 1 1 3]] [dZ (-3)])) [dZ 4] [dv 0 1 0] = Ok true /\ at_panel 0 [dv 10 3 0] [[dv 1 1 3]] [dv 0 1 0] (dv 10 3 0) [dv 1 1 3] (dv 0 1 0).
Proof.
  assert (E : exact_at_0 stub) by (split; reflexivity). split; [exact E|]. split.
  - destruct (wake_runs stub E) as (o & R & _). exists o. split; [exact R|]. unfold Vlm in R. destruct (calculate_vlm_variables _ _ _ _ _) as [vars|] eqn:CV; [|discriminate]. cbn [bind] in R. destruct (InletConditions _ _) as [ic|] eqn:IC; [|discriminate]. cbn [bind] in R.
    pose proof (vlm_vars_length _ _ _ _ _ _ (eq_refl : length [true; true] = length in_wake) CV) as LV. pose proof (inlet_length _ _ _ IC) as LI. rewrite map_length, LV in LI. apply (solve_accepts stub in_wake 1 1 (dZ 1) [true; true] [false; false] vars ic o eq_refl LV LI R).
  - intros e. destruct C94_case as (_ & A & _ & _ & _ & Q). split; [exact (proj1 (Q e))|exact A].
Qed.

Print Assumptions C96_test.
Print Assumptions C96_areas.
Print Assumptions C96_run.
Print Assumptions C96_wake_refuted.
