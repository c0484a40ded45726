(** Double arithmetic, X: the moment of an accepted run against that of the exact solution. *)

From Coq Require Import String ZArith Reals List Bool Lra Psatz Lia.
From Flocq Require Import Core BinarySingleNaN.
From Verif Require Import Num PyBase RNum Spec M_Csys M_Rotations M_Panels M_Velocity M_Solve M_Coefs M_Forces M_Winds M_Sail M_Vlm M_Results L_List L_Rot L_Vel L_Solve L_Vlm L_Lift2 L_Vlm2 P_Double P_DoubleRun Double L_Double L_Near L_NearRot P_DoubleRot L_NearLine L_NearSail L_NearVel P_DoubleVel P_DoubleFlux L_Accept L_Accept2 P_DoubleAccept P_DoubleForce P_DoubleTrue P_DoubleSolve P_DoubleExact.
Import ListNotations.
Open Scope R_scope.

(** ** Specification *)
(** the moment, about the reference point, of the exact force on panel [i] *)
Definition exact_moment_on (o : vlm double) (M h k : R) (x : list R) (ref : vec double) (i : nat) (T : vec R) : Prop :=
  exists p F, nth_error (vl_cp o) i = Some p /\ exact_force_on o M h k x i F /\ T = scross (exact_arm ref p) F.
(** coordinates of the centres of pressure and of the reference point together up to [L] *)
Definition arms (o : vlm double) (ref : vec double) (L : R) : Prop :=
  forall i p, nth_error (vl_cp o) i = Some p ->
    Rabs (val (vx p)) + Rabs (val (vx ref)) <= L /\ Rabs (val (vy p)) + Rabs (val (vy ref)) <= L /\ Rabs (val (vz p)) + Rabs (val (vz ref)) <= L.
Definition moment_error (k : nat) (rho delta W B S eps L : R) : R :=
  ((1 + / 2 ^ 53) ^ k - 1) * (2 * (L * force_size rho W B S + bpow radix2 (-1000))) + 2 * (L * (Rabs rho * S * (2 * delta * W + (B + 2 * delta) * eps))).

(** ** Proofs *)
Lemma cross_gap a b f g x y L d : Rabs a <= L -> Rabs b <= L -> Rabs (f - x) <= d -> Rabs (g - y) <= d -> Rabs ((a * f - b * g) - (a * x - b * y)) <= 2 * (L * d).
Proof.
  intros A B F G. replace (a * f - b * g - (a * x - b * y)) with (a * (f - x) + - (b * (g - y))) by ring. eapply Rle_trans; [apply Rabs_triang|]. rewrite Rabs_Ropp, !Rabs_mult.
  assert (Rabs a * Rabs (f - x) <= L * d) by (apply Rmult_le_compat; try apply Rabs_pos; assumption). assert (Rabs b * Rabs (g - y) <= L * d) by (apply Rmult_le_compat; try apply Rabs_pos; assumption). lra.
Qed.
Lemma cross_terms a b f g L T t : 0 <= a <= L -> 0 <= b <= L -> 0 <= f <= T -> 0 <= g <= T -> 0 <= t -> 0 <= (a * f + t) + (b * g + t) <= 2 * (L * T + t).
Proof. intros A B F G P. assert (0 <= a * f) by (apply Rmult_le_pos; lra). assert (0 <= b * g) by (apply Rmult_le_pos; lra). assert (a * f <= L * T) by (apply Rmult_le_compat; lra). assert (b * g <= L * T) by (apply Rmult_le_compat; lra). lra. Qed.
Lemma arm_size o ref L i p : arms o ref L -> nth_error (vl_cp o) i = Some p ->
  (Rabs (vx (exact_arm ref p)) <= L /\ Rabs (vy (exact_arm ref p)) <= L /\ Rabs (vz (exact_arm ref p)) <= L) /\ (0 <= vx (arm_terms ref p) <= L /\ 0 <= vy (arm_terms ref p) <= L /\ 0 <= vz (arm_terms ref p) <= L).
Proof.
  intros H N. destruct (H i p N) as (X & Y & Z). assert (T : forall a b, Rabs (a - b) <= Rabs a + Rabs b) by (intros a b; unfold Rminus; rewrite <- (Rabs_Ropp b); apply Rabs_triang).
  unfold exact_arm, arm_terms, sadd, vabs. cbn [vx vy vz]. pose proof (Rabs_pos (val (vx p))). pose proof (Rabs_pos (val (vx ref))). pose proof (Rabs_pos (val (vy p))). pose proof (Rabs_pos (val (vy ref))). pose proof (Rabs_pos (val (vz p))). pose proof (Rabs_pos (val (vz ref))).
  split; [|lra]. split; [eapply Rle_trans; [apply T|exact X]|]. split; [eapply Rle_trans; [apply T|exact Y]|]. destruct (Rlt_dec 0 (val (vz p))); [eapply Rle_trans; [apply T|exact Z]|eapply Rle_trans; [apply Rabs_triang|exact Z]].
Qed.
(** the reported total moment against the moment of the exact forces on the panels above the water *)
Theorem C103_moment e panels nc ns rho w te le o Wss M h k beta phi W B S eps L st c fr : length te = length panels -> @Vlm _ (Double e) panels nc ns rho w te le = Ok o ->
  distances M h k -> induced_at_controls o M h k Wss -> stable (length panels) (exact_coef o Wss) beta ->
  (forall i v n Ws, nth_error (in_V (vl_inlet o)) i = Some v -> nth_error (vl_normals o) i = Some n -> nth_error Wss i = Some Ws -> flux_limit (length panels) (coef_error M h k) v Ws (vl_gamma o) n <= phi) ->
  sizes o M h k (beta * phi) W B S eps -> arms o (ref_vec c) L -> @InviscidFlowResults _ (Double e) st c o = Ok fr -> vfin (fr_M_total fr) ->
  let n := (length (vl_force o) / 2)%nat in
  exists x, exact_circulations o Wss x /\ (forall y, exact_circulations o Wss y -> y = x) /\
    forall Ts, length Ts = n -> (forall i T, nth_error Ts i = Some T -> exact_moment_on o M h k x (ref_vec c) i T) -> vclose (INR n * moment_error (8 + n) (val rho) (beta * phi) W B S eps L) (vvals (fr_M_total fr)) (ssum Ts).
Proof.
  intros LT E DD IC ST FL SZ AR EF FF n. destruct (C101_circulations e panels nc ns rho w te le o Wss M h k beta phi LT E DD IC ST FL) as (x & EX & UN & CL). exists x. split; [exact EX|]. split; [exact UN|].
  destruct (run_rows e panels nc ns rho w te le o LT E) as (_ & _ & LR & _). destruct EX as [LX _]. intros Ts LTs HT. destruct (run_forces e _ _ _ _ _ _ _ _ E) as (_ & _ & ER & _).
  destruct (C97_moment e panels nc ns rho w te le o st c fr E EF FF) as (l & LL & FO & R1 & R2 & R3). fold n in LL, R1, R2, R3.
  assert (K : forall C, (C = vx \/ C = vy \/ C = vz) -> Rabs (C (vvals (fr_M_total fr)) - C (ssum (map fst l))) <= ((1 + / 2 ^ 53) ^ (8 + n) - 1) * C (ssum (map snd l)) -> Rabs (C (vvals (fr_M_total fr)) - C (ssum Ts)) <= INR n * moment_error (8 + n) (val rho) (beta * phi) W B S eps L).
  { intros C HC R. destruct (sum_gap C (2 * (L * (Rabs (val (vl_rho o)) * S * (2 * (beta * phi) * W + (B + 2 * (beta * phi)) * eps)))) ((1 + / 2 ^ 53) ^ (8 + n) - 1) (2 * (L * force_size (val (vl_rho o)) W B S + bpow radix2 (-1000))) l Ts HC ltac:(lia)) as [G _]; [|apply grow|].
    - intros i T A X NL NX. destruct (FO i T A NL) as (p & F & FA & NP & FN & -> & ->). destruct (HT i X NX) as (p' & F' & NP' & FX & ->). rewrite NP in NP'. assert (HS : forall Z (a b : Z), Some a = Some b -> a = b) by (intros Z a b [= Q]; exact Q). apply HS in NP'. subst p'.
      destruct (force_off e panels nc ns rho w te le o M h k x (beta * phi) W B S eps i F FA F' LT E DD (eq_trans LX LR) CL SZ FN FX) as [(C1 & C2 & C3) TT].
      pose proof (TT vx ltac:(auto)) as T1. pose proof (TT vy ltac:(auto)) as T2. pose proof (TT vz ltac:(auto)) as T3. destruct (arm_size o (ref_vec c) L i p AR NP) as [(A1 & A2 & A3) (A4 & A5 & A6)]. pose proof (bpow_ge_0 radix2 (-1000)) as PF.
      destruct HC as [-> | [-> | ->]]; unfold scross, mcross, floor; cbn [vx vy vz]; (split; [apply cross_gap; assumption|apply cross_terms; assumption]).
    - rewrite LTs, ER in G. unfold moment_error. set (a := C (vvals (fr_M_total fr))) in *. set (b := C (ssum (map fst l))) in *. set (d := C (ssum Ts)) in *. replace (a - d) with ((a - b) + (b - d)) by ring. eapply Rle_trans; [apply Rabs_triang|]. lra. }
  split; [|split]; apply K; auto.
Qed.

(** ** Case: the moment about a point 2 m above the water *)
Lemma case_arms : forall e, exact_at_0 e -> exists o, @Vlm _ (Double e) mirrored 1 1 (dZ 1) (from_ahead 4) [true; true] [false; false] = Ok o /\ arms o (dv 1 0 2) 10.
Proof.
  intros e E. pose (near0 := fun v : vec double => vbetween (-8192) 8192 (-8192) 8192 (-8192) 8192 v).
  assert (K : forall cp tws awa, (do vars <- @calculate_vlm_variables _ (Double e) mirrored [true; true] (@vlm_gor _ (Double e)) 1 1; do o <- @vlm_solve _ (Double e) mirrored 1 1 (dZ 1) [true; true] [false; false] vars (Inlet cp tws (map (fun _ => inflow 4) (map pv_cp vars)) awa); Ok (forallb near0 (vl_cp o))) = Ok true) by (intros; vm_compute; reflexivity).
  assert (HN : forall v, near0 v = true -> Rabs (val (vx v)) <= 8 /\ Rabs (val (vy v)) <= 8 /\ Rabs (val (vz v)) <= 8) by (intros v H; unfold near0 in H; apply vbetween_val in H; repeat split; apply Rabs_le; lra).
  clearbody near0. unfold Vlm. destruct (calculate_vlm_variables _ _ _ _ _) as [vars|]; [|specialize (K [] [] []); discriminate K]. cbn [bind] in K |- *. destruct (flat_inlet e 4 (map pv_cp vars) E) as (tws & awa & ->). cbn [bind]. specialize (K (map pv_cp vars) tws awa).
  destruct (vlm_solve _ _ _ _ _ _ _ _) as [o|] eqn:EO; [|discriminate K]. cbn [bind] in K. assert (HO : forall A (p q : A), Ok p = Ok q -> p = q) by (intros A p q [= Q]; exact Q). apply HO in K. exists o. split; [reflexivity|].
  intros i p N. destruct (HN p (proj1 (forallb_forall _ _) K p (nth_error_In _ _ N))) as (X & Y & Z). unfold dv. cbn [vx vy vz]. rewrite !dZ_val by lia. rewrite !Rabs_pos_eq with (x := 1), Rabs_R0, !(Rabs_pos_eq 2) by lra. lra.
Qed.
Example C103_moment_case : forall e, exact_at_0 e -> exists o fr Wss x T, @Vlm _ (Double e) mirrored 1 1 (dZ 1) (from_ahead 4) [true; true] [false; false] = Ok o /\ @InviscidFlowResults _ (Double e) mirrored_set (Csys (dZ 0) (dZ 0) (dv 1 0 2)) o = Ok fr /\
  arms o (dv 1 0 2) 10 /\ exact_circulations o Wss x /\ exact_moment_on o 10 1 1 x (dv 1 0 2) 0 T /\ vclose (1 / 1000) (vvals (fr_M_total fr)) T.
Proof.
  intros e E. destruct (C103_case e E) as (o & Wss & x & f & X & EO & IC & ST & SZ & EX & NF & FX & _ & _). destruct (C101_case e E) as (o2 & Wss2 & p & vc & Us & EO2 & DD & IC2 & ST2 & FL & _). destruct (C97_case e E) as (o3 & fr & EO3 & EF & LF & _ & _ & _ & _ & FT). destruct (case_arms e E) as (o4 & EO4 & AR).
  assert (HO : forall A (p q : A), Ok p = Ok q -> p = q) by (intros A p' q [= Q]; exact Q). rewrite EO in EO2, EO3, EO4. apply HO in EO2, EO3, EO4. subst o2 o3 o4.
  destruct (C103_moment e mirrored 1 1 (dZ 1) (from_ahead 4) [true; true] [false; false] o Wss2 10 1 1 5 (1 / 100000000) 8 12 2 (1 / 1000000) 10 mirrored_set (Csys (dZ 0) (dZ 0) (dv 1 0 2)) fr eq_refl EO DD IC2 ST2 FL SZ AR EF FT) as (x2 & EX2 & _ & CL).
  destruct FX as (p' & v & s & Us' & G & NP & NV & NS & IB & (g & NG & [(EL & _)|(_ & IT & _)]) & _).
  2: { exfalso. destruct (case_sizes e E) as (o2 & _ & EO2 & _ & _ & _ & _ & EL). rewrite EO in EO2. apply HO in EO2. subst o2. rewrite EL in IT. destruct IT as [H|[H|[]]]; discriminate H. }
  destruct (run_rows e mirrored 1 1 (dZ 1) (from_ahead 4) [true; true] [false; false] o eq_refl EO) as (_ & _ & LR & _). destruct (nth_error_ex x2 0) as [y NY]; [destruct EX2 as [LX _]; rewrite LX, LR; cbn; lia|].
  set (T := scross (exact_arm (dv 1 0 2) p') (exact_force (val (vl_rho o)) y (exact_velocity (vvals v) Us' x2) (vvals s))).
  exists o, fr, Wss2, x2, T. split; [exact EO|]. split; [exact EF|]. split; [exact AR|]. split; [exact EX2|].
  assert (FX : exact_moment_on o 10 1 1 x2 (dv 1 0 2) 0 T).
  { exists p', (exact_force (val (vl_rho o)) y (exact_velocity (vvals v) Us' x2) (vvals s)). split; [exact NP|]. split; [|reflexivity]. exists p', v, s, Us', y. split; [exact NP|]. split; [exact NV|]. split; [exact NS|]. split; [exact IB|]. split; [|reflexivity]. exists y. split; [exact NY|]. left. split; [exact EL|reflexivity]. }
  split; [exact FX|]. clearbody T. specialize (CL [T]). rewrite LF in CL. change (2 / 2)%nat with 1%nat in CL. specialize (CL eq_refl ltac:(intros [|[|i]] Z NZ; try discriminate NZ; injection NZ as <-; exact FX)).
  assert (S1 : forall Z : vec R, ssum [Z] = Z) by (intros [a b c]; unfold ssum, sadd, szero; cbn [fold_right vx vy vz]; f_equal; ring). rewrite S1 in CL. clear S1.
  assert (EB : INR 1 * moment_error (8 + 1) (val (dZ 1)) (5 * (1 / 100000000)) 8 12 2 (1 / 1000000) 10 <= 1 / 1000).
  { rewrite (dZ_val 1) by lia. cbn [INR]. rewrite Rmult_1_l. unfold moment_error, force_size. rewrite Rabs_pos_eq by lra. assert (TT : 0 <= bpow radix2 (-1000) <= / 4) by (split; [apply bpow_ge_0|]; change (/ 4) with (bpow radix2 (-2)); apply bpow_le; lia). set (t := bpow radix2 (-1000)) in *. clearbody t.
    assert (PW : (1 + / 2 ^ 53) ^ (8 + 1) - 1 <= 1 / 10000000000000). { assert (U : / 2 ^ 53 <= 1 / 1000000000000000) by lra. assert (U0 : 0 <= / 2 ^ 53) by lra. assert (Q : (1 + / 2 ^ 53) ^ (8 + 1) <= (1 + 1 / 1000000000000000) ^ (8 + 1)) by (apply pow_incr; lra). assert (R : (1 + 1 / 1000000000000000) ^ (8 + 1) <= 1 + 1 / 10000000000000) by (change (8 + 1)%nat with 9%nat; cbn [pow]; lra). clear - Q R. set (z := (1 + / 2 ^ 53) ^ (8 + 1)) in *. clearbody z. lra. }
    pose proof (grow (8 + 1)) as P0. set (P := (1 + / 2 ^ 53) ^ (8 + 1) - 1) in *. clearbody P. match goal with |- P * ?m + _ <= _ => assert (P * m <= 1 / 10000000000000 * 6000) by (apply Rmult_le_compat; lra) end. lra. }
  destruct CL as (C1 & C2 & C3). unfold vclose. lra.
Qed.

Print Assumptions C103_moment.
