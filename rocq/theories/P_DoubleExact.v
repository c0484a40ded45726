(** Double arithmetic, VIII: the forces of an accepted run against those of the exact solution. *)

From Coq Require Import String ZArith Reals List Bool Lra Psatz Lia.
From Flocq Require Import Core BinarySingleNaN.
From Verif Require Import Num PyBase RNum Spec M_Csys M_Rotations M_Panels M_Velocity M_Solve M_Coefs M_Forces M_Winds M_Sail M_Vlm M_Results L_List L_Rot L_Vel L_Solve L_Vlm L_Lift2 L_Vlm2 P_Double P_DoubleRun Double L_Double L_Near L_NearRot P_DoubleRot L_NearLine L_NearSail L_NearVel P_DoubleVel P_DoubleFlux L_Accept L_Accept2 P_DoubleAccept P_DoubleForce P_DoubleTrue P_DoubleSolve.
Import ListNotations.
Open Scope R_scope.

(** ** Specification *)
(** the circulation of a bound vortex, from a list of real circulations *)
Definition exact_net (x : list R) (le : list bool) (ns i : nat) (G : R) : Prop :=
  exists g, nth_error x i = Some g /\
    ((nth_error le i = Some true \/ ~ In true le) /\ G = g \/
     nth_error le i = Some false /\ In true le /\ exists g', nth_error x (if (ns <=? i)%nat then i - ns else i + length x - ns) = Some g' /\ G = g - g').
(** the force on panel [i]: the law of Kutta and Joukowsky for the circulations [x] and the velocity they induce by the law of Biot and Savart *)
Definition exact_force_on (o : vlm double) (M h k : R) (x : list R) (i : nat) (F : vec R) : Prop :=
  exists p v s Us G, nth_error (vl_cp o) i = Some p /\ nth_error (in_V (vl_inlet o)) i = Some v /\ nth_error (vl_spans o) i = Some s /\
    induced_by o M h k p Us /\ exact_net x (vl_le o) (vl_ns o) i G /\ F = exact_force (val (vl_rho o)) G (exact_velocity (vvals v) Us x) (vvals s).
(** velocities at the centres of pressure up to [W] m/s, each computed to [eps] when the circulations are within [delta]; circulations of the bound vortices up to [B], their lengths up to [S] *)
Record sizes (o : vlm double) (M h k delta W B S eps : R) : Prop := {
  sz_velocity : forall i v, nth_error (vl_V_cp o) i = Some v -> vfin v /\ Rabs (val (vx v)) <= W /\ Rabs (val (vy v)) <= W /\ Rabs (val (vz v)) <= W;
  sz_net : forall i G b, net_of (vl_gamma o) (vl_le o) (vl_ns o) i G b -> b <= B;
  sz_span : forall i s, nth_error (vl_spans o) i = Some s -> Rabs (val (vx s)) + Rabs (val (vy s)) + Rabs (val (vz s)) <= S;
  sz_eps : forall i p v Us C, nth_error (vl_cp o) i = Some p -> nth_error (in_V (vl_inlet o)) i = Some v -> induced_by o M h k p Us -> (C = vx \/ C = vy \/ C = vz) ->
    ((1 + / 2 ^ 53) ^ (length (vl_rings o) + 2) - 1) * most C (coef_error M h k) v Us (vl_gamma o) + coef_error M h k * strengths (vl_gamma o) + delta * rsum (map (fun U => Rabs (C U)) Us) <= eps }.
(** the size of the terms of a force, and the error of a force after [k] roundings *)
Definition force_size (rho W B S : R) : R := Rabs rho * (W * (B * S + 2 * bpow radix2 (-1000)) + 2 * bpow radix2 (-1000)) + bpow radix2 (-1000).
Definition force_error (k : nat) (rho delta W B S eps : R) : R :=
  ((1 + / 2 ^ 53) ^ k - 1) * force_size rho W B S + Rabs rho * S * (2 * delta * W + (B + 2 * delta) * eps).
Definition vclose (d : R) (a b : vec R) : Prop := Rabs (vx a - vx b) <= d /\ Rabs (vy a - vy b) <= d /\ Rabs (vz a - vz b) <= d.

(** ** Proofs *)
Lemma grow k : 0 <= (1 + / 2 ^ 53) ^ k - 1.
Proof. pose proof (pow_R1_Rle (1 + / 2 ^ 53) k). assert (0 < / 2 ^ 53) by (apply Rinv_0_lt_compat, pow_lt; lra). lra. Qed.
Lemma grow_le k m : (k <= m)%nat -> (1 + / 2 ^ 53) ^ k <= (1 + / 2 ^ 53) ^ m.
Proof. intros L. apply Rle_pow; [|exact L]. assert (0 < / 2 ^ 53) by (apply Rinv_0_lt_compat, pow_lt; lra). lra. Qed.
(* one component of the difference of two forces *)
Lemma force_gap (rho G H a b c d sa sb W B S delta eps : R) : Rabs (G - H) <= 2 * delta -> Rabs G <= B -> Rabs a <= W -> Rabs b <= W -> Rabs (a - c) <= eps -> Rabs (b - d) <= eps -> Rabs sa + Rabs sb <= S ->
  Rabs (rho * (a * (G * sa) - b * (G * sb)) - rho * (c * (H * sa) - d * (H * sb))) <= Rabs rho * S * (2 * delta * W + (B + 2 * delta) * eps).
Proof.
  intros GH GB AW BW AC BD SS. pose proof (Rabs_pos (G - H)). pose proof (Rabs_pos G). pose proof (Rabs_pos a). pose proof (Rabs_pos (a - c)). pose proof (Rabs_pos sa). pose proof (Rabs_pos sb).
  replace (rho * (a * (G * sa) - b * (G * sb)) - rho * (c * (H * sa) - d * (H * sb))) with (rho * (sa * ((G - H) * a + H * (a - c)) + (- sb) * ((G - H) * b + H * (b - d)))) by ring.
  rewrite Rabs_mult, Rmult_assoc. apply Rmult_le_compat_l; [apply Rabs_pos|].
  assert (HB : Rabs H <= B + 2 * delta) by (replace H with (G + - (G - H)) by ring; eapply Rle_trans; [apply Rabs_triang|]; rewrite Rabs_Ropp; lra).
  assert (K : forall y z, Rabs y <= W -> Rabs (y - z) <= eps -> Rabs ((G - H) * y + H * (y - z)) <= 2 * delta * W + (B + 2 * delta) * eps).
  { intros y z Y Z. eapply Rle_trans; [apply Rabs_triang|]. rewrite !Rabs_mult. apply Rplus_le_compat; apply Rmult_le_compat; try apply Rabs_pos; lra. }
  set (T := 2 * delta * W + (B + 2 * delta) * eps) in *. assert (T0 : 0 <= T) by (eapply Rle_trans; [apply Rabs_pos|apply (K a c); assumption]).
  eapply Rle_trans; [apply Rabs_triang|]. rewrite !Rabs_mult, Rabs_Ropp. pose proof (Rmult_le_compat_l _ _ _ (Rabs_pos sa) (K a c AW AC)). pose proof (Rmult_le_compat_l _ _ _ (Rabs_pos sb) (K b d BW BD)).
  apply (Rle_trans _ ((Rabs sa + Rabs sb) * T)); [lra|]. apply Rmult_le_compat_r; assumption.
Qed.
Lemma terms_size (rho B W S sa sb a b : R) : 0 <= B -> 0 <= sa -> 0 <= sb -> sa + sb <= S -> 0 <= a <= W -> 0 <= b <= W ->
  0 <= Rabs rho * ((a * (B * sa + floor) + floor) + (b * (B * sb + floor) + floor)) + floor <= force_size rho W B S.
Proof.
  intros B0 A0 S0 SS [AA AW] [BB BW]. pose proof floor_pos as FP. unfold force_size. fold floor. pose proof (Rabs_pos rho) as R0. pose proof (Rmult_le_pos _ _ B0 A0). pose proof (Rmult_le_pos _ _ B0 S0).
  assert (P1 : 0 <= a * (B * sa + floor)) by (apply Rmult_le_pos; lra). assert (P2 : 0 <= b * (B * sb + floor)) by (apply Rmult_le_pos; lra).
  split; [pose proof (Rmult_le_pos (Rabs rho) ((a * (B * sa + floor) + floor) + (b * (B * sb + floor) + floor)) R0 ltac:(lra)); lra|].
  apply Rplus_le_compat_r, Rmult_le_compat_l; [exact R0|]. pose proof (Rmult_le_compat_r (B * sa + floor) a W ltac:(lra) AW). pose proof (Rmult_le_compat_r (B * sb + floor) b W ltac:(lra) BW).
  assert (W0 : 0 <= W) by lra. pose proof (Rmult_le_compat_l W _ _ W0 (Rmult_le_compat_l B _ _ B0 SS)). lra.
Qed.
Lemma net_gap gamma x le ns i G B H delta : length gamma = length x -> (forall j g y, nth_error gamma j = Some g -> nth_error x j = Some y -> Rabs (val g - y) <= delta) ->
  net_of gamma le ns i G B -> exact_net x le ns i H -> Rabs (G - H) <= 2 * delta /\ Rabs G <= B.
Proof.
  intros LX CL (g & NG & CG) (y & NY & CY). rewrite <- LX in CY. pose proof (CL i g y NG NY) as D. pose proof (Rabs_pos (val g - y)).
  destruct CG as [(T & -> & ->)|(FL & IT & g' & NG' & -> & ->)], CY as [(T' & ->)|(FL' & IT' & y' & NY' & ->)].
  - lra.
  - destruct T as [T|T]; [congruence|contradiction].
  - destruct T' as [T'|T']; [congruence|contradiction].
  - pose proof (CL _ g' y' NG' NY') as D'. split.
    + replace (val g - val g' - (y - y')) with ((val g - y) + - (val g' - y')) by ring. eapply Rle_trans; [apply Rabs_triang|]. rewrite Rabs_Ropp. lra.
    + unfold Rminus. eapply Rle_trans; [apply Rabs_triang|]. rewrite Rabs_Ropp. lra.
Qed.
(* the force of the computed velocity and circulations against the exact one *)
Lemma force_off e panels nc ns rho w te le o M h k x delta W B S eps i F A X : length te = length panels -> @Vlm _ (Double e) panels nc ns rho w te le = Ok o -> distances M h k ->
  length x = length panels -> (forall j g y, nth_error (vl_gamma o) j = Some g -> nth_error x j = Some y -> Rabs (val g - y) <= delta) -> sizes o M h k delta W B S eps ->
  force_on o i F A -> exact_force_on o M h k x i X ->
  vclose (Rabs (val (vl_rho o)) * S * (2 * delta * W + (B + 2 * delta) * eps)) F X /\ (forall C, C = vx \/ C = vy \/ C = vz -> 0 <= C A <= force_size (val (vl_rho o)) W B S).
Proof.
  intros LT E DD LX CL [SV SN SS SE] (vc & s & G & b & NV & NS & NN & -> & ->) (p & v & s' & Us & H & NP & NI & NS' & IN & NX & ->). rewrite NS in NS'. injection NS' as <-.
  destruct (run_rows e panels nc ns rho w te le o LT E) as (_ & _ & LR & LG & _). destruct (SV i vc NV) as (FV & W1 & W2 & W3). pose proof (SS i s NS) as SI. pose proof (SN i G b NN) as BI.
  destruct (net_gap _ _ _ _ _ _ _ _ _ (eq_trans LG (eq_sym LX)) CL NN NX) as [GH GB].
  assert (EP : forall C, C = vx \/ C = vy \/ C = vz -> Rabs (C (vvals vc) - C (exact_velocity (vvals v) Us x)) <= eps).
  { intros C HC. eapply Rle_trans; [|apply (SE i p v Us C NP NI IN HC)]. rewrite LR. apply (C101_velocity e panels nc ns rho w te le o i p v vc Us x delta M h k C LT E NP NI NV FV DD IN HC LX CL). }
  pose proof (EP vx ltac:(auto)) as E1. pose proof (EP vy ltac:(auto)) as E2. pose proof (EP vz ltac:(auto)) as E3. clear EP SE CL. set (V := exact_velocity (vvals v) Us x) in *. clearbody V.
  pose proof (Rabs_pos (val (vx s))). pose proof (Rabs_pos (val (vy s))). pose proof (Rabs_pos (val (vz s))). pose proof (Rabs_pos G). assert (B0 : 0 <= b) by lra. split.
  - unfold vclose, exact_force. destruct V as [V1 V2 V3]. unfold sscale, scross, vvals in *. cbn [vx vy vz] in *. split; [|split]; apply force_gap; try assumption; lra.
  - assert (MO : force_size (val (vl_rho o)) W b S <= force_size (val (vl_rho o)) W B S).
    { unfold force_size. apply Rplus_le_compat_r, Rmult_le_compat_l; [apply Rabs_pos|]. apply Rplus_le_compat_r, Rmult_le_compat_l; [pose proof (Rabs_pos (val (vx vc))); lra|]. apply Rplus_le_compat_r, Rmult_le_compat_r; lra. }
    pose proof (Rabs_pos (val (vx vc))). pose proof (Rabs_pos (val (vy vc))). pose proof (Rabs_pos (val (vz vc))).
    intros C HC. unfold force_terms, mscale, mcross, vabs. destruct HC as [-> |[-> | ->]]; cbn [vx vy vz];
      match goal with |- 0 <= Rabs _ * ((?y * (_ * ?sa + floor) + floor) + (?z * (_ * ?sb + floor) + floor)) + floor <= _ => pose proof (terms_size (val (vl_rho o)) b W S sa sb y z B0 ltac:(assumption) ltac:(assumption) ltac:(lra) ltac:(lra) ltac:(lra)) as Q end; lra.
Qed.

(** ** One panel *)
Lemma force_x e panels nc ns rho w te le o M h k x delta W B S eps i f X : length te = length panels -> @Vlm _ (Double e) panels nc ns rho w te le = Ok o -> distances M h k ->
  length x = length panels -> (forall j g y, nth_error (vl_gamma o) j = Some g -> nth_error x j = Some y -> Rabs (val g - y) <= delta) -> sizes o M h k delta W B S eps ->
  nth_error (vl_force o) i = Some f -> vfin f -> exact_force_on o M h k x i X -> vclose (force_error 5 (val rho) delta W B S eps) (vvals f) X.
Proof.
  intros LT E DD LX CL SZ NF FF FX. destruct (C97_force e panels nc ns rho w te le o i f E NF FF) as (F & A & FO & R1 & R2 & R3).
  destruct (force_off e panels nc ns rho w te le o M h k x delta W B S eps i F A X LT E DD LX CL SZ FO FX) as [(C1 & C2 & C3) T]. destruct (run_forces e _ _ _ _ _ _ _ _ E) as (_ & _ & ER & _). rewrite ER in *.
  pose proof (T vx ltac:(auto)) as T1. pose proof (T vy ltac:(auto)) as T2. pose proof (T vz ltac:(auto)) as T3. unfold vclose, force_error, rounded, vvals in *. cbn [vx vy vz]. pose proof (grow 5) as GR. set (q := (1 + / 2 ^ 53) ^ 5 - 1) in *. clearbody q.
  assert (K : forall a b c t, Rabs (a - b) <= q * t -> Rabs (b - c) <= Rabs (val rho) * S * (2 * delta * W + (B + 2 * delta) * eps) -> 0 <= t <= force_size (val rho) W B S -> Rabs (a - c) <= q * force_size (val rho) W B S + Rabs (val rho) * S * (2 * delta * W + (B + 2 * delta) * eps)).
  { intros a b c t Q1 Q2 Q3. replace (a - c) with ((a - b) + (b - c)) by ring. eapply Rle_trans; [apply Rabs_triang|]. pose proof (Rmult_le_compat_l q t _ GR (proj2 Q3)). lra. }
  split; [|split]; eapply K; eassumption.
Qed.
Theorem C103_force e panels nc ns rho w te le o Wss M h k beta phi W B S eps : length te = length panels -> @Vlm _ (Double e) panels nc ns rho w te le = Ok o ->
  distances M h k -> induced_at_controls o M h k Wss -> stable (length panels) (exact_coef o Wss) beta ->
  (forall i v n Ws, nth_error (in_V (vl_inlet o)) i = Some v -> nth_error (vl_normals o) i = Some n -> nth_error Wss i = Some Ws -> flux_limit (length panels) (coef_error M h k) v Ws (vl_gamma o) n <= phi) ->
  sizes o M h k (beta * phi) W B S eps ->
  exists x, exact_circulations o Wss x /\ (forall y, exact_circulations o Wss y -> y = x) /\
    forall i f X, nth_error (vl_force o) i = Some f -> vfin f -> exact_force_on o M h k x i X -> vclose (force_error 5 (val rho) (beta * phi) W B S eps) (vvals f) X.
Proof.
  intros LT E DD IC ST FL SZ. destruct (C101_circulations e panels nc ns rho w te le o Wss M h k beta phi LT E DD IC ST FL) as (x & EX & UN & CL). exists x. split; [exact EX|]. split; [exact UN|].
  destruct (run_rows e panels nc ns rho w te le o LT E) as (_ & _ & LR & _). destruct EX as [LX _]. intros i f X NF FF FX. apply (force_x e panels nc ns rho w te le o M h k x (beta * phi) W B S eps i f X LT E DD (eq_trans LX LR) CL SZ NF FF FX).
Qed.

(** ** The total *)
Lemma sum_gap (C : vec R -> R) d q T (l : list (vec R * vec R)) Xs : (C = vx \/ C = vy \/ C = vz) -> length l = length Xs -> 
  (forall i F A X, nth_error l i = Some (F, A) -> nth_error Xs i = Some X -> Rabs (C F - C X) <= d /\ 0 <= C A <= T) -> 0 <= q ->
  Rabs (C (ssum (map fst l)) - C (ssum Xs)) + q * C (ssum (map snd l)) <= INR (length Xs) * (d + q * T) /\ 0 <= C (ssum (map snd l)).
Proof.
  intros HC. revert Xs. assert (A : forall a b, C (sadd a b) = C a + C b) by (intros a b; destruct HC as [-> | [-> | ->]]; reflexivity). assert (Z : C szero = 0) by (destruct HC as [-> | [-> | ->]]; reflexivity).
  induction l as [|[F G] l IH]; intros [|X Xs] LL H Q; try discriminate LL.
  - cbn [map ssum fold_right length INR]. rewrite Z. split; [|lra]. rewrite Rminus_0_r, Rabs_R0. lra.
  - destruct (IH Xs ltac:(cbn in LL; lia) (fun i => H (S i)) Q) as [I1 I2]. destruct (H 0%nat F G X eq_refl eq_refl) as [H1 H2]. change (length (X :: Xs)) with (S (length Xs)). rewrite S_INR.
    unfold ssum in *. cbn [map fold_right fst snd]. rewrite !A. split; [|lra]. set (P := C (fold_right sadd szero (map fst l))) in *. set (U := C (fold_right sadd szero Xs)) in *. set (V := C (fold_right sadd szero (map snd l))) in *. clearbody P U V.
    replace (C F + P - (C X + U)) with ((C F - C X) + (P - U)) by ring. pose proof (Rabs_triang (C F - C X) (P - U)). pose proof (Rmult_le_compat_l q _ _ Q (proj2 H2)). lra.
Qed.
Theorem C103_total e panels nc ns rho w te le o Wss M h k beta phi W B S eps st c fr : length te = length panels -> @Vlm _ (Double e) panels nc ns rho w te le = Ok o ->
  distances M h k -> induced_at_controls o M h k Wss -> stable (length panels) (exact_coef o Wss) beta ->
  (forall i v n Ws, nth_error (in_V (vl_inlet o)) i = Some v -> nth_error (vl_normals o) i = Some n -> nth_error Wss i = Some Ws -> flux_limit (length panels) (coef_error M h k) v Ws (vl_gamma o) n <= phi) ->
  sizes o M h k (beta * phi) W B S eps -> @InviscidFlowResults _ (Double e) st c o = Ok fr -> vfin (fr_F_total fr) ->
  let n := (length (vl_force o) / 2)%nat in
  exists x, exact_circulations o Wss x /\ (forall y, exact_circulations o Wss y -> y = x) /\
    forall Xs, length Xs = n -> (forall i X, nth_error Xs i = Some X -> exact_force_on o M h k x i X) -> vclose (INR n * force_error (5 + n) (val rho) (beta * phi) W B S eps) (vvals (fr_F_total fr)) (ssum Xs).
Proof.
  intros LT E DD IC ST FL SZ EF FF n. destruct (C101_circulations e panels nc ns rho w te le o Wss M h k beta phi LT E DD IC ST FL) as (x & EX & UN & CL). exists x. split; [exact EX|]. split; [exact UN|].
  destruct (run_rows e panels nc ns rho w te le o LT E) as (_ & _ & LR & _). destruct EX as [LX _]. intros Xs LXs HX. destruct (run_forces e _ _ _ _ _ _ _ _ E) as (_ & _ & ER & _).
  destruct (C97_total e panels nc ns rho w te le o st c fr E EF FF) as (l & LL & FO & R1 & R2 & R3). fold n in LL, R1, R2, R3.
  assert (K : forall C, (C = vx \/ C = vy \/ C = vz) -> Rabs (C (vvals (fr_F_total fr)) - C (ssum (map fst l))) <= ((1 + / 2 ^ 53) ^ (5 + n) - 1) * C (ssum (map snd l)) -> Rabs (C (vvals (fr_F_total fr)) - C (ssum Xs)) <= INR n * force_error (5 + n) (val rho) (beta * phi) W B S eps).
  { intros C HC R. destruct (sum_gap C (Rabs (val (vl_rho o)) * S * (2 * (beta * phi) * W + (B + 2 * (beta * phi)) * eps)) ((1 + / 2 ^ 53) ^ (5 + n) - 1) (force_size (val (vl_rho o)) W B S) l Xs HC ltac:(lia)) as [G _]; [|apply grow|].
    - intros i F A X NL NX. destruct (force_off e panels nc ns rho w te le o M h k x (beta * phi) W B S eps i F A X LT E DD (eq_trans LX LR) CL SZ (FO i F A NL) (HX i X NX)) as [(C1 & C2 & C3) T]. split; [|apply T, HC]. destruct HC as [-> | [-> | ->]]; assumption.
    - rewrite LXs, ER in G. unfold force_error. set (a := C (vvals (fr_F_total fr))) in *. set (b := C (ssum (map fst l))) in *. set (d := C (ssum Xs)) in *. replace (a - d) with ((a - b) + (b - d)) by ring. eapply Rle_trans; [apply Rabs_triang|]. lra. }
  split; [|split]; apply K; auto.
Qed.

(** ** Case: the sail and its mirror image of C101 *)
Lemma eps_small (C : vec R -> R) Us g v : length Us = 2%nat -> length g = 2%nat -> (forall U, In U Us -> Rabs (C U) <= 2) -> (forall x, In x g -> Rabs (val x) <= 12) -> Rabs (C (vvals v)) <= 4 ->
  ((1 + / 2 ^ 53) ^ (2 + 2) - 1) * most C (coef_error 10 1 1) v Us g + coef_error 10 1 1 * strengths g + 5 * (1 / 100000000) * rsum (map (fun U => Rabs (C U)) Us) <= 1 / 1000000.
Proof.
  intros LU LG HU HG HV. destruct Us as [|U1 [|U2 [|? ?]]]; try discriminate LU. destruct g as [|g1 [|g2 [|? ?]]]; try discriminate LG.
  pose proof (HU U1 (or_introl eq_refl)) as A1. pose proof (HU U2 (or_intror (or_introl eq_refl))) as A2. pose proof (HG g1 (or_introl eq_refl)) as G1. pose proof (HG g2 (or_intror (or_introl eq_refl))) as G2. clear HU HG.
  unfold most, strengths, rsum. cbn [combine fold_right fst snd map]. assert (CE : coef_error 10 1 1 = 804 / 10000000000000) by (unfold coef_error; field). rewrite CE.
  assert (T : 0 <= bpow radix2 (-1000) <= / 4) by (split; [apply bpow_ge_0|]; change (/ 4) with (bpow radix2 (-2)); apply bpow_le; lia). set (t := bpow radix2 (-1000)) in *. clearbody t.
  assert (PW : (1 + / 2 ^ 53) ^ (2 + 2) - 1 <= 1 / 10000000000000). { assert (U : / 2 ^ 53 <= 1 / 1000000000000000) by lra. assert (U0 : 0 <= / 2 ^ 53) by lra. assert (Q : (1 + / 2 ^ 53) ^ (2 + 2) <= (1 + 1 / 1000000000000000) ^ (2 + 2)) by (apply pow_incr; lra). assert (R : (1 + 1 / 1000000000000000) ^ (2 + 2) <= 1 + 1 / 10000000000000) by (change (2 + 2)%nat with 4%nat; cbn [pow]; lra). clear - Q R. set (x := (1 + / 2 ^ 53) ^ (2 + 2)) in *. clearbody x. lra. }
  pose proof (grow (2 + 2)) as PW0. set (P := (1 + / 2 ^ 53) ^ (2 + 2) - 1) in *. clearbody P.
  pose proof (Rabs_pos (val g1)). pose proof (Rabs_pos (val g2)). pose proof (Rabs_pos (C U1)). pose proof (Rabs_pos (C U2)). pose proof (Rabs_pos (C (vvals v))).
  assert (Rabs (val g1) * (Rabs (C U1) + 804 / 10000000000000) <= 12 * 3) by (apply Rmult_le_compat; lra). assert (Rabs (val g2) * (Rabs (C U2) + 804 / 10000000000000) <= 12 * 3) by (apply Rmult_le_compat; lra).
  assert (0 <= Rabs (val g1) * (Rabs (C U1) + 804 / 10000000000000)) by (apply Rmult_le_pos; lra). assert (0 <= Rabs (val g2) * (Rabs (C U2) + 804 / 10000000000000)) by (apply Rmult_le_pos; lra).
  match goal with |- P * ?m + _ + _ <= _ => assert (P * m <= 1 / 10000000000000 * 80) by (apply Rmult_le_compat; lra) end. lra.
Qed.
Lemma case_sizes : forall e, exact_at_0 e -> exists o f, @Vlm _ (Double e) mirrored 1 1 (dZ 1) (from_ahead 4) [true; true] [false; false] = Ok o /\ sizes o 10 1 1 (5 * (1 / 100000000)) 8 12 2 (1 / 1000000) /\
  nth_error (vl_force o) 0 = Some f /\ vfin f /\ val (vy f) <= -10 /\ vl_le o = [false; false].
Proof.
  intros e E.
  pose (one := fun v : vec double => vbetween (-1024) 1024 (-1024) 1024 (-1024) 1024 v).
  pose (inf := fun a b : pvars double => @influence _ (Double e) (@vlm_gor _ (Double e)) (pv_cp a) (pv_ring b) true (inflow 4)).
  pose (ck := fun vars : list (pvars double) => match vars with [a; b] => (one (inf a a) && one (inf b b) && one (inf a b) && one (inf b a) && at_quarters (pv_span a) 0 0 (-8) && at_quarters (pv_span b) 0 0 (-8))%bool | _ => false end).
  pose (gk := fun l : list double => match l with [a; b] => (between (-12288) 12288 a && between (-12288) 12288 b)%bool | _ => false end).
  pose (fv := fun v : vec double => (is_finite (vx v) && is_finite (vy v) && is_finite (vz v))%bool).
  pose (vk := fun l : list (vec double) => match l with [a; b] => (fv a && fv b && vbetween (-8192) 8192 (-8192) 8192 (-8192) 8192 a && vbetween (-8192) 8192 (-8192) 8192 (-8192) 8192 b)%bool | _ => false end).
  pose (fk := fun l : list (vec double) => match l with f :: _ => (fv f && vbetween (-1024000) 1024000 (-1024000) (-10240) (-1024000) 1024000 f)%bool | [] => false end).
  assert (K : forall cp tws awa, (do vars <- @calculate_vlm_variables _ (Double e) mirrored [true; true] (@vlm_gor _ (Double e)) 1 1; do o <- @vlm_solve _ (Double e) mirrored 1 1 (dZ 1) [true; true] [false; false] vars (Inlet cp tws (map (fun _ => inflow 4) (map pv_cp vars)) awa);
     Ok (ck vars && gk (vl_gamma o) && vk (vl_V_cp o) && fk (vl_force o))%bool) = Ok true) by (intros; vm_compute; reflexivity).
  assert (FV : forall v, fv v = true -> vfin v) by (intros v H; unfold fv in H; apply andb_true_iff in H; destruct H as [H H3]; apply andb_true_iff in H; destruct H as [H1 H2]; split; [exact H1|split; [exact H2|exact H3]]).
  assert (HC : forall vars, ck vars = true -> exists a b, vars = [a; b] /\ one (inf a a) = true /\ one (inf b b) = true /\ one (inf a b) = true /\ one (inf b a) = true /\ at_quarters (pv_span a) 0 0 (-8) = true /\ at_quarters (pv_span b) 0 0 (-8) = true).
  { unfold ck. intros [|a [|b [|c l]]] H; try discriminate H. do 5 (apply andb_true_iff in H; let H' := fresh "H" in destruct H as [H H']). exists a, b. split; [reflexivity|]. repeat (split; [assumption|]). assumption. }
  assert (HG : forall l, gk l = true -> length l = 2%nat /\ forall x, In x l -> Rabs (val x) <= 12).
  { unfold gk. intros [|a [|b [|c l]]] H; try discriminate H. apply andb_true_iff in H. destruct H as [H1 H2]. apply between_val in H1, H2. split; [reflexivity|]. intros x [<-|[<-|[]]]; apply Rabs_le; lra. }
  assert (HV : forall l, vk l = true -> forall v, In v l -> vfin v /\ Rabs (val (vx v)) <= 8 /\ Rabs (val (vy v)) <= 8 /\ Rabs (val (vz v)) <= 8).
  { unfold vk. intros [|a [|b [|c l]]] H; try discriminate H. do 3 (apply andb_true_iff in H; let H' := fresh "H" in destruct H as [H H']). apply vbetween_val in H0, H1. intros v [<-|[<-|[]]]; (split; [apply FV; assumption|]); repeat split; apply Rabs_le; lra. }
  assert (HF : forall l, fk l = true -> exists f, nth_error l 0 = Some f /\ vfin f /\ val (vy f) <= -10).
  { unfold fk. intros [|f l] H; [discriminate H|]. apply andb_true_iff in H. destruct H as [H1 H2]. apply vbetween_val in H2. exists f. split; [reflexivity|]. split; [apply FV, H1|lra]. }
  assert (HI : forall a W, one a = true -> within (coef_error 10 1 1) a W -> Rabs (vx W) <= 2 /\ Rabs (vy W) <= 2 /\ Rabs (vz W) <= 2).
  { intros a W H (_ & X & Y & Z). unfold one in H. apply vbetween_val in H. assert (CE : coef_error 10 1 1 = 804 / 10000000000000) by (unfold coef_error; field). rewrite CE in *. apply Rabs_le_inv in X, Y, Z. repeat split; apply Rabs_le; lra. }
  clearbody one ck gk fv vk fk. unfold Vlm. destruct (calculate_vlm_variables _ _ _ _ _) as [vars|]; [|specialize (K [] [] []); discriminate K]. cbn [bind] in K |- *. destruct (flat_inlet e 4 (map pv_cp vars) E) as (tws & awa & ->). cbn [bind]. specialize (K (map pv_cp vars) tws awa).
  destruct (vlm_solve _ _ _ _ _ _ _ _) as [o|] eqn:EO; [|discriminate K]. cbn [bind] in K.
  assert (HO : forall A (p q : A), Ok p = Ok q -> p = q) by (intros A p q [= Q]; exact Q). apply HO in K. apply andb_true_iff in K. destruct K as [K KF]. apply andb_true_iff in K. destruct K as [K KV]. apply andb_true_iff in K. destruct K as [KC KG].
  destruct (HC _ KC) as (a & b & -> & I1 & I2 & I3 & I4 & S1 & S2). destruct (HF _ KF) as (f & NF & FF & YF). destruct (HG _ KG) as [LG BG]. pose proof (HV _ KV) as VV.
  destruct (solve_rows _ _ _ _ _ _ _ _ _ _ EO) as (E1 & E2 & E3 & _). destruct (solve_force e _ _ _ _ _ _ _ _ _ EO) as (F1 & F2 & F3 & _). clear EO KC KG KV KF HC HV HG HF.
  assert (DD : distances 10 1 1) by (unfold distances; lra). assert (Q : at_quarters (inflow 4) 16 0 0 = true) by (vm_compute; reflexivity).
  exists o, f. split; [reflexivity|]. split; [|split; [exact NF|split; [exact FF|split; [exact YF|exact F3]]]]. constructor.
  - intros i v N. apply VV, (nth_error_In _ _ N).
  - intros i G c (g & NG & [(_ & _ & ->)|(_ & IT & _)]); [apply BG, (nth_error_In _ _ NG)|]. rewrite F3 in IT. destruct IT as [X|[X|[]]]; discriminate X.
  - unfold vl_spans. rewrite E2. cbn [map]. apply at_quarters_val in S1, S2. destruct S1 as [_ S1], S2 as [_ S2]. 
    assert (KS : forall s, vvals s = V3 (0 / 4) (0 / 4) (-8 / 4) -> Rabs (val (vx s)) + Rabs (val (vy s)) + Rabs (val (vz s)) <= 2).
    { intros s VS. pose proof (f_equal vx VS : val (vx s) = 0 / 4) as X. pose proof (f_equal vy VS : val (vy s) = 0 / 4) as Y. pose proof (f_equal vz VS : val (vz s) = -8 / 4) as Z. rewrite X, Y, Z. replace (0 / 4) with 0 by lra. rewrite Rabs_R0, Rabs_left by lra. lra. }
    intros i s NS. apply KS. assert (HS : forall A (x y : A), Some x = Some y -> x = y) by (intros A x' y' [= R]; exact R). destruct i as [|[|i]]; cbn [nth_error] in NS; [apply HS in NS; subst s; exact S1|apply HS in NS; subst s; exact S2|destruct i; discriminate NS].
  - intros i p v Us C NP NI [LU IN] HC. unfold vl_rings in LU, IN |- *. rewrite E2 in *. rewrite E1, E3 in *. cbn [map length in_V] in *. unfold vl_cp in NP. rewrite E2 in NP. cbn [map] in NP.
    assert (HS : forall A (x y : A), Some x = Some y -> x = y) by (intros A x' y' [= R]; exact R).
    assert (EV : v = inflow 4) by (destruct i as [|[|i]]; [symmetry; exact (HS _ _ _ NI)|symmetry; exact (HS _ _ _ NI)|destruct i; discriminate NI]). subst v.
    destruct Us as [|U1 [|U2 [|? ?]]]; try discriminate LU. pose proof (IN 0%nat _ _ _ _ eq_refl eq_refl eq_refl eq_refl) as J1. pose proof (IN 1%nat _ _ _ _ eq_refl eq_refl eq_refl eq_refl) as J2. pose proof (C99_coefficient e _ _ _ _ _ _ _ _ DD J1) as W1. pose proof (C99_coefficient e _ _ _ _ _ _ _ _ DD J2) as W2.
    assert (BB : (Rabs (vx U1) <= 2 /\ Rabs (vy U1) <= 2 /\ Rabs (vz U1) <= 2) /\ (Rabs (vx U2) <= 2 /\ Rabs (vy U2) <= 2 /\ Rabs (vz U2) <= 2)).
    { destruct i as [|[|i]]; [| |destruct i; discriminate NP]; cbn [nth_error] in NP; apply HS in NP; subst p; split.
      all: [> exact (HI _ _ I1 W1)|exact (HI _ _ I3 W2)|exact (HI _ _ I4 W1)|exact (HI _ _ I2 W2)]. }
    destruct BB as [(B1 & B2 & B3) (B4 & B5 & B6)]. apply at_quarters_val in Q. destruct Q as [_ QV].
    apply (eps_small C [U1; U2] (vl_gamma o) (inflow 4) eq_refl LG); [intros U [<-|[<-|[]]]; destruct HC as [-> | [-> | ->]]; assumption|exact BG|].
    rewrite QV. destruct HC as [-> | [-> | ->]]; cbn [vx vy vz]; apply Rabs_le; lra.
Qed.
Example C103_case : forall e, exact_at_0 e -> exists o Wss x f X, @Vlm _ (Double e) mirrored 1 1 (dZ 1) (from_ahead 4) [true; true] [false; false] = Ok o /\
  induced_at_controls o 10 1 1 Wss /\ stable 2 (exact_coef o Wss) 5 /\ sizes o 10 1 1 (5 * (1 / 100000000)) 8 12 2 (1 / 1000000) /\ exact_circulations o Wss x /\
  nth_error (vl_force o) 0 = Some f /\ exact_force_on o 10 1 1 x 0 X /\ val (vy f) <= -10 /\ vclose (1 / 10000) (vvals f) X.
Proof.
  intros e E. destruct (C101_case e E) as (o & Wss & p & vc & Us & EO & DD & IC & ST & FL & NP & _ & _ & IB). destruct (case_sizes e E) as (o' & f & EO' & SZ & NF & FF & YF & EL).
  assert (HO : forall A (p q : A), Ok p = Ok q -> p = q) by (intros A p' q [= Q]; exact Q). rewrite EO in EO'. apply HO in EO'. subst o'.
  destruct (C103_force e mirrored 1 1 (dZ 1) (from_ahead 4) [true; true] [false; false] o Wss 10 1 1 5 (1 / 100000000) 8 12 2 (1 / 1000000) eq_refl EO DD IC ST FL SZ) as (x & EX & _ & CL).
  destruct (run_rows e mirrored 1 1 (dZ 1) (from_ahead 4) [true; true] [false; false] o eq_refl EO) as (_ & LV & LR & LG & _). destruct (run_forces e _ _ _ _ _ _ _ _ EO) as (_ & _ & ER & _ & EN & _).
  assert (LX : length x = 2%nat) by (destruct EX as [LX _]; rewrite LX; exact LR).
  destruct (nth_error_ex (in_V (vl_inlet o)) 0) as [v NV]; [rewrite LV; cbn; lia|]. destruct (nth_error_ex (vl_spans o) 0) as [s NS]; [unfold vl_spans; rewrite map_length; unfold vl_rings in LR; rewrite map_length in LR; rewrite LR; cbn; lia|]. destruct (nth_error_ex x 0) as [g NG]; [lia|].
  exists o, Wss, x, f, (exact_force (val (vl_rho o)) g (exact_velocity (vvals v) Us x) (vvals s)). split; [exact EO|]. split; [exact IC|]. split; [exact ST|]. split; [exact SZ|]. split; [exact EX|]. split; [exact NF|].
  assert (FX : exact_force_on o 10 1 1 x 0 (exact_force (val (vl_rho o)) g (exact_velocity (vvals v) Us x) (vvals s))).
  { exists p, v, s, Us, g. split; [exact NP|]. split; [exact NV|]. split; [exact NS|]. split; [exact IB|]. split; [|reflexivity]. exists g. split; [exact NG|]. left. split; [right; rewrite EL; intros [X|[X|[]]]; discriminate X|reflexivity]. }
  split; [exact FX|]. split; [exact YF|]. destruct (CL 0%nat f _ NF FF FX) as (C1 & C2 & C3).
  assert (EB : force_error 5 (val (dZ 1)) (5 * (1 / 100000000)) 8 12 2 (1 / 1000000) <= 1 / 10000).
  { rewrite (dZ_val 1) by lia. unfold force_error, force_size. rewrite Rabs_pos_eq by lra. assert (T : 0 <= bpow radix2 (-1000) <= / 4) by (split; [apply bpow_ge_0|]; change (/ 4) with (bpow radix2 (-2)); apply bpow_le; lia). set (t := bpow radix2 (-1000)) in *. clearbody t.
    assert (PW : (1 + / 2 ^ 53) ^ 5 - 1 <= 1 / 10000000000000). { assert (U : / 2 ^ 53 <= 1 / 1000000000000000) by lra. assert (U0 : 0 <= / 2 ^ 53) by lra. assert (Q : (1 + / 2 ^ 53) ^ 5 <= (1 + 1 / 1000000000000000) ^ 5) by (apply pow_incr; lra). assert (R : (1 + 1 / 1000000000000000) ^ 5 <= 1 + 1 / 10000000000000) by (cbn [pow]; lra). clear - Q R. set (z := (1 + / 2 ^ 53) ^ 5) in *. clearbody z. lra. }
    pose proof (grow 5) as P0. set (P := (1 + / 2 ^ 53) ^ 5 - 1) in *. clearbody P. match goal with |- P * ?m + _ <= _ => assert (P * m <= 1 / 10000000000000 * 300) by (apply Rmult_le_compat; lra) end. lra. }
  unfold vclose. lra.
Qed.
Example C103_total_case : forall e, exact_at_0 e -> exists o fr Wss x X, @Vlm _ (Double e) mirrored 1 1 (dZ 1) (from_ahead 4) [true; true] [false; false] = Ok o /\ @InviscidFlowResults _ (Double e) mirrored_set (Csys (dZ 0) (dZ 0) (dv 1 0 2)) o = Ok fr /\
  exact_circulations o Wss x /\ exact_force_on o 10 1 1 x 0 X /\ vclose (1 / 10000) (vvals (fr_F_total fr)) X.
Proof.
  intros e E. destruct (C103_case e E) as (o & Wss & x & f & X & EO & IC & ST & SZ & EX & NF & FX & _ & _). destruct (C101_case e E) as (o2 & Wss2 & p & vc & Us & EO2 & DD & IC2 & ST2 & FL & _). destruct (C97_case e E) as (o3 & fr & EO3 & EF & LF & _ & _ & _ & FT & _).
  assert (HO : forall A (p q : A), Ok p = Ok q -> p = q) by (intros A p' q [= Q]; exact Q). rewrite EO in EO2, EO3. apply HO in EO2, EO3. subst o2 o3.
  destruct (C103_total e mirrored 1 1 (dZ 1) (from_ahead 4) [true; true] [false; false] o Wss2 10 1 1 5 (1 / 100000000) 8 12 2 (1 / 1000000) _ _ fr eq_refl EO DD IC2 ST2 FL SZ EF FT) as (x2 & EX2 & _ & CL).
  destruct FX as (p' & v & s & Us' & G & NP & NV & NS & IB & (g & NG & [(EL & _)|(_ & IT & _)]) & _).
  2: { exfalso. destruct (case_sizes e E) as (o2 & _ & EO2 & _ & _ & _ & _ & EL). rewrite EO in EO2. apply HO in EO2. subst o2. rewrite EL in IT. destruct IT as [H|[H|[]]]; discriminate H. }
  destruct (run_rows e mirrored 1 1 (dZ 1) (from_ahead 4) [true; true] [false; false] o eq_refl EO) as (_ & _ & LR & _). destruct (nth_error_ex x2 0) as [y NY]; [destruct EX2 as [LX _]; rewrite LX, LR; cbn; lia|].
  exists o, fr, Wss2, x2, (exact_force (val (vl_rho o)) y (exact_velocity (vvals v) Us' x2) (vvals s)). split; [exact EO|]. split; [exact EF|]. split; [exact EX2|].
  assert (FX : exact_force_on o 10 1 1 x2 0 (exact_force (val (vl_rho o)) y (exact_velocity (vvals v) Us' x2) (vvals s))).
  { exists p', v, s, Us', y. split; [exact NP|]. split; [exact NV|]. split; [exact NS|]. split; [exact IB|]. split; [|reflexivity]. exists y. split; [exact NY|]. left. split; [exact EL|reflexivity]. }
  split; [exact FX|]. specialize (CL [exact_force (val (vl_rho o)) y (exact_velocity (vvals v) Us' x2) (vvals s)]). rewrite LF in CL. change (2 / 2)%nat with 1%nat in CL. specialize (CL eq_refl ltac:(intros [|[|i]] Z NZ; try discriminate NZ; injection NZ as <-; exact FX)).
  assert (S1 : forall Z : vec R, ssum [Z] = Z) by (intros [a b c]; unfold ssum, sadd, szero; cbn [fold_right vx vy vz]; f_equal; ring). rewrite S1 in CL. clear S1.
  assert (EB : INR 1 * force_error (5 + 1) (val (dZ 1)) (5 * (1 / 100000000)) 8 12 2 (1 / 1000000) <= 1 / 10000).
  { rewrite (dZ_val 1) by lia. cbn [INR]. rewrite Rmult_1_l. unfold force_error, force_size. rewrite Rabs_pos_eq by lra. assert (T : 0 <= bpow radix2 (-1000) <= / 4) by (split; [apply bpow_ge_0|]; change (/ 4) with (bpow radix2 (-2)); apply bpow_le; lia). set (t := bpow radix2 (-1000)) in *. clearbody t.
    assert (PW : (1 + / 2 ^ 53) ^ (5 + 1) - 1 <= 1 / 10000000000000). { assert (U : / 2 ^ 53 <= 1 / 1000000000000000) by lra. assert (U0 : 0 <= / 2 ^ 53) by lra. assert (Q : (1 + / 2 ^ 53) ^ (5 + 1) <= (1 + 1 / 1000000000000000) ^ (5 + 1)) by (apply pow_incr; lra). assert (R : (1 + 1 / 1000000000000000) ^ (5 + 1) <= 1 + 1 / 10000000000000) by (change (5 + 1)%nat with 6%nat; cbn [pow]; lra). clear - Q R. set (z := (1 + / 2 ^ 53) ^ (5 + 1)) in *. clearbody z. lra. }
    pose proof (grow (5 + 1)) as P0. set (P := (1 + / 2 ^ 53) ^ (5 + 1) - 1) in *. clearbody P. match goal with |- P * ?m + _ <= _ => assert (P * m <= 1 / 10000000000000 * 300) by (apply Rmult_le_compat; lra) end. lra. }
  destruct CL as (C1 & C2 & C3). unfold vclose. lra.
Qed.

Print Assumptions C103_force.
Print Assumptions C103_total.
