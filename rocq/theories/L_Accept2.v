(** The running error bound of L_Accept for vectors, products of two computed numbers, and quotients. *)

From Coq Require Import ZArith Reals List Bool Lra Psatz Lia.
From Flocq Require Import Core BinarySingleNaN.
From Verif Require Import Num PyBase RNum Spec M_Rotations M_Velocity L_List Double L_Double L_Near L_NearRot L_Accept.
Import ListNotations.
Open Scope R_scope.

(** absolute values of the terms of a vector, of a scaled vector and of a cross product; [floor] allows for underflow *)
Definition vabs (v : vec double) : vec R := V3 (Rabs (val (vx v))) (Rabs (val (vy v))) (Rabs (val (vz v))).
Definition mscale (k : R) (a : vec R) : vec R := V3 (k * vx a + floor) (k * vy a + floor) (k * vz a + floor).
Definition mcross (a b : vec R) : vec R :=
  V3 ((vy a * vz b + floor) + (vz a * vy b + floor)) ((vz a * vx b + floor) + (vx a * vz b + floor)) ((vx a * vy b + floor) + (vy a * vx b + floor)).
Definition mdot (a b : vec R) : R := (vx a * vx b + floor) + (vy a * vy b + floor) + (vz a * vz b + floor).
Definition vnear_of (k : nat) (v : vec double) (V A : vec R) : Prop :=
  near_of k (vx v) (vx V) (vx A) /\ near_of k (vy v) (vy V) (vy A) /\ near_of k (vz v) (vz V) (vz A).

Section Ops.
Context (e : elementary).
Notation D := (Double e).
Lemma div_fin x y : fin (@ndiv _ D x y) -> fin y -> fin x.
Proof. cbn [ndiv Double]. destruct x as [s|s| |s m z B], y as [s'|s'| |s' m' z' B']; cbn; intros H Y; try discriminate H; try discriminate Y; reflexivity. Qed.
Lemma near_of_sub k x y X Y A B : fin (@nsub _ D x y) -> near_of k x X A -> near_of k y Y B -> near_of (S k) (@nsub _ D x y) (X - Y) (A + B).
Proof.
  intros F NX NY. assert (Q : @nsub _ D x y = @nadd _ D x (@nopp _ D y)).
  { cbn [nsub nadd nopp Double]. destruct x as [s|s| |s m z P], y as [s'|s'| |s' m' z' P']; cbn; try reflexivity; destruct s, s'; reflexivity. }
  rewrite Q in *. apply (near_of_add e); [exact F|exact NX|]. apply near_of_opp. exact NY.
Qed.
Lemma near_of_mul2 k m x y X Y A B : fin (@nmul _ D x y) -> near_of k x X A -> near_of m y Y B -> near_of (S (k + m)) (@nmul _ D x y) (X * Y) (A * B + floor).
Proof.
  intros F NX NY. pose proof (near_of_val _ _ _ _ NX) as VX. pose proof (near_of_val _ _ _ _ NY) as VY. destruct NX as [_ SX EX], NY as [_ SY EY]. destruct (mul_val e x y F) as (d & n & Hd & Hn & EV). pose proof floor_pos as FP. pose proof u_pos as U. pose proof (pow_1 k) as P1. pose proof (pow_1 m) as P2. pose proof (pow_1 (k + m)) as P3. pose proof (Rabs_pos X). pose proof (Rabs_pos Y).
  assert (A0 : 0 <= A) by lra. assert (B0 : 0 <= B) by lra. assert (AB : 0 <= A * B) by (apply Rmult_le_pos; assumption).
  constructor; [exact F|rewrite Rabs_mult; pose proof (Rmult_le_compat _ _ _ _ (Rabs_pos X) (Rabs_pos Y) SX SY); lra|]. rewrite EV.
  replace (val x * val y * (1 + d) + n - X * Y) with (((val x - X) * val y + X * (val y - Y)) + d * (val x * val y) + n) by ring.
  pose proof (Rabs_triang (((val x - X) * val y + X * (val y - Y)) + d * (val x * val y)) n) as T1. pose proof (Rabs_triang ((val x - X) * val y + X * (val y - Y)) (d * (val x * val y))) as T2. pose proof (Rabs_triang ((val x - X) * val y) (X * (val y - Y))) as T3. rewrite !Rabs_mult in T3. rewrite !Rabs_mult in T2.
  set (p := (1 + u) ^ k) in *. set (q := (1 + u) ^ m) in *. assert (PQ : (1 + u) ^ (k + m) = p * q) by apply pow_add.
  assert (M1 : Rabs (val x - X) * Rabs (val y) <= ((p - 1) * A) * (q * B)) by (apply Rmult_le_compat; try apply Rabs_pos; assumption).
  assert (M2 : Rabs X * Rabs (val y - Y) <= A * ((q - 1) * B)) by (apply Rmult_le_compat; try apply Rabs_pos; assumption).
  assert (M3 : Rabs (val x) * Rabs (val y) <= (p * A) * (q * B)) by (apply Rmult_le_compat; try apply Rabs_pos; assumption).
  assert (M4 : Rabs d * (Rabs (val x) * Rabs (val y)) <= u * ((p * A) * (q * B))) by (apply Rmult_le_compat; [apply Rabs_pos|apply Rmult_le_pos; apply Rabs_pos|exact Hd|exact M3]).
  pose proof tiny_floor as TF. cbn [pow]. rewrite PQ in *. clearbody p q.
  assert (M5 : u * floor <= ((1 + u) * (p * q) - 1) * floor) by (apply Rmult_le_compat_r; [lra|nra]).
  replace (((1 + u) * (p * q) - 1) * (A * B + floor)) with (((p - 1) * A) * (q * B) + A * ((q - 1) * B) + u * ((p * A) * (q * B)) + ((1 + u) * (p * q) - 1) * floor) by ring. lra.
Qed.
(* a quotient by a number that is taken as it is *)
Lemma near_of_div k x y X A : fin (@ndiv _ D x y) -> fin y -> val y <> 0 -> near_of k x X A -> near_of (S k) (@ndiv _ D x y) (X / val y) (A / Rabs (val y) + floor).
Proof.
  intros F FY Y0 NX. pose proof (near_of_val _ _ _ _ NX) as VX. destruct NX as [FX SX EX]. pose proof floor_pos as FP. assert (PY : 0 < / Rabs (val y)) by (apply Rinv_0_lt_compat, Rabs_pos_lt, Y0). pose proof u_pos as U. pose proof (pow_1 k) as P1.
  assert (V : exists d n, Rabs d <= u /\ Rabs n <= tiny /\ val (@ndiv _ D x y) = val x / val y * (1 + d) + n).
  { cbn [ndiv Double] in F |- *. pose proof (Bdiv_correct 53 1024 p53 e1024 mode_NE x y Y0) as C. destruct (Rlt_bool _ _) in C.
    - destruct C as (C1 & _). destruct (rnd_eta (val x / val y)) as (d & n & E & N & _ & Q). exists d, n. split; [exact E|]. split; [exact N|]. rewrite C1. exact Q.
    - exfalso. apply (f_equal is_finite_SF) in C. rewrite is_finite_SF_B2SF, F, overflow_inf in C. discriminate. }
  destruct V as (d & n & Hd & Hn & EV).
  constructor; [exact F|unfold Rdiv; rewrite Rabs_mult, Rabs_inv; pose proof (Rmult_le_compat_r _ _ _ (Rlt_le _ _ PY) SX); lra|]. rewrite EV.
  replace (val x / val y * (1 + d) + n - X / val y) with (((val x - X) * / val y + d * (val x * / val y)) + n) by (unfold Rdiv; ring).
  apply Rle_trans with (1 := Rabs_triang _ _). pose proof (Rabs_triang ((val x - X) * / val y) (d * (val x * / val y))) as T. rewrite !Rabs_mult, !Rabs_inv in T.
  pose proof (Rmult_le_compat_r _ _ _ (Rlt_le _ _ PY) EX) as M1. pose proof (Rmult_le_compat_r _ _ _ (Rlt_le _ _ PY) VX) as M2.
  assert (M3 : Rabs d * (Rabs (val x) * / Rabs (val y)) <= u * ((1 + u) ^ k * A * / Rabs (val y))) by (apply Rmult_le_compat; [apply Rabs_pos|apply Rmult_le_pos; [apply Rabs_pos|lra]|exact Hd|exact M2]).
  pose proof tiny_floor as TF. cbn [pow].
  assert (M4 : u * floor <= ((1 + u) * (1 + u) ^ k - 1) * floor) by (apply Rmult_le_compat_r; [lra|nra]).
  unfold Rdiv. lra.
Qed.

Lemma vnear_of_exact v : vfin v -> vnear_of 0 v (vvals v) (vabs v).
Proof. intros (X & Y & Z). split; [|split]; apply near_of_exact; assumption. Qed.
Lemma vnear_of_more k m v V A : (k <= m)%nat -> vnear_of k v V A -> vnear_of m v V A.
Proof. intros L (X & Y & Z). split; [|split]; apply (near_of_more k); assumption. Qed.
Lemma vnear_of_fin k v V A : vnear_of k v V A -> vfin v.
Proof. intros (X & Y & Z). split; [|split]; eapply no_fin; eassumption. Qed.
Lemma vadd_fin a b : vfin (@vadd _ D a b) -> vfin a /\ vfin b.
Proof. intros (X & Y & Z). unfold vadd in *. cbn [vx vy vz] in *. destruct (add_fin e _ _ X), (add_fin e _ _ Y), (add_fin e _ _ Z). split; (split; [|split]); assumption. Qed.
Lemma vscale_fin g a : vfin (@vscale _ D g a) -> fin g /\ vfin a.
Proof. intros (X & Y & Z). unfold vscale in *. cbn [vx vy vz] in *. destruct (mul_fin e _ _ X), (mul_fin e _ _ Y), (mul_fin e _ _ Z). split; [assumption|]. split; [|split]; assumption. Qed.
Lemma vcross_fin a b : vfin (@vcross _ D a b) -> vfin a /\ vfin b.
Proof.
  intros (X & Y & Z). unfold vcross in *. cbn [vx vy vz] in *. destruct (sub_fin e _ _ X) as [X1 X2], (sub_fin e _ _ Y) as [Y1 Y2]. destruct (mul_fin e _ _ X1), (mul_fin e _ _ X2), (mul_fin e _ _ Y1), (mul_fin e _ _ Y2). split; (split; [|split]); assumption.
Qed.
Lemma vdot_fin a b : fin (@vdot _ D a b) -> vfin a /\ vfin b.
Proof.
  intros H. unfold vdot in H. destruct (add_fin e _ _ H) as [H1 Z]. destruct (add_fin e _ _ H1) as [X Y]. destruct (mul_fin e _ _ X), (mul_fin e _ _ Y), (mul_fin e _ _ Z). split; (split; [|split]); assumption.
Qed.
Lemma sum_fin l : forall x, vfin (fold_left (@vadd _ D) l x) -> vfin x /\ Forall vfin l.
Proof.
  induction l as [|a l IH]; intros x H; cbn [fold_left] in H; [split; [exact H|constructor]|]. destruct (IH _ H) as [H1 H2]. destruct (vadd_fin _ _ H1) as [H3 H4]. split; [exact H3|]. constructor; assumption.
Qed.
Lemma vnear_of_add k a b X Y A B : vfin (@vadd _ D a b) -> vnear_of k a X A -> vnear_of k b Y B -> vnear_of (S k) (@vadd _ D a b) (sadd X Y) (sadd A B).
Proof. intros (F1 & F2 & F3) (A1 & A2 & A3) (B1 & B2 & B3). unfold vadd, sadd in *. cbn [vx vy vz] in *. split; [|split]; cbn [vx vy vz]; apply near_of_add; assumption. Qed.
Lemma vnear_of_scale k m g v G B V A : vfin (@vscale _ D g v) -> near_of k g G B -> vnear_of m v V A -> vnear_of (S (k + m)) (@vscale _ D g v) (sscale G V) (mscale B A).
Proof. intros (F1 & F2 & F3) N (A1 & A2 & A3). unfold vscale, sscale, mscale in *. cbn [vx vy vz] in *. split; [|split]; cbn [vx vy vz]; apply near_of_mul2; assumption. Qed.
Lemma vnear_of_cross k m a b X Y A B : vfin (@vcross _ D a b) -> vnear_of k a X A -> vnear_of m b Y B -> vnear_of (S (S (k + m))) (@vcross _ D a b) (scross X Y) (mcross A B).
Proof.
  intros (F1 & F2 & F3) (A1 & A2 & A3) (B1 & B2 & B3). unfold vcross, scross, mcross in *. cbn [vx vy vz] in *.
  destruct (sub_fin e _ _ F1), (sub_fin e _ _ F2), (sub_fin e _ _ F3).
  split; [|split]; cbn [vx vy vz]; (apply near_of_sub; [assumption|apply near_of_mul2; assumption|apply near_of_mul2; assumption]).
Qed.
Lemma near_of_dot k m a b X Y A B : fin (@vdot _ D a b) -> vnear_of k a X A -> vnear_of m b Y B -> near_of (S (S (S (k + m)))) (@vdot _ D a b) (sdot X Y) (mdot A B).
Proof.
  intros F (A1 & A2 & A3) (B1 & B2 & B3). unfold vdot, sdot, mdot in *. destruct (add_fin e _ _ F) as [F1 F2]. destruct (add_fin e _ _ F1) as [F3 F4].
  apply near_of_add; [exact F|apply near_of_add; [exact F1|apply near_of_mul2; assumption|apply near_of_mul2; assumption]|]. apply (near_of_more (S (k + m))); [lia|]. apply near_of_mul2; assumption.
Qed.
Lemma vnear_of_sum k l L x X A : vfin (fold_left (@vadd _ D) l x) -> vnear_of k x X A -> Forall2 (fun a B => vnear_of k a (fst B) (snd B)) l L ->
  vnear_of (k + length l) (fold_left (@vadd _ D) l x) (fold_left sadd (map fst L) X) (fold_left sadd (map snd L) A).
Proof.
  intros F N H. revert k x X A F N H. revert L. induction l as [|a l IH]; intros L k x X A F N H; inversion_clear H as [|? B ? L' HA HL]; cbn [fold_left length map]; [rewrite Nat.add_0_r; exact N|].
  cbn [fold_left] in F. replace (k + S (length l))%nat with (S k + length l)%nat by lia. apply IH; [exact F| |].
  - apply vnear_of_add; [apply (sum_fin _ _ F)|exact N|exact HA].
  - clear -HL. induction HL as [|b C l L' H HL IH2]; constructor; [apply (vnear_of_more k); [lia|exact H]|exact IH2].
Qed.
End Ops.
