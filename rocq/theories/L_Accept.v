(** Double arithmetic judged by its results: if a result is finite, so are the numbers it was computed from, and the
    rounding error is bounded by the sizes of the terms.  No bound on the numbers is assumed. *)

From Coq Require Import ZArith Reals List Bool Lra Psatz Lia.
From Flocq Require Import Core BinarySingleNaN.
From Verif Require Import Num PyBase RNum Spec M_Rotations M_Velocity L_List Double L_Double.
Import ListNotations.
Open Scope R_scope.

Section Ops.
Context (e : elementary).
Notation D := (Double e).
Lemma add_fin x y : fin (@nadd _ D x y) -> fin x /\ fin y.
Proof. cbn [nadd Double]. destruct x as [s|s| |s m z B], y as [s'|s'| |s' m' z' B']; cbn; try (destruct (Bool.eqb _ _); cbn); intros H; try discriminate H; split; reflexivity. Qed.
Lemma sub_fin x y : fin (@nsub _ D x y) -> fin x /\ fin y.
Proof. cbn [nsub Double]. destruct x as [s|s| |s m z B], y as [s'|s'| |s' m' z' B']; cbn; try (destruct (Bool.eqb _ _); cbn); intros H; try discriminate H; split; reflexivity. Qed.
Lemma mul_fin x y : fin (@nmul _ D x y) -> fin x /\ fin y.
Proof. cbn [nmul Double]. destruct x as [s|s| |s m z B], y as [s'|s'| |s' m' z' B']; cbn; intros H; try discriminate H; split; reflexivity. Qed.
Lemma opp_fin x : fin (@nopp _ D x) <-> fin x.
Proof. cbn [nopp Double]. rewrite is_finite_Bopp. reflexivity. Qed.
Lemma overflow_inf s : is_finite_SF (binary_overflow 53 1024 mode_NE s) = false.
Proof. destruct s; reflexivity. Qed.
Lemma add_val x y : fin (@nadd _ D x y) -> exists d, Rabs d <= u /\ val (@nadd _ D x y) = (val x + val y) * (1 + d).
Proof.
  intros H. destruct (add_fin x y H) as [X Y]. cbn [nadd Double] in *. pose proof (Bplus_correct 53 1024 p53 e1024 mode_NE x y X Y) as C.
  destruct (Rlt_bool _ _) in C.
  - destruct C as (C1 & _). destruct (rnd_sum x y) as (d & E & Q). exists d. split; [exact E|]. rewrite C1. exact Q.
  - exfalso. destruct C as (C & _). apply (f_equal is_finite_SF) in C. rewrite is_finite_SF_B2SF, H, overflow_inf in C. discriminate.
Qed.
Lemma mul_val x y : fin (@nmul _ D x y) -> exists d n, Rabs d <= u /\ Rabs n <= tiny /\ val (@nmul _ D x y) = val x * val y * (1 + d) + n.
Proof.
  intros H. cbn [nmul Double] in *. pose proof (Bmult_correct 53 1024 p53 e1024 mode_NE x y) as C.
  destruct (Rlt_bool _ _) in C.
  - destruct C as (C1 & _). destruct (rnd_eta (val x * val y)) as (d & n & E & N & _ & Q). exists d, n. split; [exact E|]. split; [exact N|]. rewrite C1. exact Q.
  - exfalso. apply (f_equal is_finite_SF) in C. rewrite is_finite_SF_B2SF, H, overflow_inf in C. discriminate.
Qed.

(** [x] was computed for [X] in [k] roundings, with terms whose absolute values add up to [A] *)
Definition floor : R := bpow radix2 (-1000).
Record near_of (k : nat) (x : double) (X A : R) : Prop := { no_fin : fin x; no_size : Rabs X <= A; no_err : Rabs (val x - X) <= ((1 + u) ^ k - 1) * A }.
Lemma pow_1 k : 1 <= (1 + u) ^ k. Proof. apply pow_R1_Rle. pose proof u_pos. lra. Qed.
Lemma near_of_exact x : fin x -> near_of 0 x (val x) (Rabs (val x)).
Proof. intros F. constructor; [exact F|lra|]. replace (val x - val x) with 0 by ring. rewrite Rabs_R0. simpl. lra. Qed.
Lemma near_of_more k m x X A : (k <= m)%nat -> near_of k x X A -> near_of m x X A.
Proof.
  intros L [F S E]. constructor; [exact F|exact S|]. pose proof (Rabs_pos X). apply Rle_trans with (1 := E). apply Rmult_le_compat_r; [lra|]. apply Rplus_le_compat_r. apply Rle_pow; [pose proof u_pos; lra|exact L].
Qed.
Lemma near_of_bound k x X A B : A <= B -> near_of k x X A -> near_of k x X B.
Proof. intros L [F S E]. constructor; [exact F|lra|]. apply Rle_trans with (1 := E). apply Rmult_le_compat_l; [|exact L]. pose proof (pow_1 k). lra. Qed.
Lemma near_of_val k x X A : near_of k x X A -> Rabs (val x) <= (1 + u) ^ k * A.
Proof. intros [F S E]. replace (val x) with ((val x - X) + X) by ring. apply Rle_trans with (1 := Rabs_triang _ _). lra. Qed.
Lemma near_of_add k x y X Y A B : fin (@nadd _ D x y) -> near_of k x X A -> near_of k y Y B -> near_of (S k) (@nadd _ D x y) (X + Y) (A + B).
Proof.
  intros F NX NY. pose proof (near_of_val _ _ _ _ NX) as VX. pose proof (near_of_val _ _ _ _ NY) as VY. destruct NX as [_ SX EX], NY as [_ SY EY]. destruct (add_val x y F) as (d & Hd & EV).
  constructor; [exact F|apply Rle_trans with (1 := Rabs_triang _ _); lra|]. rewrite EV.
  replace ((val x + val y) * (1 + d) - (X + Y)) with (((val x - X) + (val y - Y)) + d * (val x + val y)) by ring.
  apply Rle_trans with (1 := Rabs_triang _ _). rewrite Rabs_mult. pose proof (Rabs_triang (val x - X) (val y - Y)) as T1. pose proof (Rabs_triang (val x) (val y)) as T2.
  pose proof (Rmult_le_compat _ _ _ _ (Rabs_pos d) (Rabs_pos (val x + val y)) Hd (Rle_trans _ _ _ T2 (Rplus_le_compat _ _ _ _ VX VY))) as M. cbn [pow]. lra.
Qed.
Lemma near_of_opp k x X A : near_of k x X A -> near_of k (@nopp _ D x) (- X) A.
Proof.
  intros [F S E]. constructor; [apply opp_fin; exact F|rewrite Rabs_Ropp; exact S|]. cbn [nopp Double]. rewrite B2R_Bopp. replace (- val x - - X) with (- (val x - X)) by ring. rewrite Rabs_Ropp. exact E.
Qed.
Lemma tiny_floor : tiny <= u * floor.
Proof. unfold tiny, u, floor. replace (/ 2 * bpow radix2 (-52) * bpow radix2 (-1000)) with (/ 2 * (bpow radix2 (-52) * bpow radix2 (-1000))) by ring. rewrite <- bpow_plus. apply Rmult_le_compat_l; [lra|]. apply bpow_le. lia. Qed.
Lemma floor_pos : 0 < floor. Proof. apply bpow_gt_0. Qed.
(* a product with a number that is taken as it is *)
Lemma near_of_mul k x y X A : fin (@nmul _ D x y) -> near_of k x X A -> near_of (S k) (@nmul _ D x y) (X * val y) (A * Rabs (val y) + floor).
Proof.
  intros F NX. pose proof (near_of_val _ _ _ _ NX) as VX. destruct NX as [_ SX EX]. destruct (mul_val x y F) as (d & n & Hd & Hn & EV). pose proof floor_pos as FP. pose proof (Rabs_pos (val y)) as PY. pose proof u_pos as U. pose proof (pow_1 k) as P1.
  constructor; [exact F|rewrite Rabs_mult; pose proof (Rmult_le_compat_r _ _ _ PY SX); lra|]. rewrite EV.
  replace (val x * val y * (1 + d) + n - X * val y) with (((val x - X) * val y + d * (val x * val y)) + n) by ring.
  apply Rle_trans with (1 := Rabs_triang _ _). pose proof (Rabs_triang ((val x - X) * val y) (d * (val x * val y))) as T. rewrite !Rabs_mult in T.
  pose proof (Rmult_le_compat_r _ _ _ PY EX) as M1. pose proof (Rmult_le_compat_r _ _ _ PY VX) as M2.
  assert (M3 : Rabs d * (Rabs (val x) * Rabs (val y)) <= u * ((1 + u) ^ k * A * Rabs (val y))) by (apply Rmult_le_compat; [apply Rabs_pos|apply Rmult_le_pos; apply Rabs_pos|exact Hd|exact M2]).
  pose proof tiny_floor as TF. cbn [pow].
  assert (M4 : u * floor <= ((1 + u) * (1 + u) ^ k - 1) * floor) by (apply Rmult_le_compat_r; [lra|nra]).
  lra.
Qed.
End Ops.
