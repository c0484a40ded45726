(** Lemmas about the spline interpolation: the equations for the second derivatives are regular. *)

From Coq Require Import ZArith Reals List Bool Lra Psatz Lia Arith.
From Verif Require Import Num PyBase RNum Spec M_Solve M_Spline L_List L_Solve L_Lattice L_Vlm.
Import ListNotations.
Open Scope R_scope.

Lemma sumn_single n k f : (k < n)%nat -> sumn n (fun l => if Nat.eqb l k then f l else 0) = f k.
Proof.
  revert k f. induction n as [|n IH]; intros k f K; [lia|].
  assert (E : forall g, sumn (S n) g = g 0%nat + sumn n (fun l => g (S l))).
  { intros g. unfold sumn, tab. cbn [seq map]. rewrite rsum_cons. f_equal. rewrite <- seq_shift, map_map. reflexivity. }
  rewrite E. destruct k as [|k].
  - cbn [Nat.eqb]. rewrite sumn_zero. ring.
  - cbn [Nat.eqb]. rewrite (IH k (fun l => f (S l))) by lia. ring.
Qed.
(** a row with three entries *)
Lemma sumn_three n a b c (f g h : R) z : (a < n)%nat -> (b < n)%nat -> (c < n)%nat -> a <> b -> a <> c -> b <> c ->
  sumn n (fun l => (if Nat.eqb l a then f else if Nat.eqb l b then g else if Nat.eqb l c then h else 0) * z l) = f * z a + g * z b + h * z c.
Proof.
  intros A B C AB AC BC.
  rewrite (sumn_ext n _ (fun l => ((if Nat.eqb l a then f * z l else 0) + (if Nat.eqb l b then g * z l else 0)) + (if Nat.eqb l c then h * z l else 0))).
  - rewrite !sumn_add. rewrite (sumn_single n a (fun l => f * z l)), (sumn_single n b (fun l => g * z l)), (sumn_single n c (fun l => h * z l)) by assumption. reflexivity.
  - intros l L. destruct (Nat.eqb_spec l a) as [E1|N1], (Nat.eqb_spec l b) as [E2|N2], (Nat.eqb_spec l c) as [E3|N3]; try congruence; ring.
Qed.
Lemma max_abs (z : nat -> R) n : (0 < n)%nat -> exists k, (k < n)%nat /\ forall i, (i < n)%nat -> Rabs (z i) <= Rabs (z k).
Proof.
  induction n as [|n IH]; intros N; [lia|]. destruct n as [|n].
  - exists 0%nat. split; [lia|]. intros i I. replace i with 0%nat by lia. lra.
  - destruct IH as (k & K & M); [lia|]. destruct (Rle_dec (Rabs (z (S n))) (Rabs (z k))) as [L|L].
    + exists k. split; [lia|]. intros i I. destruct (Nat.eq_dec i (S n)) as [->|]; [exact L|]. apply M. lia.
    + exists (S n). split; [lia|]. intros i I. destruct (Nat.eq_dec i (S n)) as [->|]; [lra|]. specialize (M i ltac:(lia)). lra.
Qed.
Lemma ascending_h xs i : ascending xs -> (S i < length xs)%nat -> 0 < sp_h xs i.
Proof.
  intros A L. unfold sp_h. rnum. pose proof (A i (nth i xs 0) (nth (S i) xs 0)) as P. rewrite !(nth_error_nth' xs 0) in P by lia. specialize (P eq_refl eq_refl). lra.
Qed.
Section Rows.
Variable xs : list R.
Hypothesis L : (4 <= length xs)%nat.
Let m := length xs.
Let h := sp_h xs.
Lemma row_first z : sumn m (fun l => sp_coef xs 0 l * z l) = h 1%nat * z 0%nat - (h 0%nat + h 1%nat) * z 1%nat + h 0%nat * z 2%nat.
Proof.
  unfold m. rewrite (sumn_ext _ _ (fun l => (if Nat.eqb l 0 then h 1%nat else if Nat.eqb l 1 then - (h 0%nat + h 1%nat) else if Nat.eqb l 2 then h 0%nat else 0) * z l)).
  - rewrite sumn_three by lia. ring.
  - intros l _. unfold sp_coef. cbv zeta. cbn [Nat.eqb]. rnum. reflexivity.
Qed.
Lemma row_last z : sumn m (fun l => sp_coef xs (m - 1) l * z l) = h (m - 2)%nat * z (m - 3)%nat - (h (m - 3)%nat + h (m - 2)%nat) * z (m - 2)%nat + h (m - 3)%nat * z (m - 1)%nat.
Proof.
  rewrite (sumn_ext _ _ (fun l => (if Nat.eqb l (m - 3) then h (m - 2)%nat else if Nat.eqb l (m - 2) then - (h (m - 3)%nat + h (m - 2)%nat) else if Nat.eqb l (m - 1) then h (m - 3)%nat else 0) * z l)).
  - unfold m. rewrite sumn_three by lia. ring.
  - intros l _. unfold sp_coef. cbv zeta. fold m. replace (m - 1 =? 0)%nat with false by (symmetry; apply Nat.eqb_neq; unfold m; lia). rewrite Nat.eqb_refl. rnum. reflexivity.
Qed.
Lemma row_inner i z : (0 < i)%nat -> (i < m - 1)%nat ->
  sumn m (fun l => sp_coef xs i l * z l) = h (i - 1)%nat * z (i - 1)%nat + 2 * (h (i - 1)%nat + h i) * z i + h i * z (i + 1)%nat.
Proof.
  intros I J. rewrite (sumn_ext _ _ (fun l => (if Nat.eqb l (i - 1) then h (i - 1)%nat else if Nat.eqb l i then 2 * (h (i - 1)%nat + h i) else if Nat.eqb l (i + 1) then h i else 0) * z l)).
  - unfold m in *. rewrite sumn_three by lia. ring.
  - intros l _. unfold sp_coef. cbv zeta. fold m. replace (i =? 0)%nat with false by (symmetry; apply Nat.eqb_neq; lia). replace (i =? m - 1)%nat with false by (symmetry; apply Nat.eqb_neq; lia). rnum. reflexivity.
Qed.
Lemma end_bound a b z1 z2 B : 0 < a -> 0 < b -> (a + b) * (a + 2 * b) * z1 + (b - a) * (a + b) * z2 = 0 -> Rabs z1 = B -> Rabs z2 <= B -> B = 0.
Proof.
  intros A0 B0 E E1 E2. assert (Q : (a + 2 * b) * z1 = (a - b) * z2).
  { apply (Rmult_eq_reg_l (a + b)); [|lra]. lra. }
  assert (N : 0 <= B) by (rewrite <- E1; apply Rabs_pos).
  assert (P : (a + 2 * b) * B = Rabs (a - b) * Rabs z2). { rewrite <- E1, <- Rabs_mult, <- Q, Rabs_mult, (Rabs_right (a + 2 * b)) by lra. reflexivity. }
  assert (D : Rabs (a - b) <= a + b). { unfold Rabs. destruct (Rcase_abs (a - b)); lra. }
  pose proof (Rabs_pos (a - b)). pose proof (Rabs_pos z2). nra.
Qed.
Lemma spline_regular : ascending xs -> regular m (sp_coef xs).
Proof.
  intros A z Z. assert (HP : forall i, (S i < m)%nat -> 0 < h i) by (intros i I; apply ascending_h; assumption). unfold m in *.
  pose proof (Z 0%nat ltac:(lia)) as Z0. rewrite row_first in Z0. pose proof (Z (m - 1)%nat ltac:(unfold m; lia)) as Zm. rewrite row_last in Zm. unfold m in *.
  destruct (max_abs (fun i => z (S i)) (length xs - 2)%nat) as (k & K & M); [lia|]. cbv beta in M. set (B := Rabs (z (S k))) in *.
  assert (MB : forall i, (0 < i)%nat -> (i < length xs - 1)%nat -> Rabs (z i) <= B). { intros i I J. replace i with (S (i - 1)) by lia. apply M. lia. }
  assert (B0 : B = 0).
  { pose proof (Z (S k) ltac:(lia)) as Zk. rewrite row_inner in Zk by (unfold m; lia). replace (S k - 1)%nat with k in Zk by lia. replace (S k + 1)%nat with (S (S k)) in Zk by lia.
    destruct (Nat.eq_dec k 0) as [->|K0]; [|destruct (Nat.eq_dec k (length xs - 3)) as [->|K1]].
    - apply (end_bound (h 0%nat) (h 1%nat) (z 1%nat) (z 2%nat)); [apply HP; lia|apply HP; lia| |reflexivity|apply MB; lia].
      transitivity (h 1%nat * (h 0%nat * z 0%nat + 2 * (h 0%nat + h 1%nat) * z 1%nat + h 1%nat * z 2%nat) - h 0%nat * (h 1%nat * z 0%nat - (h 0%nat + h 1%nat) * z 1%nat + h 0%nat * z 2%nat)); [ring | rewrite Zk, Z0; ring].
    - replace (S (length xs - 3)) with (length xs - 2)%nat in * by lia. replace (S (length xs - 2)) with (length xs - 1)%nat in Zk by lia.
      apply (end_bound (h (length xs - 2)%nat) (h (length xs - 3)%nat) (z (length xs - 2)%nat) (z (length xs - 3)%nat)); [apply HP; lia|apply HP; lia| |unfold B; do 2 f_equal; lia|apply MB; lia].
      set (a := h (length xs - 2)%nat) in *. set (b := h (length xs - 3)%nat) in *. set (z1 := z (length xs - 2)%nat) in *. set (z2 := z (length xs - 3)%nat) in *. set (z3 := z (length xs - 1)%nat) in *.
      transitivity (b * (b * z2 + 2 * (b + a) * z1 + a * z3) - a * (a * z2 - (b + a) * z1 + b * z3)); [ring | rewrite Zk, Zm; ring].
    - pose proof (HP k ltac:(lia)) as H1. pose proof (HP (S k) ltac:(lia)) as H2. pose proof (MB k ltac:(lia) ltac:(lia)) as M1. pose proof (MB (S (S k)) ltac:(lia) ltac:(lia)) as M2.
      pose proof (Rabs_pos (z (S k))) as P. fold B in P.
      assert (E : 2 * (h k + h (S k)) * z (S k) = - (h k * z k + h (S k) * z (S (S k)))) by lra.
      apply (f_equal Rabs) in E. rewrite Rabs_mult, Rabs_Ropp, (Rabs_right (2 * (h k + h (S k)))) in E by lra. fold B in E.
      pose proof (Rabs_triang (h k * z k) (h (S k) * z (S (S k)))) as T. rewrite !Rabs_mult, (Rabs_right (h k)), (Rabs_right (h (S k))) in T by lra. nra. }
  assert (ZI : forall i, (0 < i)%nat -> (i < length xs - 1)%nat -> z i = 0).
  { intros i I J. specialize (MB i I J). rewrite B0 in MB. pose proof (Rabs_pos (z i)). destruct (Req_dec (z i) 0) as [E|E]; [exact E|]. apply Rabs_no_R0 in E. lra. }
  intros l Hl. destruct (Nat.eq_dec l 0) as [->|L0]; [|destruct (Nat.eq_dec l (length xs - 1)) as [->|L1]; [|apply ZI; lia]].
  - rewrite (ZI 1%nat), (ZI 2%nat) in Z0 by lia. pose proof (HP 1%nat ltac:(lia)). nra.
  - rewrite (ZI (length xs - 3)%nat), (ZI (length xs - 2)%nat) in Zm by lia. pose proof (HP (length xs - 3)%nat ltac:(lia)). nra.
Qed.
End Rows.
