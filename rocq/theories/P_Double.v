(** C89: sail data interpolated in double arithmetic. *)

From Coq Require Import String ZArith Reals List Bool Lra Psatz Lia Arith.
From Flocq Require Import Core BinarySingleNaN.
From Verif Require Import Num PyBase RNum Spec M_Airfoil M_Interp L_List L_Airfoil P_Interp P_Scene L_Lattice Double L_Double.
Import ListNotations.
Open Scope R_scope.

(** a product of factors close to 1 *)
Lemma fac A a e : Rabs (A - 1) <= a -> Rabs e <= u -> Rabs (A * (1 + e) - 1) <= a + u + a * u.
Proof.
  intros HA HE. replace (A * (1 + e) - 1) with ((A - 1) + e + (A - 1) * e) by ring. eapply Rle_trans; [apply Rabs_triang|]. pose proof (Rabs_triang (A - 1) e). rewrite Rabs_mult.
  pose proof (Rabs_pos (A - 1)). pose proof (Rabs_pos e). nra.
Qed.
Lemma fac_inv e : Rabs e <= u -> 1 + e <> 0 /\ Rabs (/ (1 + e) - 1) <= 101 / 100 * u.
Proof.
  intros H. pose proof u_small. apply Rabs_le_inv in H. split; [lra|]. assert (P : 0 < 1 + e) by lra. replace (/ (1 + e) - 1) with (- e * / (1 + e)) by (field; lra).
  rewrite Rabs_mult, Rabs_Ropp, (Rabs_pos_eq (/ (1 + e))) by (left; apply Rinv_0_lt_compat; lra).
  apply Rmult_le_reg_r with (1 + e); [lra|]. rewrite Rmult_assoc, Rinv_l by lra. assert (Rabs e <= u) by (apply Rabs_le; lra). nra.
Qed.
Definition close (A a : R) : Prop := Rabs (A - 1) <= a.

Lemma fac' A a b e : Rabs (A - 1) <= a * u -> Rabs e <= u -> 0 <= a <= 10 -> a + 101 / 100 <= b -> Rabs (A * (1 + e) - 1) <= b * u.
Proof.
  intros H E B C. eapply Rle_trans; [apply fac; eassumption|]. pose proof u_small. pose proof u_pos. assert (a * u * u <= 1 / 100 * u) by nra. nra.
Qed.
Lemma abs_mul a b A B : Rabs a <= A -> Rabs b <= B -> Rabs (a * b) <= A * B.
Proof. intros. rewrite Rabs_mult. apply Rmult_le_compat; try apply Rabs_pos; assumption. Qed.
Lemma abs_add a b A B : Rabs a <= A -> Rabs b <= B -> Rabs (a + b) <= A + B.
Proof. intros. eapply Rle_trans; [apply Rabs_triang|]. lra. Qed.
Lemma one_abs e : Rabs e <= u -> Rabs (1 + e) <= 1 + u.
Proof. intros. apply abs_add; [rewrite Rabs_R1; lra|assumption]. Qed.
(** one interval, exactly: the value at x of the line through (x0, y0) and (x1, y1) *)
Definition line (x0 y0 x1 y1 x : R) : R := (y1 - y0) / (x1 - x0) * (x - x0) + y0.
Lemma line_between x0 y0 x1 y1 x : x0 <= x -> x < x1 -> Rmin y0 y1 <= line x0 y0 x1 y1 x <= Rmax y0 y1.
Proof.
  intros A B. unfold line. set (t := (x - x0) / (x1 - x0)). assert (T : 0 <= t <= 1).
  { unfold t. split; [apply Rmult_le_pos; [lra|left; apply Rinv_0_lt_compat; lra]|]. apply Rmult_le_reg_r with (x1 - x0); [lra|]. unfold Rdiv. rewrite Rmult_assoc, Rinv_l by lra. lra. }
  replace ((y1 - y0) / (x1 - x0) * (x - x0)) with ((y1 - y0) * t) by (unfold t; field; lra). clearbody t. unfold Rmin, Rmax. destruct (Rle_dec y0 y1); nra.
Qed.
(** the error bound for values up to Y in magnitude *)
Definition slack (Y : R) : R := 12 * u * Y + 4 * tiny.
Lemma piece_error e (x0 y0 x1 y1 x : double) Y : fin x0 -> fin y0 -> fin x1 -> fin y1 -> fin x -> 0 <= val x0 -> val x1 <= 1 -> val x0 <= val x -> val x < val x1 ->
  / 2 ^ 100 <= val x1 - val x0 -> Rabs (val y0) <= Y -> Rabs (val y1) <= Y -> Y <= 2 ^ 100 ->
  let NF := Double e in let v := nadd (nmul (ndiv (nsub y1 y0) (nsub x1 x0)) (nsub x x0)) y0 in
  fin v /\ Rabs (val v - line (val x0) (val y0) (val x1) (val y1) (val x)) <= slack Y /\ (val y1 = val y0 \/ val x = val x0 -> val v = val y0).
Proof.
  intros X0 Y0 X1 Y1 X A0 A1 A B GAP B0 B1 BY NF v. pose proof u_small as US. pose proof u_pos as UP. pose proof tiny_small as TS. pose proof tiny_pos as TP.
  assert (BIG : 2 ^ 300 <= bpow radix2 1000). { replace (2 ^ 300) with (bpow radix2 300); [apply bpow_le; lia|]. rewrite bpow_powerRZ. reflexivity. }
  assert (B3 : 2 ^ 300 = 2 ^ 100 * 2 ^ 100 * 2 ^ 100) by (rewrite <- !pow_add; reflexivity). assert (P100 : 1000 <= 2 ^ 100). { assert (2 ^ 10 <= 2 ^ 100) by (apply Rle_pow; [lra|lia]). simpl (2 ^ 10) in *. lra. }
  set (K := 2 ^ 100) in *. set (L := K * K) in *. assert (KL : 1000 * K <= L) by (unfold L; clear - P100; nra). assert (YP : 0 <= Y) by (pose proof (Rabs_pos (val y0)); lra).
  assert (SMALL : forall z, Rabs z <= 100 * L -> Rabs z <= bpow radix2 1000). { intros z Z. eapply Rle_trans; [exact Z|]. eapply Rle_trans; [|exact BIG]. rewrite B3. fold L. clear - P100 KL. nra. }
  clear BIG B3. pose proof (Rabs_le_inv _ _ B0) as B0'. pose proof (Rabs_le_inv _ _ B1) as B1'.
  destruct (dsub e y1 y0 Y1 Y0) as (F1 & e1 & E1 & Q1). { apply SMALL. apply Rabs_le. lra. }
  destruct (dsub e x1 x0 X1 X0) as (F2 & e2 & E2 & Q2). { apply SMALL. apply Rabs_le. lra. }
  destruct (dsub e x x0 X X0) as (F4 & e4 & E4 & Q4). { apply SMALL. apply Rabs_le. lra. }
  fold NF in F1, Q1, F2, Q2, F4, Q4. set (a := nsub y1 y0) in *. set (h := nsub x1 x0) in *. set (d := nsub x x0) in *.
  set (Dy := val y1 - val y0) in *. set (H := val x1 - val x0) in *. set (T := val x - val x0) in *.
  destruct (fac_inv e2 E2) as [NZ I2]. assert (HP : 0 < H) by (unfold H; lra).
  assert (HI : Rabs (/ H) <= K). { rewrite Rabs_pos_eq by (left; apply Rinv_0_lt_compat; lra). rewrite <- (Rinv_inv K). apply Rinv_le_contravar; [apply Rinv_0_lt_compat|]; lra. }
  assert (HN : val h <> 0). { rewrite Q2. apply Rmult_integral_contrapositive_currified; lra. }
  assert (DB : Rabs Dy <= 2 * Y) by (apply Rabs_le; unfold Dy; lra).
  assert (AH : val a / val h = Dy * / H * ((1 + e1) * / (1 + e2))). { rewrite Q1, Q2. field. split; lra. }
  assert (C1 : Rabs (/ (1 + e2) * (1 + e1) - 1) <= 203 / 100 * u). { apply fac' with (101 / 100); lra. }
  rewrite (Rmult_comm (/ (1 + e2))) in C1. set (A1' := (1 + e1) * / (1 + e2)) in *. clearbody A1'.
  assert (AB : Rabs A1' <= 2). { replace A1' with ((A1' - 1) + 1) by ring. eapply Rle_trans; [apply Rabs_triang|]. rewrite Rabs_R1. lra. }
  assert (DH : Rabs (Dy * / H) <= 2 * K * K). { apply abs_mul; [lra|exact HI]. }
  replace (2 * K * K) with (2 * L) in DH by (unfold L; ring). clearbody L.
  destruct (ddiv e a h F1 HN) as (F3 & e3 & n3 & E3 & N3 & Z3 & Q3). { apply SMALL. rewrite AH. eapply Rle_trans; [apply abs_mul; [exact DH|exact AB]|]. lra. }
  fold NF in F3, Q3. set (s := ndiv a h) in *. rewrite AH in Q3, Z3.
  assert (TB : 0 <= T <= 1) by (unfold T; lra). pose proof (one_abs e3 E3) as O3. pose proof (one_abs e4 E4) as O4. 
  assert (SB : Rabs (val s) <= 9 * L).
  { rewrite Q3. eapply Rle_trans; [apply abs_add; [apply abs_mul; [apply abs_mul; [exact DH|exact AB]|apply Rle_trans with (2 := O3 : _ <= 1 + u); apply Rle_refl]|exact N3]|]. assert ((1 + u) * L <= 2 * L) by (apply Rmult_le_compat_r; lra). lra. }
  assert (DB' : Rabs (val d) <= 2). { rewrite Q4. eapply Rle_trans; [apply abs_mul; [apply (Rabs_le T 1); lra|exact O4]|]. lra. }
  destruct (dmul e s d F3 F4) as (F5 & e5 & n5 & E5 & N5 & Z5 & Q5). { apply SMALL. eapply Rle_trans; [apply abs_mul; [exact SB|exact DB']|]. lra. }
  pose proof (one_abs e5 E5) as O5. fold NF in F5, Q5. set (m := nmul s d) in *. rewrite Q3, Q4 in Q5, Z5.
  set (q := Dy * / H * T). set (th := A1' * (1 + e3) * (1 + e4) * (1 + e5) - 1). set (n := n3 * (T * (1 + e4) * (1 + e5)) + n5).
  assert (QM : val m = q * (1 + th) + n) by (rewrite Q5; unfold q, th, n; ring).
  assert (TH : Rabs th <= 51 / 10 * u).
  { unfold th. apply fac' with (406 / 100); try assumption; try lra. apply fac' with (305 / 100); try assumption; try lra. apply fac' with (203 / 100); try assumption; lra. }
  assert (NB : Rabs n <= 3 * tiny).
  { unfold n. apply Rle_trans with (tiny * (1 * (1 + u) * (1 + u)) + tiny).
    - apply abs_add; [|exact N5]. apply abs_mul; [exact N3|]. apply abs_mul; [|exact O5]. apply abs_mul; [apply Rabs_le; lra|exact O4].
    - assert (1 * (1 + u) * (1 + u) <= 3 / 2) by (clear - US UP; nra). assert (tiny * (1 * (1 + u) * (1 + u)) <= tiny * (3 / 2)) by (apply Rmult_le_compat_l; lra). lra. }
  assert (QB : Rabs q <= 2 * Y).
  { unfold q. replace (Dy * / H * T) with (Dy * (T * / H)) by ring. replace (2 * Y) with (2 * Y * 1) by ring. apply abs_mul; [exact DB|].
    assert (0 <= T * / H <= 1); [|apply Rabs_le; lra].
    split; [apply Rmult_le_pos; [lra|left; apply Rinv_0_lt_compat; lra]|]. apply Rmult_le_reg_r with H; [lra|]. rewrite Rmult_assoc, Rinv_l by lra. unfold T, H. lra. }
  assert (LB : Rabs (q + val y0) <= Y).
  { pose proof (line_between (val x0) (val y0) (val x1) (val y1) (val x) A B) as W. unfold line in W. fold Dy H T in W. unfold Rdiv in W. fold q in W.
    apply Rabs_le. unfold Rmin, Rmax in W. destruct (Rle_dec (val y0) (val y1)); lra. }
  assert (MB : Rabs (q * th + n) <= 102 / 10 * (u * Y) + 3 * tiny).
  { eapply Rle_trans; [apply abs_add; [apply abs_mul; [exact QB|exact TH]|exact NB]|]. apply Req_le. field. }
  assert (UY : 0 <= u * Y) by (apply Rmult_le_pos; lra). assert (YK : u * Y <= K). { apply Rle_trans with (1 * Y); [apply Rmult_le_compat_r; lra|lra]. }
  destruct (dadd e m y0 F5 Y0) as (F6 & e6 & E6 & Q6).
  { apply SMALL. rewrite QM. replace (q * (1 + th) + n + val y0) with ((q + val y0) + (q * th + n)) by ring. eapply Rle_trans; [apply abs_add; [exact LB|exact MB]|]. lra. }
  fold NF in F6, Q6. split; [exact F6|]. split.
  2: { intros ZE. apply dadd_0; try assumption; [|apply SMALL; lra]. destruct ZE as [ZE|ZE].
    - assert (D0 : Dy = 0) by (unfold Dy; lra). rewrite D0 in Z3. assert (n3 = 0) by (apply Z3; ring). subst n3. rewrite D0 in Z5, Q5. rewrite Q5, Z5; ring.
    - assert (T0 : T = 0) by (unfold T; lra). rewrite T0 in Z5, Q5. rewrite Q5, Z5; ring. }
  unfold v. rewrite Q6, QM. unfold line. fold Dy H T. unfold Rdiv. fold q.
  replace ((q * (1 + th) + n + val y0) * (1 + e6) - (q + val y0)) with ((q + val y0) * e6 + (q * th + n) * (1 + e6)) by ring.
  eapply Rle_trans; [apply abs_add; [apply abs_mul; [exact LB|exact E6]|apply abs_mul; [exact MB|exact (one_abs e6 E6)]]|].
  unfold slack. set (W := u * Y) in *. replace (12 * u * Y) with (12 * W) by (unfold W; ring). replace (Y * u) with W by (unfold W; ring). clearbody W. clear - US UP TP UY.
  assert (u * W <= 1 / 100 * W) by (apply Rmult_le_compat_r; lra). assert (u * tiny <= 1 / 100 * tiny) by (apply Rmult_le_compat_r; lra). lra.
Qed.

(** ** Interpolation of whole tables *)
(** finite data: girths between 0 and 1 and not closer to each other than 2^-100, values up to Y in magnitude *)
Record table (g y : list double) (Y : R) : Prop := {
  tb_len : length g = length y; tb_some : g <> [];
  tb_girth : forall x, In x g -> fin x /\ 0 <= val x <= 1;
  tb_gap : forall i a b, nth_error g i = Some a -> nth_error g (S i) = Some b -> / 2 ^ 100 <= val b - val a;
  tb_value : forall v, In v y -> fin v /\ Rabs (val v) <= Y;
  tb_bound : Y <= 2 ^ 100 }.
Lemma slack_pos Y : 0 <= Y -> 0 <= slack Y.
Proof. intros. unfold slack. pose proof u_pos. pose proof tiny_pos. assert (0 <= u * Y) by (apply Rmult_le_pos; lra). lra. Qed.
Lemma gap_pos : 0 < / 2 ^ 100. Proof. apply Rinv_0_lt_compat. apply pow_lt. lra. Qed.
Lemma from_error e Y pts : forall (x0 y0 x : double), table (x0 :: map fst pts) (y0 :: map snd pts) Y -> fin x -> val x0 <= val x ->
  fin (@interp_from _ (Double e) x0 y0 pts x) /\
  Rabs (val (@interp_from _ (Double e) x0 y0 pts x) - @interp_from R RNum (val x0) (val y0) (map (fun p => (val (fst p), val (snd p))) pts) (val x)) <= slack Y.
Proof.
  induction pts as [|[x1 y1] pts IH]; intros x0 y0 x T X L.
  - cbn [interp_from map]. destruct (tb_value _ _ _ T y0) as [F B]; [simpl; auto|]. split; [exact F|]. rewrite Rminus_eq_0, Rabs_R0. apply slack_pos. pose proof (Rabs_pos (val y0)). lra.
  - assert (T' : table (x1 :: map fst pts) (y1 :: map snd pts) Y).
    { destruct T as [T1 T2 T3 T4 T5 T6]. cbn [map fst snd] in *. constructor; try assumption; try discriminate.
      - simpl in T1. simpl. lia.
      - intros z Z. apply T3. right. exact Z.
      - intros i a b A B. apply (T4 (S i) a b A B).
      - intros v V. apply T5. right. exact V. }
    destruct (tb_girth _ _ _ T x0) as [FX0 RX0]; [simpl; auto|]. destruct (tb_girth _ _ _ T x1) as [FX1 RX1]; [simpl; auto|].
    destruct (tb_value _ _ _ T y0) as [FY0 RY0]; [simpl; auto|]. destruct (tb_value _ _ _ T y1) as [FY1 RY1]; [simpl; auto|].
    cbn [interp_from map fst snd]. destruct (@nltb _ (Double e) x x1) eqn:C.
    + apply dltb in C; [|assumption|assumption].
      destruct (piece_error e x0 y0 x1 y1 x Y FX0 FY0 FX1 FY1 X) as (F & E & _); try lra; try assumption. { apply (tb_gap _ _ _ T 0%nat x0 x1); reflexivity. } { exact (tb_bound _ _ _ T). }
      split; [exact F|]. replace (@nltb R RNum (val x) (val x1)) with true; [exact E|]. symmetry. rnum. apply Rltb_true. exact C.
    + assert (G : val x1 <= val x). { destruct (Rle_or_lt (val x1) (val x)) as [G|G]; [exact G|]. apply (dltb e) in G; [congruence|assumption|assumption]. }
      replace (@nltb R RNum (val x) (val x1)) with false; [|symmetry; rnum; apply Rltb_false; exact G]. apply IH; assumption.
Qed.
Lemma table_tail x0 y0 x1 y1 g y Y : table (x0 :: x1 :: g) (y0 :: y1 :: y) Y -> table (x1 :: g) (y1 :: y) Y.
Proof.
  intros [T1 T2 T3 T4 T5 T6]. constructor; try assumption; try discriminate.
  - simpl in T1. simpl. lia.
  - intros z Z. apply T3. right. exact Z.
  - intros i a b A B. apply (T4 (S i) a b A B).
  - intros v V. apply T5. right. exact V.
Qed.
Lemma table_lt g y Y i j a b : table g y Y -> (i < j)%nat -> nth_error g i = Some a -> nth_error g j = Some b -> val a < val b.
Proof.
  intros T L A. revert b. pose proof gap_pos. induction L as [|j L IH]; intros b B.
  - pose proof (tb_gap _ _ _ T i a b A B). lra.
  - destruct (nth_error_ex g j) as [c C]; [apply nth_error_Some_lt in B; lia|]. pose proof (IH c C). pose proof (tb_gap _ _ _ T j c b C B). lra.
Qed.
(** where a value is given it is taken, and equal neighbours are not changed *)
Lemma from_exact e Y pts : forall (x0 y0 x : double), table (x0 :: map fst pts) (y0 :: map snd pts) Y -> fin x -> val x0 <= val x ->
  let v := @interp_from _ (Double e) x0 y0 pts x in
  (forall c, (forall w, In w (y0 :: map snd pts) -> val w = c) -> val v = c) /\
  (forall j a w, nth_error (x0 :: map fst pts) j = Some a -> nth_error (y0 :: map snd pts) j = Some w -> val x = val a -> val v = val w).
Proof.
  induction pts as [|[x1 y1] pts IH]; intros x0 y0 x T X L v.
  - unfold v. cbn [interp_from]. split; [intros c C; apply C; simpl; auto|]. intros [|j] a w A W _; simpl in A, W; [congruence|destruct j; discriminate].
  - cbn [map fst snd] in *. pose proof (table_tail _ _ _ _ _ _ _ T) as T'.
    destruct (tb_girth _ _ _ T x0) as [FX0 RX0]; [simpl; auto|]. destruct (tb_girth _ _ _ T x1) as [FX1 RX1]; [simpl; auto|].
    destruct (tb_value _ _ _ T y0) as [FY0 RY0]; [simpl; auto|]. destruct (tb_value _ _ _ T y1) as [FY1 RY1]; [simpl; auto|].
    unfold v. cbn [interp_from]. destruct (@nltb _ (Double e) x x1) eqn:C.
    + apply dltb in C; [|assumption|assumption].
      destruct (piece_error e x0 y0 x1 y1 x Y FX0 FY0 FX1 FY1 X) as (_ & _ & Z); try lra; try assumption. { apply (tb_gap _ _ _ T 0%nat x0 x1); reflexivity. } { exact (tb_bound _ _ _ T). }
      split.
      * intros c H. rewrite Z; [apply H; simpl; auto|]. left. rewrite !H by (simpl; auto). reflexivity.
      * intros [|j] a w A W XA; [simpl in A, W; injection A as <-; injection W as <-; apply Z; right; exact XA|]. exfalso.
        destruct j as [|j]; [simpl in A; injection A as <-; lra|]. pose proof (table_lt _ _ _ 1 (S (S j)) x1 a T ltac:(lia) eq_refl A). lra.
    + assert (G : val x1 <= val x). { destruct (Rle_or_lt (val x1) (val x)) as [G|G]; [exact G|]. apply (dltb e) in G; [congruence|assumption|assumption]. }
      destruct (IH x1 y1 x T' X G) as [I1 I2]. split.
      * intros c H. apply I1. intros w W. apply H. right. exact W.
      * intros [|j] a w A W XA; [|apply (I2 j a w A W XA)]. exfalso. simpl in A. injection A as <-. pose proof (tb_gap _ _ _ T 0%nat x0 x1 eq_refl eq_refl). pose proof gap_pos. lra.
Qed.

(** ** The sections *)
Lemma rnd_mono x y : x <= y -> rnd x <= rnd y.
Proof. intros. apply round_le; [apply FLT_exp_valid; reflexivity|apply valid_rnd_N|assumption]. Qed.
Lemma rnd_1 : rnd 1 = 1.
Proof. apply round_generic; [apply valid_rnd_N|]. change 1 with (bpow radix2 0). apply generic_format_bpow. unfold FLT_exp. simpl. lia. Qed.
Lemma double_station e n k : (k < n)%nat -> (Z.of_nat n <= 2 ^ 50)%Z ->
  exists x, nth_error (@linspace01 _ (Double e) n) k = Some x /\ fin x /\ 0 <= val x <= 1 /\ Rabs (val x - station n k) <= 3 * u /\
    (k = 0%nat -> val x = 0) /\ (S k = n -> (1 < n)%nat -> val x = 1).
Proof.
  intros K N. pose proof u_small as US. pose proof u_pos as UP. pose proof tiny_pos as TP.
  assert (TU : tiny <= u * u). { unfold tiny, u. replace (/ 2 * bpow radix2 (-52) * (/ 2 * bpow radix2 (-52))) with (/ 4 * (bpow radix2 (-52) * bpow radix2 (-52))) by field. rewrite <- bpow_plus.
    change (-1074)%Z with (-970 + -104)%Z. rewrite bpow_plus. pose proof (bpow_gt_0 radix2 (-104)). assert (bpow radix2 (-970) <= bpow radix2 (-2)) by (apply bpow_le; lia). change (bpow radix2 (-2)) with (/ 4) in *. change (-52 + -52)%Z with (-104)%Z. nra. }
  unfold linspace01. rewrite nth_error_map, nth_error_seq by assumption. cbn [option_map Nat.add]. eexists. split; [reflexivity|].
  destruct (dint e 1 ltac:(lia)) as [F1 V1]. destruct (Nat.eqb_spec (S k) n) as [LAST|NL]; cbn [andb].
  - destruct (Nat.ltb_spec 1 n) as [N1|N1].
    + split; [exact F1|]. rewrite V1. split; [lra|]. unfold station. replace (n - 1)%nat with k by lia. assert (0 < INR k) by (apply lt_0_INR; lia). unfold Rdiv. rewrite Rinv_r by lra. rewrite Rminus_eq_0, Rabs_R0. split; [lra|]. split; [lia|auto].
    + assert (n = 1%nat) by lia. assert (k = 0%nat) by lia. subst. destruct (dint e (Z.of_nat 0) ltac:(lia)) as [F0 V0]. split; [exact F0|]. rewrite V0. unfold station. simpl. split; [lra|]. replace (0 - 0 / 0) with 0 by (unfold Rdiv; ring). rewrite Rabs_R0. split; [lra|]. split; [auto|lia].
  - destruct (Nat.ltb_spec 1 n) as [N1|N1]; [|lia].
    destruct (dint e (Z.of_nat (n - 1)) ltac:(lia)) as [FN VN]. destruct (dint e (Z.of_nat k) ltac:(lia)) as [FK VK]. rewrite <- INR_IZR_INZ in VN, VK.
    assert (NP : 1 <= INR (n - 1)) by (change 1 with (INR 1); apply le_INR; lia). assert (KN : INR k + 1 <= INR (n - 1)) by (rewrite <- S_INR; apply le_INR; lia). assert (KP : 0 <= INR k) by apply pos_INR.
    assert (NB : INR (n - 1) * u <= / 8). { rewrite INR_IZR_INZ. unfold u. assert (IZR (Z.of_nat (n - 1)) <= IZR (2 ^ 50)) by (apply IZR_le; lia). change (IZR (2 ^ 50)) with (bpow radix2 50) in *.
      pose proof (bpow_gt_0 radix2 (-52)). assert (bpow radix2 50 * bpow radix2 (-52) = / 4) by (rewrite <- bpow_plus; reflexivity). nra. }
    set (M := INR (n - 1)) in *. set (q := INR k) in *. assert (IP : 0 < / M <= 1). { split; [apply Rinv_0_lt_compat; lra|]. rewrite <- Rinv_1. apply Rinv_le_contravar; lra. } assert (IM : M * / M = 1) by (apply Rinv_r; lra).
    destruct (ddiv e (@nZ _ (Double e) 1) (@nZ _ (Double e) (Z.of_nat (n - 1))) F1) as (F3 & e3 & n3 & E3 & N3 & _ & Q3). { rewrite VN. lra. } { rewrite V1, VN. unfold Rdiv. rewrite Rmult_1_l, Rabs_pos_eq by lra. pose proof one_big. lra. }
    rewrite V1, VN in Q3. set (s := ndiv _ _) in *. replace (1 / M) with (/ M) in Q3 by (unfold Rdiv; ring).
    pose proof (Rabs_le_inv _ _ E3) as E3'. pose proof (Rabs_le_inv _ _ N3) as N3'.
    assert (qM : q * / M <= 1). { apply Rmult_le_reg_r with M; [lra|]. rewrite Rmult_assoc, Rinv_l by lra. lra. } assert (qM0 : 0 <= q * / M) by (apply Rmult_le_pos; lra).
    assert (qT : q * tiny <= u). { apply Rle_trans with (M * (u * u)); [apply Rmult_le_compat; lra|]. nra. } assert (qT0 : 0 <= q * tiny) by (apply Rmult_le_pos; lra).
    assert (PR : q * val s = q * / M + (q * / M * e3 + q * n3)) by (rewrite Q3; ring).
    assert (SP : 0 <= val s). { assert (MU : u * / M >= u * u). { assert (u <= / M); [|nra]. apply Rmult_le_reg_r with M; [lra|]. rewrite Rinv_l by lra. lra. } rewrite Q3. assert (/ M * (1 + e3) >= / M * (1 - u)) by (apply Rmult_ge_compat_l; lra). assert (/ M * (1 - u) >= / M * (1 / 2)) by (apply Rmult_ge_compat_l; lra).
      assert (u * / M <= / M * (1 / 2)) by (clear - IP US UP; nra). lra. }
    assert (PB : q * val s <= 1).
    { rewrite PR. assert (A1 : q * / M = 1 - (M - q) * / M) by (field_simplify; lra). assert (A2 : q * / M * e3 <= u) by (clear - qM qM0 E3' UP; nra). assert (A3 : q * n3 <= u) by (apply Rle_trans with (q * tiny); [apply Rmult_le_compat_l; lra|exact qT]).
      assert (A4 : (M - q) * / M >= / M) by (clear - KN IP; nra). assert (A5 : 8 * u <= / M). { apply Rmult_le_reg_r with M; [lra|]. rewrite Rinv_l by lra. lra. } lra. }
    assert (P0 : 0 <= q * val s) by (apply Rmult_le_pos; lra).
    destruct (dmul e (@nZ _ (Double e) (Z.of_nat k)) s FK F3) as (F5 & e5 & n5 & E5 & N5 & Z5 & Q5). { rewrite VK. rewrite Rabs_pos_eq by exact P0. pose proof one_big. lra. }
    split; [exact F5|]. split.
    + pose proof (Bmult_correct 53 1024 p53 e1024 mode_NE (@nZ _ (Double e) (Z.of_nat k)) s) as C. rewrite VK in C. fold q in C. rewrite Rlt_bool_true in C by (apply rnd_fits; rewrite Rabs_pos_eq by exact P0; pose proof one_big; lra).
      destruct C as (C1 & _). cbn [nmul Double]. rewrite C1. pose proof (rnd_mono _ _ PB) as R1. pose proof (rnd_mono _ _ P0) as R0. rewrite rnd_1 in R1. rewrite rnd_0 in R0. split; [exact R0|exact R1].
    + split; [|split; [|lia]]. 2: { intros ->. rewrite Q5, Z5, VK; unfold q; simpl; ring. } rewrite Q5, VK. fold q. unfold station. fold q M. replace (q * val s * (1 + e5) + n5 - q / M) with (q * val s * e5 + n5 + (q * / M * e3 + q * n3)) by (rewrite PR; unfold Rdiv; ring).
      assert (A2 : Rabs (q * / M * e3) <= u) by (replace u with (1 * u) by ring; apply abs_mul; [rewrite Rabs_pos_eq by lra; lra|exact E3]).
      assert (A3 : Rabs (q * n3) <= q * tiny) by (apply abs_mul; [rewrite Rabs_pos_eq by lra; lra|exact N3]). 
      assert (A4 : Rabs (q * val s * e5) <= u) by (replace u with (1 * u) by ring; apply abs_mul; [rewrite Rabs_pos_eq by lra; lra|exact E5]).
      eapply Rle_trans; [apply abs_add; [apply abs_add; [exact A4|exact N5]|apply abs_add; [exact A2|exact A3]]|]. assert (q * tiny <= / 8 * u). { apply Rle_trans with (M * (u * u)); [apply Rmult_le_compat; lra|]. clear - NB UP. nra. } assert (tiny <= / 2 * u) by (clear - TU US UP; nra). lra.
Qed.

(** the numbers of a list of doubles *)
Definition vals (l : list double) : list R := map (fun a => val a) l.
Lemma interp_inv e sp g y Y n : table g y Y -> exists x0 y0 pts, g = x0 :: map fst pts /\ y = y0 :: map snd pts /\
  @interpolate_girths _ (Double e) sp "linear" g y n =
    Ok (map (fun x => if @nltb _ (Double e) x x0 then y0 else @interp_from _ (Double e) x0 y0 pts x) (@linspace01 _ (Double e) n)).
Proof.
  intros T. destruct (combine_split' g y (tb_len _ _ _ T)) as [E1 E2]. unfold interpolate_girths, np_interp. simpl String.eqb. cbv iota. rewrite (tb_len _ _ _ T), Nat.eqb_refl. cbn [negb].
  destruct (combine g y) as [|[x0 y0] pts]. { simpl in E1. destruct (tb_some _ _ _ T). congruence. } simpl in E1, E2. exists x0, y0, pts. auto.
Qed.
Lemma tiny4 : 4 * tiny = / 2 ^ 1073.
Proof.
  unfold tiny. replace (4 * (/ 2 * bpow radix2 (-1074))) with (2 * bpow radix2 (-1074)) by field. change 2 with (bpow radix2 1) at 1. rewrite <- bpow_plus.
  change (1 + -1074)%Z with (- (1073))%Z. rewrite bpow_opp. f_equal. rewrite bpow_powerRZ. reflexivity.
Qed.
(** the value of the piecewise linear function up to a rounding error *)
Theorem C89_error : forall e sp g y Y n, table g y Y -> (Z.of_nat n <= 2 ^ 50)%Z ->
  exists out, @interpolate_girths _ (Double e) sp "linear" g y n = Ok out /\ length out = n /\
    forall k, (k < n)%nat -> exists x v E, nth_error out k = Some v /\ fin v /\ Rabs (x - station n k) <= 3 / 2 ^ 53 /\
      linear_at (vals g) (vals y) x E /\ Rabs (val v - E) <= 12 / 2 ^ 53 * Y + / 2 ^ 1073.
Proof.
  intros e sp g y Y n T N. destruct (interp_inv e sp g y Y n T) as (x0 & y0 & pts & -> & -> & ->). eexists. split; [reflexivity|]. split; [rewrite map_length; apply linspace_length|].
  intros k K. rewrite nth_error_map. destruct (double_station e n k K N) as (x & -> & FX & RX & SX & _). cbn [option_map]. destruct (tb_girth _ _ _ T x0) as [F0 _]; [simpl; auto|]. destruct (tb_value _ _ _ T y0) as [FY BY]; [simpl; auto|].
  assert (US : 3 * u = 3 / 2 ^ 53) by (rewrite u_val; field). assert (SL : slack Y = 12 / 2 ^ 53 * Y + / 2 ^ 1073) by (unfold slack; rewrite tiny4, u_val; field).
  rewrite <- US, <- SL. exists (val x). destruct (@nltb _ (Double e) x x0) eqn:C.
  - apply dltb in C; [|assumption|assumption]. exists y0, (val y0). do 3 (split; [assumption || reflexivity|]). split; [left; exists (val x0); cbn [vals map nth_error]; repeat split; lra|]. rewrite Rminus_eq_0, Rabs_R0. apply slack_pos. pose proof (Rabs_pos (val y0)). lra.
  - assert (G : val x0 <= val x). { destruct (Rle_or_lt (val x0) (val x)) as [G|G]; [exact G|]. apply (dltb e) in G; [congruence|assumption|assumption]. }
    destruct (from_error e Y pts x0 y0 x T FX G) as [FV EV]. eexists. eexists. split; [reflexivity|]. split; [exact FV|]. split; [exact SX|]. split; [|exact EV].
    set (rp := map (fun p => (val (fst p), val (snd p))) pts). assert (M1 : vals (x0 :: map fst pts) = val x0 :: map fst rp) by (unfold vals, rp; cbn [map]; rewrite !map_map; reflexivity).
    assert (M2 : vals (y0 :: map snd pts) = val y0 :: map snd rp) by (unfold vals, rp; cbn [map]; rewrite !map_map; reflexivity). rewrite M1, M2. apply interp_from_linear; [|exact G].
    rewrite <- M1. intros i a b A B. unfold vals in A, B. rewrite nth_error_map in A, B. destruct (nth_error _ i) as [a'|] eqn:A'; [|discriminate]. destruct (nth_error _ (S i)) as [b'|] eqn:B'; [|discriminate].
    injection A as <-. injection B as <-. exact (table_lt _ _ _ i (S i) _ _ T (Nat.lt_succ_diag_r i) A' B').
Qed.
(** equal values are reproduced without error *)
Theorem C89_constant : forall e sp g y Y n c out k v, table g y Y -> (Z.of_nat n <= 2 ^ 50)%Z -> (forall w, In w y -> val w = c) ->
  @interpolate_girths _ (Double e) sp "linear" g y n = Ok out -> nth_error out k = Some v -> fin v /\ val v = c.
Proof.
  intros e sp g y Y n c out k v T N C E K. destruct (interp_inv e sp g y Y n T) as (x0 & y0 & pts & -> & -> & E'). rewrite E in E'. apply Ok_inj in E'. subst out.
  rewrite nth_error_map in K. destruct (nth_error (linspace01 n) k) as [x|] eqn:X; [|discriminate]. cbn [option_map] in K. match type of K with Some ?t = Some v => assert (VV : v = t) by congruence end. subst v. clear K.
  assert (L : (k < n)%nat). { apply nth_error_Some_lt in X. rewrite linspace_length in X. exact X. }
  destruct (double_station e n k L N) as (x' & X' & FX & RX & SX & _). rewrite X in X'. injection X' as <-. destruct (tb_girth _ _ _ T x0) as [F0 _]; [simpl; auto|]. destruct (tb_value _ _ _ T y0) as [FY BY]; [simpl; auto|].
  destruct (@nltb _ (Double e) x x0) eqn:Q; [split; [exact FY|apply C; simpl; auto]|].
  assert (G : val x0 <= val x). { destruct (Rle_or_lt (val x0) (val x)) as [G|G]; [exact G|]. apply (dltb e) in G; [congruence|assumption|assumption]. }
  split; [exact (proj1 (from_error e Y pts x0 y0 x T FX G))|]. exact (proj1 (from_exact e Y pts x0 y0 x T FX G) c C).
Qed.
(** the first and the last section have exactly the values given there *)
Theorem C89_ends : forall e sp g y Y n out x0 y0 x1 y1, table g y Y -> (2 <= n)%nat -> (Z.of_nat n <= 2 ^ 50)%Z ->
  @interpolate_girths _ (Double e) sp "linear" g y n = Ok out ->
  nth_error g 0 = Some x0 -> val x0 = 0 -> nth_error y 0 = Some y0 -> nth_error g (length g - 1) = Some x1 -> val x1 = 1 -> nth_error y (length g - 1) = Some y1 ->
  exists v w, nth_error out 0 = Some v /\ val v = val y0 /\ nth_error out (n - 1) = Some w /\ val w = val y1.
Proof.
  intros e sp g y Y n out x0 y0 x1 y1 T N2 N E X0 V0 Y0 X1 V1 Y1. destruct (interp_inv e sp g y Y n T) as (x0' & y0' & pts & -> & -> & E'). rewrite E in E'. apply Ok_inj in E'. subst out.
  simpl in X0, Y0. injection X0 as ->. injection Y0 as ->. rewrite !nth_error_map.
  destruct (double_station e n 0 ltac:(lia) N) as (a & -> & FA & RA & _ & SA & _). destruct (double_station e n (n - 1) ltac:(lia) N) as (b & B & FB & RB & _ & _ & SB). rewrite B.
  cbn [option_map]. do 2 eexists. split; [reflexivity|]. destruct (tb_girth _ _ _ T x0) as [F0 _]; [simpl; auto|].
  assert (A0 : forall z, fin z -> 0 <= val z -> @nltb _ (Double e) z x0 = false). { intros z FZ Z. destruct (@nltb _ (Double e) z x0) eqn:Q; [|reflexivity]. apply dltb in Q; [lra|assumption|assumption]. }
  rewrite (A0 a FA), (A0 b FB) by lra.
  destruct (from_exact e Y pts x0 y0 a T FA ltac:(lra)) as [_ KA]. destruct (from_exact e Y pts x0 y0 b T FB ltac:(lra)) as [_ KB]. split; [|split; [reflexivity|]].
  - apply (KA 0%nat x0 y0 eq_refl eq_refl). rewrite V0. auto.
  - apply (KB _ x1 y1 X1 Y1). rewrite V1. apply SB; lia.
Qed.

(** ** The range check of the airfoil *)
Lemma literal e z d : (Z.abs z <= 2 ^ 53)%Z -> (0 <= d)%Z -> (10 ^ d <= 2 ^ 53)%Z -> let x := @ndec _ (Double e) z d in fin x /\ Rabs (val x - IZR z / IZR (10 ^ d)) <= Rabs (IZR z / IZR (10 ^ d)) * u + tiny.
Proof.
  intros HZ HD HP x. assert (P : (0 < 10 ^ d)%Z) by (apply Z.pow_pos_nonneg; lia). destruct (dint e z HZ) as [F1 V1]. destruct (dint e (10 ^ d) ltac:(lia)) as [F2 V2].
  assert (P1 : 1 <= IZR (10 ^ d)) by (apply IZR_le; lia). unfold x, ndec.
  destruct (ddiv e (@nZ _ (Double e) z) (@nZ _ (Double e) (10 ^ d)) F1) as (F3 & e3 & n3 & E3 & N3 & _ & Q3).
  - rewrite V2. lra.
  - rewrite V1, V2. unfold Rdiv. apply Rle_trans with (bpow radix2 53 * 1); [|rewrite Rmult_1_r; apply bpow_le; lia]. apply abs_mul.
    + rewrite <- abs_IZR. change (bpow radix2 53) with (IZR (2 ^ 53)). apply IZR_le. exact HZ.
    + rewrite Rabs_pos_eq by (left; apply Rinv_0_lt_compat; lra). rewrite <- Rinv_1. apply Rinv_le_contravar; lra.
  - split; [exact F3|]. rewrite Q3, V1, V2. replace (IZR z / IZR (10 ^ d) * (1 + e3) + n3 - IZR z / IZR (10 ^ d)) with (IZR z / IZR (10 ^ d) * e3 + n3) by ring.
    apply abs_add; [apply abs_mul; [lra|exact E3]|exact N3].
Qed.
Lemma camber_defined e m p x : fin p -> fin x -> 0 <= val x <= 1 -> (exists y, @get_y_camber _ (Double e) m p x = Ok y) /\ (exists y, @get_dy_dx_camber _ (Double e) m p x = Ok y).
Proof.
  intros FP FX RX. destruct (dint e 0 ltac:(lia)) as [F0 V0]. destruct (dint e 1 ltac:(lia)) as [F1 V1]. unfold get_y_camber, get_dy_dx_camber.
  assert (A : @nleb _ (Double e) (@nZ _ (Double e) 0) x = true) by (apply dleb; try assumption; lra). assert (B : @nleb _ (Double e) x (@nZ _ (Double e) 1) = true) by (apply dleb; try assumption; lra). rewrite A, B.
  destruct (@nltb _ (Double e) x p) eqn:C; cbn [andb]; [eauto|].
  assert (G : @nleb _ (Double e) p x = true). { apply dleb; try assumption. destruct (Rle_or_lt (val p) (val x)) as [G|G]; [exact G|]. apply (dltb e) in G; [congruence|assumption|assumption]. } rewrite G. cbn [andb]. eauto.
Qed.
Lemma airfoil_accepted e m p n : fin m -> fin p -> (Z.of_nat n <= 2 ^ 50)%Z -> 0 <= val m -> @nleb _ (Double e) m (@ndec _ (Double e) 3 1) = true -> 0 <= val p -> @nleb _ (Double e) p (@ndec _ (Double e) 9 1) = true ->
  exists foil, @VlmAirfoil _ (Double e) m p (@nZ _ (Double e) 0) n = Ok foil.
Proof.
  intros FM FP N M0 M1 P0 P1. destruct (dint e 0 ltac:(lia)) as [F0 V0]. destruct (literal e 4 1 ltac:(lia) ltac:(lia) ltac:(lia)) as [F4 V4]. cbv zeta in F4, V4. unfold VlmAirfoil, check_naca_params. rewrite M1, P1.
  assert (A : @nleb _ (Double e) (@nZ _ (Double e) 0) m = true) by (apply dleb; try assumption; lra). assert (B : @nleb _ (Double e) (@nZ _ (Double e) 0) p = true) by (apply dleb; try assumption; lra). rewrite A, B.
  assert (C : @nleb _ (Double e) (@nZ _ (Double e) 0) (@nZ _ (Double e) 0) = true) by (apply dleb; try assumption; lra). rewrite C.
  assert (D : @nleb _ (Double e) (@nZ _ (Double e) 0) (@ndec _ (Double e) 4 1) = true). { apply dleb; try assumption. change (IZR 4 / IZR (10 ^ 1)) with (4 / 10) in V4. apply Rabs_le_inv in V4. rewrite (Rabs_pos_eq (4 / 10)) in V4 by lra. pose proof u_small. pose proof tiny_small. rewrite V0. lra. } rewrite D. cbn [andb negb bind].
  assert (S1 : forall x, In x (@linspace01 _ (Double e) n) -> fin x /\ 0 <= val x <= 1).
  { intros x I. apply In_nth_error in I. destruct I as [k I]. assert (L : (k < n)%nat). { apply nth_error_Some_lt in I. rewrite linspace_length in I. exact I. } destruct (double_station e n k L N) as (x' & X & FX & RX & _). rewrite X in I. injection I as <-. auto. }
  destruct (mapM_total (@get_y_camber _ (Double e) m p) (@linspace01 _ (Double e) n)) as [yc Y]. { intros x I. destruct (S1 x I) as [FX RX]. apply (camber_defined e m p x FP FX RX). }
  destruct (mapM_total (@get_dy_dx_camber _ (Double e) m p) (@linspace01 _ (Double e) n)) as [dy Z]. { intros x I. destruct (S1 x I) as [FX RX]. apply (camber_defined e m p x FP FX RX). }
  rewrite Y. cbn [bind]. rewrite Z. cbn [bind]. eauto.
Qed.
(** values between 10^-14 and the limit less 10^-14 *)
Definition inside (l : list double) (top : R) : Prop := forall w, In w l -> 1 / 10 ^ 14 <= val w <= top - 1 / 10 ^ 14.
Lemma inside_out e sp g y n top out k v : (exists Y, table g y Y) -> (Z.of_nat n <= 2 ^ 50)%Z -> 1 / 10 ^ 14 <= top <= 1 -> inside y top ->
  @interpolate_girths _ (Double e) sp "linear" g y n = Ok out -> nth_error out k = Some v -> fin v /\ 0 <= val v <= top - 1 / 10 ^ 15.
Proof.
  intros [Y T] N TP IN E K. assert (T1 : table g y 1). { destruct T as [A1 A2 A3 A4 A5 A6]. constructor; try assumption. - intros w W. split; [apply (A5 w W)|]. specialize (IN w W). apply Rabs_le. lra. - rewrite <- (pow1 100). apply pow_incr. lra. }
  destruct (C89_error e sp g y 1 n T1 N) as (out' & E' & LO & P). rewrite E in E'. apply Ok_inj in E'. subst out'. destruct (P k) as (x & v' & V & KV & FV & _ & LA & B). { apply nth_error_Some_lt in K. lia. }
  rewrite K in KV. injection KV as <-. split; [exact FV|].
  assert (LM : length (vals g) = length (vals y)) by (unfold vals; rewrite !map_length; exact (tb_len _ _ _ T)).
  destruct (linear_at_bounds (vals g) (vals y) x V LM) as (j & a & b & A & B' & W); [|exact LA|].
  { unfold vals. destruct g; [destruct (tb_some _ _ _ T); reflexivity|discriminate]. }
  assert (VI : forall i r, nth_error (vals y) i = Some r -> 1 / 10 ^ 14 <= r <= top - 1 / 10 ^ 14). { intros i r R'. unfold vals in R'. rewrite nth_error_map in R'. destruct (nth_error y i) as [w|] eqn:Q; [|discriminate]. injection R' as <-. apply IN. eapply nth_error_In; exact Q. }
  pose proof (VI _ _ A) as RA. assert (RB : 1 / 10 ^ 14 <= b <= top - 1 / 10 ^ 14) by (destruct B' as [B'| ->]; [exact (VI _ _ B')|exact RA]).
  assert (SM : 12 / 2 ^ 53 * 1 + / 2 ^ 1073 <= 2 / 10 ^ 15). { rewrite <- tiny4. assert (TT : tiny <= u * u).
    { unfold tiny, u. replace (/ 2 * bpow radix2 (-52) * (/ 2 * bpow radix2 (-52))) with (/ 4 * (bpow radix2 (-52) * bpow radix2 (-52))) by field. rewrite <- bpow_plus.
      change (-1074)%Z with (-970 + -104)%Z. rewrite bpow_plus. pose proof (bpow_gt_0 radix2 (-104)). assert (bpow radix2 (-970) <= bpow radix2 (-2)) by (apply bpow_le; lia). change (bpow radix2 (-2)) with (/ 4) in *. change (-52 + -52)%Z with (-104)%Z. nra. }
    pose proof u_small. pose proof u_pos. assert (u * u <= 1 / 1000000000000000 * (1 / 1000000000000000)) by (apply Rmult_le_compat; lra). lra. }
  apply Rabs_le_inv in B. unfold Rmin, Rmax in W. destruct (Rle_dec a b); lra.
Qed.
(** Sails whose cambers and positions keep a distance of 10^-14 from the limits pass the range check of the airfoil at all sections. *)
Theorem C89_margin : forall e sp g ca di n nc out_c out_d, (exists Y, table g ca Y) -> (exists Y, table g di Y) -> (Z.of_nat n <= 2 ^ 50)%Z -> (Z.of_nat nc <= 2 ^ 50)%Z ->
  inside ca (3 / 10) -> inside di (9 / 10) ->
  @interpolate_girths _ (Double e) sp "linear" g ca n = Ok out_c -> @interpolate_girths _ (Double e) sp "linear" g di n = Ok out_d ->
  forall k m p, nth_error out_c k = Some m -> nth_error out_d k = Some p -> exists foil, @VlmAirfoil _ (Double e) m p (@nZ _ (Double e) 0) nc = Ok foil.
Proof.
  intros e sp g ca di n nc oc od TC TD N NC IC ID EC ED k m p M P.
  destruct (inside_out e sp g ca n (3 / 10) oc k m TC N ltac:(lra) IC EC M) as [FM RM]. destruct (inside_out e sp g di n (9 / 10) od k p TD N ltac:(lra) ID ED P) as [FP RP].
  destruct (literal e 3 1 ltac:(lia) ltac:(lia) ltac:(lia)) as [F3 V3]. destruct (literal e 9 1 ltac:(lia) ltac:(lia) ltac:(lia)) as [F9 V9]. cbv zeta in F3, V3, F9, V9.
  pose proof u_small as US. pose proof tiny_small. change (IZR 3 / IZR (10 ^ 1)) with (3 / 10) in V3. change (IZR 9 / IZR (10 ^ 1)) with (9 / 10) in V9. rewrite (Rabs_pos_eq (3 / 10)) in V3 by lra. rewrite (Rabs_pos_eq (9 / 10)) in V9 by lra. apply Rabs_le_inv in V3. apply Rabs_le_inv in V9.
  assert (U2 : u <= 12 / 10 ^ 17) by (rewrite u_val; lra).
  assert (T2 : tiny <= 1 / 10 ^ 17). { pose proof tiny4. assert (tiny <= u / 100); [|lra]. unfold tiny, u. assert (bpow radix2 (-1074) <= bpow radix2 (-60)) by (apply bpow_le; lia). change (-60)%Z with (-52 + -8)%Z in *. rewrite bpow_plus in *. change (bpow radix2 (-8)) with (/ 256) in *. pose proof (bpow_gt_0 radix2 (-52)). lra. }
  apply airfoil_accepted; try assumption; try lra; apply dleb; try assumption; lra.
Qed.
