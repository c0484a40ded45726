(** Doubles near real numbers: error bounds relative to a scale. *)

From Coq Require Import ZArith Reals List Bool Lra Psatz Lia Machin.
From Flocq Require Import Core BinarySingleNaN Relative Plus_error.
From Verif Require Import Num Double L_Double.
Import ListNotations.
Open Scope R_scope.

(** [x] is finite and differs from [X], a number up to [B], by at most [k] rounding units of [B] *)
Definition near (B : R) (x : double) (X k : R) : Prop := fin x /\ Rabs X <= B /\ Rabs (val x - X) <= k * (B * u).
(** scales for which nothing overflows or vanishes *)
Definition mild (B : R) : Prop := bpow radix2 (-400) <= B <= bpow radix2 400.
Definition few (k : R) : Prop := 0 <= k <= 100000.

Lemma mild_pos B : mild B -> 0 < B. Proof. intros [H _]. pose proof (bpow_gt_0 radix2 (-400)). lra. Qed.
Lemma tiny_scale B C : mild B -> mild C -> tiny <= B * C * u / 1000.
Proof.
  intros [H _] [K _]. pose proof (bpow_gt_0 radix2 (-400)). assert (P : bpow radix2 (-400) * bpow radix2 (-400) <= B * C) by (apply Rmult_le_compat; lra). rewrite <- bpow_plus in P.
  unfold tiny, u. change (-400 + -400)%Z with (-800)%Z in P. assert (Q : bpow radix2 (-1074) = bpow radix2 (-800) * bpow radix2 (-52) * bpow radix2 (-222)) by (rewrite <- !bpow_plus; reflexivity).
  assert (T : bpow radix2 (-222) <= / 1024) by (apply Rle_trans with (bpow radix2 (-10)); [apply bpow_le; lia|right; reflexivity]). pose proof (bpow_gt_0 radix2 (-800)). pose proof (bpow_gt_0 radix2 (-52)).
  assert (0 < bpow radix2 (-800) * bpow radix2 (-52)) by (apply Rmult_lt_0_compat; assumption). rewrite Q.
  apply Rle_trans with (/ 2 * (bpow radix2 (-800) * bpow radix2 (-52) * / 1024)); [apply Rmult_le_compat_l; [lra|apply Rmult_le_compat_l; lra]|].
  assert (bpow radix2 (-800) * bpow radix2 (-52) <= B * C * bpow radix2 (-52)) by (apply Rmult_le_compat_r; lra). lra.
Qed.
Lemma near_weaken A B x X j k : near A x X j -> Rabs X <= B -> j * A <= k * B -> near B x X k.
Proof. intros (F & _ & E) XB JK. split; [exact F|]. split; [exact XB|]. eapply Rle_trans; [exact E|]. pose proof u_pos. nra. Qed.
Lemma near_size B x X k : near B x X k -> few k -> 0 <= B -> Rabs (val x) <= B * (1 + k * u).
Proof. intros (F & XB & E) K HB. replace (val x) with (X + (val x - X)) by ring. eapply Rle_trans; [apply Rabs_triang|]. lra. Qed.
Lemma few_u k : few k -> 0 <= k * u <= 1 / 1000000000.
Proof. intros [K1 K2]. pose proof u_pos. pose proof u_small. split; [nra|]. apply Rle_trans with (100000 * u); [nra|lra]. Qed.
Lemma near_exact B (x : double) : fin x -> Rabs (val x) <= B -> 0 <= B -> near B x (val x) 0.
Proof. intros F H P. split; [exact F|]. split; [exact H|]. rewrite Rminus_eq_0, Rabs_R0. lra. Qed.
Lemma near_opp e B x X k : near B x X k -> near B (@nopp _ (Double e) x) (- X) k.
Proof.
  intros (F & H & E). cbn [nopp Double]. split; [rewrite is_finite_Bopp; exact F|]. rewrite Rabs_Ropp, B2R_Bopp. split; [exact H|]. replace (- val x - - X) with (- (val x - X)) by ring. rewrite Rabs_Ropp. exact E.
Qed.
Lemma near_add e A B x y X Y j k : mild (A + B) -> 0 <= A -> 0 <= B -> few j -> few k -> near A x X j -> near B y Y k -> near (A + B) (@nadd _ (Double e) x y) (X + Y) (Rmax j k + 101 / 100).
Proof.
  intros M HA HB FJ FK NX NY. pose proof (near_size _ _ _ _ NX FJ HA) as SX. pose proof (near_size _ _ _ _ NY FK HB) as SY. pose proof (few_u _ FJ). pose proof (few_u _ FK). pose proof u_pos as UP. pose proof u_small as US.
  destruct NX as (FX & BX & EX). destruct NY as (FY & BY & EY).
  assert (S : Rabs (val x + val y) <= (A + B) * (1001 / 1000)) by (eapply Rle_trans; [apply Rabs_triang|]; nra).
  destruct (dadd e x y FX FY) as (FS & d & D & Q).
  { eapply Rle_trans; [exact S|]. destruct M as [_ M]. apply Rle_trans with (bpow radix2 400 * 2); [lra|]. replace 2 with (bpow radix2 1) by reflexivity. rewrite <- bpow_plus. apply bpow_le. lia. }
  split; [exact FS|]. split; [eapply Rle_trans; [apply Rabs_triang|]; lra|]. rewrite Q.
  replace ((val x + val y) * (1 + d) - (X + Y)) with ((val x - X) + (val y - Y) + (val x + val y) * d) by ring.
  eapply Rle_trans; [apply Rabs_triang|]. rewrite Rabs_mult. pose proof (Rabs_triang (val x - X) (val y - Y)).
  assert (P : Rabs (val x + val y) * Rabs d <= (A + B) * (1001 / 1000) * u) by (apply Rmult_le_compat; try apply Rabs_pos; assumption).
  pose proof (Rmax_l j k). pose proof (Rmax_r j k). assert (j * (A * u) <= Rmax j k * (A * u)) by (apply Rmult_le_compat_r; [nra|assumption]). assert (k * (B * u) <= Rmax j k * (B * u)) by (apply Rmult_le_compat_r; [nra|assumption]).
  assert (0 <= (A + B) * u) by nra. nra.
Qed.
Lemma near_sub e A B x y X Y j k : mild (A + B) -> 0 <= A -> 0 <= B -> few j -> few k -> near A x X j -> near B y Y k -> near (A + B) (@nsub _ (Double e) x y) (X - Y) (Rmax j k + 101 / 100).
Proof.
  intros M HA HB FJ FK NX NY. pose proof (near_size _ _ _ _ NX FJ HA) as SX. pose proof (near_size _ _ _ _ NY FK HB) as SY. pose proof (few_u _ FJ). pose proof (few_u _ FK). pose proof u_pos as UP. pose proof u_small as US.
  destruct NX as (FX & BX & EX). destruct NY as (FY & BY & EY).
  assert (S : Rabs (val x - val y) <= (A + B) * (1001 / 1000)) by (unfold Rminus; eapply Rle_trans; [apply Rabs_triang|]; rewrite Rabs_Ropp; nra).
  destruct (dsub e x y FX FY) as (FS & d & D & Q).
  { eapply Rle_trans; [exact S|]. destruct M as [_ M]. apply Rle_trans with (bpow radix2 400 * 2); [lra|]. replace 2 with (bpow radix2 1) by reflexivity. rewrite <- bpow_plus. apply bpow_le. lia. }
  split; [exact FS|]. split; [unfold Rminus; eapply Rle_trans; [apply Rabs_triang|]; rewrite Rabs_Ropp; lra|]. rewrite Q.
  replace ((val x - val y) * (1 + d) - (X - Y)) with ((val x - X) + - (val y - Y) + (val x - val y) * d) by ring.
  eapply Rle_trans; [apply Rabs_triang|]. rewrite Rabs_mult. pose proof (Rabs_triang (val x - X) (- (val y - Y))) as T. rewrite Rabs_Ropp in T.
  assert (P : Rabs (val x - val y) * Rabs d <= (A + B) * (1001 / 1000) * u) by (apply Rmult_le_compat; try apply Rabs_pos; assumption).
  pose proof (Rmax_l j k). pose proof (Rmax_r j k). assert (j * (A * u) <= Rmax j k * (A * u)) by (apply Rmult_le_compat_r; [nra|assumption]). assert (k * (B * u) <= Rmax j k * (B * u)) by (apply Rmult_le_compat_r; [nra|assumption]).
  assert (0 <= (A + B) * u) by nra. nra.
Qed.
Lemma near_mul e A B x y X Y j k : mild A -> mild B -> few j -> few k -> near A x X j -> near B y Y k -> near (A * B) (@nmul _ (Double e) x y) (X * Y) (j + k + 101 / 100).
Proof.
  intros MA MB FJ FK NX NY. pose proof (mild_pos _ MA) as HA. pose proof (mild_pos _ MB) as HB. pose proof (near_size _ _ _ _ NX FJ ltac:(lra)) as SX. pose proof (near_size _ _ _ _ NY FK ltac:(lra)) as SY. pose proof (few_u _ FJ) as UJ. pose proof (few_u _ FK) as UK. pose proof u_pos as UP. pose proof u_small as US.
  destruct NX as (FX & BX & EX). destruct NY as (FY & BY & EY). assert (AB : 0 < A * B) by (apply Rmult_lt_0_compat; assumption).
  assert (S : Rabs (val x * val y) <= A * B * (1001 / 1000)).
  { rewrite Rabs_mult. apply Rle_trans with ((A * (1 + j * u)) * (B * (1 + k * u))); [apply Rmult_le_compat; try apply Rabs_pos; assumption|]. replace (A * (1 + j * u) * (B * (1 + k * u))) with (A * B * ((1 + j * u) * (1 + k * u))) by ring. apply Rmult_le_compat_l; [lra|]. nra. }
  destruct (dmul e x y FX FY) as (FS & d & n & D & N & _ & Q).
  { eapply Rle_trans; [exact S|]. destruct MA as [_ MA], MB as [_ MB]. apply Rle_trans with (bpow radix2 400 * bpow radix2 400 * 2). - assert (A * B <= bpow radix2 400 * bpow radix2 400) by (apply Rmult_le_compat; lra). lra. - replace 2 with (bpow radix2 1) by reflexivity. rewrite <- !bpow_plus. apply bpow_le. lia. }
  split; [exact FS|]. split; [rewrite Rabs_mult; apply Rmult_le_compat; try apply Rabs_pos; assumption|]. rewrite Q.
  replace (val x * val y * (1 + d) + n - X * Y) with ((val x - X) * Y + val x * (val y - Y) + (val x * val y) * d + n) by ring.
  pose proof (tiny_scale A B MA MB) as T. 
  assert (P1 : Rabs ((val x - X) * Y) <= j * (A * u) * B) by (rewrite Rabs_mult; apply Rmult_le_compat; try apply Rabs_pos; assumption).
  assert (P2 : Rabs (val x * (val y - Y)) <= A * (1 + j * u) * (k * (B * u))) by (rewrite Rabs_mult; apply Rmult_le_compat; try apply Rabs_pos; assumption).
  assert (P3 : Rabs (val x * val y * d) <= A * B * (1001 / 1000) * u) by (rewrite Rabs_mult; apply Rmult_le_compat; try apply Rabs_pos; assumption).
  eapply Rle_trans; [apply Rabs_triang|]. pose proof (Rabs_triang ((val x - X) * Y + val x * (val y - Y)) (val x * val y * d)). pose proof (Rabs_triang ((val x - X) * Y) (val x * (val y - Y))).
  assert (J : A * (1 + j * u) * (k * (B * u)) <= (k + 1 / 1000) * (A * B * u)).
  { replace (A * (1 + j * u) * (k * (B * u))) with ((k + k * (j * u)) * (A * B * u)) by ring. apply Rmult_le_compat_r; [nra|]. destruct FK as [K1 K2]. nra. }
  replace ((j + k + 101 / 100) * (A * B * u)) with (j * (A * u) * B + k * (A * B * u) + 101 / 100 * (A * B * u)) by ring. assert (0 < A * B * u) by (apply Rmult_lt_0_compat; assumption). lra.
Qed.

(** ** Division and the square root, with relative errors *)

(** [x] is finite and equals the positive [X] up to the factor 1 + d with |d| <= k units *)
Definition close (x : double) (X k : R) : Prop := fin x /\ exists d, Rabs d <= k * u /\ val x = X * (1 + d).
Lemma abs_2 a b : Rabs a <= b -> - b <= a <= b. Proof. intros H. pose proof (Rle_abs a). pose proof (Rle_abs (- a)) as K. rewrite Rabs_Ropp in K. lra. Qed.
Lemma close_few (y : double) Y k : close y Y k -> few k -> exists d, -1 / 1000000000 <= d <= 1 / 1000000000 /\ Rabs d <= k * u /\ val y = Y * (1 + d).
Proof. intros (_ & d & D & Q) FK. exists d. pose proof (few_u _ FK). pose proof (abs_2 _ _ D). split; [lra|]. split; assumption. Qed.
Lemma near_div e A x X j (y : double) Y k m : mild A -> 0 < m -> mild (A / m) -> few j -> few k -> near A x X j -> close y Y k -> m <= Y -> near (A / m) (@ndiv _ (Double e) x y) (X / Y) (j + k + 102 / 100).
Proof.
  intros MA Pm MM FJ FK NX CY LY. destruct (close_few _ _ _ CY FK) as (d & D' & D & Q). destruct CY as [FY _]. pose proof (mild_pos _ MA) as HA. pose proof (mild_pos _ MM) as HM. pose proof (near_size _ _ _ _ NX FJ ltac:(lra)) as SX. pose proof (few_u _ FJ) as UJ. pose proof (few_u _ FK) as UK. pose proof u_pos as UP. pose proof u_small as US.
  destruct NX as (FX & BX & EX). assert (PY : 0 < Y) by lra. 
  assert (VY : val y <> 0) by (rewrite Q; apply Rmult_integral_contrapositive; split; lra).
  assert (I : exists c, Rabs c <= (k + 1 / 1000) * u /\ / val y = / Y * (1 + c)).
  { exists (- d / (1 + d)). split; [|rewrite Q; field; lra]. unfold Rdiv. rewrite Rabs_mult, Rabs_Ropp, Rabs_inv, (Rabs_pos_eq (1 + d)) by lra.
    apply Rmult_le_reg_r with (1 + d); [lra|]. rewrite Rmult_assoc, Rinv_l, Rmult_1_r by lra. destruct FK as [K1 K2]. pose proof (abs_2 _ _ D).
    assert (T : k * (k * u) <= 100000 * (100000 * u)) by (apply Rmult_le_compat; nra). apply Rle_trans with (k * u); [exact D|].
    apply Rle_trans with ((k + 1 / 1000) * u * (1 - k * u)); [|apply Rmult_le_compat_l; [nra|lra]].
    replace ((k + 1 / 1000) * u * (1 - k * u)) with (k * u + u * (1 / 1000 - k * (k * u) - 1 / 1000 * (k * u))) by ring. assert (0 <= u * (1 / 1000 - k * (k * u) - 1 / 1000 * (k * u))) by (apply Rmult_le_pos; lra). lra. }
  destruct I as (c & C & IV). assert (UC : (k + 1 / 1000) * u <= 2 / 1000000000) by lra. pose proof (Rle_trans _ _ _ C UC) as C'. pose proof (abs_2 _ _ C') as C2.
  assert (PI : 0 < / Y) by (apply Rinv_0_lt_compat; exact PY). assert (LI : / Y <= / m) by (apply Rinv_le_contravar; lra).
  assert (AM : 0 < A * / m) by exact HM.
  assert (QX : val x / val y = val x * / Y * (1 + c)) by (unfold Rdiv; rewrite IV; ring).
  assert (S : Rabs (val x / val y) <= A / m * (1001 / 1000)).
  { rewrite QX, !Rabs_mult, (Rabs_pos_eq (/ Y)), (Rabs_pos_eq (1 + c)) by lra. apply Rle_trans with (A * (1 + j * u) * / m * (1 + c)).
    - apply Rmult_le_compat_r; [lra|]. apply Rmult_le_compat; try apply Rabs_pos; lra.
    - replace (A * (1 + j * u) * / m * (1 + c)) with (A / m * ((1 + j * u) * (1 + c))) by (unfold Rdiv; ring). apply Rmult_le_compat_l; [lra|]. nra. }
  destruct (ddiv e x y FX VY) as (FS & d' & n & D2 & N & _ & Q2).
  { eapply Rle_trans; [exact S|]. destruct MM as [_ MM]. apply Rle_trans with (bpow radix2 400 * 2); [lra|]. replace 2 with (bpow radix2 1) by reflexivity. rewrite <- bpow_plus. apply bpow_le. lia. }
  split; [exact FS|]. split; [unfold Rdiv; rewrite Rabs_mult, (Rabs_pos_eq (/ Y)) by lra; apply Rmult_le_compat; try apply Rabs_pos; lra|]. rewrite Q2.
  replace (val x / val y * (1 + d') + n - X / Y) with ((val x - X) * / Y + val x * / Y * c + val x / val y * d' + n) by (rewrite QX; unfold Rdiv; ring).
  assert (T : tiny <= A / m * u / 1000).
  { assert (M1 : mild 1) by (split; [change 1 with (bpow radix2 0); apply bpow_le; lia|change 1 with (bpow radix2 0); apply bpow_le; lia]). pose proof (tiny_scale (A / m) 1 MM M1) as W. rewrite Rmult_1_r in W. exact W. }
  assert (P1 : Rabs ((val x - X) * / Y) <= j * (A * u) * / m) by (rewrite Rabs_mult, (Rabs_pos_eq (/ Y)) by lra; apply Rmult_le_compat; try apply Rabs_pos; lra).
  assert (P2 : Rabs (val x * / Y * c) <= A * (1 + j * u) * / m * ((k + 1 / 1000) * u)).
  { rewrite !Rabs_mult, (Rabs_pos_eq (/ Y)) by lra. apply Rmult_le_compat; try apply Rabs_pos; [| |exact C]. - apply Rmult_le_pos; [apply Rabs_pos|lra]. - apply Rmult_le_compat; try apply Rabs_pos; lra. }
  assert (P3 : Rabs (val x / val y * d') <= A / m * (1001 / 1000) * u) by (rewrite Rabs_mult; apply Rmult_le_compat; try apply Rabs_pos; assumption).
  assert (P4 : A * (1 + j * u) * / m * ((k + 1 / 1000) * u) <= (k + 2 / 1000) * (A / m * u)).
  { replace (A * (1 + j * u) * / m * ((k + 1 / 1000) * u)) with ((k + 1 / 1000) * (1 + j * u) * (A / m * u)) by (unfold Rdiv; ring). apply Rmult_le_compat_r; [nra|]. destruct FK as [K1 K2]. nra. }
  eapply Rle_trans; [apply Rabs_triang|]. pose proof (Rabs_triang ((val x - X) * / Y + val x * / Y * c) (val x / val y * d')). pose proof (Rabs_triang ((val x - X) * / Y) (val x * / Y * c)).
  replace ((j + k + 102 / 100) * (A / m * u)) with (j * (A * u) * / m + k * (A / m * u) + 102 / 100 * (A / m * u)) by (unfold Rdiv; ring). assert (0 < A / m * u) by (apply Rmult_lt_0_compat; assumption). lra.
Qed.
Lemma near_close c B x X k : 0 < X -> 0 <= k -> B <= c * X -> near B x X k -> close x X (c * k).
Proof.
  intros P K BC (F & _ & E). split; [exact F|]. exists ((val x - X) / X). pose proof u_pos as UP. split.
  - unfold Rdiv. rewrite Rabs_mult, Rabs_inv, (Rabs_pos_eq X) by lra. apply Rmult_le_reg_r with X; [exact P|]. rewrite Rmult_assoc, Rinv_l, Rmult_1_r by lra. eapply Rle_trans; [exact E|].
    replace (c * k * u * X) with (k * (c * X * u)) by ring. apply Rmult_le_compat_l; [exact K|]. apply Rmult_le_compat_r; lra.
  - field. lra.
Qed.
Lemma close_near x X k : close x X k -> 0 < X -> near X x X k.
Proof.
  intros (F & d & D & Q) P. split; [exact F|]. split; [rewrite Rabs_pos_eq; lra|]. rewrite Q. replace (X * (1 + d) - X) with (X * d) by ring. rewrite Rabs_mult, (Rabs_pos_eq X) by lra.
  replace (k * (X * u)) with (X * (k * u)) by ring. apply Rmult_le_compat_l; lra.
Qed.
Lemma sqrt_1d d : -1 / 2 <= d -> Rabs (sqrt (1 + d) - 1) <= Rabs d.
Proof.
  intros H. assert (P : 0 <= 1 + d) by lra. pose proof (sqrt_pos (1 + d)) as S0. pose proof (sqrt_sqrt _ P) as SS. set (s := sqrt (1 + d)) in *. replace d with ((s - 1) * (s + 1)) by lra. rewrite Rabs_mult, (Rabs_pos_eq (s + 1)) by lra. pose proof (Rabs_pos (s - 1)). nra.
Qed.
Lemma close_sqrt e x X k : close x (X * X) k -> mild X -> few k -> close (@nsqrt _ (Double e) x) X (k + 101 / 100).
Proof.
  intros CX M FK. destruct (close_few _ _ _ CX FK) as (d & D' & D & Q). destruct CX as [FX _]. pose proof (mild_pos _ M) as P. pose proof u_pos as UP. pose proof u_small as US. pose proof (few_u _ FK) as UK.
  cbn [nsqrt Double]. pose proof (Bsqrt_correct 53 1024 p53 e1024 mode_NE x) as (C1 & C2 & _).
  assert (PX : 0 < val x) by (rewrite Q; apply Rmult_lt_0_compat; [nra|lra]).
  split. { rewrite C2. destruct x as [s|s| |s mm ee ?]; try discriminate FX; [reflexivity|]. destruct s; [|reflexivity]. exfalso. revert PX. unfold val, B2R. pose proof (F2R_lt_0 radix2 (Float radix2 (cond_Zopp true (Z.pos mm)) ee) ltac:(simpl; lia)). lra. }
  destruct (rnd_eta (sqrt (val x))) as (d1 & n & E & N & _ & RQ). pose proof (sqrt_1d d ltac:(lra)) as SD. 
  assert (SX : sqrt (val x) = X * sqrt (1 + d)) by (rewrite Q, sqrt_mult by nra; rewrite sqrt_square by lra; reflexivity).
  exists ((sqrt (1 + d)) * (1 + d1) - 1 + n / X). split.
  - replace (sqrt (1 + d) * (1 + d1) - 1 + n / X) with ((sqrt (1 + d) - 1) + sqrt (1 + d) * d1 + n / X) by ring.
    assert (T : tiny <= X * u / 1000).
    { assert (M1 : mild 1) by (split; [change 1 with (bpow radix2 0); apply bpow_le; lia|change 1 with (bpow radix2 0); apply bpow_le; lia]). pose proof (tiny_scale X 1 M M1) as W. rewrite Rmult_1_r in W. exact W. }
    assert (T2 : Rabs (n / X) <= u / 1000).
    { unfold Rdiv at 1. rewrite Rabs_mult, Rabs_inv, (Rabs_pos_eq X) by lra. apply Rmult_le_reg_r with X; [exact P|]. rewrite Rmult_assoc, Rinv_l, Rmult_1_r by lra. lra. }
    assert (S1 : Rabs (sqrt (1 + d)) <= 1001 / 1000). { replace (sqrt (1 + d)) with (1 + (sqrt (1 + d) - 1)) by ring. eapply Rle_trans; [apply Rabs_triang|]. rewrite Rabs_R1. lra. }
    assert (S2 : Rabs (sqrt (1 + d) * d1) <= 1001 / 1000 * u) by (rewrite Rabs_mult; apply Rmult_le_compat; try apply Rabs_pos; assumption).
    eapply Rle_trans; [apply Rabs_triang|]. pose proof (Rabs_triang (sqrt (1 + d) - 1) (sqrt (1 + d) * d1)). lra.
  - rewrite C1. change (round radix2 (SpecFloat.fexp 53 1024) (round_mode mode_NE) (sqrt (val x))) with (rnd (sqrt (val x))). rewrite RQ, SX. field. lra.
Qed.

(** ** The circle constant and the sine and cosine *)

Lemma pi_bounds : Rabs (884279719003555 / 281474976710656 - PI) <= 3 / 10000000000000000.
Proof.
  destruct (PI_2_3_7_ineq 8) as [L U]. unfold tg_alt, PI_2_3_7_tg, Ratan_seq in L, U. cbn [sum_f_R0 Nat.mul Nat.add] in L, U. cbn [INR pow] in L, U.
  apply Rabs_le. split; lra.
Qed.
Lemma d_pi_val : fin d_pi /\ val d_pi = 884279719003555 / 281474976710656.
Proof.
  split; [vm_compute; reflexivity|]. assert (Q : B2SF d_pi = SpecFloat.S754_finite false 7074237752028440 (-51)) by (vm_compute; reflexivity).
  rewrite <- (SF2R_B2SF _ _ d_pi), Q. unfold SF2R, F2R. cbn [Fnum Fexp cond_Zopp]. change (bpow radix2 (-51)) with (/ 2251799813685248). lra.
Qed.
Lemma near_pi : near 4 d_pi PI 1.
Proof.
  destruct d_pi_val as [F V]. split; [exact F|]. pose proof PI_4. pose proof PI_RGT_0. split; [rewrite Rabs_pos_eq; lra|]. rewrite V. eapply Rle_trans; [exact pi_bounds|]. rewrite u_val. lra.
Qed.
Lemma sin_abs x : Rabs (sin x) <= Rabs x.
Proof.
  assert (P : forall y, 0 < y -> Rabs (sin y) <= y).
  { intros y Y. apply Rabs_le. destruct (Rlt_le_dec y PI) as [L|L].
    - pose proof (sin_lt_x y Y). pose proof (sin_gt_0 y Y L). lra.
    - pose proof (SIN_bound y). pose proof PI2_3_2. lra. }
  destruct (Rtotal_order x 0) as [L|[->|G]].
  - rewrite <- (Rabs_Ropp x), <- (Rabs_Ropp (sin x)), <- sin_neg. rewrite (Rabs_pos_eq (- x)) by lra. apply P. lra.
  - rewrite sin_0. lra.
  - rewrite (Rabs_pos_eq x) by lra. apply P, G.
Qed.
Lemma sin_lip a b : Rabs (sin a - sin b) <= Rabs (a - b).
Proof.
  rewrite form4, !Rabs_mult, (Rabs_pos_eq 2) by lra. pose proof (sin_abs ((a - b) / 2)) as S. unfold Rdiv in S at 2. rewrite Rabs_mult, (Rabs_pos_eq (/ 2)) in S by lra. assert (C : Rabs (cos ((a + b) / 2)) <= 1) by (apply Rabs_le, COS_bound).
  pose proof (Rabs_pos (cos ((a + b) / 2))). pose proof (Rabs_pos (sin ((a - b) / 2))). nra.
Qed.
Lemma cos_lip a b : Rabs (cos a - cos b) <= Rabs (a - b).
Proof.
  rewrite form2, !Rabs_mult. replace (Rabs (-2)) with 2 by (rewrite Rabs_left; lra). pose proof (sin_abs ((a - b) / 2)) as S. unfold Rdiv in S at 2. rewrite Rabs_mult, (Rabs_pos_eq (/ 2)) in S by lra. assert (C : Rabs (sin ((a + b) / 2)) <= 1) by (apply Rabs_le, SIN_bound).
  pose proof (Rabs_pos (sin ((a + b) / 2))). pose proof (Rabs_pos (sin ((a - b) / 2))). nra.
Qed.

(** ** What is asked of the sine and cosine of the C library: 8 units on [-100, 100] *)
Definition accurate (e : elementary) : Prop :=
  forall x : double, fin x -> Rabs (val x) <= 100 ->
    (fin (e_sin e x) /\ Rabs (val (e_sin e x) - sin (val x)) <= 8 * u) /\ (fin (e_cos e x) /\ Rabs (val (e_cos e x) - cos (val x)) <= 8 * u).
Lemma near_sin e B x X k : accurate e -> 0 <= B <= 99 -> few k -> near B x X k -> near 1 (@nsin _ (Double e) x) (sin X) (8 + k * B).
Proof.
  intros A HB FK NX. pose proof (near_size _ _ _ _ NX FK ltac:(lra)) as S. pose proof (few_u _ FK) as UK. destruct NX as (FX & BX & EX). destruct (A x FX) as [[FS ES] _]; [nra|]. cbn [nsin Double].
  split; [exact FS|]. split; [apply Rabs_le, SIN_bound|]. replace (val (e_sin e x) - sin X) with ((val (e_sin e x) - sin (val x)) + (sin (val x) - sin X)) by ring.
  eapply Rle_trans; [apply Rabs_triang|]. pose proof (sin_lip (val x) X). lra.
Qed.
Lemma near_cos e B x X k : accurate e -> 0 <= B <= 99 -> few k -> near B x X k -> near 1 (@ncos _ (Double e) x) (cos X) (8 + k * B).
Proof.
  intros A HB FK NX. pose proof (near_size _ _ _ _ NX FK ltac:(lra)) as S. pose proof (few_u _ FK) as UK. destruct NX as (FX & BX & EX). destruct (A x FX) as [_ [FS ES]]; [nra|]. cbn [ncos Double].
  split; [exact FS|]. split; [apply Rabs_le, COS_bound|]. replace (val (e_cos e x) - cos X) with ((val (e_cos e x) - cos (val x)) + (cos (val x) - cos X)) by ring.
  eapply Rle_trans; [apply Rabs_triang|]. pose proof (cos_lip (val x) X). lra.
Qed.
Lemma mild_le a b : (-400 <= a)%Z -> (b <= 400)%Z -> forall B, bpow radix2 a <= B <= bpow radix2 b -> mild B.
Proof. intros P Q B [L U]. split; [eapply Rle_trans; [|exact L]|eapply Rle_trans; [exact U|]]; apply bpow_le; lia. Qed.
Lemma mild_lit B : 1 / 1000000 <= B <= 1000000000000 -> mild B.
Proof. intros [L U]. apply (mild_le (-30) 60 ltac:(lia) ltac:(lia)). change (bpow radix2 (-30)) with (/ 1073741824). change (bpow radix2 60) with (IZR (Z.pow_pos 2 60)). simpl (Z.pow_pos 2 60). split; lra. Qed.
Lemma near_Z e z : (Z.abs z <= 2 ^ 53)%Z -> (z <> 0)%Z -> near (Rabs (IZR z)) (@nZ _ (Double e) z) (IZR z) 0.
Proof. intros H _. destruct (dint e z H) as [F V]. rewrite <- V at 1 2. apply near_exact; [exact F|lra|apply Rabs_pos]. Qed.
Lemma close_Z e z : (0 < z <= 2 ^ 53)%Z -> close (@nZ _ (Double e) z) (IZR z) 0.
Proof. intros H. destruct (dint e z ltac:(lia)) as [F V]. split; [exact F|]. exists 0. rewrite Rabs_R0, V. split; lra. Qed.
(** degrees to radians *)
Lemma near_deg2rad e x X k B : 1 / 1000 <= B <= 1000 -> few k -> near B x X k -> near (B / 45) (@deg2rad _ (Double e) x) (X * (PI / 180)) (k + 4).
Proof.
  intros HB FK NX. unfold deg2rad.
  assert (P : near (4 / 180) (@ndiv _ (Double e) d_pi (@nZ _ (Double e) 180)) (PI / 180) (202 / 100)).
  { pose proof (near_div e 4 d_pi PI 1 (@nZ _ (Double e) 180) 180 0 180) as D. eapply near_weaken; [apply D|..].
    - apply mild_lit; lra. - lra. - apply mild_lit; lra. - split; lra. - split; lra. - exact near_pi. - apply (close_Z e 180). lia. - lra.
    - pose proof PI_4. pose proof PI_RGT_0. rewrite Rabs_pos_eq; lra. - lra. }
  eapply near_weaken; [apply (near_mul e B (4 / 180) x _ X _ k (202 / 100)); [apply mild_lit; lra|apply mild_lit; lra|exact FK|split; lra|exact NX|exact P]|..].
  - destruct NX as (_ & BX & _). pose proof PI_4. pose proof PI_RGT_0. rewrite Rabs_mult, (Rabs_pos_eq (PI / 180)) by lra. pose proof (Rabs_pos X). nra.
  - destruct FK. lra.
Qed.
