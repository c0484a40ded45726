(** Rounding errors of single double operations. *)

From Coq Require Import ZArith Reals List Bool Lra Psatz Lia.
From Flocq Require Import Core BinarySingleNaN Relative Plus_error.
From Verif Require Import Num Double.
Import ListNotations.
Open Scope R_scope.

Notation fin x := (is_finite x = true).
Notation val x := (@B2R 53 1024 x).
Notation rnd := (round radix2 (FLT_exp (-1074) 53) (Znearest (fun x => negb (Z.even x)))).
Definition u : R := / 2 * bpow radix2 (-52).
Definition tiny : R := / 2 * bpow radix2 (-1074).
Lemma u_val : u = / 2 ^ 53. Proof. unfold u. change (bpow radix2 (-52)) with (/ IZR (Z.pow_pos 2 52)). simpl. lra. Qed.
Lemma u_pos : 0 < u. Proof. unfold u. pose proof (bpow_gt_0 radix2 (-52)). lra. Qed.
Lemma u_small : u <= 1 / 1000000000000000. Proof. rewrite u_val. lra. Qed.
Lemma tiny_pos : 0 < tiny. Proof. unfold tiny. pose proof (bpow_gt_0 radix2 (-1074)). lra. Qed.
Lemma tiny_small : tiny <= 1 / 1000000000000000.
Proof. unfold tiny. assert (bpow radix2 (-1074) <= bpow radix2 (-52)) by (apply bpow_le; lia). pose proof u_small as U. unfold u in U. lra. Qed.

Lemma rnd_0 : rnd 0 = 0. Proof. apply round_0. apply valid_rnd_N. Qed.
Lemma rnd_eta x : exists e n, Rabs e <= u /\ Rabs n <= tiny /\ (x = 0 -> n = 0) /\ rnd x = x * (1 + e) + n.
Proof.
  destruct (error_N_FLT radix2 (-1074) 53 ltac:(lia) (fun x => negb (Z.even x)) x) as (e & n & E & N & _ & Q).
  exists e, n. split; [exact E|]. split; [exact N|]. split; [|exact Q]. intros ->. rewrite rnd_0 in Q. lra.
Qed.
Lemma big : bpow radix2 1000 + bpow radix2 1000 + bpow radix2 1000 < bpow radix2 1024.
Proof. change 1024%Z with (24 + 1000)%Z. rewrite bpow_plus. pose proof (bpow_gt_0 radix2 1000). change (bpow radix2 24) with (IZR (Z.pow_pos 2 24)). simpl (Z.pow_pos 2 24). nra. Qed.
Lemma one_big : 1 <= bpow radix2 1000. Proof. change 1 with (bpow radix2 0). apply bpow_le. lia. Qed.
Lemma rnd_fits x : Rabs x <= bpow radix2 1000 -> Rabs (rnd x) < bpow radix2 1024.
Proof.
  intros H. destruct (rnd_eta x) as (e & n & E & N & _ & Q). rewrite Q. eapply Rle_lt_trans; [apply Rabs_triang|]. rewrite Rabs_mult.
  assert (Rabs (1 + e) <= 2). { eapply Rle_trans; [apply Rabs_triang|]. rewrite Rabs_R1. pose proof u_small. lra. }
  pose proof big. pose proof one_big. pose proof tiny_small. pose proof (Rabs_pos x). pose proof (Rabs_pos (1 + e)). nra.
Qed.
Lemma fmt (x : double) : generic_format radix2 (FLT_exp (-1074) 53) (val x).
Proof. apply generic_format_B2R. Qed.
Lemma rnd_sum (x y : double) : exists e, Rabs e <= u /\ rnd (val x + val y) = (val x + val y) * (1 + e).
Proof.
  destruct (FLT_plus_error_N_ex radix2 (-1074) 53 (fun x => negb (Z.even x)) (val x) (val y) (fmt x) (fmt y)) as (e & E & Q). exists e. split; [|exact Q].
  eapply Rle_trans; [exact E|]. change (u_ro radix2 53) with u. pose proof u_pos. apply Rmult_le_reg_r with (1 + u); [lra|]. unfold Rdiv. rewrite Rmult_assoc, Rinv_l by lra. nra.
Qed.

Section Ops.
Context (e : elementary).
Notation D := (Double e).
Lemma dadd x y : fin x -> fin y -> Rabs (val x + val y) <= bpow radix2 1000 ->
  fin (@nadd _ D x y) /\ exists e, Rabs e <= u /\ val (@nadd _ D x y) = (val x + val y) * (1 + e).
Proof.
  intros X Y B. cbn [nadd Double]. pose proof (Bplus_correct 53 1024 p53 e1024 mode_NE x y X Y) as C. rewrite Rlt_bool_true in C by (apply rnd_fits; exact B).
  destruct C as (C1 & C2 & _). split; [exact C2|]. destruct (rnd_sum x y) as (e' & E & Q). exists e'. split; [exact E|]. rewrite C1. exact Q.
Qed.
Lemma dsub x y : fin x -> fin y -> Rabs (val x - val y) <= bpow radix2 1000 ->
  fin (@nsub _ D x y) /\ exists e, Rabs e <= u /\ val (@nsub _ D x y) = (val x - val y) * (1 + e).
Proof.
  intros X Y B. cbn [nsub Double]. pose proof (Bminus_correct 53 1024 p53 e1024 mode_NE x y X Y) as C. rewrite Rlt_bool_true in C by (apply rnd_fits; exact B).
  destruct C as (C1 & C2 & _). split; [exact C2|]. destruct (rnd_sum x (Bopp y)) as (e' & E & Q). exists e'. split; [exact E|]. rewrite C1. rewrite B2R_Bopp in Q. exact Q.
Qed.
Lemma dmul x y : fin x -> fin y -> Rabs (val x * val y) <= bpow radix2 1000 ->
  fin (@nmul _ D x y) /\ exists e n, Rabs e <= u /\ Rabs n <= tiny /\ (val x * val y = 0 -> n = 0) /\ val (@nmul _ D x y) = val x * val y * (1 + e) + n.
Proof.
  intros X Y B. cbn [nmul Double]. pose proof (Bmult_correct 53 1024 p53 e1024 mode_NE x y) as C. rewrite Rlt_bool_true in C by (apply rnd_fits; exact B).
  destruct C as (C1 & C2 & _). split; [rewrite C2, X, Y; reflexivity|]. rewrite C1. apply rnd_eta.
Qed.
Lemma ddiv x y : fin x -> val y <> 0 -> Rabs (val x / val y) <= bpow radix2 1000 ->
  fin (@ndiv _ D x y) /\ exists e n, Rabs e <= u /\ Rabs n <= tiny /\ (val x / val y = 0 -> n = 0) /\ val (@ndiv _ D x y) = val x / val y * (1 + e) + n.
Proof.
  intros X Y B. cbn [ndiv Double]. pose proof (Bdiv_correct 53 1024 p53 e1024 mode_NE x y Y) as C. rewrite Rlt_bool_true in C by (apply rnd_fits; exact B).
  destruct C as (C1 & C2 & _). split; [rewrite C2, X; reflexivity|]. rewrite C1. apply rnd_eta.
Qed.
Lemma dadd_0 x y : fin x -> fin y -> val x = 0 -> Rabs (val y) <= bpow radix2 1000 -> val (@nadd _ D x y) = val y.
Proof.
  intros X Y Z B. cbn [nadd Double]. pose proof (Bplus_correct 53 1024 p53 e1024 mode_NE x y X Y) as C. rewrite Z, Rplus_0_l in C. rewrite Rlt_bool_true in C by (apply rnd_fits; exact B).
  destruct C as (C1 & _). rewrite C1. apply round_generic; [apply valid_rnd_N|apply fmt].
Qed.
Lemma dltb x y : fin x -> fin y -> (@nltb _ D x y = true <-> val x < val y).
Proof. intros X Y. cbn [nltb Double]. rewrite Bltb_correct by assumption. case Rlt_bool_spec; intros; split; intros; try lra; try reflexivity; try discriminate. Qed.
Lemma dleb x y : fin x -> fin y -> (@nleb _ D x y = true <-> val x <= val y).
Proof. intros X Y. cbn [nleb Double]. rewrite Bleb_correct by assumption. case Rle_bool_spec; intros; split; intros; try lra; try reflexivity; try discriminate. Qed.
Lemma dint z : (Z.abs z <= 2 ^ 53)%Z -> fin (@nZ _ D z) /\ val (@nZ _ D z) = IZR z.
Proof.
  intros H. cbn [nZ Double]. unfold dZ. pose proof (binary_normalize_correct 53 1024 p53 e1024 mode_NE z 0 false) as C. cbv zeta in C.
  assert (V : F2R (Float radix2 z 0) = IZR z) by (unfold F2R; simpl; ring). rewrite V in C.
  assert (G : generic_format radix2 (FLT_exp (-1074) 53) (IZR z)).
  { destruct (Z.eq_dec (Z.abs z) (2 ^ 53)) as [Q|Q].
    - assert (P : generic_format radix2 (FLT_exp (-1074) 53) (IZR (2 ^ 53))). { change (IZR (2 ^ 53)) with (bpow radix2 53). apply generic_format_bpow. unfold FLT_exp. lia. }
      destruct (Z.abs_spec z) as [[_ A]|[_ A]]; [replace z with (2 ^ 53)%Z by lia; exact P|]. replace z with (- (2 ^ 53))%Z by lia. rewrite opp_IZR. apply generic_format_opp. exact P.
    - apply generic_format_FLT. exists (Float radix2 z 0); [symmetry; exact V|simpl; lia|simpl; lia]. }
  assert (RV : round radix2 (SpecFloat.fexp 53 1024) (round_mode mode_NE) (IZR z) = IZR z). { apply round_generic; [apply valid_rnd_N|exact G]. }
  rewrite RV in C. rewrite Rlt_bool_true in C. { destruct C as (C1 & C2 & _). split; assumption. }
  apply Rle_lt_trans with (bpow radix2 53); [|apply bpow_lt; lia]. rewrite <- abs_IZR. change (bpow radix2 53) with (IZR (2 ^ 53)). apply IZR_le. lia.
Qed.
End Ops.
