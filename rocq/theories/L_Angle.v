(** Direction angles: arctan2 and arccos. *)

From Coq Require Import ZArith Reals List Bool Lra Psatz Lia.
From Verif Require Import Num PyBase RNum Spec M_Csys L_Csys.
Open Scope R_scope.

Lemma hyp_factor x y : x <> 0 -> sqrt (x ^ 2 + y ^ 2) = Rabs x * sqrt (1 + (y / x)²).
Proof.
  intros N. rewrite <- sqrt_Rsqr_abs, <- sqrt_mult_alt by apply Rle_0_sqr. f_equal. unfold Rsqr. field. assumption.
Qed.
Lemma sq1_pos t : 0 < sqrt (1 + t²).
Proof. apply sqrt_lt_R0. pose proof (Rle_0_sqr t). lra. Qed.
Lemma atan2_direction x y : (x <> 0 \/ y <> 0) -> is_direction (Ratan2 y x) x y.
Proof.
  intros N. pose proof PI_RGT_0 as PP. pose proof (atan_bound (y / x)) as [B1 B2]. pose proof (sq1_pos (y / x)) as SP. unfold is_direction, Ratan2.
  destruct (Rlt_dec 0 x) as [P|P]; [|destruct (Rlt_dec x 0) as [Q|Q]; [destruct (Rle_dec 0 y) as [Y|Y]|]].
  - split; [lra|]. rewrite hyp_factor, cos_atan, sin_atan by lra. rewrite Rabs_right by lra. split; field; repeat split; lra.
  - assert (A : atan (y / x) <= 0). { rewrite <- atan_0. assert (y / x <= 0). { unfold Rdiv. assert (/ x < 0) by (apply Rinv_lt_0_compat; assumption). nra. } destruct (Req_dec (y / x) 0) as [->|]; [lra|]. left. apply atan_increasing. lra. }
    split; [lra|]. rewrite neg_cos, neg_sin. rewrite hyp_factor, cos_atan, sin_atan by lra. rewrite Rabs_left by lra. split; field; repeat split; lra.
  - assert (A : 0 < atan (y / x)). { rewrite <- atan_0. apply atan_increasing. unfold Rdiv. assert (/ x < 0) by (apply Rinv_lt_0_compat; assumption). nra. }
    split; [lra|]. unfold Rminus. rewrite cos_plus, sin_plus, cos_neg, sin_neg, cos_PI, sin_PI. rewrite hyp_factor, cos_atan, sin_atan by lra. rewrite Rabs_left by lra. split; field; repeat split; lra.
  - assert (x = 0) by lra. subst x. assert (Y : sqrt (0 ^ 2 + y ^ 2) = Rabs y). { replace (0 ^ 2 + y ^ 2) with (y²) by (unfold Rsqr; ring). apply sqrt_Rsqr_abs. } rewrite Y.
    destruct (Rlt_dec 0 y) as [Z|Z]; [|destruct (Rlt_dec y 0) as [Z'|Z']; [|exfalso; destruct N; lra]].
    + rewrite cos_PI2, sin_PI2, Rabs_right by lra. split; [|split]; lra.
    + rewrite cos_neg, sin_neg, cos_PI2, sin_PI2, Rabs_left by lra. split; [|split]; lra.
Qed.
Lemma rad_rad2deg x : rad (rad2deg x) = x.
Proof. unfold rad, rad2deg. rnum. pose proof PI_RGT_0. field. lra. Qed.
(** direction angles are unique *)
Lemma direction_unique th th' x y : (x <> 0 \/ y <> 0) -> is_direction th x y -> is_direction th' x y -> th = th'.
Proof.
  intros N ((A & B) & C & D) ((A' & B') & C' & D'). set (r := sqrt (x ^ 2 + y ^ 2)) in *.
  assert (R : r <> 0). { intros Z. rewrite Z in *. destruct N; lra. }
  assert (EC : cos th = cos th'). { apply Rmult_eq_reg_l with r; [|assumption]. rewrite <- C, <- C'. reflexivity. }
  assert (ES : sin th = sin th'). { apply Rmult_eq_reg_l with r; [|assumption]. rewrite <- D, <- D'. reflexivity. }
  assert (CO : cos ((th - th') / 2) * cos ((th - th') / 2) = 1).
  { pose proof (cos_minus th th') as M. rewrite EC, ES in M. pose proof (sin2_cos2 th') as S2. unfold Rsqr in S2.
    pose proof (cos_2a_cos ((th - th') / 2)) as T. replace (2 * ((th - th') / 2)) with (th - th') in T by field. lra. }
  assert (SO : sin ((th - th') / 2) = 0). { pose proof (sin2_cos2 ((th - th') / 2)) as S2. unfold Rsqr in S2. nra. }
  pose proof PI_RGT_0. destruct (sin_eq_0_0 _ SO) as [k K].
  assert (k = 0)%Z. { assert (-1 < IZR k < 1). { split; nra. } destruct H0 as [K1 K2]. apply lt_IZR in K1, K2. lia. } subst k. lra.
Qed.
