(** Double arithmetic, IX: the apparent wind. *)

From Coq Require Import ZArith Reals List Bool Lra Psatz Lia.
From Flocq Require Import Core BinarySingleNaN.
From Verif Require Import Num PyBase RNum Spec M_Csys M_Winds L_List P_Double Double L_Double L_Near L_NearRot P_DoubleRot L_NearVel.
Import ListNotations.
Open Scope R_scope.

(** ** Specification *)
(** a logarithm and a power within eight units in the last place *)
Definition accurate_ln (e : elementary) : Prop :=
  forall x : double, fin x -> 1 / 10000000 <= val x <= 10000000 -> fin (e_ln e x) /\ Rabs (val (e_ln e x) - ln (val x)) <= 8 / 2 ^ 53 * (1 + Rabs (ln (val x))).
Definition accurate_pow (e : elementary) : Prop :=
  forall x y : double, fin x -> fin y -> 1 / 10000000 <= val x <= 10000000 -> Rabs (val y) <= 4 ->
    fin (e_pow e x y) /\ Rabs (val (e_pow e x y) - Rpower (val x) (val y)) <= 8 / 2 ^ 53 * Rpower (val x) (val y).
(** the factor of the speed at the height [h], and a bound on its size *)
Definition gain (p : profile double) (h : R) : R :=
  match p with
  | Log (Some r) (Some rh) => ln (h / val r) / ln (val rh / val r)
  | Exp (Some y) (Some rh) (Some wl) => Rpower ((h - val wl) / val rh) (val y)
  | _ => 1 end.
Definition gain_size (p : profile double) (h : R) : R := match p with Log _ _ => 40 | _ => gain p h end.
(** profiles and heights of the usual size *)
Definition usual_profile (p : profile double) (h : R) : Prop :=
  match p with
  | Flat => True
  | Log (Some r) (Some rh) => fin r /\ fin rh /\ 1 / 1000 <= h <= 100 /\ 1 / 10000 <= val r <= 1 /\ 2 * val r <= val rh <= 100
  | Exp (Some y) (Some rh) (Some wl) => fin y /\ fin rh /\ fin wl /\ 1 / 1000 <= h - val wl <= 1000 /\ 1 / 1000 <= val rh <= 1000 /\ Rabs (val y) <= 4
  | _ => False end.
Record usual_wind (T G : R) (w : wind double) : Prop := {
  uw_T : 1 / 1000 <= T <= 1000; uw_G : 0 <= G <= 1000;
  uw_angle : fin (w_alpha_deg w) /\ Rabs (val (w_alpha_deg w)) <= 360;
  uw_tws : fin (w_tws w) /\ Rabs (val (w_tws w)) <= T;
  uw_sog : fin (w_sog w) /\ Rabs (val (w_sog w)) <= G }.
(** the exact true wind, along the direction it blows to, and the wind felt on board *)
Definition exact_true (w : wind double) (h : R) : vec R :=
  let s := val (w_tws w) * gain (w_prof w) h in V3 (s * cos (rad (val (w_alpha_deg w)))) (s * sin (rad (val (w_alpha_deg w)))) 0.
Definition exact_apparent (w : wind double) (h : R) : vec R := sadd (exact_true w h) (V3 (val (w_sog w)) 0 0).

(** ** Logarithm and power *)
Lemma ln_1d d : Rabs d <= 1 / 2 -> Rabs (ln (1 + d)) <= 2 * Rabs d.
Proof.
  intros B. pose proof (abs_2 _ _ B) as B'. assert (U : forall t, 0 < 1 + t -> ln (1 + t) <= t) by (intros t P; rewrite <- (ln_exp t) at 2; destruct (exp_ineq1_le t) as [L|L]; [left; apply ln_increasing; assumption|rewrite L; lra]).
  pose proof (U d ltac:(lra)) as U1. assert (L : - ln (1 + d) <= - (d / (1 + d))).
  { rewrite <- ln_Rinv by lra. replace (/ (1 + d)) with (1 + - (d / (1 + d))) by (field; lra). apply U. replace (1 + - (d / (1 + d))) with (/ (1 + d)) by (field; lra). apply Rinv_0_lt_compat. lra. }
  assert (Q : - (2 * Rabs d) <= d / (1 + d)).
  { pose proof (Rle_abs (- d)) as K. rewrite Rabs_Ropp in K. pose proof (Rabs_pos d). apply Rmult_le_reg_r with (1 + d); [lra|]. unfold Rdiv. rewrite Rmult_assoc, Rinv_l, Rmult_1_r by lra. nra. }
  pose proof (Rle_abs d). pose proof (Rabs_pos d). apply Rabs_le. lra.
Qed.
Lemma exp_1t t : Rabs t <= 1 / 2 -> Rabs (exp t - 1) <= 2 * Rabs t.
Proof.
  intros B. pose proof (abs_2 _ _ B) as B'. pose proof (exp_ineq1_le t) as L. pose proof (exp_ineq1_le (- t)) as M. pose proof (Rle_abs t). pose proof (Rle_abs (- t)) as N. rewrite Rabs_Ropp in N. pose proof (Rabs_pos t).
  assert (E : exp t * exp (- t) = 1) by (rewrite <- exp_plus, Rplus_opp_r; apply exp_0). pose proof (exp_pos t) as P. apply Rabs_le. split; [lra|]. assert (exp t * (1 - t) <= 1) by nra. nra.
Qed.
Lemma exp_n n : exp (INR n) = exp 1 ^ n.
Proof. induction n as [|n IH]; [apply exp_0|]. rewrite S_INR, exp_plus, IH. cbn [pow]. ring. Qed.
Lemma exp_20 : 1000000 <= exp 20 /\ 10000000 <= exp 24.
Proof. pose proof (exp_ineq1_le 1). split; [replace 20 with (INR 20) by (cbn; lra)|replace 24 with (INR 24) by (cbn; lra)]; rewrite exp_n; [apply Rle_trans with (2 ^ 20)|apply Rle_trans with (2 ^ 24)]; try lra; apply pow_incr; lra. Qed.
Lemma exp_96 : exp 96 <= bpow radix2 160.
Proof. replace 96 with (INR 96) by (rewrite INR_IZR_INZ; reflexivity). rewrite exp_n. apply Rle_trans with (3 ^ 96); [apply pow_incr; pose proof (exp_pos 1); pose proof exp_le_3; lra|]. rewrite pow_IZR. change (bpow radix2 160) with (IZR (2 ^ 160)). apply IZR_le. vm_compute. discriminate. Qed.
Lemma ln_size m k x : m <= exp k -> 1 <= m -> 1 / m <= x <= m -> Rabs (ln x) <= k.
Proof.
  intros E M [L U]. pose proof (Rinv_0_lt_compat m ltac:(lra)) as IM. assert (K : forall y, 0 < y <= m -> ln y <= k).
  { intros y [P Y]. rewrite <- (ln_exp k). destruct (Rle_lt_or_eq_dec y (exp k) ltac:(lra)) as [Q|Q]; [left; apply ln_increasing; assumption|rewrite Q; lra]. }
  assert (PX : 0 < x) by lra. pose proof (K x ltac:(lra)). assert (IX : / x <= m). { apply Rmult_le_reg_r with x; [lra|]. rewrite Rinv_l by lra. apply Rle_trans with (m * (1 / m)); [right; field; lra|]. apply Rmult_le_compat_l; lra. }
  pose proof (Rinv_0_lt_compat x ltac:(lra)). pose proof (K (/ x) ltac:(lra)) as Q. rewrite ln_Rinv in Q by lra. apply Rabs_le. lra.
Qed.
Lemma ln_20 x : 1 / 1000000 <= x <= 1000000 -> Rabs (ln x) <= 20. Proof. apply ln_size; [apply exp_20|lra]. Qed.
Lemma ln_24 x : 1 / 10000000 <= x <= 10000000 -> Rabs (ln x) <= 24. Proof. apply ln_size; [apply exp_20|lra]. Qed.
Lemma power_size x y : 1 / 10000000 <= x <= 10000000 -> Rabs y <= 4 -> bpow radix2 (-160) <= Rpower x y <= bpow radix2 160.
Proof.
  intros X Y. pose proof (ln_24 x X) as L. unfold Rpower. assert (B : Rabs (y * ln x) <= 96) by (rewrite Rabs_mult; pose proof (Rabs_pos y); pose proof (Rabs_pos (ln x)); nra). apply abs_2 in B. pose proof exp_96 as E.
  assert (K : forall a b, a <= b -> exp a <= exp b) by (intros a b [H|H]; [left; apply exp_increasing; exact H|rewrite H; lra]). split.
  - eapply Rle_trans; [|apply (K (- (96)) (y * ln x)); lra]. rewrite exp_Ropp. change (-160)%Z with (- (160))%Z. rewrite bpow_opp. apply Rinv_le_contravar; [apply exp_pos|exact E].
  - eapply Rle_trans; [apply (K (y * ln x) 96); lra|exact E].
Qed.
Lemma quot_between a b x y : 0 < y -> a * y <= x <= b * y -> a <= x / y <= b.
Proof. intros P [L U]. split; apply Rmult_le_reg_r with y; try assumption; unfold Rdiv; rewrite (Rmult_assoc x), Rinv_l, Rmult_1_r by lra; assumption. Qed.

(** ** The speed at a height *)
Section Speed.
Context (e : elementary) (AL : accurate_ln e) (AP : accurate_pow e).
Notation D := (Double e).
Lemma close_exact (x : double) : fin x -> close x (val x) 0.
Proof. intros F. split; [exact F|]. exists 0. rewrite Rabs_R0. pose proof u_pos. split; lra. Qed.
Lemma close_up (x : double) X j k : close x X j -> j <= k -> close x X k.
Proof. intros (F & d & B & E) J. split; [exact F|]. exists d. pose proof u_pos. split; [nra|exact E]. Qed.
(* the quotient of two positive numbers *)
Lemma close_quot (x y : double) X k : close x X k -> few k -> fin y -> 1 / 1000000 <= X <= 1000000 -> 1 / 1000000 <= val y <= 1000000 -> 1 / 1000000 <= X / val y <= 1000000 -> close (@ndiv _ D x y) (X / val y) (k + 2).
Proof.
  intros C FK FY BX BY BQ. pose proof (close_near _ _ _ C ltac:(lra)) as N. pose proof (near_div e X x X k y (val y) 0 (val y) ltac:(apply mild_lit; lra) ltac:(lra) ltac:(apply mild_lit; lra) FK ltac:(fw) N (close_exact y FY) ltac:(lra)) as Q.
  pose proof (near_close 1 (X / val y) _ (X / val y) (k + 0 + 102 / 100) ltac:(lra) ltac:(destruct FK; lra) ltac:(lra) Q) as R. apply (close_up _ _ _ _ R). lra.
Qed.
Lemma close_val (x : double) X k : close x X k -> few k -> 0 < X -> X * (1 - 1 / 1000000000) <= val x <= X * (1 + 1 / 1000000000).
Proof. intros C FK P. destruct (close_few _ _ _ C FK) as (d & B & _ & ->). split; apply Rmult_le_compat_l; lra. Qed.
Lemma ln_near (x : double) X : close x X 3 -> 1 / 1000000 <= X <= 1000000 -> fin (@nln _ D x) /\ Rabs (val (@nln _ D x) - ln X) <= (8 * (1 + Rabs (ln X)) + 7) * u.
Proof.
  intros C BX. pose proof (close_val _ _ _ C ltac:(fw) ltac:(lra)) as BV. destruct (AL x (proj1 C) ltac:(lra)) as [FL EL]. cbn [nln Double]. split; [exact FL|].
  destruct C as (_ & d & BD & EV). pose proof u_pos as UP. pose proof u_small as US. assert (DD : Rabs d <= 1 / 2) by lra. pose proof (ln_1d d DD) as LD. pose proof (abs_2 _ _ DD) as D2.
  assert (EQ : ln (val x) = ln X + ln (1 + d)) by (rewrite EV; apply ln_mult; lra). rewrite EQ in EL.
  pose proof (Rabs_triang (ln X) (ln (1 + d))) as T1. replace (val (e_ln e x) - ln X) with ((val (e_ln e x) - (ln X + ln (1 + d))) + ln (1 + d)) by ring. eapply Rle_trans; [apply Rabs_triang|].
  replace (8 / 2 ^ 53) with (8 * u) in EL by (rewrite u_val; lra). assert (Rabs (ln (1 + d)) <= 6 * u) by lra. set (q := Rabs (ln (1 + d))) in *. set (r := Rabs (ln X + ln (1 + d))) in *. clearbody q r. nra.
Qed.
Lemma pow_close (x y : double) X : close x X 3 -> fin y -> 1 / 1000000 <= X <= 1000000 -> Rabs (val y) <= 4 -> close (@npow _ D x y) (Rpower X (val y)) 58.
Proof.
  intros C FY BX BY. pose proof (close_val _ _ _ C ltac:(fw) ltac:(lra)) as BV. destruct (AP x y (proj1 C) FY ltac:(lra) BY) as [FP EP]. cbn [npow Double]. split; [exact FP|].
  destruct C as (_ & d & BD & EV). pose proof u_pos as UP. pose proof u_small as US. assert (DD : Rabs d <= 1 / 2) by lra. pose proof (ln_1d d DD) as LD. pose proof (abs_2 _ _ DD) as D2.
  assert (EQ : Rpower (val x) (val y) = Rpower X (val y) * exp (val y * ln (1 + d))) by (unfold Rpower; rewrite EV, ln_mult by lra; rewrite Rmult_plus_distr_l; apply exp_plus).
  assert (T : Rabs (val y * ln (1 + d)) <= 24 * u) by (rewrite Rabs_mult; pose proof (Rabs_pos (val y)); pose proof (Rabs_pos (ln (1 + d))); nra).
  pose proof (exp_1t (val y * ln (1 + d)) ltac:(lra)) as ET. set (t := exp (val y * ln (1 + d))) in *. rewrite EQ in EP. replace (8 / 2 ^ 53) with (8 * u) in EP by (rewrite u_val; lra).
  assert (P : 0 < Rpower X (val y)) by (unfold Rpower; apply exp_pos). set (p := Rpower X (val y)) in *. assert (T2 : Rabs (t - 1) <= 48 * u) by lra. clearbody t p. apply abs_2 in T2.
  exists ((val (e_pow e x y) - p) / p). split; [|field; lra]. unfold Rdiv. rewrite Rabs_mult, Rabs_inv, (Rabs_pos_eq p) by lra. apply Rmult_le_reg_r with p; [exact P|]. rewrite Rmult_assoc, Rinv_l, Rmult_1_r by lra.
  replace (val (e_pow e x y) - p) with ((val (e_pow e x y) - p * t) + p * (t - 1)) by ring. eapply Rle_trans; [apply Rabs_triang|]. rewrite (Rabs_mult p), (Rabs_pos_eq p) by lra. assert (p * Rabs (t - 1) <= p * (48 * u)) by (apply Rmult_le_compat_l; [lra|apply Rabs_le; exact T2]).
  assert (8 * u * (p * t) <= 8 * u * (p * (1 + 48 * u))) by (apply Rmult_le_compat_l; [lra|]; apply Rmult_le_compat_l; lra). assert (PU : 0 < p * u) by (apply Rmult_lt_0_compat; assumption). assert (Q : u * (p * u) <= 1 / 1000 * (p * u)) by (apply Rmult_le_compat_r; lra). apply Rle_trans with (8 * u * (p * t) + p * (48 * u)); [apply Rplus_le_compat; [exact EP|assumption]|]. lra.
Qed.
Context (T G : R) (w : wind double) (US : usual_wind T G w).
Lemma speed_near (h : double) : fin h -> usual_profile (w_prof w) (val h) -> exists s, @wind_speed_at_h _ D w h = Ok s /\ bpow radix2 (-170) <= T * gain_size (w_prof w) (val h) <= bpow radix2 170 /\ near (T * gain_size (w_prof w) (val h)) s (val (w_tws w) * gain (w_prof w) (val h)) 60.
Proof.
  intros FH UP. destruct US as [BT BG _ [FT TT] _]. pose proof (near_exact T (w_tws w) FT TT ltac:(lra)) as NT. assert (LIT : forall B, 1 / 1000 <= B <= 40000 -> bpow radix2 (-170) <= B <= bpow radix2 170) by (intros B BB; split; [apply Rle_trans with (bpow radix2 (-10)); [apply bpow_le; lia|change (bpow radix2 (-10)) with (/ 1024); lra]|apply Rle_trans with (bpow radix2 16); [change (bpow radix2 16) with 65536; lra|apply bpow_le; lia]]). unfold wind_speed_at_h, gain_size, gain, usual_profile in *. destruct (w_prof w) as [|r rh|y rh wl].
  - exists (w_tws w). split; [reflexivity|]. rewrite !Rmult_1_r. split; [apply LIT; lra|]. apply (near_up _ _ _ 0); [exact NT|lra|lra].
  - destruct r as [r|], rh as [rh|]; try contradiction. cbn [opt_arg bind]. destruct UP as (FR & FRH & BH & BR & BRH).
    assert (Q1 : 1 / 1000000 <= val h / val r <= 1000000) by (apply quot_between; lra).
    assert (Q2 : 2 <= val rh / val r <= 1000000) by (apply quot_between; lra).
    pose proof (close_quot h r (val h) 0 (close_exact h FH) ltac:(fw) FR ltac:(lra) ltac:(lra) Q1) as C1. pose proof (close_quot rh r (val rh) 0 (close_exact rh FRH) ltac:(fw) FR ltac:(lra) ltac:(lra) ltac:(lra)) as C2.
    destruct (ln_near _ _ (close_up _ _ _ 3 C1 ltac:(lra)) Q1) as [F1 E1]. destruct (ln_near _ _ (close_up _ _ _ 3 C2 ltac:(lra)) ltac:(lra)) as [F2 E2]. pose proof (ln_20 _ Q1) as L1. pose proof (ln_20 (val rh / val r) ltac:(lra)) as L2.
    assert (LO : 1 / 2 <= ln (val rh / val r)) by (pose proof ln_lt_2; destruct (Rle_lt_or_eq_dec 2 (val rh / val r) ltac:(lra)) as [Q|Q]; [pose proof (ln_increasing 2 _ ltac:(lra) Q); lra|rewrite <- Q; lra]).
    set (a := @nln _ D (@ndiv _ D h r)) in *. set (b := @nln _ D (@ndiv _ D rh r)) in *. set (A := ln (val h / val r)) in *. set (B := ln (val rh / val r)) in *. pose proof u_pos as UP. rewrite (Rabs_pos_eq B) in E2 by lra.
    assert (N1 : near 20 a A 9) by (split; [exact F1|split; [exact L1|]]; eapply Rle_trans; [exact E1|]; nra).
    assert (C3 : close b B 40). { split; [exact F2|]. exists ((val b - B) / B). split; [|field; lra]. unfold Rdiv. rewrite Rabs_mult, Rabs_inv, (Rabs_pos_eq B) by lra. apply Rmult_le_reg_r with B; [lra|]. rewrite Rmult_assoc, Rinv_l, Rmult_1_r by lra. eapply Rle_trans; [exact E2|]. nra. }
    pose proof (near_div e 20 a A 9 b B 40 (1 / 2) ltac:(apply mild_lit; lra) ltac:(lra) ltac:(apply mild_lit; lra) ltac:(fw) ltac:(fw) N1 C3 LO) as N2. replace (20 / (1 / 2)) with 40 in N2 by lra.
    exists (@nmul _ D (w_tws w) (@ndiv _ D a b)). split; [reflexivity|]. split; [apply LIT; lra|]. apply (near_up _ _ _ (0 + (9 + 40 + 102 / 100) + 101 / 100)); [|lra|lra]. apply near_mul; [apply mild_lit; lra|apply mild_lit; lra|fw|fw|exact NT|exact N2].
  - destruct y as [y|], rh as [rh|], wl as [wl|]; try contradiction. cbn [opt_arg bind]. destruct UP as (FY & FRH & FW & BH & BRH & BY).
    assert (Q1 : 1 / 1000000 <= (val h - val wl) / val rh <= 1000000) by (apply quot_between; lra).
    assert (C0 : close (@nsub _ D h wl) (val h - val wl) 1). { destruct (dsub e h wl FH FW) as (F0 & d & BD & ED). { rewrite Rabs_pos_eq by lra. apply Rle_trans with 1024; [lra|]. change 1024 with (bpow radix2 10). apply bpow_le. lia. } split; [exact F0|]. exists d. split; [lra|exact ED]. }
    pose proof (close_quot _ rh _ 1 C0 ltac:(fw) FRH ltac:(lra) ltac:(lra) Q1) as C1. pose proof (pow_close _ y _ (close_up _ _ _ 3 C1 ltac:(lra)) FY Q1 BY) as C2. pose proof (power_size ((val h - val wl) / val rh) (val y) ltac:(lra) BY) as SZ. set (P := Rpower ((val h - val wl) / val rh) (val y)) in *.
    assert (P0 : 0 < P) by (pose proof (bpow_gt_0 radix2 (-160)); lra). assert (MP : mild P) by (apply (mild_le (-160) 160 ltac:(lia) ltac:(lia) P SZ)).
    exists (@nmul _ D (w_tws w) (@npow _ D (@ndiv _ D (@nsub _ D h wl) rh) y)). split; [reflexivity|]. split.
    + split.
      * change (-170)%Z with (-10 + -160)%Z. rewrite bpow_plus. apply Rmult_le_compat; try apply bpow_ge_0; [change (bpow radix2 (-10)) with (/ 1024); lra|lra].
      * change 170%Z with (10 + 160)%Z. rewrite bpow_plus. apply Rmult_le_compat; try lra; change (bpow radix2 10) with 1024; lra.
    + apply (near_up _ _ _ (0 + 58 + 101 / 100)); [|lra|apply Rmult_le_pos; lra]. apply near_mul; [apply mild_lit; lra|exact MP|fw|fw|exact NT|apply close_near; [exact C2|exact P0]].
Qed.
Context (AC : accurate e).
(** the wind felt at a height, and the true wind *)
Theorem C104_apparent (h : double) : fin h -> usual_profile (w_prof w) (val h) ->
  exists t, @get_true_wind_speed_at_h _ D w h = Ok t /\ within (2 / 100000000000000 * (T * gain_size (w_prof w) (val h))) t (exact_true w (val h)) /\
    within (2 / 100000000000000 * (T * gain_size (w_prof w) (val h) + G)) (@get_app_infs_at_h _ D w t) (exact_apparent w (val h)).
Proof.
  intros FH UP. destruct (speed_near h FH UP) as (s & ES & SZ & NS). destruct US as [BT BG [FA BA] _ [FS BS]]. unfold get_true_wind_speed_at_h. rewrite ES. cbn [bind]. eexists. split; [reflexivity|]. clear ES.
  set (S := T * gain_size (w_prof w) (val h)) in *. unfold exact_apparent, exact_true. set (X := val (w_tws w) * gain (w_prof w) (val h)) in *. clearbody S X. assert (MS : mild S) by (apply (mild_le (-170) 170 ltac:(lia) ltac:(lia) S SZ)). pose proof (mild_pos _ MS) as PS.
  assert (MG : mild (S + G)) by (apply (mild_le (-170) 171 ltac:(lia) ltac:(lia)); split; [lra|]; change 171%Z with (170 + 1)%Z; rewrite bpow_plus; change (bpow radix2 1) with 2; assert (1000 <= bpow radix2 170) by (apply Rle_trans with (bpow radix2 10); [change (bpow radix2 10) with 1024; lra|apply bpow_le; lia]); lra).
  pose proof (near_angle e (w_alpha_deg w) FA BA) as NA.
  pose proof (near_cos e 8 _ _ 4 AC ltac:(lra) ltac:(fw) NA) as NC. pose proof (near_sin e 8 _ _ 4 AC ltac:(lra) ltac:(fw) NA) as NSI. pose proof (near_mul e S 1 _ _ _ _ 60 (8 + 4 * 8) MS ltac:(apply mild_lit; lra) ltac:(fw) ltac:(fw) NS NC) as N1. pose proof (near_mul e S 1 _ _ _ _ 60 (8 + 4 * 8) MS ltac:(apply mild_lit; lra) ltac:(fw) ltac:(fw) NS NSI) as N2. rewrite Rmult_1_r in N1, N2.
  pose proof (near_add e S G _ _ _ _ (60 + (8 + 4 * 8) + 101 / 100) 0 MG ltac:(lra) ltac:(lra) ltac:(fw) ltac:(fw) N1 (near_exact G (w_sog w) FS BS ltac:(lra))) as N3. rewrite Rmax_left in N3 by lra.
  assert (U1 : forall k B, k <= 150 -> 0 <= B -> k * (B * u) <= 2 / 100000000000000 * B) by (intros k B K P; replace (k * (B * u)) with (k * u * B) by ring; apply Rmult_le_compat_r; [exact P|]; pose proof u_pos; apply Rle_trans with (150 * u); [nra|rewrite u_val; lra]).
  destruct (zero_one e) as [[FZ VZ] _].
  assert (SP : forall B, 0 <= B -> Rabs (val (@nZ _ D 0) - 0) <= 2 / 100000000000000 * B) by (intros B PB; rewrite VZ, Rminus_0_r, Rabs_R0; nra).
  unfold length_to_xyz_vector, get_app_infs_at_h, w_alpha, within, vfin. cbn [vx vy vz sadd].
  split.
  - split; [exact (conj (proj1 N1) (conj (proj1 N2) FZ))|]. split; [eapply Rle_trans; [exact (proj2 (proj2 N1))|]; apply U1; lra|]. split; [eapply Rle_trans; [exact (proj2 (proj2 N2))|]; apply U1; lra|]. apply SP. lra.
  - split; [exact (conj (proj1 N3) (conj (proj1 N2) FZ))|]. split; [eapply Rle_trans; [exact (proj2 (proj2 N3))|]; apply U1; lra|]. rewrite !Rplus_0_r. split; [eapply Rle_trans; [exact (proj2 (proj2 N2))|]; eapply Rle_trans; [apply U1; lra|]; lra|]. apply SP. lra.
Qed.
(** the inlet conditions of a run *)
Theorem C104_inlet (cps : list (vec double)) : Forall (fun p => fin (vz p) /\ usual_profile (w_prof w) (Rabs (val (vz p)))) cps ->
  exists ic, @InletConditions _ D w cps = Ok ic /\ in_cp ic = cps /\
    Forall2 (fun p v => within (2 / 100000000000000 * (T * gain_size (w_prof w) (Rabs (val (vz p))))) v (exact_true w (Rabs (val (vz p))))) cps (in_tws ic) /\
    Forall2 (fun p v => within (2 / 100000000000000 * (T * gain_size (w_prof w) (Rabs (val (vz p))) + G)) v (exact_apparent w (Rabs (val (vz p))))) cps (in_V ic).
Proof.
  intros H. assert (Q : exists ts, mapM (fun p => @get_true_wind_speed_at_h _ D w (@nabs _ D (vz p))) cps = Ok ts /\
    Forall2 (fun p v => within (2 / 100000000000000 * (T * gain_size (w_prof w) (Rabs (val (vz p))))) v (exact_true w (Rabs (val (vz p))))) cps ts /\
    Forall2 (fun p v => within (2 / 100000000000000 * (T * gain_size (w_prof w) (Rabs (val (vz p))) + G)) v (exact_apparent w (Rabs (val (vz p))))) cps (map (@get_app_infs_at_h _ D w) ts)).
  { induction H as [|p ps [FP UP] H IH]; [exists []; split; [reflexivity|split; constructor]|]. destruct IH as (ts & E & I1 & I2).
    assert (FA : fin (@nabs _ D (vz p))) by (cbn [nabs Double]; rewrite is_finite_Babs; exact FP). assert (VA : val (@nabs _ D (vz p)) = Rabs (val (vz p))) by (cbn [nabs Double]; apply B2R_Babs).
    destruct (C104_apparent (@nabs _ D (vz p)) FA ltac:(rewrite VA; exact UP)) as (t & ET & W1 & W2). rewrite VA in W1, W2. exists (t :: ts). cbn [mapM]. rewrite ET. cbn [bind]. rewrite E. cbn [bind]. split; [reflexivity|]. cbn [map]. split; constructor; assumption. }
  destruct Q as (ts & E & I1 & I2). unfold InletConditions. rewrite E. cbn [bind]. eexists. split; [reflexivity|]. cbn [in_cp in_tws in_V]. split; [reflexivity|]. split; assumption.
Qed.
End Speed.

(** ** A library with such a logarithm and power *)
Definition floor300 (x : R) : double := binary_normalize 53 1024 p53 e1024 mode_NE (Zfloor (x * bpow radix2 300)) (-300) false.
Lemma floor300_ok x : Rabs x <= bpow radix2 200 -> fin (floor300 x) /\ Rabs (val (floor300 x) - x) <= 3 * u * (Rabs x + bpow radix2 (-160)).
Proof.
  intros B. unfold floor300. pose proof (Zfloor_lb (x * bpow radix2 300)) as LB. pose proof (Zfloor_ub (x * bpow radix2 300)) as UB. set (z := Zfloor (x * bpow radix2 300)) in *. clearbody z.
  pose proof (binary_normalize_correct 53 1024 p53 e1024 mode_NE z (-300) false) as C. cbv zeta in C. set (v := F2R (Float radix2 z (-300))) in *.
  assert (I : bpow radix2 300 * bpow radix2 (-300) = 1) by (rewrite <- bpow_plus; reflexivity). pose proof (bpow_gt_0 radix2 (-300)) as P3. pose proof u_pos as UP. pose proof u_small as US.
  assert (V : Rabs (v - x) <= bpow radix2 (-300)).
  { unfold v, F2R. cbn [Fnum Fexp]. set (b := bpow radix2 300) in *. set (c := bpow radix2 (-300)) in *. replace (IZR z * c - x) with ((IZR z - x * b) * c) by (rewrite Rmult_minus_distr_r, Rmult_assoc, I; ring). rewrite Rabs_mult, (Rabs_pos_eq c) by lra. rewrite <- (Rmult_1_l c) at 2. apply Rmult_le_compat_r; [lra|]. apply Rabs_le. lra. }
  assert (SM : bpow radix2 (-300) <= u * bpow radix2 (-160) / 1000). { apply Rle_trans with (bpow radix2 (-63) * bpow radix2 (-160)); [rewrite <- bpow_plus; apply bpow_le; lia|]. replace (u * bpow radix2 (-160) / 1000) with (u / 1000 * bpow radix2 (-160)) by lra. apply Rmult_le_compat_r; [apply bpow_ge_0|]. rewrite u_val. change (bpow radix2 (-63)) with (/ 9223372036854775808). lra. }
  assert (TS : tiny <= bpow radix2 (-300)) by (unfold tiny; assert (bpow radix2 (-1074) <= bpow radix2 (-300)) by (apply bpow_le; lia); pose proof (bpow_gt_0 radix2 (-1074)); lra).
  assert (VX : Rabs v <= Rabs x + bpow radix2 (-300)) by (replace v with (x + (v - x)) by ring; eapply Rle_trans; [apply Rabs_triang|]; lra).
  rewrite Rlt_bool_true in C. 2:{ apply rnd_fits. eapply Rle_trans; [exact VX|]. apply Rle_trans with (bpow radix2 201); [|apply bpow_le; lia]. change 201%Z with (200 + 1)%Z. rewrite bpow_plus. change (bpow radix2 1) with 2. assert (bpow radix2 (-300) <= bpow radix2 200) by (apply bpow_le; lia). lra. }
  destruct C as (C1 & C2 & _). split; [exact C2|]. destruct (rnd_eta v) as (d & n & D' & N & _ & Q). change (val (binary_normalize 53 1024 p53 e1024 mode_NE z (-300) false) = rnd v) in C1. rewrite C1, Q.
  replace (v * (1 + d) + n - x) with ((v - x) + v * d + n) by ring. eapply Rle_trans; [apply Rabs_triang|]. eapply Rle_trans; [apply Rplus_le_compat_r, Rabs_triang|]. rewrite Rabs_mult. assert (M : Rabs v * Rabs d <= (Rabs x + bpow radix2 (-300)) * u) by (apply Rmult_le_compat; try apply Rabs_pos; assumption).
  pose proof (Rabs_pos x). pose proof (bpow_gt_0 radix2 (-160)). nra.
Qed.
Definition ideal_wind : elementary := Elementary (fun x => floor53 (sin (val x))) (fun x => floor53 (cos (val x))) (fun x => x) (fun x => x) (fun x => x) (fun x _ => x) (fun x => floor300 (ln (val x))) (fun x y => floor300 (Rpower (val x) (val y))).
Lemma ideal_wind_accurate : accurate ideal_wind. Proof. exact ideal_accurate. Qed.
Lemma bpow_160 : bpow radix2 (-160) <= 1 /\ 24 <= bpow radix2 200 /\ bpow radix2 160 <= bpow radix2 200.
Proof. split; [change 1 with (bpow radix2 0); apply bpow_le; lia|]. split; [apply Rle_trans with (bpow radix2 5); [change (bpow radix2 5) with 32; lra|]|]; apply bpow_le; lia. Qed.
Lemma ideal_ln : accurate_ln ideal_wind.
Proof.
  intros x F X. pose proof (ln_24 _ X) as L. pose proof bpow_160 as (B1 & B2 & _). destruct (floor300_ok (ln (val x)) ltac:(lra)) as [FF E]. cbn [ideal_wind e_ln]. split; [exact FF|]. eapply Rle_trans; [exact E|]. replace (8 / 2 ^ 53) with (8 * u) by (rewrite u_val; lra). pose proof u_pos. pose proof (Rabs_pos (ln (val x))). apply Rmult_le_compat; try lra. pose proof (bpow_gt_0 radix2 (-160)); lra.
Qed.
Lemma ideal_pow : accurate_pow ideal_wind.
Proof.
  intros x y F G X Y. pose proof (power_size _ _ X Y) as P. pose proof bpow_160 as (_ & _ & B3). pose proof (bpow_gt_0 radix2 (-160)). set (p := Rpower (val x) (val y)) in *. destruct (floor300_ok p ltac:(rewrite Rabs_pos_eq; lra)) as [FF E]. cbn [ideal_wind e_pow]. fold p. split; [exact FF|]. eapply Rle_trans; [exact E|]. replace (8 / 2 ^ 53) with (8 * u) by (rewrite u_val; lra). pose proof u_pos. rewrite Rabs_pos_eq by lra. apply Rle_trans with (3 * u * (2 * p)); [apply Rmult_le_compat_l; lra|]. assert (0 <= u * p) by (apply Rmult_le_pos; lra). lra.
Qed.
(** a power law with the exponent 1/8 and a logarithmic profile, at two points of the sail and the mirror image of one *)
Definition eighth : double := @ndiv _ (Double ideal_wind) (dZ 1) (dZ 8).
Lemma eighth_ok : fin eighth /\ Rabs (val eighth) <= 4.
Proof.
  destruct (dint ideal_wind 1 ltac:(lia)) as [F1 V1]. destruct (dint ideal_wind 8 ltac:(lia)) as [F8 V8]. pose proof (near_div ideal_wind 1 (@nZ _ (Double ideal_wind) 1) 1 0 (@nZ _ (Double ideal_wind) 8) 8 0 8 ltac:(apply mild_lit; lra) ltac:(lra) ltac:(apply mild_lit; lra) ltac:(fw) ltac:(fw)) as N.
  assert (A : near 1 (@nZ _ (Double ideal_wind) 1) 1 0) by (split; [exact F1|]; rewrite V1, Rminus_eq_0, Rabs_R0, Rabs_R1; pose proof u_pos; lra). assert (B : close (@nZ _ (Double ideal_wind) 8) 8 0) by (split; [exact F8|]; exists 0; rewrite V8, Rabs_R0; pose proof u_pos; split; lra).
  destruct (N A B ltac:(lra)) as (F & _ & E). split; [exact F|]. apply abs_2 in E. pose proof u_small. pose proof u_pos. apply Rabs_le. unfold eighth. cbn [nZ Double] in E. lra.
Qed.
Definition case_wind (p : profile double) : wind double := Wind_ (dZ 30) (dZ 10) (dZ 5) p.
Example C104_case : let power := Exp (Some eighth) (Some (dZ 10)) (Some (dZ (-1))) in let log := Log (Some (dZ 1)) (Some (dZ 10)) in let cps := [dv 1 2 3; dv 4 1 12; dv 4 1 (-12)] in
  accurate ideal_wind /\ accurate_ln ideal_wind /\ accurate_pow ideal_wind /\
  forall p, p = power \/ p = log -> usual_wind 10 5 (case_wind p) /\ Forall (fun q => fin (vz q) /\ usual_profile p (Rabs (val (vz q)))) cps /\
    exists ic, @InletConditions _ (Double ideal_wind) (case_wind p) cps = Ok ic /\ length (in_V ic) = 3%nat.
Proof.
  intros power log cps. split; [exact ideal_wind_accurate|]. split; [exact ideal_ln|]. split; [exact ideal_pow|]. intros p P.
  assert (DI : forall z, (Z.abs z <= 1000)%Z -> fin (dZ z) /\ val (dZ z) = IZR z) by (intros z Z; exact (dint ideal_wind z ltac:(lia))).
  destruct (DI 30%Z ltac:(lia)) as [F30 V30]. destruct (DI 10%Z ltac:(lia)) as [F10 V10]. destruct (DI 5%Z ltac:(lia)) as [F5 V5]. destruct (DI 1%Z ltac:(lia)) as [F1 V1]. destruct (DI (-1)%Z ltac:(lia)) as [Fm Vm]. destruct (DI 3%Z ltac:(lia)) as [F3 V3']. destruct (DI 12%Z ltac:(lia)) as [F12 V12]. destruct (DI (-12)%Z ltac:(lia)) as [Fn Vn]. destruct eighth_ok as [FE BE].
  assert (W : usual_wind 10 5 (case_wind p)). { split; cbn [case_wind w_alpha_deg w_tws w_sog]; [lra|lra|split; [assumption|rewrite V30, Rabs_pos_eq; lra]|split; [assumption|rewrite V10, Rabs_pos_eq; lra]|split; [assumption|rewrite V5, Rabs_pos_eq; lra]]. }
  assert (K : forall h, 3 <= h <= 12 -> usual_profile p h). { intros h H. destruct P as [-> | ->]; unfold power, log, usual_profile; rewrite ?V10, ?V1, ?Vm; (split; [assumption|]); (split; [assumption|]); [split; [assumption|]|]; repeat split; try lra; exact BE. }
  assert (C : Forall (fun q => fin (vz q) /\ usual_profile p (Rabs (val (vz q)))) cps).
  { unfold cps, dv. constructor; [|constructor; [|constructor; [|constructor]]]; cbn [vz]; (split; [assumption|]); apply K; rewrite ?V3', ?V12, ?Vn; [rewrite Rabs_pos_eq; lra|rewrite Rabs_pos_eq; lra|rewrite Rabs_left; lra]. }
  split; [exact W|]. split; [exact C|]. destruct (C104_inlet ideal_wind ideal_ln ideal_pow 10 5 (case_wind p) W ideal_wind_accurate cps C) as (ic & E & _ & _ & I). exists ic. split; [exact E|]. rewrite <- (Forall2_len _ _ _ I). reflexivity.
Qed.

Print Assumptions C104_apparent.
Print Assumptions C104_inlet.
Print Assumptions C104_case.
