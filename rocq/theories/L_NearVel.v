(** Velocities induced by vortices in double arithmetic: sizes and rounding errors. *)

From Coq Require Import ZArith Reals List Bool Lra Psatz Lia.
From Flocq Require Import Core BinarySingleNaN.
From Verif Require Import Num PyBase RNum Spec M_Rotations M_Velocity L_Rot P_Double Double L_Double L_Near L_NearRot L_NearLine L_NearSail.
Import ListNotations.
Open Scope R_scope.

(** ** Sizes *)
(** [x] is finite and at most 2^b *)
Definition lim (b : Z) (x : double) : Prop := fin x /\ Rabs (val x) <= bpow radix2 b.
Definition vlim (b : Z) (v : vec double) : Prop := lim b (vx v) /\ lim b (vy v) /\ lim b (vz v).
Lemma lim_up a b x : lim a x -> (a <= b)%Z -> lim b x.
Proof. intros [F L] H. split; [exact F|]. apply (Rle_trans _ _ _ L), bpow_le, H. Qed.
Lemma rnd_lim r b : (-1074 <= b)%Z -> Rabs r <= bpow radix2 b -> Rabs (rnd r) <= bpow radix2 b.
Proof.
  intros B H. apply abs_round_le_generic; [apply FLT_exp_valid; reflexivity|apply valid_rnd_N| |exact H].
  apply generic_format_bpow. unfold FLT_exp. lia.
Qed.
Section Sizes.
Context (e : elementary).
Local Notation D := (Double e).
Lemma fits r b : (-1074 <= b <= 1000)%Z -> Rabs r <= bpow radix2 b -> Rlt_bool (Rabs (rnd r)) (bpow radix2 1024) = true.
Proof. intros B H. apply Rlt_bool_true. apply (Rle_lt_trans _ (bpow radix2 b)); [apply rnd_lim; [lia|exact H]|apply bpow_lt; lia]. Qed.
Lemma lim_add b x y : (-1000 <= b <= 999)%Z -> lim b x -> lim b y -> lim (b + 1) (@nadd _ D x y).
Proof.
  intros B [FX LX] [FY LY]. assert (H : Rabs (val x + val y) <= bpow radix2 (b + 1)) by (rewrite bpow_plus; change (bpow radix2 1) with 2; pose proof (Rabs_triang (val x) (val y)); lra).
  cbn [nadd Double]. pose proof (Bplus_correct 53 1024 p53 e1024 mode_NE x y FX FY) as C. change (round radix2 (SpecFloat.fexp 53 1024) (round_mode mode_NE)) with rnd in C. rewrite (fits _ (b + 1)) in C by (try lia; assumption).
  destruct C as (V & F & _). split; [exact F|]. rewrite V. apply rnd_lim; [lia|exact H].
Qed.
Lemma lim_sub b x y : (-1000 <= b <= 999)%Z -> lim b x -> lim b y -> lim (b + 1) (@nsub _ D x y).
Proof.
  intros B [FX LX] [FY LY]. assert (H : Rabs (val x - val y) <= bpow radix2 (b + 1)) by (rewrite bpow_plus; change (bpow radix2 1) with 2; pose proof (Rabs_triang (val x) (- val y)) as T; rewrite Rabs_Ropp in T; unfold Rminus; lra).
  cbn [nsub Double]. pose proof (Bminus_correct 53 1024 p53 e1024 mode_NE x y FX FY) as C. change (round radix2 (SpecFloat.fexp 53 1024) (round_mode mode_NE)) with rnd in C. rewrite (fits _ (b + 1)) in C by (try lia; assumption).
  destruct C as (V & F & _). split; [exact F|]. rewrite V. apply rnd_lim; [lia|exact H].
Qed.
Lemma lim_mul a b x y : (-1000 <= a + b <= 1000)%Z -> lim a x -> lim b y -> lim (a + b) (@nmul _ D x y).
Proof.
  intros B [FX LX] [FY LY]. assert (H : Rabs (val x * val y) <= bpow radix2 (a + b)) by (rewrite bpow_plus, Rabs_mult; apply Rmult_le_compat; try apply Rabs_pos; assumption).
  cbn [nmul Double]. pose proof (Bmult_correct 53 1024 p53 e1024 mode_NE x y) as C. change (round radix2 (SpecFloat.fexp 53 1024) (round_mode mode_NE)) with rnd in C. rewrite (fits _ (a + b)) in C by (try lia; assumption).
  destruct C as (V & F & _). split; [rewrite F, FX, FY; reflexivity|]. rewrite V. apply rnd_lim; [lia|exact H].
Qed.
Lemma lim_div a c x y : (-1000 <= a - c <= 1000)%Z -> lim a x -> bpow radix2 c <= Rabs (val y) -> lim (a - c) (@ndiv _ D x y).
Proof.
  intros B [FX LX] LY. pose proof (bpow_gt_0 radix2 c) as P. assert (N : val y <> 0) by (intros Z; rewrite Z, Rabs_R0 in LY; lra).
  assert (H : Rabs (val x / val y) <= bpow radix2 (a - c)). { unfold Zminus. rewrite bpow_plus, bpow_opp. unfold Rdiv. rewrite Rabs_mult, Rabs_inv. apply Rmult_le_compat; [apply Rabs_pos|left; apply Rinv_0_lt_compat, Rabs_pos_lt, N|exact LX|apply Rinv_le_contravar; assumption]. }
  cbn [ndiv Double]. pose proof (Bdiv_correct 53 1024 p53 e1024 mode_NE x y N) as C. change (round radix2 (SpecFloat.fexp 53 1024) (round_mode mode_NE)) with rnd in C. rewrite (fits _ (a - c)) in C by (try lia; assumption).
  destruct C as (V & F & _). split; [rewrite F; exact FX|]. rewrite V. apply rnd_lim; [lia|exact H].
Qed.
Lemma rnd_nonneg r : 0 <= r -> 0 <= rnd r.
Proof. intros H. rewrite <- rnd_0. apply round_le; [apply FLT_exp_valid; reflexivity|apply valid_rnd_N|exact H]. Qed.
Lemma lim_sqrt b x : (-500 <= b <= 500)%Z -> lim (b + b) x -> 0 <= val x -> lim b (@nsqrt _ D x) /\ 0 <= val (@nsqrt _ D x).
Proof.
  intros B [FX LX] P. rewrite Rabs_pos_eq in LX by exact P. cbn [nsqrt Double]. destruct (Bsqrt_correct 53 1024 p53 e1024 mode_NE x) as (V & F & _). change (round radix2 (SpecFloat.fexp 53 1024) (round_mode mode_NE)) with rnd in V.
  assert (N : 0 <= val (Bsqrt mode_NE x)) by (rewrite V; apply rnd_nonneg, sqrt_pos).
  split; [|exact N]. split.
  - rewrite F. destruct x as [s|s| |s mm ee ?]; try discriminate FX; [reflexivity|]. destruct s; [|reflexivity]. exfalso. revert P. unfold val, B2R. pose proof (F2R_lt_0 radix2 (Float radix2 (cond_Zopp true (Z.pos mm)) ee) ltac:(simpl; lia)). lra.
  - rewrite V. apply rnd_lim; [lia|]. rewrite Rabs_pos_eq by apply sqrt_pos. rewrite <- (sqrt_square (bpow radix2 b)) by apply bpow_ge_0. apply sqrt_le_1_alt. rewrite <- bpow_plus. exact LX.
Qed.
Lemma sq_nonneg x y : 0 <= val x * val y -> lim 900 (@nmul _ D x y) -> fin x -> fin y -> Rabs (val x * val y) <= bpow radix2 900 -> 0 <= val (@nmul _ D x y).
Proof.
  intros P _ FX FY H. cbn [nmul Double]. pose proof (Bmult_correct 53 1024 p53 e1024 mode_NE x y) as C. change (round radix2 (SpecFloat.fexp 53 1024) (round_mode mode_NE)) with rnd in C. rewrite (fits _ 900) in C by (try lia; assumption).
  destruct C as (V & _). rewrite V. apply rnd_nonneg, P.
Qed.
Lemma sum_nonneg b x y : (-1000 <= b <= 999)%Z -> lim b x -> lim b y -> 0 <= val x -> 0 <= val y -> 0 <= val (@nadd _ D x y).
Proof.
  intros B [FX LX] [FY LY] P Q. assert (H : Rabs (val x + val y) <= bpow radix2 (b + 1)) by (rewrite bpow_plus; change (bpow radix2 1) with 2; pose proof (Rabs_triang (val x) (val y)); lra).
  cbn [nadd Double]. pose proof (Bplus_correct 53 1024 p53 e1024 mode_NE x y FX FY) as C. change (round radix2 (SpecFloat.fexp 53 1024) (round_mode mode_NE)) with rnd in C. rewrite (fits _ (b + 1)) in C by (try lia; assumption).
  destruct C as (V & _). rewrite V. apply rnd_nonneg. lra.
Qed.
Lemma lim_norm b v : (-100 <= b <= 400)%Z -> vlim b v -> lim (b + 1) (@vnorm _ D v) /\ 0 <= val (@vnorm _ D v).
Proof.
  intros B (X & Y & Z).
  assert (S : forall x, lim b x -> lim (b + b) (@nmul _ D x x) /\ 0 <= val (@nmul _ D x x)).
  { intros x L. pose proof (lim_mul b b x x ltac:(lia) L L) as M. split; [exact M|]. destruct L as [F L]. assert (H : Rabs (val x * val x) <= bpow radix2 900) by (rewrite Rabs_mult; apply Rle_trans with (bpow radix2 (b + b)); [rewrite bpow_plus; apply Rmult_le_compat; try apply Rabs_pos; assumption|apply bpow_le; lia]).
    apply sq_nonneg; try assumption; [nra|]. apply (lim_up _ _ _ M). lia. }
  destruct (S _ X) as [X1 X2]. destruct (S _ Y) as [Y1 Y2]. destruct (S _ Z) as [Z1 Z2].
  pose proof (lim_add (b + b) _ _ ltac:(lia) X1 Y1) as A. pose proof (sum_nonneg (b + b) _ _ ltac:(lia) X1 Y1 X2 Y2) as A0.
  pose proof (lim_add (b + b + 1) _ _ ltac:(lia) A (lim_up (b + b) (b + b + 1) _ Z1 ltac:(lia))) as A1. pose proof (sum_nonneg (b + b + 1) _ _ ltac:(lia) A (lim_up (b + b) (b + b + 1) _ Z1 ltac:(lia)) A0 Z2) as A2.
  unfold vnorm, vdot. apply lim_sqrt; [lia| |exact A2]. apply (lim_up _ _ _ A1). lia.
Qed.
Lemma lim_vsub b v w : (-1000 <= b <= 999)%Z -> vlim b v -> vlim b w -> vlim (b + 1) (@vsub _ D v w).
Proof. intros B (A1 & A2 & A3) (B1 & B2 & B3). unfold vsub. split; [|split]; apply lim_sub; assumption. Qed.
Lemma lim_vdivs a c v k : (-1000 <= a - c <= 1000)%Z -> vlim a v -> bpow radix2 c <= Rabs (val k) -> vlim (a - c) (@vdivs _ D v k).
Proof. intros B (A1 & A2 & A3) K. unfold vdivs. split; [|split]; apply lim_div; assumption. Qed.
Lemma lim_vscale a b k v : (-1000 <= a + b <= 1000)%Z -> lim a k -> vlim b v -> vlim (a + b) (@vscale _ D k v).
Proof. intros B K (A1 & A2 & A3). unfold vscale. split; [|split]; apply lim_mul; assumption. Qed.
Lemma lim_vdot a b v w : (-900 <= a + b <= 900)%Z -> vlim a v -> vlim b w -> lim (a + b + 2) (@vdot _ D v w).
Proof.
  intros B (A1 & A2 & A3) (B1 & B2 & B3). unfold vdot. pose proof (lim_mul a b _ _ ltac:(lia) A1 B1) as M1. pose proof (lim_mul a b _ _ ltac:(lia) A2 B2) as M2. pose proof (lim_mul a b _ _ ltac:(lia) A3 B3) as M3.
  replace (a + b + 2)%Z with (a + b + 1 + 1)%Z by ring. apply lim_add; [lia| |apply (lim_up _ _ _ M3); lia]. apply lim_add; [lia|exact M1|exact M2].
Qed.
Lemma lim_vcross a b v w : (-900 <= a + b <= 900)%Z -> vlim a v -> vlim b w -> vlim (a + b + 1) (@vcross _ D v w).
Proof. intros B (A1 & A2 & A3) (B1 & B2 & B3). unfold vcross. split; [|split]; apply lim_sub; try lia; apply lim_mul; try assumption; lia. Qed.
Lemma not_below x : fin x -> @nltb _ D x (@core_eps _ D) = false -> bpow radix2 (-27) <= val x.
Proof.
  intros F H. destruct (literal e 1 8 ltac:(lia) ltac:(lia) ltac:(lia)) as [FL VL]. cbv zeta in FL, VL. change (IZR 1 / IZR (10 ^ 8)) with (1 / 100000000) in VL. rewrite (Rabs_pos_eq (1 / 100000000)) in VL by lra. apply abs_2 in VL.
  fold (@core_eps _ D) in FL, VL. apply Rnot_lt_le. intros L. assert (T : @nltb _ D x (@core_eps _ D) = true); [|congruence]. apply (dltb e); [exact F|exact FL|].
  pose proof u_small. assert (TS : tiny <= 1 / 10000000000). { apply Rle_trans with (1 := tiny_small). lra. } change (bpow radix2 (-27)) with (/ 134217728) in L. nra.
Qed.
Lemma four_pi : fin (@nmul _ D (@nZ _ D 4) (@npi _ D)) /\ Rabs (val (@nmul _ D (@nZ _ D 4) (@npi _ D)) - 4 * PI) <= 33 * u.
Proof.
  assert (N4 : near 4 (@nZ _ D 4) 4 0) by (pose proof (near_Z e 4 ltac:(lia) ltac:(lia)) as N; rewrite Rabs_pos_eq in N by lra; exact N).
  pose proof (near_mul e 4 4 _ _ _ _ 0 1 ltac:(ml) ltac:(ml) ltac:(fw) ltac:(fw) N4 near_pi) as (F & _ & E). change (@npi _ D) with d_pi. split; [exact F|]. apply (Rle_trans _ _ _ E). pose proof u_pos. lra.
Qed.
Lemma four_pi_low : bpow radix2 3 <= Rabs (val (@nmul _ D (@nZ _ D 4) (@npi _ D))).
Proof. destruct four_pi as [_ E]. apply abs_2 in E. pose proof PI2_3_2 as P. unfold PI2 in P. pose proof u_small. change (bpow radix2 3) with 8. rewrite Rabs_pos_eq; lra. Qed.
Lemma lim_v0 b : (0 <= b)%Z -> vlim b (@v0 _ D).
Proof. intros H. assert (L : lim b (@nZ _ D 0)) by (destruct (dint e 0 ltac:(lia)) as [F V]; split; [exact F|rewrite V, Rabs_R0; apply bpow_ge_0]). split; [|split]; exact L. Qed.
(** the velocity induced by a segment is finite *)
Lemma line_lim p p1 p2 g : vlim 100 p -> vlim 100 p1 -> vlim 100 p2 -> lim 100 g -> vlim 600 (@vortex_line _ D p p1 p2 g).
Proof.
  intros LP L1 L2 LG. pose proof (lim_vsub 100 _ _ ltac:(lia) L2 L1) as R0. pose proof (lim_vsub 100 _ _ ltac:(lia) LP L1) as R1. pose proof (lim_vsub 100 _ _ ltac:(lia) LP L2) as R2. change (100 + 1)%Z with 101%Z in R0, R1, R2.
  unfold vortex_line. cbv zeta. set (r0 := @vsub _ D p2 p1) in *. set (r1 := @vsub _ D p p1) in *. set (r2 := @vsub _ D p p2) in *. clearbody r0 r1 r2.
  pose proof (lim_vcross 101 101 r1 r2 ltac:(lia) R1 R2) as C. change (101 + 101 + 1)%Z with 203%Z in C. set (c := @vcross _ D r1 r2) in *. clearbody c.
  destruct (lim_norm 203 c ltac:(lia) C) as [N NP]. change (203 + 1)%Z with 204%Z in N. set (n := @vnorm _ D c) in *. clearbody n.
  pose proof (lim_mul 204 204 n n ltac:(lia) N N) as S. change (204 + 204)%Z with 408%Z in S. set (sq := @nmul _ D n n) in *. clearbody sq.
  destruct (lim_norm 101 r1 ltac:(lia) R1) as [N1 _]. destruct (lim_norm 101 r2 ltac:(lia) R2) as [N2 _]. unfold is_in_vortex_core.
  set (n1 := @vnorm _ D r1) in *. set (n2 := @vnorm _ D r2) in *. clearbody n1 n2.
  destruct (@nltb _ D n1 (@core_eps _ D)) eqn:B1; [apply lim_v0; lia|]. destruct (@nltb _ D n2 (@core_eps _ D)) eqn:B2; [apply lim_v0; lia|]. cbn [orb]. destruct (@nltb _ D (@nabs _ D sq) (@core_eps _ D)) eqn:B3; [apply lim_v0; lia|].
  apply not_below in B1; [|apply N1]. apply not_below in B2; [|apply N2]. apply not_below in B3; [|cbn [nabs Double]; rewrite is_finite_Babs; apply S].
  assert (B3' : bpow radix2 (-27) <= Rabs (val sq)) by (revert B3; cbn [nabs Double]; rewrite B2R_Babs; auto). assert (B1' : bpow radix2 (-27) <= Rabs (val n1)) by (apply (Rle_trans _ _ _ B1), Rle_abs). assert (B2' : bpow radix2 (-27) <= Rabs (val n2)) by (apply (Rle_trans _ _ _ B2), Rle_abs).
  pose proof (lim_vdivs 203 (-27) c sq ltac:(lia) C B3') as Q. pose proof (lim_vdivs 101 (-27) r1 n1 ltac:(lia) R1 B1') as U1. pose proof (lim_vdivs 101 (-27) r2 n2 ltac:(lia) R2 B2') as U2.
  change (101 - -27)%Z with 128%Z in U1, U2. change (203 - -27)%Z with 230%Z in Q.
  pose proof (lim_vsub 128 _ _ ltac:(lia) U1 U2) as U. change (128 + 1)%Z with 129%Z in U. pose proof (lim_vdot 101 129 _ _ ltac:(lia) R0 U) as K. change (101 + 129 + 2)%Z with 232%Z in K.
  pose proof (lim_vscale 232 230 _ _ ltac:(lia) K Q) as KQ. pose proof (lim_div 100 3 g _ ltac:(lia) LG four_pi_low) as G.
  pose proof (lim_vscale (100 - 3) (232 + 230) _ _ ltac:(lia) G KQ) as (V1 & V2 & V3). split; [|split]; (eapply lim_up; [eassumption|lia]).
Qed.
End Sizes.

(** ** Rounding errors *)
Lemma mild_wide B : / 10 ^ 30 <= B <= 10 ^ 30 -> mild B.
Proof.
  intros [L U]. apply (mild_le (-100) 100 ltac:(lia) ltac:(lia)). change (bpow radix2 (-100)) with (/ IZR (Z.pow_pos 2 100)). change (bpow radix2 100) with (IZR (Z.pow_pos 2 100)). change (Z.pow_pos 2 100) with 1267650600228229401496703205376%Z.
  split; [apply (Rle_trans _ (/ 10 ^ 30)); [apply Rinv_le_contravar; lra|exact L]|lra].
Qed.
(** the inversion in the unit sphere *)
Lemma inverse_diff (a b : vec R) : 0 < snorm a -> 0 < snorm b ->
  snorm (ssub (sscale (/ (snorm a * snorm a)) a) (sscale (/ (snorm b * snorm b)) b)) = snorm (ssub a b) / (snorm a * snorm b).
Proof.
  intros Pa Pb. pose proof (snorm_sq a) as Qa. pose proof (snorm_sq b) as Qb. set (A := snorm a) in *. set (B := snorm b) in *. clearbody A B.
  assert (P : 0 < A * B) by nra. rewrite <- (sqrt_square (snorm _ / (A * B))). 2: { apply Rmult_le_pos; [apply snorm_nonneg|left; apply Rinv_0_lt_compat, P]. }
  unfold snorm at 1. f_equal.
  replace (snorm (ssub a b) / (A * B) * (snorm (ssub a b) / (A * B))) with (snorm (ssub a b) * snorm (ssub a b) / (A * A * (B * B))) by (field; lra). rewrite snorm_sq.
  destruct a as [a1 a2 a3], b as [b1 b2 b3]. unfold ssub, sscale. cbn [vx vy vz] in *.
  transitivity ((a1 * a1 + a2 * a2 + a3 * a3) / (A * A * (A * A)) - 2 * (a1 * b1 + a2 * b2 + a3 * b3) / (A * A * (B * B)) + (b1 * b1 + b2 * b2 + b3 * b3) / (B * B * (B * B))); [field; lra|]. rewrite <- Qa, <- Qb.
  transitivity ((A * A - 2 * (a1 * b1 + a2 * b2 + a3 * b3) + B * B) / (A * A * (B * B))); [field; lra|]. f_equal. rewrite Qa, Qb. ring.
Qed.
Lemma sized_wide N : / 10 ^ 30 <= N <= 10 ^ 30 -> sized N.
Proof.
  intros [L U]. split.
  - apply (Rle_trans _ (bpow radix2 (-100))); [apply bpow_le; lia|]. change (bpow radix2 (-100)) with (/ IZR (Z.pow_pos 2 100)). change (Z.pow_pos 2 100) with 1267650600228229401496703205376%Z. apply (Rle_trans _ (/ 10 ^ 30)); [apply Rinv_le_contravar; lra|exact L].
  - apply (Rle_trans _ (bpow radix2 100)); [|apply bpow_le; lia]. change (bpow radix2 100) with (IZR (Z.pow_pos 2 100)). change (Z.pow_pos 2 100) with 1267650600228229401496703205376%Z. lra.
Qed.
Section Errors.
Context (e : elementary).
Local Notation D := (Double e).
Lemma near_vsub N p q : vfin p -> vfin q -> snorm (ssub (vvals p) (vvals q)) <= N -> sized N -> vnear N (@vsub _ D p q) (ssub (vvals p) (vvals q)) 1.
Proof.
  intros (P1 & P2 & P3) (Q1 & Q2 & Q3) B Z. destruct (comp_norm (ssub (vvals p) (vvals q))) as (C1 & C2 & C3). unfold ssub, vvals in C1, C2, C3 |- *. cbn [vx vy vz] in C1, C2, C3 |- *. unfold ssub, vvals in B. cbn [vx vy vz] in B. unfold vsub.
  split; [|split]; apply near_diff; try assumption; lra.
Qed.
Lemma near_cross A B v w V W j k : mild A -> mild B -> mild (A * B + A * B) -> few j -> few k -> few (j + k + 101 / 100) -> vnear A v V j -> vnear B w W k -> vnear (A * B + A * B) (@vcross _ D v w) (scross V W) (j + k + 101 / 100 + 101 / 100).
Proof.
  intros MA MB MAB FJ FK FS (V1 & V2 & V3) (W1 & W2 & W3). pose proof (mild_pos _ MA). pose proof (mild_pos _ MB).
  assert (K : forall a b c d X1 X2 X3 X4, near A a X1 j -> near B b X2 k -> near A c X3 j -> near B d X4 k -> near (A * B + A * B) (@nsub _ D (@nmul _ D a b) (@nmul _ D c d)) (X1 * X2 - X3 * X4) (j + k + 101 / 100 + 101 / 100)).
  { intros a b c d X1 X2 X3 X4 N1 N2 N3 N4. replace (j + k + 101 / 100 + 101 / 100) with (Rmax (j + k + 101 / 100) (j + k + 101 / 100) + 101 / 100) by (rewrite Rmax_left; lra). apply near_sub; try assumption; try nra; apply near_mul; assumption. }
  unfold vcross, scross. split; [|split]; cbn [vx vy vz]; apply K; assumption.
Qed.
Lemma near_vdot A B v w V W j k : mild A -> mild B -> mild (A * B + A * B) -> mild (A * B + A * B + A * B) -> few j -> few k -> few (j + k + 3) -> vnear A v V j -> vnear B w W k -> near (A * B + A * B + A * B) (@vdot _ D v w) (sdot V W) (j + k + 101 / 100 + 101 / 100 + 101 / 100).
Proof.
  intros MA MB M2 M3 FJ FK FS (V1 & V2 & V3) (W1 & W2 & W3). pose proof (mild_pos _ MA). pose proof (mild_pos _ MB). destruct FJ as [j0 j1], FK as [k0 k1], FS as [f0 f1].
  pose proof (near_mul e A B _ _ _ _ j k MA MB ltac:(fw) ltac:(fw) V1 W1) as S1. pose proof (near_mul e A B _ _ _ _ j k MA MB ltac:(fw) ltac:(fw) V2 W2) as S2. pose proof (near_mul e A B _ _ _ _ j k MA MB ltac:(fw) ltac:(fw) V3 W3) as S3.
  pose proof (near_add e (A * B) (A * B) _ _ _ _ (j + k + 101 / 100) (j + k + 101 / 100) M2 ltac:(nra) ltac:(nra) ltac:(fw) ltac:(fw) S1 S2) as T. rewrite Rmax_left in T by lra.
  pose proof (near_add e (A * B + A * B) (A * B) _ _ _ _ (j + k + 101 / 100 + 101 / 100) (j + k + 101 / 100) M3 ltac:(nra) ltac:(nra) ltac:(fw) ltac:(fw) T S3) as TT. rewrite Rmax_left in TT by lra. exact TT.
Qed.
Lemma near_unit v V : vnear (snorm V) v V 1 -> sized (snorm V) -> close (@vnorm _ D v) (snorm V) 47 /\ vnear 1 (@vdivs _ D v (@vnorm _ D v)) (sunit V) 50.
Proof.
  intros N Z. assert (C : close (@vnorm _ D v) (snorm V) 47) by (unfold vnorm; replace 47 with (18 * 1 + 29) by ring; apply close_norm; [fw|lra|exact N|exact Z]). split; [exact C|].
  pose proof (mild_pos _ (sized_mild _ Z)) as P. assert (E : snorm V / snorm V = 1) by (field; lra). destruct N as (N1 & N2 & N3).
  assert (K : forall x X, near (snorm V) x X 1 -> near 1 (@ndiv _ D x (@vnorm _ D v)) (/ snorm V * X) 50).
  { intros x X NX. pose proof (near_div e (snorm V) x X 1 _ (snorm V) 47 (snorm V) (sized_mild _ Z) P ltac:(rewrite E; ml) ltac:(fw) ltac:(fw) NX C ltac:(lra)) as W. rewrite E in W. apply (near_up _ _ _ _ 50) in W; [|lra|lra]. apply (near_at _ _ _ _ _ W). field. lra. }
  unfold vdivs, sunit, sscale. split; [|split]; cbn [vx vy vz]; apply K; assumption.
Qed.
Lemma above_eps x : fin x -> 2 / 100000000 <= val x -> @nltb _ D x (@core_eps _ D) = false.
Proof.
  intros F H. destruct (literal e 1 8 ltac:(lia) ltac:(lia) ltac:(lia)) as [FL VL]. cbv zeta in FL, VL. change (IZR 1 / IZR (10 ^ 8)) with (1 / 100000000) in VL. rewrite (Rabs_pos_eq (1 / 100000000)) in VL by lra. apply abs_2 in VL.
  fold (@core_eps _ D) in FL, VL. destruct (@nltb _ D x (@core_eps _ D)) eqn:T; [|reflexivity]. exfalso. apply (dltb e) in T; [|exact F|exact FL]. pose proof u_small. pose proof tiny_small. pose proof u_pos. nra.
Qed.
Lemma near_strength G (g : double) : 1 / 1000000 <= G <= 1000000 -> fin g -> Rabs (val g) <= G -> near (G / 12) (@ndiv _ D g (@nmul _ D (@nZ _ D 4) (@npi _ D))) (val g / (4 * PI)) 5.
Proof.
  intros HG FG BG. destruct (four_pi e) as [F E]. set (f := @nmul _ D _ _) in *. clearbody f. pose proof PI2_3_2 as P. unfold PI2 in P. pose proof u_pos.
  assert (C : close f (4 * PI) 3). { split; [exact F|]. exists ((val f - 4 * PI) / (4 * PI)). split; [|field; lra]. unfold Rdiv. rewrite Rabs_mult, Rabs_inv, (Rabs_pos_eq (4 * PI)) by lra. apply (Rmult_le_reg_r (4 * PI)); [lra|]. rewrite Rmult_assoc, Rinv_l by lra. nra. }
  pose proof (near_div e G g (val g) 0 f (4 * PI) 3 12 ltac:(ml) ltac:(lra) ltac:(apply mild_wide; lra) ltac:(fw) ltac:(fw) (near_exact G g FG BG ltac:(lra)) C ltac:(lra)) as W. apply (near_up _ _ _ _ _ W); lra.
Qed.
Section Segment.
Context (p p1 p2 : vec double) (g : double) (FP : vfin p) (F1 : vfin p1) (F2 : vfin p2) (FG : fin g).
Context (M G : R) (HM : 1 / 100 <= M <= 1000) (HG : 1 / 1000000 <= G <= 1000000) (BG : Rabs (val g) <= G).
Let R1 := ssub (vvals p) (vvals p1). Let R2 := ssub (vvals p) (vvals p2). Let R0 := ssub (vvals p2) (vvals p1). Let C := scross R1 R2. Let cn := snorm C.
Context (B1 : snorm R1 <= M) (B2 : snorm R2 <= M) (HC : 2 / 10000 <= cn).
Lemma seg_sizes : 1 / 10000000 <= snorm R1 /\ 1 / 10000000 <= snorm R2 /\ cn <= M * M /\ snorm R0 <= 2 * M /\ 1 / 1000000 <= M * M / (cn * cn) <= 100000000000000 /\ / cn <= M * M / (cn * cn).
Proof.
  pose proof (norm_cross R1 R2) as X. fold C cn in X. pose proof (snorm_nonneg R1). pose proof (snorm_nonneg R2). assert (cn <= M * M) by (apply (Rle_trans _ _ _ X); apply Rmult_le_compat; assumption).
  split; [nra|]. split; [nra|]. split; [assumption|]. split.
  { replace R0 with (ssub R1 R2) by (unfold R0, R1, R2; destruct (vvals p), (vvals p1), (vvals p2); svec; vec_eq; ring). pose proof (norm_sub R1 R2). lra. }
  assert (P : 0 < cn * cn) by nra. assert (Q : forall z, z * (cn * cn) <= M * M -> z <= M * M / (cn * cn)) by (intros z Hz; apply (Rmult_le_reg_r (cn * cn)); [exact P|]; unfold Rdiv; rewrite Rmult_assoc, Rinv_l by lra; lra).
  split; [split|].
  - apply Q. assert (cn * cn <= (M * M) * (M * M)) by (apply Rmult_le_compat; lra). assert (M * M <= 1000000) by nra. nra.
  - apply (Rmult_le_reg_r (cn * cn)); [exact P|]. unfold Rdiv. rewrite Rmult_assoc, Rinv_l by lra. assert (2 / 10000 * (2 / 10000) <= cn * cn) by (apply Rmult_le_compat; lra). assert (M * M <= 1000000) by nra. nra.
  - apply Q. replace (/ cn * (cn * cn)) with cn by (field; lra). assumption.
Qed.
Lemma seg_cross : vnear (2 * (M * M)) (@vcross _ D (@vsub _ D p p1) (@vsub _ D p p2)) C 5 /\ snorm (ssub (vvals (@vcross _ D (@vsub _ D p p1) (@vsub _ D p p2))) C) <= 20 * (M * M * u).
Proof.
  assert (ZM : sized M) by (apply sized_lit; lra). assert (M2 : 1 / 10000 <= M * M <= 1000000) by nra.
  pose proof (near_vsub M p p1 FP F1 B1 ZM) as N1. pose proof (near_vsub M p p2 FP F2 B2 ZM) as N2.
  pose proof (near_cross M M _ _ _ _ 1 1 ltac:(ml) ltac:(ml) ltac:(ml) ltac:(fw) ltac:(fw) ltac:(fw) N1 N2) as X. replace (M * M + M * M) with (2 * (M * M)) in X by ring. fold R1 R2 in X. fold C in X.
  assert (Y : vnear (2 * (M * M)) (@vcross _ D (@vsub _ D p p1) (@vsub _ D p p2)) C 5) by (destruct X as (X1 & X2 & X3); split; [|split]; [apply (near_up _ _ _ _ _ X1)|apply (near_up _ _ _ _ _ X2)|apply (near_up _ _ _ _ _ X3)]; lra).
  split; [exact Y|]. destruct (near_dist _ _ _ _ Y) as [_ Q]. lra.
Qed.
Lemma segment_near : vnear (G * (M * (M * M / (cn * cn)))) (@vortex_line _ D p p1 p2 g) (biot_savart (vvals p) (vvals p1) (vvals p2) (val g)) 150.
Proof.
  destruct seg_sizes as (L1 & L2 & CM & B0 & HS & IC). destruct seg_cross as [NX DX]. assert (M2 : 1 / 10000 <= M * M <= 1000000) by nra. pose proof u_pos as UP.
  assert (ZM : sized (2 * M)) by (apply sized_wide; lra). assert (Z1 : sized (snorm R1)) by (apply sized_wide; lra). assert (Z2 : sized (snorm R2)) by (apply sized_wide; lra).
  pose proof (near_vsub (2 * M) p2 p1 F2 F1 B0 ZM) as N0. pose proof (near_vsub _ p p1 FP F1 (Rle_refl _) Z1) as N1. pose proof (near_vsub _ p p2 FP F2 (Rle_refl _) Z2) as N2. fold R0 in N0. fold R1 in N1. fold R2 in N2.
  unfold vortex_line. cbv zeta. set (r0 := @vsub _ D p2 p1) in *. set (r1 := @vsub _ D p p1) in *. set (r2 := @vsub _ D p p2) in *. clearbody r0 r1 r2. set (c := @vcross _ D r1 r2) in *. clearbody c.
  destruct (near_unit _ _ N1 Z1) as [C1 U1]. destruct (near_unit _ _ N2 Z2) as [C2 U2].
  (* the cross product and its square *)
  assert (UM : 20 * (M * M * u) <= cn / 1000) by (assert (M * M * u <= 1000000 * (1 / 1000000000000000)) by (pose proof u_small; apply Rmult_le_compat; lra); lra).
  pose proof (norm_rev (vvals c) C) as RV. fold cn in RV. apply abs_2 in RV. set (N := snorm (vvals c)) in *. assert (HN : 999 / 1000 * cn <= N <= 1001 / 1000 * cn) by lra.
  assert (ZN : sized N) by (apply sized_wide; lra). pose proof (mild_pos _ (sized_mild _ ZN)) as PN. assert (FC : vfin c) by apply (near_dist _ _ _ _ NX).
  assert (EC : vnear N c (vvals c) 0). { destruct (comp_norm (vvals c)) as (K1 & K2 & K3). destruct FC as (G1 & G2 & G3). split; [|split]; unfold vvals in K1, K2, K3 |- *; cbn [vx vy vz] in K1, K2, K3 |- *; apply near_exact; try assumption; lra. }
  pose proof (close_norm e c (vvals c) 0 ltac:(fw) ltac:(lra) EC ZN) as CN. fold N in CN. change (@nsqrt _ D (@vdot _ D c c)) with (@vnorm _ D c) in CN. set (n := @vnorm _ D c) in *. clearbody n.
  pose proof (close_near _ _ _ CN PN) as NN. replace (18 * 0 + 29) with 29 in NN by ring. pose proof (near_mul e N N n n N N 29 29 (sized_mild _ ZN) (sized_mild _ ZN) ltac:(fw) ltac:(fw) NN NN) as NS. set (sq := @nmul _ D n n) in *. clearbody sq.
  assert (PNN : 0 < N * N) by (apply Rmult_lt_0_compat; exact PN). pose proof (near_close 1 (N * N) sq (N * N) (29 + 29 + 101 / 100) PNN ltac:(lra) ltac:(lra) NS) as CS.
  (* outside the core *)
  assert (IN : @is_in_vortex_core _ D r1 r2 sq = false).
  { unfold is_in_vortex_core. assert (K : forall x X k, close x X k -> few k -> 1 / 10000000 <= X -> fin x /\ 2 / 100000000 <= val x). { intros x X k CX FK HX. split; [apply CX|]. destruct (close_few _ _ _ CX FK) as (d & Hd & _ & ->). nra. }
    destruct (K _ _ _ C1 ltac:(fw) L1) as [K1 K2]. destruct (K _ _ _ C2 ltac:(fw) L2) as [K3 K4].
    assert (K5 : fin sq /\ 2 / 100000000 <= val sq). { split; [apply CS|]. destruct (close_few _ _ _ CS ltac:(fw)) as (d & Hd & _ & ->). assert (NN2 : 199 / 1000000 * (199 / 1000000) <= N * N) by (apply Rmult_le_compat; lra). nra. }
    rewrite (above_eps _ K1 K2), (above_eps _ K3 K4). cbn [orb]. apply above_eps; cbn [nabs Double]; [rewrite is_finite_Babs; apply K5|rewrite B2R_Babs; apply (Rle_trans _ _ _ (proj2 K5)), Rle_abs]. }
  rewrite IN.
  (* the cross product over its square *)
  set (S := M * M / (cn * cn)) in *.
  assert (MS : mild S) by (apply mild_wide; lra).
  assert (EI : N / (N * N) = / N) by (field; lra).
  assert (NI : / N <= 1002 / 1000 * / cn). { apply (Rmult_le_reg_r (N * cn)); [nra|]. replace (/ N * (N * cn)) with cn by (field; lra). replace (1002 / 1000 * / cn * (N * cn)) with (1002 / 1000 * N) by (field; lra). lra. }
  assert (MI : mild (N / (N * N))) by (rewrite EI; apply mild_wide; split; [apply Rinv_le_contravar; lra|apply (Rle_trans _ _ _ NI); apply (Rle_trans _ (1002 / 1000 * S)); lra]).
  assert (Q1 : vnear (/ N) (@vdivs _ D c sq) (sscale (/ (N * N)) (vvals c)) 61).
  { assert (K : forall x X, near N x X 0 -> near (/ N) (@ndiv _ D x sq) (/ (N * N) * X) 61).
    { intros x X NXX. pose proof (near_div e N x X 0 sq (N * N) (1 * (29 + 29 + 101 / 100)) (N * N) (sized_mild _ ZN) PNN MI ltac:(fw) ltac:(fw) NXX CS ltac:(lra)) as W. rewrite EI in W. apply (near_up _ _ _ _ 61) in W; [|lra|left; apply Rinv_0_lt_compat, PN]. apply (near_at _ _ _ _ _ W). field. lra. }
    destruct EC as (K1 & K2 & K3). unfold vdivs, sscale. split; [|split]; cbn [vx vy vz]; apply K; assumption. }
  assert (Q2 : snorm (ssub (sscale (/ (N * N)) (vvals c)) (sscale (/ (cn * cn)) C)) <= 21 * (S * u)).
  { pose proof (inverse_diff (vvals c) C PN ltac:(fold cn; lra)) as ID. fold N cn in ID. rewrite ID. clear ID. apply (Rmult_le_reg_r (N * cn)); [nra|]. unfold Rdiv at 1. rewrite Rmult_assoc, Rinv_l, Rmult_1_r by nra. apply (Rle_trans _ _ _ DX).
    unfold S. replace (21 * (M * M / (cn * cn) * u) * (N * cn)) with (M * M * u * (21 * N / cn)) by (field; lra). replace (20 * (M * M * u)) with (M * M * u * 20) by ring. apply Rmult_le_compat_l; [apply Rmult_le_pos; lra|]. apply (Rmult_le_reg_r cn); [lra|]. unfold Rdiv. rewrite Rmult_assoc, Rinv_l by lra. lra. }
  assert (Q3 : vnear S (@vdivs _ D c sq) (sscale (/ (cn * cn)) C) 83).
  { destruct (comp_norm (ssub (sscale (/ (N * N)) (vvals c)) (sscale (/ (cn * cn)) C))) as (k1 & k2 & k3). destruct (comp_norm C) as (l1 & l2 & l3). fold cn in l1, l2, l3.
    assert (SU : 0 <= S * u) by (apply Rmult_le_pos; lra). assert (IU : / N * u <= 1002 / 1000 * (S * u)) by (assert (/ N <= 1002 / 1000 * S) by lra; nra).
    assert (K : forall x X Y Z, near (/ N) x X 61 -> Rabs (X - Y) <= 21 * (S * u) -> Y = / (cn * cn) * Z -> Rabs Z <= cn -> near S x Y 83).
    { intros x X Y Z (J1 & _ & J2) J3 -> J4. split; [exact J1|]. split.
      - rewrite Rabs_mult, (Rabs_pos_eq (/ (cn * cn))) by (left; apply Rinv_0_lt_compat; nra). apply (Rle_trans _ (/ (cn * cn) * cn)); [apply Rmult_le_compat_l; [left; apply Rinv_0_lt_compat; nra|exact J4]|]. replace (/ (cn * cn) * cn) with (/ cn) by (field; lra). exact IC.
      - replace (val x - / (cn * cn) * Z) with ((val x - X) + (X - / (cn * cn) * Z)) by ring. eapply Rle_trans; [apply Rabs_triang|]. lra. }
    destruct Q1 as (J1 & J2 & J3). unfold sscale, ssub in k1, k2, k3 |- *. cbn [vx vy vz] in k1, k2, k3. split; [|split]; cbn [vx vy vz].
    - apply (K _ _ _ _ J1 (Rle_trans _ _ _ k1 Q2) eq_refl l1).
    - apply (K _ _ _ _ J2 (Rle_trans _ _ _ k2 Q2) eq_refl l2).
    - apply (K _ _ _ _ J3 (Rle_trans _ _ _ k3 Q2) eq_refl l3). }
  (* the difference of the directions *)
  assert (U : vnear 2 (@vsub _ D (@vdivs _ D r1 (@vnorm _ D r1)) (@vdivs _ D r2 (@vnorm _ D r2))) (ssub (sunit R1) (sunit R2)) 52).
  { assert (K : forall x y X Y, near 1 x X 50 -> near 1 y Y 50 -> near 2 (@nsub _ D x y) (X - Y) 52).
    { intros x y X Y Hx Hy. pose proof (near_sub e 1 1 x y X Y 50 50 ltac:(ml) ltac:(lra) ltac:(lra) ltac:(fw) ltac:(fw) Hx Hy) as W. rewrite Rmax_left in W by lra. replace (1 + 1) with 2 in W by ring. apply (near_up _ _ _ _ _ W); lra. }
    destruct U1 as (J1 & J2 & J3). destruct U2 as (J4 & J5 & J6). unfold vsub, ssub. split; [|split]; cbn [vx vy vz]; apply K; assumption. }
  pose proof (near_vdot (2 * M) 2 _ _ _ _ 1 52 ltac:(ml) ltac:(ml) ltac:(ml) ltac:(ml) ltac:(fw) ltac:(fw) ltac:(fw) N0 U) as K. replace (2 * M * 2 + 2 * M * 2 + 2 * M * 2) with (12 * M) in K by ring. apply (near_up _ _ _ _ 57) in K; [|lra|lra].
  set (k := @vdot _ D _ _) in *. clearbody k. set (KK := sdot R0 (ssub (sunit R1) (sunit R2))) in *. set (q := @vdivs _ D c sq) in *. clearbody q.
  pose proof (near_strength G g HG FG BG) as NG. set (gg := @ndiv _ D _ _) in *. clearbody gg.
  assert (MK : mild (12 * M * S)) by (apply mild_wide; assert (1 / 1000000 * (1 / 100) <= M * S) by nra; assert (M * S <= 1000 * 100000000000000) by (apply Rmult_le_compat; lra); lra).
  assert (F : forall x X, near S x X 83 -> near (G * (M * S)) (@nmul _ D gg (@nmul _ D k x)) (val g / (4 * PI) * (KK * X)) 150).
  { intros x X NXX. pose proof (near_mul e (12 * M) S _ _ _ _ 57 83 ltac:(ml) MS ltac:(fw) ltac:(fw) K NXX) as W1. pose proof (near_mul e (G / 12) (12 * M * S) _ _ _ _ 5 (57 + 83 + 101 / 100) ltac:(apply mild_wide; lra) MK ltac:(fw) ltac:(fw) NG W1) as W2.
    replace (G / 12 * (12 * M * S)) with (G * (M * S)) in W2 by (field). apply (near_up _ _ _ _ _ W2); [lra|]. apply Rmult_le_pos; [lra|apply Rmult_le_pos; lra]. }
  pose proof PI_RGT_0 as PI0. unfold biot_savart. cbv zeta. fold R1 R2 R0. fold C. fold cn KK. destruct Q3 as (J1 & J2 & J3). unfold vscale, sscale in *. cbn [vx vy vz] in *.
  split; [|split]; cbn [vx vy vz]; (eapply near_at; [apply F; eassumption|field; lra]).
Qed.
End Segment.

(** the half line from [a] in the direction [d] *)
Definition half_line (p a d : vec R) (g : R) : vec R :=
  let n := snorm (ssub p a) in sscale (g / (4 * PI) / (n * (n - sdot (sunit d) (ssub p a)))) (scross (sunit d) (ssub p a)).
Section Half.
Context (p a d : vec double) (g : double) (FP : vfin p) (FA : vfin a) (FD : vfin d) (FG : fin g).
Context (G : R) (HG : 1 / 1000000 <= G <= 1000000) (BG : Rabs (val g) <= G) (ZD : sized (snorm (vvals d))).
Let AP := ssub (vvals p) (vvals a). Let U := sunit (vvals d). Let A := snorm AP. Let X := scross U AP. Let E := A - sdot U AP.
Context (HA : 1 / 10000 <= A <= 10000) (HE : A <= 1000000000 * E).
Lemma half_sizes : 0 < E <= 2 * A /\ snorm X <= A.
Proof.
  pose proof (mild_pos _ (sized_mild _ ZD)) as PD.
  assert (NU : snorm U = 1). { unfold U, sunit. assert (Q : snorm (sscale (/ snorm (vvals d)) (vvals d)) * snorm (sscale (/ snorm (vvals d)) (vvals d)) = 1). { rewrite snorm_sq. pose proof (snorm_sq (vvals d)) as S. set (nn := snorm (vvals d)) in *. unfold sscale. cbn [vx vy vz]. transitivity ((vx (vvals d) * vx (vvals d) + vy (vvals d) * vy (vvals d) + vz (vvals d) * vz (vvals d)) / (nn * nn)); [field; lra|]. rewrite <- S. field. lra. } pose proof (snorm_nonneg (sscale (/ snorm (vvals d)) (vvals d))). nra. }
  pose proof (cauchy U AP) as Q. rewrite NU, Rmult_1_l in Q. apply abs_2 in Q. fold A in Q. pose proof (norm_cross U AP) as XX. rewrite NU, Rmult_1_l in XX. fold X A in XX.
  split; [|exact XX]. unfold E in *. split; lra.
Qed.
Lemma half_near : vnear (G * (A / (E * E))) (@vortex_infinite_line _ D p a d g) (half_line (vvals p) (vvals a) (vvals d) (val g)) 47.
Proof.
  destruct half_sizes as [[PE E2] XA]. pose proof u_pos as UP. pose proof u_small as US. assert (ZA : sized A) by (apply sized_wide; lra).
  pose proof (near_axis e d FD ZD) as NU. pose proof (near_vsub A p a FP FA (Rle_refl _) ZA) as NA. fold AP in NA. fold U in NU. change (@nsqrt _ D (@vdot _ D d d)) with (@vnorm _ D d) in NU.
  unfold vortex_infinite_line. cbv zeta. set (ui := @vdivs _ D d (@vnorm _ D d)) in *. clearbody ui. set (ap := @vsub _ D p a) in *. clearbody ap.
  destruct (near_unit _ _ NA ZA) as [CN _]. fold A in CN. set (n := @vnorm _ D ap) in *. clearbody n.
  pose proof (near_cross 1 A _ _ _ _ 31 1 ltac:(ml) ltac:(ml) ltac:(ml) ltac:(fw) ltac:(fw) ltac:(fw) NU NA) as NX. fold X in NX. replace (1 * A + 1 * A) with (2 * A) in NX by ring. set (x := @vcross _ D ui ap) in *. clearbody x.
  pose proof (near_vdot 1 A _ _ _ _ 31 1 ltac:(ml) ltac:(ml) ltac:(ml) ltac:(ml) ltac:(fw) ltac:(fw) ltac:(fw) NU NA) as ND. replace (1 * A + 1 * A + 1 * A) with (3 * A) in ND by ring. set (dt := @vdot _ D ui ap) in *. clearbody dt.
  pose proof (close_near _ _ _ CN ltac:(lra)) as NN. pose proof (near_sub e A (3 * A) _ _ _ _ 47 (31 + 1 + 101 / 100 + 101 / 100 + 101 / 100) ltac:(ml) ltac:(lra) ltac:(lra) ltac:(fw) ltac:(fw) NN ND) as NE. rewrite Rmax_left in NE by lra. fold E in NE. set (ee := @nsub _ D n dt) in *. clearbody ee.
  destruct NE as (FE & _ & DE). assert (DE' : Rabs (val ee - E) <= 197 * (A * u)) by (apply (Rle_trans _ _ _ DE); assert (0 <= A * u) by (apply Rmult_le_pos; lra); lra). clear DE.
  assert (AE : 197 * (A * u) <= E / 1000). { assert (A * u <= 1000000000 * E * (12 / 100000000000000000)) by (apply Rmult_le_compat; try lra; rewrite u_val; lra). lra. }
  set (V := val ee) in *. assert (HV : 999 / 1000 * E <= V <= 1001 / 1000 * E) by (apply abs_2 in DE'; lra).
  assert (MV : mild V) by (apply mild_wide; lra). assert (PV : 0 < V) by lra. assert (NV : near V ee V 0) by (apply near_exact; [exact FE|unfold V; fold V; rewrite Rabs_pos_eq; lra|lra]).
  pose proof (near_mul e A V n ee A V 47 0 ltac:(ml) MV ltac:(fw) ltac:(fw) NN NV) as NM. assert (PAV : 0 < A * V) by (apply Rmult_lt_0_compat; lra).
  pose proof (near_close 1 (A * V) _ (A * V) (47 + 0 + 101 / 100) PAV ltac:(lra) ltac:(lra) NM) as CM. set (den := @nmul _ D n ee) in *. clearbody den.
  assert (EI : 2 * A / (A * V) = 2 * / V) by (field; lra). assert (IV : / V <= 1002 / 1000 * / E). { apply (Rmult_le_reg_r (V * E)); [apply Rmult_lt_0_compat; lra|]. replace (/ V * (V * E)) with E by (field; lra). replace (1002 / 1000 * / E * (V * E)) with (1002 / 1000 * V) by (field; lra). lra. }
  assert (I1 : / 10 ^ 30 <= / E <= 10 ^ 20). { split; [apply Rinv_le_contravar; lra|]. rewrite <- (Rinv_inv (10 ^ 20)). apply Rinv_le_contravar; [apply Rinv_0_lt_compat; lra|]. lra. }
  assert (I2 : / 30000 <= / V) by (apply Rinv_le_contravar; lra).
  assert (MI : mild (2 * A / (A * V))) by (rewrite EI; apply mild_wide; lra).
  set (S := A / (E * E)). assert (PEE : 0 < E * E) by (apply Rmult_lt_0_compat; lra).
  assert (IE : / E <= 2 * S). { unfold S. apply (Rmult_le_reg_r (E * E)); [exact PEE|]. replace (/ E * (E * E)) with E by (field; lra). replace (2 * (A / (E * E)) * (E * E)) with (2 * A) by (field; lra). lra. }
  assert (PS : / 100000 <= S <= 10 ^ 25). { assert (I3 : / E <= 1000000000 / A). { apply (Rmult_le_reg_r (E * A)); [apply Rmult_lt_0_compat; lra|]. replace (/ E * (E * A)) with A by (field; lra). replace (1000000000 / A * (E * A)) with (1000000000 * E) by (field; lra). exact HE. }
    assert (I4 : 1000000000 / A <= 10000000000000). { apply (Rmult_le_reg_r A); [lra|]. unfold Rdiv. rewrite Rmult_assoc, Rinv_l by lra. lra. }
    assert (I5 : / 20000 <= / E) by (apply Rinv_le_contravar; lra). split; [lra|]. replace S with (A * / E * / E) by (unfold S; field; lra). assert (I6 : A * / E <= 1000000000). { apply (Rmult_le_reg_r E); [lra|]. rewrite Rmult_assoc, Rinv_l by lra. lra. } assert (A * / E * / E <= 1000000000 * 10000000000000) by (apply Rmult_le_compat; try lra; apply Rmult_le_pos; lra). lra. }
  assert (Q : forall y Y, near (2 * A) y Y (31 + 1 + 101 / 100 + 101 / 100) -> Rabs Y <= A -> near (2 * S) (@ndiv _ D y den) (Y / (A * E)) 270).
  { intros y Y NY BY. pose proof (near_div e (2 * A) y Y (31 + 1 + 101 / 100 + 101 / 100) den (A * V) (1 * (47 + 0 + 101 / 100)) (A * V) ltac:(ml) PAV MI ltac:(fw) ltac:(fw) NY CM ltac:(lra)) as (W1 & _ & W2). rewrite EI in W2. split; [exact W1|]. split.
    - unfold Rdiv. rewrite Rabs_mult, Rabs_inv, (Rabs_pos_eq (A * E)) by (apply Rmult_le_pos; lra). apply (Rle_trans _ (A * / (A * E))); [apply Rmult_le_compat_r; [left; apply Rinv_0_lt_compat, Rmult_lt_0_compat; lra|exact BY]|]. replace (A * / (A * E)) with (/ E) by (field; lra). exact IE.
    - assert (T1 : Rabs (Y / (A * V) - Y / (A * E)) <= 198 * (S * u)).
      { replace (Y / (A * V) - Y / (A * E)) with ((E - V) * (Y / A * (/ V * / E))) by (field; lra). rewrite Rabs_mult. rewrite (Rabs_minus_sym E V).
        assert (B : Rabs (Y / A * (/ V * / E)) <= 1002 / 1000 * (/ E * / E)). { rewrite Rabs_mult. rewrite (Rabs_pos_eq (/ V * / E)) by (apply Rmult_le_pos; left; apply Rinv_0_lt_compat; lra). assert (Rabs (Y / A) <= 1). { unfold Rdiv. rewrite Rabs_mult, Rabs_inv, (Rabs_pos_eq A) by lra. apply (Rmult_le_reg_r A); [lra|]. rewrite Rmult_assoc, Rinv_l by lra. lra. }
          assert (/ V * / E <= 1002 / 1000 * / E * / E) by (apply Rmult_le_compat_r; lra). apply (Rle_trans _ (1 * (1002 / 1000 * / E * / E))); [apply Rmult_le_compat; try apply Rabs_pos; try assumption; apply Rmult_le_pos; lra|lra]. }
        apply (Rle_trans _ (197 * (A * u) * (1002 / 1000 * (/ E * / E)))); [apply Rmult_le_compat; try apply Rabs_pos; assumption|]. replace (197 * (A * u) * (1002 / 1000 * (/ E * / E))) with (197 * 1002 / 1000 * (S * u)) by (unfold S; field; lra). assert (0 <= S * u) by (apply Rmult_le_pos; lra). lra. }
      replace (val _ - Y / (A * E)) with ((val (@ndiv _ D y den) - Y / (A * V)) + (Y / (A * V) - Y / (A * E))) by ring. eapply Rle_trans; [apply Rabs_triang|].
      assert (T2 : 2 * / V * u <= 4009 / 1000 * (S * u)) by (assert (2 * / V <= 4009 / 1000 * S) by lra; nra). assert (0 <= S * u) by (apply Rmult_le_pos; lra). lra. }
  pose proof (near_strength G g HG FG BG) as NG. set (gg := @ndiv _ D _ _) in *. clearbody gg.
  destruct (comp_norm X) as (b1 & b2 & b3).
  assert (F : forall y Y, near (2 * A) y Y (31 + 1 + 101 / 100 + 101 / 100) -> Rabs Y <= snorm X -> near (G * S) (@nmul _ D gg (@ndiv _ D y den)) (val g / (4 * PI) * (Y / (A * E))) 47).
  { intros y Y NY BY. pose proof (near_mul e (G / 12) (2 * S) _ _ _ _ 5 270 ltac:(apply mild_wide; lra) ltac:(apply mild_wide; lra) ltac:(fw) ltac:(fw) NG (Q y Y NY ltac:(lra))) as W.
    assert (GS : 0 <= G * S) by (apply Rmult_le_pos; lra). assert (EQ : G / 12 * (2 * S) = G * S / 6) by field. rewrite EQ in W. apply (near_weaken _ _ _ _ _ _ W); [|lra]. apply (Rle_trans _ _ _ (proj1 (proj2 W))). lra. }
  pose proof PI_RGT_0. unfold half_line. cbv zeta. fold AP U. fold A X. fold E S. destruct NX as (J1 & J2 & J3). unfold vdivs, vscale, sscale. split; [|split]; cbn [vx vy vz].
  - apply (near_at _ _ _ _ _ (F _ _ J1 b1)). field. lra.
  - apply (near_at _ _ _ _ _ (F _ _ J2 b2)). field. lra.
  - apply (near_at _ _ _ _ _ (F _ _ J3 b3)). field. lra.
Qed.
End Half.
End Errors.
