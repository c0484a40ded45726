(** Rounding of sail meshes. *)

From Coq Require Import ZArith Reals List Bool Lra Psatz Lia.
From Flocq Require Import Core BinarySingleNaN.
From Verif Require Import Num PyBase RNum Spec M_Airfoil M_Rotations M_Csys M_Mesher M_Panels M_Sail L_List L_Rot L_Csys L_Airfoil L_Mesh L_Sail L_Sail2 P_Double Double L_Double L_Near L_NearRot L_NearLine.
Import ListNotations.
Open Scope R_scope.

(** numbers of panels and sizes that are covered *)
Definition count (n : nat) : Prop := (1 <= Z.of_nat n <= 10000)%Z.
Definition size (L : R) : Prop := 1 / 100 <= L <= 1000.
Lemma count_INR n : count n -> 1 <= INR n <= 10000.
Proof. intros [A B]. rewrite INR_IZR_INZ. split; [apply (IZR_le 1), A|apply (IZR_le _ 10000), B]. Qed.
Section Mesh.
Context (e : elementary).
Local Notation D := (Double e).
Lemma near_nat n : count n -> near (INR n) (@nZ _ D (Z.of_nat n)) (INR n) 0 /\ close (@nZ _ D (Z.of_nat n)) (INR n) 0.
Proof.
  intros H. unfold count in H. assert (E : IZR (Z.of_nat n) = INR n) by (symmetry; apply INR_IZR_INZ). split.
  - pose proof (near_Z e (Z.of_nat n) ltac:(lia) ltac:(lia)) as N. rewrite E, Rabs_pos_eq in N by apply pos_INR. exact N.
  - rewrite <- E. apply close_Z. lia.
Qed.
(** [i] times a [n]-th of [t] *)
Lemma near_part A t T k n i : 1 / 100 <= A <= 10000 -> 0 <= k <= 1000 -> count n -> (i <= n)%nat -> near A t T k ->
  near A (@nmul _ D (@nZ _ D (Z.of_nat i)) (@ndiv _ D t (@nZ _ D (Z.of_nat n)))) (INR i / INR n * T) (k + 203 / 100).
Proof.
  intros HA HK CN IN NT. pose proof (count_INR n CN) as RN. destruct (near_nat n CN) as [_ CL].
  assert (An : A / 10000 <= A / INR n <= A). { split; [apply Rmult_le_compat_l; [lra|]; apply Rinv_le_contravar; lra|]. apply (Rmult_le_reg_r (INR n)); [lra|]. unfold Rdiv. rewrite Rmult_assoc, Rinv_l by lra. nra. }
  pose proof (near_div e A t T k _ _ 0 (INR n) ltac:(ml) ltac:(lra) ltac:(ml) ltac:(fw) ltac:(fw) NT CL ltac:(lra)) as ND.
  pose proof (frac_bounds i n ltac:(destruct CN; lia) IN) as FB.
  assert (TB : Rabs (INR i / INR n * T) <= A). { rewrite Rabs_mult, (Rabs_pos_eq (INR i / INR n)) by lra. destruct NT as (_ & NT & _). pose proof (Rabs_pos T). nra. }
  destruct i as [|i].
  - destruct (zero_one e) as [Z0 _]. pose proof (mul0l e _ _ Z0 (near_fin _ _ _ _ ND)) as [F V]. change (Z.of_nat 0) with 0%Z. split; [exact F|]. split; [exact TB|]. cbn [INR]. rewrite V. unfold Rdiv. rewrite !Rmult_0_l, Rminus_0_r, Rabs_R0. pose proof u_pos. apply Rmult_le_pos; [lra|]. apply Rmult_le_pos; lra.
  - assert (CI : count (S i)) by (destruct CN; split; lia). pose proof (count_INR _ CI) as RI. destruct (near_nat (S i) CI) as [NI _].
    pose proof (near_mul e (INR (S i)) (A / INR n) _ _ _ _ 0 (k + 0 + 102 / 100) ltac:(ml) ltac:(ml) ltac:(fw) ltac:(fw) NI ND) as NM.
    apply (near_at _ _ _ _ (INR (S i) / INR n * T)) in NM; [|field; lra]. eapply near_weaken; [exact NM|exact TB|].
    replace (INR (S i) * (A / INR n)) with (A * (INR (S i) / INR n)) by (field; lra). replace (0 + (k + 0 + 102 / 100) + 101 / 100) with (k + 203 / 100) by lra. apply Rmult_le_compat_l; [lra|]. rewrite <- (Rmult_1_r A) at 2. apply Rmult_le_compat_l; lra.
Qed.
(** a point of a segment *)
Lemma near_lerp L n i x y : size L -> count n -> (i < n)%nat -> fin x -> fin y -> Rabs (val x) <= L -> Rabs (val y) <= L ->
  near L (@nadd _ D x (@nmul _ D (@nZ _ D (Z.of_nat i)) (@ndiv _ D (@nsub _ D y x) (@nZ _ D (Z.of_nat n))))) (val x + INR i / INR n * (val y - val x)) 13.
Proof.
  intros HL CN IN FX FY BX BY. unfold size in HL.
  pose proof (near_exact L x FX BX ltac:(lra)) as NX. pose proof (near_exact L y FY BY ltac:(lra)) as NY.
  pose proof (near_sub e L L _ _ _ _ 0 0 ltac:(ml) ltac:(lra) ltac:(lra) ltac:(fw) ltac:(fw) NY NX) as ND. rewrite Rmax_left in ND by lra.
  pose proof (near_part (L + L) _ _ (0 + 101 / 100) n i ltac:(lra) ltac:(lra) CN ltac:(lia) ND) as NP.
  pose proof (near_add e L (L + L) _ _ _ _ 0 (0 + 101 / 100 + 203 / 100) ltac:(ml) ltac:(lra) ltac:(lra) ltac:(fw) ltac:(fw) NX NP) as NA. rewrite Rmax_right in NA by lra.
  eapply near_weaken; [exact NA| |lra]. pose proof (frac_bounds i n ltac:(destruct CN; lia) ltac:(lia)) as FB. set (t := INR i / INR n) in *. clearbody t.
  apply abs_2 in BX. apply abs_2 in BY. apply Rabs_le. nra.
Qed.
Definition box (L : R) (p : vec double) : Prop := vfin p /\ Rabs (val (vx p)) <= L /\ Rabs (val (vy p)) <= L /\ Rabs (val (vz p)) <= L.
Lemma segment_near L p1 p2 n k : size L -> count n -> (k <= n)%nat -> box L p1 -> box L p2 ->
  exists q, nth_error (@discrete_segment _ D p1 p2 n) k = Some q /\ vnear L q (slerp (vvals p1) (vvals p2) (INR k / INR n)) 13.
Proof.
  intros HL CN KN ((FX & FY & FZ) & BX & BY & BZ) ((GX & GY & GZ) & CX & CY & CZ). unfold discrete_segment. set (step := @vdivs _ D _ _).
  destruct (Nat.eq_dec k n) as [->|NE].
  - exists p2. split; [rewrite nth_error_app2 by (rewrite map_length, seq_length; lia); rewrite map_length, seq_length, Nat.sub_diag; reflexivity|].
    assert (Q : slerp (vvals p1) (vvals p2) (INR n / INR n) = vvals p2) by (unfold Rdiv; rewrite Rinv_r by (apply not_0_INR; destruct CN; lia); apply slerp_1). rewrite Q. unfold size in HL.
    split; [|split]; apply (near_up _ _ _ 0 13); try lra; apply near_exact; try assumption; lra.
  - eexists. split. { rewrite nth_error_app1 by (rewrite map_length, seq_length; lia). apply nth_error_map_seq. lia. }
    destruct p1 as [x1 y1 z1], p2 as [x2 y2 z2]. cbn [vx vy vz] in *. unfold slerp, vvals. svec. unfold step, vadd, vscale, vdivs, vsub. cbn [vx vy vz].
    split; [|split]; apply near_lerp; try assumption; lia.
Qed.
(** the stations of a section *)
Lemma linspace_near n i : count n -> (i <= n)%nat -> exists x, nth_error (@linspace01 _ D (n + 1)) i = Some x /\ near 1 x (INR i / INR n) 4 /\ 0 <= val x <= 1 /\ (i = 0%nat -> val x = 0).
Proof.
  intros CN IN. unfold linspace01. eexists. split; [apply nth_error_map_seq; lia|]. cbv beta.
  destruct (zero_one e) as [[F0 V0] [F1 V1]]. pose proof (frac_bounds i n ltac:(destruct CN; lia) IN) as FB.
  replace (1 <? n + 1)%nat with true by (symmetry; apply Nat.ltb_lt; destruct CN; lia). rewrite andb_true_r.
  destruct (Nat.eqb_spec (S i) (n + 1)) as [Q|Q].
  - assert (i = n) by lia. subst i. assert (ZN : INR n / INR n = 1) by (apply Rinv_r, not_0_INR; destruct CN; lia). rewrite ZN in *. split; [|split; [lra|intros ->; destruct CN; lia]].
    apply (near_up _ _ _ 0); [|lra|lra]. rewrite <- V1. apply near_exact; [exact F1|rewrite V1, Rabs_R1; lra|lra].
  - replace (n + 1 - 1)%nat with n by lia. assert (N1 : near 1 (@nZ _ D 1) 1 0) by (rewrite <- V1; apply near_exact; [exact F1|rewrite V1, Rabs_R1; lra|lra]).
    pose proof (near_part 1 _ _ 0 n i ltac:(lra) ltac:(lra) CN ltac:(lia) N1) as NP. rewrite Rmult_1_r in NP.
    split; [apply (near_up _ _ _ _ _ NP); lra|]. pose proof (count_INR n CN) as RN.
    destruct (near_nat n CN) as [_ CL]. 
    destruct i as [|i].
    + assert (FD : fin (@ndiv _ D (@nZ _ D 1) (@nZ _ D (Z.of_nat n)))).
      { apply (near_fin (1 / INR n) _ (1 / INR n) (0 + 0 + 102 / 100)). assert (1 / 10000 <= 1 / INR n <= 1) by (split; [apply Rmult_le_compat_l; [lra|]; apply Rinv_le_contravar; lra|apply (Rmult_le_reg_r (INR n)); [lra|]; unfold Rdiv; rewrite Rmult_assoc, Rinv_l by lra; lra]). apply near_div; try assumption; try lra; try ml; try fw. }
      destruct (mul0l e (@nZ _ D (Z.of_nat 0)) _ (conj F0 V0) FD) as [_ V]. rewrite V. split; [lra|reflexivity].
    + split; [|discriminate]. destruct NP as (_ & _ & NP). apply abs_2 in NP.
      assert (X1 : 1 / 10000 <= INR (S i) / INR n). { assert (1 <= INR (S i)) by (apply (le_INR 1); lia). apply Rmult_le_compat; try lra. apply Rinv_le_contravar; lra. }
      assert (X2 : INR (S i) / INR n <= 1 - 1 / 10000). { rewrite <- (Rmult_1_r (1 - 1 / 10000)). replace 1 with (INR n / INR n) at 3 by (field; lra). unfold Rdiv at 1 3. rewrite <- Rmult_assoc. apply Rmult_le_compat_r; [left; apply Rinv_0_lt_compat; lra|]. assert (INR (S i) + 1 <= INR n) by (rewrite <- (S_INR (S i)); apply le_INR; lia). nra. }
      pose proof u_small. pose proof u_pos. split; lra.
Qed.

(** ** Camber lines *)
Lemma lit_max z d x : (Z.abs z <= 2 ^ 53)%Z -> (0 <= d)%Z -> (10 ^ d <= 2 ^ 53)%Z -> fin x -> val x <= IZR z / IZR (10 ^ d) -> @nleb _ D x (@ndec _ D z d) = true.
Proof.
  intros HZ HD HP FX B. destruct (literal e z d HZ HD HP) as [FL _]. apply dleb; [exact FX|exact FL|]. unfold ndec in *.
  assert (P : (0 < 10 ^ d)%Z) by (apply Z.pow_pos_nonneg; lia). destruct (dint e z HZ) as [F1 V1]. destruct (dint e (10 ^ d) ltac:(lia)) as [F2 V2].
  assert (P1 : 1 <= IZR (10 ^ d)) by (apply IZR_le; lia). set (a := @nZ _ D z) in *. set (b := @nZ _ D (10 ^ d)) in *. clearbody a b.
  cbn [ndiv Double] in *. pose proof (Bdiv_correct 53 1024 p53 e1024 mode_NE a b ltac:(lra)) as C.
  rewrite Rlt_bool_true in C.
  - destruct C as (C & _). rewrite C, V1, V2, <- (rnd_val x). apply round_le; [apply FLT_exp_valid; reflexivity|apply valid_rnd_N|exact B].
  - apply rnd_fits. rewrite V1, V2. unfold Rdiv. apply Rle_trans with (bpow radix2 53 * 1); [|rewrite Rmult_1_r; apply bpow_le; lia]. rewrite Rabs_mult. apply Rmult_le_compat; try apply Rabs_pos.
    + rewrite <- abs_IZR. change (bpow radix2 53) with (IZR (2 ^ 53)). apply IZR_le. exact HZ.
    + rewrite Rabs_pos_eq by (left; apply Rinv_0_lt_compat; lra). rewrite <- Rinv_1. apply Rinv_le_contravar; lra.
Qed.
(** cambers and draft positions that are covered *)
Definition foil_ok (m p : double) : Prop := fin m /\ fin p /\ 0 <= val m <= 3 / 10 /\ 1 / 100 <= val p <= 9 / 10.
Lemma close_sq x X k : 1 / 1000 <= X <= 1 -> 0 <= k <= 1000 -> close x X k -> close (@nmul _ D x x) (X * X) (2 * k + 101 / 100).
Proof.
  intros HX HK C. pose proof (close_near _ _ _ C ltac:(lra)) as N. pose proof (near_mul e X X x x X X k k ltac:(ml) ltac:(ml) ltac:(fw) ltac:(fw) N N) as M.
  apply (near_close 1) in M; [|nra|lra|lra]. replace (1 * (k + k + 101 / 100)) with (2 * k + 101 / 100) in M by ring. exact M.
Qed.
Lemma y_camber_near m p x : foil_ok m p -> fin x -> 0 <= val x <= 1 ->
  exists y, @get_y_camber _ D m p x = Ok y /\ near 1 y (scamber (val m) (val p) (val x)) 1700 /\ (val x = 0 -> val y = 0).
Proof.
  intros (FM & FP & HM & HP) FX HX. destruct (zero_one e) as [[F0 V0] [F1 V1]]. destruct (dint e 2 ltac:(lia)) as [F2 V2].
  unfold get_y_camber. set (p' := val p) in *. set (m' := val m) in *. set (x' := val x) in *.
  assert (N2 : near 2 (@nZ _ D 2) 2 0) by (pose proof (near_exact 2 _ F2 ltac:(rewrite V2, Rabs_pos_eq; lra) ltac:(lra)) as N; rewrite V2 in N; exact N).
  assert (Nm : near (3 / 10) m m' 0) by (apply near_exact; [exact FM|rewrite Rabs_pos_eq; unfold m' in *; lra|lra]).
  destruct (Rlt_dec x' p') as [LT|GE].
  - assert (T : @nltb _ D x p = true) by (apply dltb; assumption). assert (T0 : @nleb _ D (@nZ _ D 0) x = true) by (apply dleb; try assumption; unfold x' in *; lra). rewrite T, T0. cbn [andb]. eexists. split; [reflexivity|].
    assert (Np : near p' p p' 0) by (apply near_exact; [exact FP|rewrite Rabs_pos_eq; unfold p' in *; lra|lra]).
    assert (Nx : near p' x x' 0) by (apply near_exact; [exact FX|rewrite Rabs_pos_eq; unfold x', p' in *; lra|lra]).
    assert (Cp : close p p' 0) by (split; [exact FP|exists 0; rewrite Rabs_R0; split; [lra|unfold p'; ring]]).
    pose proof (near_mul e 2 p' _ _ _ _ 0 0 ltac:(ml) ltac:(ml) ltac:(fw) ltac:(fw) N2 Np) as A1.
    pose proof (near_mul e (2 * p') p' _ _ _ _ (0 + 0 + 101 / 100) 0 ltac:(ml) ltac:(ml) ltac:(fw) ltac:(fw) A1 Nx) as A2.
    pose proof (near_mul e p' p' _ _ _ _ 0 0 ltac:(ml) ltac:(ml) ltac:(fw) ltac:(fw) Nx Nx) as A3.
    assert (PP : 1 / 10000 <= p' * p' <= 1) by nra.
    pose proof (near_sub e (2 * p' * p') (p' * p') _ _ _ _ (0 + 0 + 101 / 100 + 0 + 101 / 100) (0 + 0 + 101 / 100) ltac:(apply mild_lit; nra) ltac:(nra) ltac:(nra) ltac:(fw) ltac:(fw) A2 A3) as A4. rewrite Rmax_left in A4 by lra.
    pose proof (near_mul e (3 / 10) (2 * p' * p' + p' * p') _ _ _ _ 0 (0 + 0 + 101 / 100 + 0 + 101 / 100 + 101 / 100) ltac:(ml) ltac:(apply mild_lit; nra) ltac:(fw) ltac:(fw) Nm A4) as A5.
    pose proof (close_sq p p' 0 ltac:(lra) ltac:(lra) Cp) as A6.
    pose proof (near_div e (3 / 10 * (2 * p' * p' + p' * p')) _ _ (0 + (0 + 0 + 101 / 100 + 0 + 101 / 100 + 101 / 100) + 101 / 100) _ _ (2 * 0 + 101 / 100) (p' * p') ltac:(apply mild_lit; nra) ltac:(lra) ltac:(replace (3 / 10 * (2 * p' * p' + p' * p') / (p' * p')) with (9 / 10) by (field; lra); ml) ltac:(fw) ltac:(fw) A5 A6 ltac:(lra)) as A7.
    replace (3 / 10 * (2 * p' * p' + p' * p') / (p' * p')) with (9 / 10) in A7 by (field; lra).
    assert (ES : scamber m' p' x' = m' * (2 * p' * x' - x' * x') / (p' * p')) by (unfold scamber; destruct (Rlt_dec x' p'); [field; lra|contradiction]). rewrite ES. split.
    + eapply near_weaken; [exact A7| |lra]. destruct A7 as (_ & A7 & _). lra.
    + intros X0. assert (IX : is0 x) by (split; assumption). assert (I1 : is0 (@nmul _ D (@nmul _ D (@nZ _ D 2) p) x)). { destruct (mul_same e (@nmul _ D (@nZ _ D 2) p) x x (near_fin _ _ _ _ A1) FX) as [G1 G2]; [fold x'; rewrite X0; ring|]. split; [exact G1|rewrite G2; exact X0]. }
      assert (I2 : is0 (@nsub _ D (@nmul _ D (@nmul _ D (@nZ _ D 2) p) x) (@nmul _ D x x))).
      { destruct (mul0l e x x IX FX) as [G1 G2]. destruct I1 as [H1 H2]. destruct (dsub e _ _ H1 G1) as (K1 & d & _ & K2); [rewrite H2, G2, Rminus_0_r, Rabs_R0; apply bpow_ge_0|]. split; [exact K1|]. rewrite K2, H2, G2. ring. }
      assert (I3 : is0 (@nmul _ D m (@nsub _ D (@nmul _ D (@nmul _ D (@nZ _ D 2) p) x) (@nmul _ D x x)))). { destruct I2 as [H1 H2]. set (w := @nsub _ D _ _) in *. destruct (mul_same e m w w FM H1) as [G1 G2]; [rewrite H2; ring|]. split; [exact G1|rewrite G2; exact H2]. }
      set (w := @nmul _ D m _) in *. destruct I3 as [H1 H2]. assert (ZP : val (@nmul _ D p p) <> 0). { destruct A6 as (_ & d & Bd & Q). rewrite Q. apply abs_2 in Bd. pose proof u_small. pose proof u_pos. assert (0 < 1 + d) by lra. nra. }
      destruct (ddiv e w _ H1 ZP) as (_ & d1 & d2 & _ & _ & K & Q); [rewrite H2; unfold Rdiv; rewrite Rmult_0_l, Rabs_R0; apply bpow_ge_0|]. rewrite Q, K, H2; [unfold Rdiv; ring|rewrite H2; unfold Rdiv; ring].
  - assert (T : @nltb _ D x p = false). { destruct (@nltb _ D x p) eqn:Q; [|reflexivity]. apply dltb in Q; try assumption. contradiction. }
    assert (T1 : @nleb _ D p x = true) by (apply dleb; try assumption; unfold x', p' in *; lra). assert (T2 : @nleb _ D x (@nZ _ D 1) = true) by (apply dleb; try assumption; unfold x' in *; lra). rewrite T, T1, T2. cbn [andb]. eexists. split; [reflexivity|].
    split; [|intros; lra].
    assert (Np : near 1 p p' 0) by (apply near_exact; [exact FP|rewrite Rabs_pos_eq; unfold p' in *; lra|lra]).
    assert (Nx : near 1 x x' 0) by (apply near_exact; [exact FX|rewrite Rabs_pos_eq; unfold x', p' in *; lra|lra]).
    assert (N1 : near 1 (@nZ _ D 1) 1 0) by (rewrite <- V1; apply near_exact; [exact F1|rewrite V1, Rabs_R1; lra|lra]).
    pose proof (near_mul e 2 1 _ _ _ _ 0 0 ltac:(ml) ltac:(ml) ltac:(fw) ltac:(fw) N2 Np) as A1.
    pose proof (near_mul e (2 * 1) 1 _ _ _ _ (0 + 0 + 101 / 100) 0 ltac:(ml) ltac:(ml) ltac:(fw) ltac:(fw) A1 Nx) as A2.
    pose proof (near_mul e 1 1 _ _ _ _ 0 0 ltac:(ml) ltac:(ml) ltac:(fw) ltac:(fw) Nx Nx) as A3.
    pose proof (near_sub e 1 (2 * 1) _ _ _ _ 0 (0 + 0 + 101 / 100) ltac:(ml) ltac:(lra) ltac:(lra) ltac:(fw) ltac:(fw) N1 A1) as B1. rewrite Rmax_right in B1 by lra.
    pose proof (near_add e (1 + 2 * 1) (2 * 1 * 1) _ _ _ _ (0 + 0 + 101 / 100 + 101 / 100) (0 + 0 + 101 / 100 + 0 + 101 / 100) ltac:(ml) ltac:(lra) ltac:(lra) ltac:(fw) ltac:(fw) B1 A2) as B2. rewrite Rmax_left in B2 by lra.
    pose proof (near_sub e (1 + 2 * 1 + 2 * 1 * 1) (1 * 1) _ _ _ _ (0 + 0 + 101 / 100 + 101 / 100 + 101 / 100) (0 + 0 + 101 / 100) ltac:(ml) ltac:(lra) ltac:(lra) ltac:(fw) ltac:(fw) B2 A3) as B3. rewrite Rmax_left in B3 by lra.
    pose proof (near_mul e (3 / 10) (1 + 2 * 1 + 2 * 1 * 1 + 1 * 1) _ _ _ _ 0 (0 + 0 + 101 / 100 + 101 / 100 + 101 / 100 + 101 / 100) ltac:(ml) ltac:(ml) ltac:(fw) ltac:(fw) Nm B3) as B4.
    assert (CQ : close (@nsub _ D (@nZ _ D 1) p) (1 - p') 1).
    { destruct (dsub e (@nZ _ D 1) p F1 FP) as (K1 & d & K2 & K3). { rewrite V1. fold p'. apply Rle_trans with (bpow radix2 0); [|apply bpow_le; lia]. change (bpow radix2 0) with 1. apply Rabs_le. lra. } split; [exact K1|]. exists d. split; [lra|]. rewrite K3, V1. reflexivity. }
    pose proof (close_sq _ (1 - p') 1 ltac:(lra) ltac:(lra) CQ) as B5.
    assert (QQ : 1 / 100 <= (1 - p') * (1 - p') <= 1) by nra.
    pose proof (near_div e (3 / 10 * (1 + 2 * 1 + 2 * 1 * 1 + 1 * 1)) _ _ (0 + (0 + 0 + 101 / 100 + 101 / 100 + 101 / 100 + 101 / 100) + 101 / 100) _ _ (2 * 1 + 101 / 100) (1 / 100) ltac:(ml) ltac:(lra) ltac:(ml) ltac:(fw) ltac:(fw) B4 B5 ltac:(lra)) as B6.
    assert (ES : scamber m' p' x' = m' * (1 - 2 * p' + 2 * p' * x' - x' * x') / ((1 - p') * (1 - p'))) by (unfold scamber; destruct (Rlt_dec x' p'); [contradiction|field; lra]). rewrite ES.
    eapply near_weaken; [exact B6| |lra].
    assert (NB : 0 <= 1 - 2 * p' + 2 * p' * x' - x' * x' <= (1 - p') * (1 - p')) by (split; nra).
    assert (QB : 0 <= (1 - 2 * p' + 2 * p' * x' - x' * x') / ((1 - p') * (1 - p')) <= 1). { split; [apply Rmult_le_pos; [lra|left; apply Rinv_0_lt_compat; lra]|]. apply (Rmult_le_reg_r ((1 - p') * (1 - p'))); [lra|]. unfold Rdiv. rewrite Rmult_assoc, Rinv_l by lra. lra. }
    unfold Rdiv. rewrite Rmult_assoc. fold (Rdiv (1 - 2 * p' + 2 * p' * x' - x' * x') ((1 - p') * (1 - p'))). rewrite Rabs_pos_eq by nra. nra.
Qed.

Lemma camber_lip m p x y : 0 <= m <= 3 / 10 -> 1 / 100 <= p <= 9 / 10 -> 0 <= x <= 1 -> 0 <= y <= 1 -> Rabs (scamber m p x - scamber m p y) <= 60 * Rabs (x - y).
Proof.
  intros HM HP HX HY.
  assert (K1 : 0 <= m / (p * p) * p <= 30). { replace (m / (p * p) * p) with (m / p) by (field; lra). split; [apply Rmult_le_pos; [lra|left; apply Rinv_0_lt_compat; lra]|]. apply (Rmult_le_reg_r p); [lra|]. unfold Rdiv. rewrite Rmult_assoc, Rinv_l by lra. lra. }
  assert (K2 : 0 <= m / ((1 - p) * (1 - p)) * (1 - p) <= 3). { replace (m / ((1 - p) * (1 - p)) * (1 - p)) with (m / (1 - p)) by (field; lra). split; [apply Rmult_le_pos; [lra|left; apply Rinv_0_lt_compat; lra]|]. apply (Rmult_le_reg_r (1 - p)); [lra|]. unfold Rdiv. rewrite Rmult_assoc, Rinv_l by lra. lra. }
  set (f := fun t => m / (p * p) * (2 * p * t - t * t)). set (g := fun t => m / ((1 - p) * (1 - p)) * (1 - 2 * p + 2 * p * t - t * t)).
  assert (M1 : 0 <= m / (p * p)) by (apply Rmult_le_pos; [lra|left; apply Rinv_0_lt_compat; nra]). assert (M2 : 0 <= m / ((1 - p) * (1 - p))) by (apply Rmult_le_pos; [lra|left; apply Rinv_0_lt_compat; nra]).
  assert (FL : forall a b, 0 <= a <= p -> 0 <= b <= p -> Rabs (f a - f b) <= 60 * Rabs (a - b)).
  { intros a b A B. replace (f a - f b) with ((m / (p * p) * (2 * p - a - b)) * (a - b)) by (unfold f; ring). rewrite Rabs_mult. apply Rmult_le_compat_r; [apply Rabs_pos|]. rewrite Rabs_pos_eq by (apply Rmult_le_pos; lra).
    apply Rle_trans with (m / (p * p) * (2 * p)); [apply Rmult_le_compat_l; lra|]. lra. }
  assert (GL : forall a b, p <= a <= 1 -> p <= b <= 1 -> Rabs (g a - g b) <= 60 * Rabs (a - b)).
  { intros a b A B. replace (g a - g b) with ((m / ((1 - p) * (1 - p)) * (a + b - 2 * p)) * (b - a)) by (unfold g; ring). rewrite Rabs_mult, (Rabs_minus_sym b a). apply Rmult_le_compat_r; [apply Rabs_pos|]. rewrite Rabs_pos_eq by (apply Rmult_le_pos; lra).
    apply Rle_trans with (m / ((1 - p) * (1 - p)) * (2 * (1 - p))); [apply Rmult_le_compat_l; lra|]. lra. }
  assert (FG : f p = g p) by (unfold f, g; field; lra).
  assert (EF : forall t, t < p -> scamber m p t = f t) by (intros t T; unfold scamber, f; destruct (Rlt_dec t p); [field; lra|contradiction]).
  assert (EG : forall t, p <= t -> scamber m p t = g t) by (intros t T; unfold scamber, g; destruct (Rlt_dec t p); [lra|field; lra]).
  assert (CR : forall a b, 0 <= a < p -> p <= b <= 1 -> Rabs (f a - g b) <= 60 * Rabs (a - b)).
  { intros a b A B. replace (f a - g b) with ((f a - f p) + (g p - g b)) by (rewrite FG; ring). eapply Rle_trans; [apply Rabs_triang|]. pose proof (FL a p ltac:(lra) ltac:(lra)) as Q1. pose proof (GL p b ltac:(lra) ltac:(lra)) as Q2. rewrite (Rabs_left1 (a - p)) in Q1 by lra. rewrite (Rabs_left1 (p - b)) in Q2 by lra. rewrite (Rabs_left1 (a - b)) by lra. lra. }
  destruct (Rlt_dec x p) as [X|X], (Rlt_dec y p) as [Y|Y].
  - rewrite !EF by assumption. apply FL; lra.
  - rewrite EF, EG by lra. apply CR; lra.
  - rewrite EG, EF by lra. rewrite Rabs_minus_sym, (Rabs_minus_sym x y). apply CR; lra.
  - rewrite !EG by lra. apply GL; lra.
Qed.
Lemma scamber_size m p x : 0 <= m <= 3 / 10 -> 1 / 100 <= p <= 9 / 10 -> 0 <= x <= 1 -> Rabs (scamber m p x) <= 3 / 10.
Proof.
  intros HM HP HX. unfold scamber. destruct (Rlt_dec x p) as [X|X].
  - assert (NB : 0 <= 2 * p * x - x ^ 2 <= p ^ 2) by (split; nra). replace (m / p ^ 2 * (2 * p * x - x ^ 2)) with (m * ((2 * p * x - x ^ 2) / p ^ 2)) by (field; lra). assert (PP : 0 < p ^ 2) by nra.
    assert (QB : 0 <= (2 * p * x - x ^ 2) / p ^ 2 <= 1). { split; [apply Rmult_le_pos; [lra|left; apply Rinv_0_lt_compat; lra]|]. apply (Rmult_le_reg_r (p ^ 2)); [lra|]. unfold Rdiv. rewrite Rmult_assoc, Rinv_l by lra. lra. }
    rewrite Rabs_pos_eq by nra. nra.
  - assert (NB : 0 <= 1 - 2 * p + 2 * p * x - x ^ 2 <= (1 - p) ^ 2) by (split; nra). replace (m / (1 - p) ^ 2 * (1 - 2 * p + 2 * p * x - x ^ 2)) with (m * ((1 - 2 * p + 2 * p * x - x ^ 2) / (1 - p) ^ 2)) by (field; lra). assert (PP : 0 < (1 - p) ^ 2) by nra.
    assert (QB : 0 <= (1 - 2 * p + 2 * p * x - x ^ 2) / (1 - p) ^ 2 <= 1). { split; [apply Rmult_le_pos; [lra|left; apply Rinv_0_lt_compat; lra]|]. apply (Rmult_le_reg_r ((1 - p) ^ 2)); [lra|]. unfold Rdiv. rewrite Rmult_assoc, Rinv_l by lra. lra. }
    rewrite Rabs_pos_eq by nra. nra.
Qed.
Lemma near_move B x X Y k l : near B x X k -> Rabs (X - Y) <= l * (B * u) -> Rabs Y <= B -> near B x Y (k + l).
Proof. intros (F & _ & E) H S. split; [exact F|]. split; [exact S|]. replace (val x - Y) with ((val x - X) + (X - Y)) by ring. eapply Rle_trans; [apply Rabs_triang|]. lra. Qed.

(** ** Sections *)
Lemma foil_points m p nc : count nc -> foil_ok m p -> exists foil, @VlmAirfoil _ D m p (@nZ _ D 0) (nc + 1) = Ok foil /\ length (af_xc foil) = S nc /\ length (af_yc foil) = S nc /\
  forall i, (i <= nc)%nat -> exists x y, nth_error (af_xc foil) i = Some x /\ nth_error (af_yc foil) i = Some y /\ near 1 x (INR i / INR nc) 4 /\ near 1 y (scamber (val m) (val p) (INR i / INR nc)) 1940 /\ (i = 0%nat -> val x = 0 /\ val y = 0).
Proof.
  intros CN FO. destruct FO as (FM & FP & HM & HP).
  destruct (airfoil_accepted e m p (nc + 1) FM FP ltac:(destruct CN; lia) ltac:(lra) ltac:(apply lit_max; [lia|lia|lia|exact FM|change (IZR 3 / IZR (10 ^ 1)) with (3 / 10); lra]) ltac:(lra) ltac:(apply lit_max; [lia|lia|lia|exact FP|change (IZR 9 / IZR (10 ^ 1)) with (9 / 10); lra])) as [foil F].
  exists foil. split; [exact F|]. unfold VlmAirfoil in F. apply bind_Ok in F. destruct F as (_ & _ & F). apply bind_Ok in F. destruct F as (yc & Y & F). apply bind_Ok in F. destruct F as (dy & _ & F). injection F as <-. cbn [af_xc af_yc].
  pose proof (mapM_length _ _ _ Y) as LY. rewrite linspace_len in LY. split; [rewrite linspace_len; lia|]. split; [lia|]. intros i I.
  destruct (linspace_near nc i CN I) as (x & EX & NX & RX & ZX). destruct (mapM_nth _ _ _ _ _ Y EX) as (y & EY & QY). exists x, y. split; [exact EX|]. split; [exact EY|]. split; [exact NX|].
  destruct (y_camber_near m p x (conj FM (conj FP (conj HM HP))) (near_fin _ _ _ _ NX) RX) as (y' & QY' & NY & ZY). assert (y = y') by congruence. subst y'. pose proof (frac_bounds i nc ltac:(destruct CN; lia) I) as FB. split; [|intros I0; split; [apply ZX, I0|apply ZY, ZX, I0]].
  replace 1940 with (1700 + 240) by ring. apply (near_move 1 y (scamber (val m) (val p) (val x))); [exact NY| |].
  - eapply Rle_trans; [apply camber_lip; assumption|]. destruct NX as (_ & _ & NX). lra.
  - pose proof (scamber_size (val m) (val p) (INR i / INR nc) HM HP FB). lra.
Qed.
Lemma section_near L nc dist camb k (p1 : vec double) (P : vec R) y2 z2 c d m : size L -> count nc -> nth_error dist k = Some d -> nth_error camb k = Some m -> foil_ok m d -> fin c -> Rabs (val c) <= L ->
  vnear L p1 P 13 ->
  exists sec, @airfoil_section _ D (nc + 1) dist camb k p1 (V3 (@nadd _ D (vx p1) c) y2 z2) = Ok sec /\ length sec = S nc /\
    forall i, (i <= nc)%nat -> exists q, nth_error sec i = Some q /\ near (2 * L) (vx q) (vx P + INR i / INR nc * val c) 53 /\ near L (vy q) (val c * scamber (val m) (val d) (INR i / INR nc)) 2000 /\ vz q = vz p1 /\
      (i = 0%nat -> same (vx q) (vx p1) /\ val (vy q) = 0).
Proof.
  intros HL CN ED EM FO FC BC (NX & NY & NZ). unfold size in HL. unfold airfoil_section. rewrite (py_nth_nat _ _ _ ED), (py_nth_nat _ _ _ EM). cbn [bind].
  destruct (foil_points m d nc CN FO) as (foil & F & LX & LY & PT). rewrite F. cbn [bind vx vy vz].
  eexists. split; [reflexivity|]. rewrite zipWith_length, !map_length, LX, LY. split; [lia|]. intros i I.
  destruct (PT i I) as (x & y & EX & EY & Nx & Ny & Z0). eexists. split.
  { erewrite nth_error_zipWith; [reflexivity| |]; rewrite nth_error_map; [rewrite EX|rewrite EY]; reflexivity. }
  cbn [vx vy vz]. pose proof (near_exact L c FC BC ltac:(lra)) as Nc.
  pose proof (near_add e L L _ _ _ _ 13 0 ltac:(ml) ltac:(lra) ltac:(lra) ltac:(fw) ltac:(fw) NX Nc) as S1. rewrite Rmax_left in S1 by lra.
  pose proof (near_sub e (L + L) L _ _ _ _ (13 + 101 / 100) 13 ltac:(ml) ltac:(lra) ltac:(lra) ltac:(fw) ltac:(fw) S1 NX) as S2. rewrite Rmax_left in S2 by lra.
  apply (near_at _ _ _ _ (val c)) in S2; [|ring]. apply (near_weaken _ L _ _ _ 46) in S2; [|exact BC|lra]. set (dx := @nsub _ D _ (vx p1)) in *. clearbody dx.
  pose proof (near_mul e L 1 _ _ _ _ 46 4 ltac:(ml) ltac:(ml) ltac:(fw) ltac:(fw) S2 Nx) as T1.
  pose proof (near_mul e L 1 _ _ _ _ 46 1940 ltac:(ml) ltac:(ml) ltac:(fw) ltac:(fw) S2 Ny) as T2.
  pose proof (near_add e (L * 1) L _ _ _ _ (46 + 4 + 101 / 100) 13 ltac:(ml) ltac:(lra) ltac:(lra) ltac:(fw) ltac:(fw) T1 NX) as T3. rewrite Rmax_left in T3 by lra.
  split; [|split; [|split]].
  - apply (near_at _ _ _ _ (vx P + INR i / INR nc * val c)) in T3; [|ring]. apply (near_scale _ (2 * L)) in T3; [|ring]. apply (near_up _ _ _ _ 53) in T3; [exact T3|lra|lra].
  - apply (near_scale _ L) in T2; [|ring]. apply (near_up _ _ _ _ 2000) in T2; [exact T2|lra|lra].
  - reflexivity.
  - intros I0. destruct (Z0 I0) as [X0 Y0]. assert (FD : fin dx) by (apply (near_fin _ _ _ _ S2)). assert (FXx : fin x) by (apply (near_fin _ _ _ _ Nx)). assert (FYy : fin y) by (apply (near_fin _ _ _ _ Ny)). split.
    + assert (IZ : is0 (@nmul _ D dx x)). { destruct (mul_same e dx x x FD FXx) as [G1 G2]; [rewrite X0; ring|]. split; [exact G1|rewrite G2; exact X0]. } exact (add0l e _ _ IZ (near_fin _ _ _ _ NX)).
    + destruct (mul_same e dx y y FD FYy) as [G1 G2]; [rewrite Y0; ring|]. rewrite G2. exact Y0.
Qed.
End Mesh.
