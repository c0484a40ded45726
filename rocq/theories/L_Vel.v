(** Lemmas on vortex velocities. *)

From Coq Require Import ZArith Reals List Bool Lra Psatz Lia.
From Verif Require Import Num PyBase RNum Spec M_Velocity L_List L_Rot L_Mesh.
Import ListNotations.
Open Scope R_scope.

Lemma core_eps_R : @core_eps R RNum = / 10 ^ 8.
Proof. unfold core_eps. rewrite ndec_R. change (10 ^ 8)%Z with 100000000%Z. field. Qed.
Lemma eps_pos : 0 < / 10 ^ 8.
Proof. apply Rinv_0_lt_compat, pow_lt; lra. Qed.

Lemma core_spec p p1 p2 :
  let x := vcross (vsub p p1) (vsub p p2) in
  is_in_vortex_core (vsub p p1) (vsub p p2) (nmul (vnorm x) (vnorm x)) = true <-> in_core p p1 p2.
Proof.
  unfold is_in_vortex_core, in_core. rewrite core_eps_R. tospec. rnum.
  replace (snorm (scross (ssub p p1) (ssub p p2)) ^ 2)
    with (Rabs (snorm (scross (ssub p p1) (ssub p p2)) * snorm (scross (ssub p p1) (ssub p p2)))).
  2:{ rewrite Rabs_right; [ring|]. pose proof (snorm_nonneg (scross (ssub p p1) (ssub p p2))). nra. }
  rewrite !orb_true_iff, !Rltb_true. tauto.
Qed.
Lemma vortex_line_core p p1 p2 g : in_core p p1 p2 -> vortex_line p p1 p2 g = szero.
Proof.
  intros H. apply core_spec in H. unfold vortex_line. cbv zeta. rewrite H. reflexivity.
Qed.
Lemma vortex_line_out p p1 p2 g : ~ in_core p p1 p2 -> vortex_line p p1 p2 g = biot_savart p p1 p2 g.
Proof.
  intros H. unfold vortex_line. cbv zeta.
  destruct (is_in_vortex_core _ _ _) eqn:E; [apply core_spec in E; contradiction|].
  tospec. unfold biot_savart. fold (sunit (ssub p p1)). fold (sunit (ssub p p2)).
  set (k := sdot _ _). set (x := scross _ _).
  assert (snorm x <> 0).
  { intros N. apply H. right; right. fold x. rewrite N. pose proof eps_pos. lra. }
  destruct x as [a b c] eqn:X. rewrite <- X in *. set (n := snorm x) in *. clearbody n. rewrite X.
  pose proof PI_RGT_0. rnum. svec. vec_eq; field; lra.
Qed.
Lemma out_nonzero p p1 p2 : ~ in_core p p1 p2 ->
  0 < snorm (ssub p p1) /\ 0 < snorm (ssub p p2) /\ 0 < snorm (scross (ssub p p1) (ssub p p2)).
Proof.
  intros H. pose proof eps_pos as E.
  assert (forall a, 0 <= snorm a) by apply snorm_nonneg.
  repeat split.
  - destruct (Rle_lt_dec (/ 10 ^ 8) (snorm (ssub p p1))); [lra | exfalso; apply H; left; assumption].
  - destruct (Rle_lt_dec (/ 10 ^ 8) (snorm (ssub p p2))); [lra | exfalso; apply H; right; left; assumption].
  - destruct (Rle_lt_dec (/ 10 ^ 8) (snorm (scross (ssub p p1) (ssub p p2)) ^ 2)) as [L|L].
    + specialize (H0 (scross (ssub p p1) (ssub p p2))).
      destruct H0 as [P|P]; [assumption|]. rewrite <- P in L. lra.
    + exfalso; apply H; right; right; assumption.
Qed.

(** ** Vector inequalities *)
Lemma lagrange a b : sdot a a * sdot b b - sdot a b * sdot a b = sdot (scross a b) (scross a b).
Proof. destruct a, b; svec; ring. Qed.
Lemma cauchy a b : Rabs (sdot a b) <= snorm a * snorm b.
Proof.
  pose proof (snorm_nonneg a). pose proof (snorm_nonneg b).
  apply Rsqr_incr_0_var; [|nra]. rewrite <- Rsqr_abs. unfold Rsqr.
  pose proof (lagrange a b). pose proof (sdot_self_nonneg (scross a b)).
  rewrite <- (snorm_sq a), <- (snorm_sq b) in H1. nra.
Qed.
Lemma cauchy_le a b : sdot a b <= snorm a * snorm b.
Proof. pose proof (cauchy a b). pose proof (Rle_abs (sdot a b)). lra. Qed.
Lemma cross_le a b : snorm (scross a b) <= snorm a * snorm b.
Proof.
  pose proof (snorm_nonneg a). pose proof (snorm_nonneg b). pose proof (snorm_nonneg (scross a b)).
  apply Rsqr_incr_0_var; [|nra]. unfold Rsqr. rewrite snorm_sq, <- lagrange.
  rewrite <- (snorm_sq a), <- (snorm_sq b). nra.
Qed.
Lemma triangle a b : snorm (sadd a b) <= snorm a + snorm b.
Proof.
  pose proof (snorm_nonneg a). pose proof (snorm_nonneg b).
  apply Rsqr_incr_0_var; [|lra]. unfold Rsqr. rewrite snorm_sq.
  replace (sdot (sadd a b) (sadd a b)) with (sdot a a + sdot b b + 2 * sdot a b) by (destruct a, b; svec; ring).
  pose proof (cauchy_le a b). rewrite <- (snorm_sq a), <- (snorm_sq b). nra.
Qed.
Lemma triangle_sub a b : snorm a - snorm b <= snorm (ssub a b).
Proof.
  pose proof (triangle (ssub a b) b). replace (sadd (ssub a b) b) with a in H by vring. lra.
Qed.

(** ** Linearity, antisymmetry, orthogonality *)
Lemma biot_linear p p1 p2 k g : biot_savart p p1 p2 (k * g) = sscale k (biot_savart p p1 p2 g).
Proof. unfold biot_savart. set (x := scross _ _). destruct x; svec; unfold Rdiv; vec_eq; ring. Qed.
Lemma vortex_line_linear p p1 p2 k g : vortex_line p p1 p2 (k * g) = sscale k (vortex_line p p1 p2 g).
Proof.
  destruct (is_in_vortex_core (vsub p p1) (vsub p p2)
              (nmul (vnorm (vcross (vsub p p1) (vsub p p2))) (vnorm (vcross (vsub p p1) (vsub p p2))))) eqn:E.
  - apply core_spec in E. rewrite !vortex_line_core by assumption. svec; vec_eq; ring.
  - assert (~ in_core p p1 p2) by (intros C; apply core_spec in C; congruence).
    rewrite !vortex_line_out by assumption. apply biot_linear.
Qed.
Lemma core_dec p p1 p2 : {in_core p p1 p2} + {~ in_core p p1 p2}.
Proof.
  destruct (is_in_vortex_core (vsub p p1) (vsub p p2)
              (nmul (vnorm (vcross (vsub p p1) (vsub p p2))) (vnorm (vcross (vsub p p1) (vsub p p2))))) eqn:E.
  - left. apply core_spec, E.
  - right. intros C; apply core_spec in C; congruence.
Qed.
Lemma scross_swap a b : scross a b = sopp (scross b a).
Proof. vring. Qed.
Lemma core_sym p p1 p2 : in_core p p1 p2 <-> in_core p p2 p1.
Proof.
  unfold in_core. rewrite (scross_swap (ssub p p2)), snorm_opp. tauto.
Qed.
Lemma vortex_line_rev p p1 p2 g : vortex_line p p2 p1 g = sopp (vortex_line p p1 p2 g).
Proof.
  destruct (core_dec p p1 p2) as [C|C].
  - rewrite (vortex_line_core p p1 p2), (vortex_line_core p p2 p1) by (try assumption; apply core_sym; assumption).
    svec; vec_eq; ring.
  - rewrite (vortex_line_out p p1 p2), (vortex_line_out p p2 p1) by (try assumption; rewrite core_sym; assumption).
    unfold biot_savart. rewrite (scross_swap (ssub p p2)), snorm_opp.
    replace (sdot (ssub p1 p2) (ssub (sunit (ssub p p2)) (sunit (ssub p p1))))
      with (sdot (ssub p2 p1) (ssub (sunit (ssub p p1)) (sunit (ssub p p2)))).
    + set (x := scross _ _). destruct x; svec; vec_eq; ring.
    + generalize (sunit (ssub p p2)) (sunit (ssub p p1)). intros u v. destruct u, v, p1, p2; svec; ring.
Qed.
Lemma vortex_line_orth p p1 p2 g :
  sdot (vortex_line p p1 p2 g) (ssub p p1) = 0 /\ sdot (vortex_line p p1 p2 g) (ssub p p2) = 0.
Proof.
  destruct (core_dec p p1 p2) as [C|C].
  - rewrite vortex_line_core by assumption. destruct p, p1, p2; svec; split; ring.
  - rewrite vortex_line_out by assumption. unfold biot_savart. generalize (g / (4 * PI) *
      (sdot (ssub p2 p1) (ssub (sunit (ssub p p1)) (sunit (ssub p p2))) / snorm (scross (ssub p p1) (ssub p p2)) ^ 2)).
    intros k. destruct p, p1, p2; svec; split; ring.
Qed.
Lemma on_line_core p p1 p2 : on_line p1 (ssub p2 p1) p -> in_core p p1 p2.
Proof.
  intros [s ->]. right; right.
  replace (scross _ _) with szero by vring.
  replace (snorm szero) with 0 by (symmetry; apply snorm_zero; reflexivity). pose proof eps_pos. lra.
Qed.

(** ** The regular form of the closed formula: no difference of nearly equal numbers *)
Lemma biot_regular p p1 p2 g :
  let r1 := ssub p p1 in let r2 := ssub p p2 in
  0 < snorm r1 -> 0 < snorm r2 -> 0 < snorm (scross r1 r2) ->
  0 < snorm r1 * snorm r2 + sdot r1 r2 /\
  biot_savart p p1 p2 g =
    sscale (g / (4 * PI) * ((snorm r1 + snorm r2) / (snorm r1 * snorm r2 * (snorm r1 * snorm r2 + sdot r1 r2))))
           (scross r1 r2).
Proof.
  intros r1 r2 H1 H2 HX.
  pose proof (snorm_sq r1) as N1. pose proof (snorm_sq r2) as N2. pose proof (snorm_sq (scross r1 r2)) as NX.
  pose proof (lagrange r1 r2) as L. rewrite <- NX, <- N1, <- N2 in L.
  assert (F : (snorm r1 * snorm r2 - sdot r1 r2) * (snorm r1 * snorm r2 + sdot r1 r2)
              = snorm (scross r1 r2) * snorm (scross r1 r2)) by (rewrite <- L; ring).
  assert (P : 0 < snorm r1 * snorm r2 + sdot r1 r2).
  { pose proof (cauchy r1 r2). pose proof (Rle_abs (- sdot r1 r2)). rewrite Rabs_Ropp in H0.
    assert (0 <= snorm r1 * snorm r2 + sdot r1 r2) by lra.
    destruct H3 as [|E]; [assumption|]. rewrite <- E in F. nra. }
  split; [exact P|]. unfold biot_savart. fold r1 r2.
  f_equal. f_equal.
  replace (ssub p2 p1) with (ssub r1 r2) by (unfold r1, r2; vring).
  assert (K : sdot (ssub r1 r2) (ssub (sunit r1) (sunit r2)) =
              (snorm r1 + snorm r2) * (snorm r1 * snorm r2 - sdot r1 r2) / (snorm r1 * snorm r2)).
  { unfold sunit. set (n1 := snorm r1) in *. set (n2 := snorm r2) in *.
    replace (sdot (ssub r1 r2) (ssub (sscale (/ n1) r1) (sscale (/ n2) r2)))
      with (/ n1 * sdot r1 r1 - / n1 * sdot r1 r2 - / n2 * sdot r1 r2 + / n2 * sdot r2 r2)
      by (clearbody n1 n2; destruct r1, r2; svec; ring).
    rewrite <- N1, <- N2. field. lra. }
  rewrite K. replace (snorm (scross r1 r2) ^ 2) with (snorm (scross r1 r2) * snorm (scross r1 r2)) by ring.
  rewrite <- F. assert (snorm r1 * snorm r2 - sdot r1 r2 <> 0) by (intros Z; rewrite Z in F; nra).
  field. repeat split; try lra; assumption.
Qed.

(** ** Bound *)
Lemma vortex_line_bound p p1 p2 g d : 0 < d ->
  d * snorm (ssub p2 p1) <= snorm (scross (ssub p2 p1) (ssub p p1)) ->
  snorm (vortex_line p p1 p2 g) <= Rabs g / (2 * PI * d).
Proof.
  intros D H. pose proof PI_RGT_0 as PI0.
  assert (B0 : 0 <= Rabs g / (2 * PI * d)).
  { apply Rmult_le_pos; [apply Rabs_pos | left; apply Rinv_0_lt_compat; nra]. }
  destruct (core_dec p p1 p2) as [C|C].
  - rewrite vortex_line_core by assumption. replace (snorm szero) with 0 by (symmetry; apply snorm_zero; reflexivity). assumption.
  - rewrite vortex_line_out by assumption. destruct (out_nonzero _ _ _ C) as (P1 & P2 & PX).
    unfold biot_savart. rewrite snorm_scale.
    replace (scross (ssub p2 p1) (ssub p p1)) with (scross (ssub p p1) (ssub p p2)) in H by vring.
    set (x := snorm (scross (ssub p p1) (ssub p p2))) in *.
    set (k := sdot _ _). set (l := snorm (ssub p2 p1)) in *.
    assert (K : Rabs k <= 2 * l).
    { unfold k. eapply Rle_trans; [apply cauchy|]. fold l. pose proof (snorm_nonneg (ssub p2 p1)). fold l in H0.
      pose proof (triangle (sunit (ssub p p1)) (sopp (sunit (ssub p p2)))).
      replace (sadd (sunit (ssub p p1)) (sopp (sunit (ssub p p2)))) with (ssub (sunit (ssub p p1)) (sunit (ssub p p2))) in H1 by vring.
      rewrite snorm_opp, !snorm_unit in H1; [nra | |].
      - intros Z. rewrite Z in P2. replace (snorm szero) with 0 in P2 by (symmetry; apply snorm_zero; reflexivity). lra.
      - intros Z. rewrite Z in P1. replace (snorm szero) with 0 in P1 by (symmetry; apply snorm_zero; reflexivity). lra. }
    assert (X0 : 0 < x) by exact PX. clearbody x k. assert (L0 : 0 <= l) by (apply snorm_nonneg). clearbody l.
    replace (Rabs (g / (4 * PI) * (k / x ^ 2)) * x) with (Rabs g * Rabs k / (4 * PI * x)).
    2:{ unfold Rdiv. rewrite !Rabs_mult, !Rabs_inv, (Rabs_right (4 * PI)), (Rabs_right (x ^ 2)) by (try apply Rle_ge; nra).
        field. split; nra. }
    assert (G : 0 <= Rabs g) by apply Rabs_pos.
    apply Rle_trans with (Rabs g * (2 * l) / (4 * PI * x)).
    + apply Rmult_le_compat_r; [left; apply Rinv_0_lt_compat; nra | apply Rmult_le_compat_l; assumption].
    + apply Rle_trans with (Rabs g * (2 * (x / d)) / (4 * PI * x)).
      * apply Rmult_le_compat_r; [left; apply Rinv_0_lt_compat; nra|]. apply Rmult_le_compat_l; [assumption|].
        apply Rmult_le_compat_l; [lra|]. apply (Rmult_le_reg_r d); [assumption|].
        unfold Rdiv. rewrite Rmult_assoc, Rinv_l by lra. lra.
      * right. field. repeat split; lra.
Qed.

(** ** Splitting *)
Lemma vortex_line_split p p1 p2 s g : 0 < s < 1 ->
  ~ in_core p p1 p2 -> ~ in_core p p1 (slerp p1 p2 s) -> ~ in_core p (slerp p1 p2 s) p2 ->
  vortex_line p p1 p2 g = sadd (vortex_line p p1 (slerp p1 p2 s) g) (vortex_line p (slerp p1 p2 s) p2 g).
Proof.
  intros S C0 C1 C2. rewrite !vortex_line_out by assumption.
  destruct (out_nonzero _ _ _ C0) as (P1 & P2 & PX).
  destruct (out_nonzero _ _ _ C1) as (_ & Pc & _). pose proof PI_RGT_0.
  set (c := slerp p1 p2 s) in *. unfold biot_savart.
  replace (scross (ssub p p1) (ssub p c)) with (sscale s (scross (ssub p p1) (ssub p p2))) by (unfold c, slerp; vring).
  replace (scross (ssub p c) (ssub p p2)) with (sscale (1 - s) (scross (ssub p p1) (ssub p p2))) by (unfold c, slerp; vring).
  replace (ssub c p1) with (sscale s (ssub p2 p1)) by (unfold c, slerp; vring).
  replace (ssub p2 c) with (sscale (1 - s) (ssub p2 p1)) by (unfold c, slerp; vring).
  rewrite !snorm_scale, !Rabs_right by lra.
  set (x := scross _ _) in *. set (n := snorm x) in *.
  set (u1 := sunit _). set (u2 := sunit _). set (uc := sunit _). set (r := ssub p2 p1).
  clearbody n u1 u2 uc r. destruct x as [x0 x1 x2], u1 as [a b c'], u2 as [d e f], uc as [h i j], r as [r0 r1 r2].
  svec. vec_eq; field; repeat split; lra.
Qed.
