(** The Biot-Savart integral over a straight segment. *)

From Coq Require Import ZArith Reals List Bool Lra Psatz Lia.
From Coquelicot Require Import Coquelicot.
From Verif Require Import Num PyBase RNum Spec L_Rot L_Vel.
Open Scope R_scope.

Section Kernel.
Context (a b c : R) (W : 0 < a * c - b * b) (A : 0 < a).
Definition quad (t : R) := c - 2 * b * t + a * t * t.
Lemma quad_pos t : 0 < quad t.
Proof. unfold quad. pose proof (Rle_0_sqr (a * t - b)) as S. unfold Rsqr in S. nra. Qed.
Definition prim (t : R) := - (b - a * t) / (sqrt (quad t) * (a * c - b * b)).
Lemma prim_derive t : is_derive prim t (/ (sqrt (quad t) ^ 3)).
Proof.
  pose proof (quad_pos t) as P. pose proof (sqrt_lt_R0 _ P) as S.
  unfold prim, quad. auto_derive.
  - replace (c + - (2 * b * t) + a * t * t) with (quad t) by (unfold quad; ring).
    split; [exact P|]. split; [|exact I]. assert (0 < sqrt (quad t) * (a * c - b * b)) by (apply Rmult_lt_0_compat; assumption). lra.
  - replace (c + - (2 * b * t) + a * t * t) with (quad t) by (unfold quad; ring).
    fold (quad t). pose proof (sqrt_sqrt (quad t) ltac:(lra)) as E. set (s := sqrt (quad t)) in *.
    assert (E' : s * s = c - 2 * b * t + a * t * t) by (rewrite E; reflexivity). clearbody s.
    apply (Rmult_eq_reg_r (2 * s ^ 3 * (a * c - b * b))).
    2:{ assert (0 < s ^ 3) by (apply pow_lt; assumption). assert (0 < s ^ 3 * (a * c - b * b)) by (apply Rmult_lt_0_compat; assumption). lra. }
    field_simplify; [|lra|repeat split; lra].
    replace (s ^ 2) with (s * s) by ring. rewrite E'. field. lra.
Qed.
Lemma kernel_continuous t : continuous (fun t => / (sqrt (quad t) ^ 3)) t.
Proof.
  pose proof (quad_pos t) as P. pose proof (sqrt_lt_R0 _ P) as S.
  apply (ex_derive_continuous (V := R_NormedModule)). unfold quad. auto_derive.
  replace (c + - (2 * b * t) + a * t * t) with (quad t) by (unfold quad; ring).
  split; [exact P|]. split; [|exact I].
  assert (0 < sqrt (quad t) ^ 3) by (apply pow_lt; assumption). simpl in H. lra.
Qed.
Lemma kernel_integral : is_RInt (fun t => / (sqrt (quad t) ^ 3)) 0 1 (prim 1 - prim 0).
Proof.
  apply (is_RInt_derive (V := R_CompleteNormedModule) prim (fun t => / (sqrt (quad t) ^ 3)));
    intros; [apply prim_derive | apply kernel_continuous].
Qed.
End Kernel.

Lemma biot_component p p1 p2 g (f : vec R -> R) :
  (forall k u, f (sscale k u) = k * f u) ->

  0 < snorm (ssub p p1) -> 0 < snorm (ssub p p2) -> 0 < snorm (scross (ssub p2 p1) (ssub p p1)) ->
  is_RInt (fun t => g / (4 * PI) * f (biot_integrand p p1 p2 t)) 0 1 (f (biot_savart p p1 p2 g)).
Proof.
  intros L N1 N2 NX. pose proof PI_RGT_0 as PI0.
  set (r0 := ssub p2 p1) in *. set (r1 := ssub p p1) in *. set (r2 := ssub p p2) in *.
  set (a := sdot r0 r0). set (b := sdot r0 r1). set (c := sdot r1 r1).
  set (x := scross r0 r1) in *.
  assert (W : a * c - b * b = snorm x * snorm x) by (unfold a, b, c, x; rewrite snorm_sq; apply lagrange).
  assert (W0 : 0 < a * c - b * b) by (rewrite W; apply Rmult_lt_0_compat; assumption).
  assert (A : 0 < a). { pose proof (sdot_self_nonneg r0) as S0. fold a in S0. destruct S0 as [|Z]; [assumption|]. rewrite <- Z in W0. nra. }
  assert (Q : forall t, sdot (ssub p (slerp p1 p2 t)) (ssub p (slerp p1 p2 t)) = quad a b c t).
  { intros t. unfold quad, a, b, c, r0, r1, slerp. destruct p, p1, p2; svec; ring. }
  assert (Q0 : sqrt (quad a b c 0) = snorm r1).
  { rewrite snorm_sqrt, <- Q. do 2 f_equal; unfold slerp, r1; vring. }
  assert (Q1 : sqrt (quad a b c 1) = snorm r2).
  { rewrite snorm_sqrt, <- Q. do 2 f_equal; unfold slerp, r2; vring. }
  assert (E : forall t, g / (4 * PI) * f (biot_integrand p p1 p2 t) = (g / (4 * PI) * f x) * / (sqrt (quad a b c t) ^ 3)).
  { intros t. unfold biot_integrand. rewrite L, snorm_sqrt, Q.
    replace (scross (ssub p2 p1) (ssub p (slerp p1 p2 t))) with x by (unfold x, r0, r1, slerp; vring). ring. }
  apply (is_RInt_ext (fun t => scal (g / (4 * PI) * f x) (/ (sqrt (quad a b c t) ^ 3)))).
  { intros t _. symmetry. apply E. }
  replace (f (biot_savart p p1 p2 g)) with (scal (g / (4 * PI) * f x) (prim a b c 1 - prim a b c 0)).
  - apply (is_RInt_scal (V := R_NormedModule)), kernel_integral; assumption.
  - unfold biot_savart. rewrite L. fold r0 r1 r2.
    replace (scross r1 r2) with x by (unfold x, r0, r1, r2; vring).
    unfold scal; simpl; unfold mult; simpl. unfold prim. rewrite Q0, Q1, W. unfold sunit.
    set (n1 := snorm r1) in *. set (n2 := snorm r2) in *. set (w := snorm x) in *.
    replace (sdot r0 (ssub (sscale (/ n1) r1) (sscale (/ n2) r2))) with (/ n1 * b - / n2 * (b - a)).
    2:{ unfold a, b, r0, r1, r2. clearbody n1 n2. destruct p, p1, p2; svec; ring. }
    clearbody n1 n2 w. field. repeat split; try lra.
Qed.
