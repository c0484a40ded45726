(** Properties C29 - C35: velocities induced by vortex lines. *)

From Coq Require Import ZArith Reals List Bool Lra Psatz Lia.
From Coquelicot Require Import Coquelicot.
From Verif Require Import Num PyBase RNum CNum Spec M_Velocity L_List L_Rot L_Mesh L_Vel L_Vel2 L_Biot.
Import ListNotations.
Open Scope R_scope.

(** ** C29.  The first part is the Biot-Savart law itself, as an integral over the segment. *)
Theorem C29_biot_savart :
  (forall p p1 p2 g, ~ in_core p p1 p2 ->
     is_RInt (fun t => g / (4 * PI) * vx (biot_integrand p p1 p2 t)) 0 1 (vx (vortex_line p p1 p2 g)) /\
     is_RInt (fun t => g / (4 * PI) * vy (biot_integrand p p1 p2 t)) 0 1 (vy (vortex_line p p1 p2 g)) /\
     is_RInt (fun t => g / (4 * PI) * vz (biot_integrand p p1 p2 t)) 0 1 (vz (vortex_line p p1 p2 g)) /\
     vortex_line p p1 p2 g = biot_savart p p1 p2 g) /\
  (forall p p1 p2 g, in_core p p1 p2 -> vortex_line p p1 p2 g = szero) /\
  (forall p p1 p2 g s, p = sadd p1 (sscale s (ssub p2 p1)) -> vortex_line p p1 p2 g = szero) /\
  (forall p p1 p2 g h k, vortex_line p p1 p2 (h * g + k) = sadd (sscale h (vortex_line p p1 p2 g)) (vortex_line p p1 p2 k)) /\
  (forall p p1 p2 g, vortex_line p p2 p1 g = sopp (vortex_line p p1 p2 g)) /\
  (forall p p1 p2 g, sdot (vortex_line p p1 p2 g) (ssub p p1) = 0 /\ sdot (vortex_line p p1 p2 g) (ssub p2 p1) = 0).
Proof.
  split; [|split; [|split; [|split; [|split]]]].
  - intros p p1 p2 g C. rewrite vortex_line_out by assumption. destruct (out_nonzero _ _ _ C) as (P1 & P2 & PX).
    replace (scross (ssub p p1) (ssub p p2)) with (scross (ssub p2 p1) (ssub p p1)) in PX by vring.
    split; [|split; [|split; [|reflexivity]]]; apply biot_component; try assumption; intros; destruct u; reflexivity.
  - intros. apply vortex_line_core; assumption.
  - intros p p1 p2 g s E. apply vortex_line_core, on_line_core. exists s; exact E.
  - intros. replace (h * g + k) with ((h * g + k) * 1) by ring. rewrite <- (Rmult_1_r g) at 2. rewrite <- (Rmult_1_r k) at 2.
    rewrite !(vortex_line_linear p p1 p2 _ 1). generalize (vortex_line p p1 p2 1). intros v. vring.
  - intros; apply vortex_line_rev.
  - intros p p1 p2 g. destruct (vortex_line_orth p p1 p2 g) as [O1 O2]. split; [exact O1|].
    replace (ssub p2 p1) with (ssub (ssub p p1) (ssub p p2)) by vring.
    replace (sdot (vortex_line p p1 p2 g) (ssub (ssub p p1) (ssub p p2)))
      with (sdot (vortex_line p p1 p2 g) (ssub p p1) - sdot (vortex_line p p1 p2 g) (ssub p p2)); [lra|].
    destruct (vortex_line p p1 p2 g), p, p1, p2; svec; ring.
Qed.
(* a point at distance 3 from the end of a segment of length 4: the 3-4-5 triangle *)
Lemma case_345 : snorm (V3 0 3 0) = 3 /\ snorm (V3 (-4) 3 0) = 5 /\ snorm (V3 4 0 0) = 4 /\ snorm (V3 0 0 12) = 12.
Proof.
  unfold snorm; simpl. repeat split; match goal with |- sqrt ?a = ?b => replace a with (b * b) by ring; apply sqrt_square; lra end.
Qed.
Lemma case_345_out : ~ in_core (V3 0 3 0) (V3 0 0 0) (V3 4 0 0).
Proof.
  destruct case_345 as (A & B & _ & D).
  unfold in_core. replace (ssub (V3 0 3 0) (V3 0 0 0)) with (V3 0 3 0) by (svec; vec_eq; ring).
  replace (ssub (V3 0 3 0) (V3 4 0 0)) with (V3 (-4) 3 0) by (svec; vec_eq; ring).
  replace (scross (V3 0 3 0) (V3 (-4) 3 0)) with (V3 0 0 12) by (svec; vec_eq; ring).
  rewrite A, B, D. intros [H|[H|H]]; lra.
Qed.
Example C29_case : vortex_line (V3 0 3 0) (V3 0 0 0) (V3 4 0 0) (60 * PI) = V3 0 0 4.
Proof.
  destruct case_345 as (A & B & _ & D). pose proof PI_RGT_0.
  rewrite vortex_line_out by apply case_345_out. unfold biot_savart, sunit.
  replace (ssub (V3 0 3 0) (V3 0 0 0)) with (V3 0 3 0) by (svec; vec_eq; ring).
  replace (ssub (V3 0 3 0) (V3 4 0 0)) with (V3 (-4) 3 0) by (svec; vec_eq; ring).
  replace (scross (V3 0 3 0) (V3 (-4) 3 0)) with (V3 0 0 12) by (svec; vec_eq; ring).
  rewrite A, B, D. svec; vec_eq; field; lra.
Qed.
Print Assumptions C29_biot_savart.

(** ** C30.  On checked real numbers (division by zero is undefined, [CNum.v]) the result of
    [vortex_line] is defined for all defined inputs, degenerate segments included, and it is the
    result on real numbers.  It is bounded by the velocity of an infinite line vortex. *)
Theorem C30_vortex_line_finite :
  (forall p p1 p2 g, vortex_line (fin p) (fin p1) (fin p2) (Some g) = fin (vortex_line p p1 p2 g)) /\
  (forall p p1 p2 g d, 0 < d ->
     (* d is at most the distance of p from every point of the line through p1 and p2 *)
     (forall s, d <= sdist p (sadd p1 (sscale s (ssub p2 p1)))) ->
     snorm (vortex_line p p1 p2 g) <= Rabs g / (2 * PI * d)).
Proof.
  split.
  - intros p p1 p2 g.
    assert (CE : is_in_vortex_core (vsub (fin p) (fin p1)) (vsub (fin p) (fin p2))
              (nmul (vnorm (vcross (vsub (fin p) (fin p1)) (vsub (fin p) (fin p2)))) (vnorm (vcross (vsub (fin p) (fin p1)) (vsub (fin p) (fin p2)))))
            = is_in_vortex_core (vsub p p1) (vsub p p2)
              (nmul (vnorm (vcross (vsub p p1) (vsub p p2))) (vnorm (vcross (vsub p p1) (vsub p p2))))).
    { unfold is_in_vortex_core, core_eps. rewrite !fin_sub, !fin_cross, !fin_norm, some_dec by lia. reflexivity. }
    unfold vortex_line. cbv zeta. rewrite CE. destruct (is_in_vortex_core (vsub p p1) _ _) eqn:C; [reflexivity|].
    assert (NC : ~ in_core p p1 p2).
    { intros I. apply core_spec in I. cbv zeta in I. rewrite I in C. discriminate. }
    destruct (out_nonzero _ _ _ NC) as (P1 & P2 & PX).
    rewrite !fin_sub, !fin_cross, !fin_norm. rewrite !some_mul.
    rewrite !fin_divs by (rewrite vnorm_s; tospec; try apply Rgt_not_eq; try apply Rmult_lt_0_compat; assumption).
    rewrite fin_sub, fin_dot, fin_scale.
    change (@nmul (option R) CNum (nZ 4) npi) with (Some (4 * PI)). pose proof PI_RGT_0. rewrite some_div by lra. rewrite fin_scale. reflexivity.
  - intros p p1 p2 g d D H. apply vortex_line_bound; [assumption|].
    set (e := ssub p2 p1) in *. destruct (Req_dec (snorm e) 0) as [Z|Z].
    { rewrite Z. pose proof (snorm_nonneg (scross e (ssub p p1))). lra. }
    assert (N : 0 < snorm e) by (pose proof (snorm_nonneg e); lra).
    (* the foot of the perpendicular *)
    set (q := ssub p p1) in *. specialize (H (sdot e q / sdot e e)). unfold sdist in H.
    replace (ssub p (sadd p1 (sscale (sdot e q / sdot e e) e))) with (ssub q (sscale (sdot e q / sdot e e) e)) in H by (unfold q; generalize (sdot e (ssub p p1) / sdot e e); vring).
    set (f := ssub q _) in *.
    assert (E0 : sdot e e <> 0) by (rewrite <- snorm_sq; nra).
    assert (FE : sdot e f = 0).
    { unfold f. replace (sdot e (ssub q (sscale (sdot e q / sdot e e) e))) with (sdot e q - sdot e q / sdot e e * sdot e e)
        by (generalize (sdot e q / sdot e e); intros; destruct e, q; svec; ring). field. assumption. }
    assert (X : scross e q = scross e f).
    { unfold f. generalize (sdot e q / sdot e e). intros k. clearbody e q. vring. }
    rewrite X. pose proof (lagrange e f) as L. rewrite FE in L.
    rewrite <- !snorm_sq in L.
    assert (snorm (scross e f) = snorm e * snorm f).
    { pose proof (snorm_nonneg (scross e f)). pose proof (snorm_nonneg f).
      apply Rsqr_inj; [assumption | nra | unfold Rsqr; nra]. }
    rewrite H0. nra.
Qed.
Example C30_case :
  vortex_line (fin (V3 1 0 0)) (fin (V3 0 0 0)) (fin (V3 2 0 0)) (Some 7) = fin szero /\
  vortex_line (fin (V3 1 0 0)) (fin (V3 1 0 0)) (fin (V3 1 0 0)) (Some 7) = fin szero /\
  (forall s, 3 <= sdist (V3 0 3 0) (sadd (V3 0 0 0) (sscale s (ssub (V3 4 0 0) (V3 0 0 0))))).
Proof.
  rewrite !(proj1 C30_vortex_line_finite). split; [|split].
  - f_equal. apply (proj1 (proj2 (proj2 C29_biot_savart))) with (s := 1/2). svec; vec_eq; field.
  - f_equal. apply (proj1 (proj2 (proj2 C29_biot_savart))) with (s := 0). svec; vec_eq; field.
  - intros s. unfold sdist, snorm. rewrite <- (sqrt_square 3) at 1 by lra. apply sqrt_le_1_alt. svec. nra.
Qed.
Print Assumptions C30_vortex_line_finite.

(** ** C31 *)
Theorem C31_split_segment : forall p p1 p2 s g, 0 < s < 1 ->
  let c := slerp p1 p2 s in
  ~ in_core p p1 p2 -> ~ in_core p p1 c -> ~ in_core p c p2 ->
  vortex_line p p1 p2 g = sadd (vortex_line p p1 c g) (vortex_line p c p2 g).
Proof. intros p p1 p2 s g S c C0 C1 C2. apply vortex_line_split; assumption. Qed.
Example C31_case : let c := slerp (V3 0 0 0) (V3 4 0 0) (1/2) in
  ~ in_core (V3 0 3 0) (V3 0 0 0) (V3 4 0 0) /\ ~ in_core (V3 0 3 0) (V3 0 0 0) c /\ ~ in_core (V3 0 3 0) c (V3 4 0 0).
Proof.
  assert (S : forall x y z k, 0 <= k -> k * k <= x ^ 2 + y ^ 2 + z ^ 2 -> k <= snorm (V3 x y z)).
  { intros x y z k K H. unfold snorm. simpl vx; simpl vy; simpl vz. rewrite <- (sqrt_square k) by assumption. apply sqrt_le_1_alt. exact H. }
  split; [apply case_345_out|].
  replace (slerp (V3 0 0 0) (V3 4 0 0) (1/2)) with (V3 2 0 0) by (unfold slerp; svec; vec_eq; field).
  split; unfold in_core.
  - replace (ssub (V3 0 3 0) (V3 0 0 0)) with (V3 0 3 0) by (svec; vec_eq; ring).
    replace (ssub (V3 0 3 0) (V3 2 0 0)) with (V3 (-2) 3 0) by (svec; vec_eq; ring).
    replace (scross (V3 0 3 0) (V3 (-2) 3 0)) with (V3 0 0 6) by (svec; vec_eq; ring).
    assert (A := S 0 3 0 1 ltac:(lra) ltac:(lra)). assert (B := S (-2) 3 0 1 ltac:(lra) ltac:(lra)). assert (C := S 0 0 6 1 ltac:(lra) ltac:(lra)).
    assert (SQ : 1 <= snorm (V3 0 0 6) ^ 2) by nra. intros [H|[H|H]]; lra.
  - replace (ssub (V3 0 3 0) (V3 4 0 0)) with (V3 (-4) 3 0) by (svec; vec_eq; ring).
    replace (ssub (V3 0 3 0) (V3 2 0 0)) with (V3 (-2) 3 0) by (svec; vec_eq; ring).
    replace (scross (V3 (-2) 3 0) (V3 (-4) 3 0)) with (V3 0 0 6) by (svec; vec_eq; ring).
    assert (A := S (-4) 3 0 1 ltac:(lra) ltac:(lra)). assert (B := S (-2) 3 0 1 ltac:(lra) ltac:(lra)). assert (C := S 0 0 6 1 ltac:(lra) ltac:(lra)).
    assert (SQ : 1 <= snorm (V3 0 0 6) ^ 2) by nra. intros [H|[H|H]]; lra.
Qed.
Print Assumptions C31_split_segment.

(** ** C32.  [L] is the linear part of the motion, [t] its translation.  Mirroring in the water plane reverses the velocity. *)
Theorem C32_frame_independence :
  (forall (L : vec R -> vec R) (t : vec R), rotation_map L ->
     let T p := sadd (L p) t in
     (forall p a b g, vortex_line (T p) (T a) (T b) g = L (vortex_line p a b g)) /\
     (forall p a r g, vortex_infinite_line (T p) (T a) (L r) g = L (vortex_infinite_line p a r g)) /\
     (forall p a b c d g, vortex_ring (T p) (T a) (T b) (T c) (T d) g = L (vortex_ring p a b c d g)) /\
     (forall p b c v g, vortex_horseshoe (T p) (T b) (T c) (L v) g = L (vortex_horseshoe p b c v g)) /\
     (forall p a b c d v g, vortex_horseshoe_v2 (T p) (T a) (T b) (T c) (T d) (L v) g = L (vortex_horseshoe_v2 p a b c d v g))) /\
  (let M := smirror in
     (forall p a b g, vortex_line (M p) (M a) (M b) g = sopp (M (vortex_line p a b g))) /\
     (forall p a r g, vortex_infinite_line (M p) (M a) (M r) g = sopp (M (vortex_infinite_line p a r g))) /\
     (forall p a b c d g, vortex_ring (M p) (M a) (M b) (M c) (M d) g = sopp (M (vortex_ring p a b c d g))) /\
     (forall p b c v g, vortex_horseshoe (M p) (M b) (M c) (M v) g = sopp (M (vortex_horseshoe p b c v g))) /\
     (forall p a b c d v g, vortex_horseshoe_v2 (M p) (M a) (M b) (M c) (M d) (M v) g = sopp (M (vortex_horseshoe_v2 p a b c d v g)))).
Proof.
  split.
  - intros L t RM T. pose proof (iso_rotation L RM) as I.
    assert (S1 : forall v, sscale 1 v = v) by vring.
    repeat split; intros; unfold T; change (sadd (L ?x) t) with (motion L t x).
    + rewrite (line_motion 1 L I) by lra. apply S1.
    + rewrite (inf_motion 1 L I) by lra. apply S1.
    + rewrite (ring_motion 1 L I) by lra. apply S1.
    + rewrite (horseshoe_motion 1 L I) by lra. apply S1.
    + rewrite (horseshoe2_motion 1 L I) by lra. apply S1.
  - intros M. assert (S1 : forall v, sscale (-1) v = sopp v) by vring.
    assert (E : forall x, M x = motion smirror szero x) by (intros x; unfold M, motion; destruct x; svec; vec_eq; ring).
    repeat split; intros.
    + rewrite !(E p), !(E a), !(E b). rewrite (line_motion (-1) smirror iso_mirror) by lra. apply S1.
    + rewrite !(E p), !(E a). rewrite (inf_motion (-1) smirror iso_mirror) by lra. apply S1.
    + rewrite !(E p), !(E a), !(E b), !(E c), !(E d). rewrite (ring_motion (-1) smirror iso_mirror) by lra. apply S1.
    + rewrite !(E p), !(E b), !(E c). rewrite (horseshoe_motion (-1) smirror iso_mirror) by lra. apply S1.
    + rewrite !(E p), !(E a), !(E b), !(E c), !(E d). rewrite (horseshoe2_motion (-1) smirror iso_mirror) by lra. apply S1.
Qed.
(* the 3-4-5 case rotated by a quarter turn about x and moved *)
Example C32_case : vortex_line (V3 1 1 4) (V3 1 1 1) (V3 5 1 1) (60 * PI) = V3 0 (-4) 0.
Proof.
  set (L := fun v : vec R => V3 (vx v) (- vz v) (vy v)).
  assert (RM : rotation_map L) by (constructor; intros; destruct a; try destruct b; unfold L; svec; try vec_eq; ring).
  pose proof (proj1 (proj1 C32_frame_independence L (V3 1 1 1) RM) (V3 0 3 0) (V3 0 0 0) (V3 4 0 0) (60 * PI)) as E.
  rewrite C29_case in E. unfold L in E. svec.
  replace (V3 1 1 4) with (V3 (0 + 1) (- 0 + 1) (3 + 1)) by (vec_eq; ring).
  replace (V3 1 1 1) with (V3 (0 + 1) (- 0 + 1) (0 + 1)) by (vec_eq; ring).
  replace (V3 5 1 1) with (V3 (4 + 1) (- 0 + 1) (0 + 1)) by (vec_eq; ring). rewrite E. reflexivity.
Qed.
Print Assumptions C32_frame_independence.

(** ** C33 *)
Theorem C33_semi_infinite_limit : forall (p a r0 : vec R) (g : R), r0 <> szero -> ~ on_line a r0 p ->
  (* the point is outside the core of the origin *)
  (/ 10 ^ 8 <= sdist p a ->
   tends_to (fun t => vortex_line p a (sadd a (sscale t r0)) g) (vortex_infinite_line p a r0 g)) /\
  (forall s, 0 < s -> let b := sadd a (sscale s r0) in ~ in_core p a b ->
   ssub (vortex_infinite_line p a r0 g) (vortex_infinite_line p b r0 g) = vortex_line p a b g).
Proof.
  intros p a r0 g H O. split.
  - intros C. apply segment_limit; assumption.
  - intros s S b C. symmetry. apply segment_of_halves; assumption.
Qed.
Example C33_case : vortex_infinite_line (V3 0 3 0) (V3 0 0 0) (V3 2 0 0) (12 * PI) = V3 0 0 1 /\
  ~ on_line (V3 0 0 0) (V3 2 0 0) (V3 0 3 0) /\ / 10 ^ 8 <= sdist (V3 0 3 0) (V3 0 0 0) /\ ~ in_core (V3 0 3 0) (V3 0 0 0) (sadd (V3 0 0 0) (sscale 2 (V3 2 0 0))).
Proof.
  destruct case_345 as (A & _). pose proof PI_RGT_0.
  assert (N2 : snorm (V3 2 0 0) = 2) by (unfold snorm; simpl; replace (2 * (2 * 1) + 0 * (0 * 1) + 0 * (0 * 1)) with (2 * 2) by ring; apply sqrt_square; lra).
  assert (E : ssub (V3 0 3 0) (V3 0 0 0) = V3 0 3 0) by (svec; vec_eq; ring).
  repeat split.
  - unfold vortex_infinite_line. cbv zeta. tospec. rewrite E, A, N2. rnum. svec. vec_eq; field; lra.
  - intros [s S]. svec. injection S. intros. lra.
  - unfold sdist. rewrite E, A. lra.
  - replace (sadd (V3 0 0 0) (sscale 2 (V3 2 0 0))) with (V3 4 0 0) by (svec; vec_eq; ring). apply case_345_out.
Qed.
Print Assumptions C33_semi_infinite_limit.

(** ** C34.  The panel's ring and a wake ring behind its downstream edge AD, of length t along the wind. *)
Theorem C34_horseshoe_is_a_ring_closed_at_infinity :
  (forall p a b c d v g, v <> szero -> ~ on_line a v p -> ~ on_line d v p ->
     / 10 ^ 8 <= sdist p a -> / 10 ^ 8 <= sdist p d ->
     tends_to (fun t => sadd (vortex_ring p a b c d g) (vortex_ring p (sadd a (sscale t v)) a d (sadd d (sscale t v)) g))
              (vortex_horseshoe_v2 p a b c d v g)) /\
  (forall p b c v g, v <> szero -> ~ on_line b v p -> ~ on_line c v p ->
     / 10 ^ 8 <= sdist p b -> / 10 ^ 8 <= sdist p c ->
     tends_to (fun t => vortex_ring p (sadd b (sscale t v)) b c (sadd c (sscale t v)) g) (vortex_horseshoe p b c v g)) /\
  (forall (p b c v : vec R) g, vortex_horseshoe p b c v g = vortex_horseshoe_v2 p b b c c v g) /\
  (forall p a b c d g, vortex_ring p d c b a g = sopp (vortex_ring p a b c d g)) /\
  (forall p a b c d v g, vortex_horseshoe_v2 p d c b a v g = sopp (vortex_horseshoe_v2 p a b c d v g)).
Proof.
  split; [|split; [|split; [|split]]].
  - intros. apply horseshoe2_limit; assumption.
  - intros p b c v g H O1 O2 C1 C2. rewrite horseshoe_is_v2.
    eapply tends_ext; [|apply (horseshoe2_limit p b b c c v g H O1 O2 C1 C2)]. intros t. cbv beta.
    replace (vortex_ring p b b c c g) with szero.
    + generalize (vortex_ring p (sadd b (sscale t v)) b c (sadd c (sscale t v)) g). vring.
    + unfold vortex_ring. cbv zeta. rewrite !line_point, (vortex_line_rev p b c). generalize (vortex_line p b c g). vring.
  - intros; apply horseshoe_is_v2.
  - intros; apply ring_reversed.
  - intros; apply horseshoe2_reversed.
Qed.
Example C34_case : let p := V3 0 0 3 in let a := V3 1 0 0 in let d := V3 1 1 0 in let v := V3 2 0 0 in
  v <> szero /\ ~ on_line a v p /\ ~ on_line d v p /\ / 10 ^ 8 <= sdist p a /\ / 10 ^ 8 <= sdist p d.
Proof.
  assert (S : forall u w, 1 <= sdot (ssub u w) (ssub u w) -> / 10 ^ 8 <= sdist u w).
  { intros u w H. unfold sdist. rewrite snorm_sqrt. apply Rle_trans with (sqrt 1); [rewrite sqrt_1; lra | apply sqrt_le_1_alt; exact H]. }
  cbv zeta. repeat split.
  - unfold szero. intros E; injection E; lra.
  - intros [s E]. svec. injection E; lra.
  - intros [s E]. svec. injection E; lra.
  - apply S. svec. lra.
  - apply S. svec. lra.
Qed.
Print Assumptions C34_horseshoe_is_a_ring_closed_at_infinity.

(** ** C35 *)
Theorem C35_wake_singularity : forall (p a r0 : vec R) (g : R), r0 <> szero ->
  (on_half_line a r0 p -> vortex_infinite_line (fin p) (fin a) (fin r0) (Some g) = undef) /\
  (~ on_half_line a r0 p -> vortex_infinite_line (fin p) (fin a) (fin r0) (Some g) = fin (vortex_infinite_line p a r0 g)).
Proof.
  intros p a r0 g H. pose proof (inf_denominator p a r0 H) as D. pose proof (snorm_pos _ H) as N.
  assert (E : vortex_infinite_line (fin p) (fin a) (fin r0) (Some g) =
    vscale (Some (g / (4 * PI))) (vdivs (fin (vcross (vdivs r0 (vnorm r0)) (vsub p a)))
      (Some (vnorm (vsub p a) * (vnorm (vsub p a) - vdot (vdivs r0 (vnorm r0)) (vsub p a)))))).
  { unfold vortex_infinite_line. cbv zeta. rewrite fin_norm, fin_divs by (rewrite vnorm_s; lra).
    rewrite fin_sub, fin_cross, fin_norm, fin_dot. change (@nmul (option R) CNum (nZ 4) npi) with (Some (4 * PI)).
    pose proof PI_RGT_0. rewrite some_div by lra. reflexivity. }
  split; intros Q.
  - apply D in Q. rewrite E. revert Q. unfold sunit. tospec. intros ->. rewrite fin_divs0. apply undef_scale.
  - rewrite E. rewrite fin_divs; [rewrite fin_scale; reflexivity|].
    intros Z. apply Q, D. revert Z. unfold sunit. tospec. intros ->. reflexivity.
Qed.
(* the claim that it is finite everywhere is false: a point one unit downstream of the origin *)
Theorem C35_finite_everywhere_refuted : exists p a r0 g,
  r0 <> szero /\ p <> a /\ vortex_infinite_line (fin p) (fin a) (fin r0) (Some g) = undef.
Proof.
  exists (V3 3 0 0), (V3 2 0 0), (V3 1 0 0), 1. split; [intros E; injection E; lra|]. split; [intros E; injection E; lra|].
  apply C35_wake_singularity; [intros E; injection E; lra|]. exists 1. split; [lra|]. svec; vec_eq; ring.
Qed.
Example C35_case : ~ on_half_line (V3 2 0 0) (V3 1 0 0) (V3 1 0 0) /\
  vortex_infinite_line (fin (V3 1 0 0)) (fin (V3 2 0 0)) (fin (V3 1 0 0)) (Some 1) = fin (vortex_infinite_line (V3 1 0 0) (V3 2 0 0) (V3 1 0 0) 1).
Proof.
  assert (H : ~ on_half_line (V3 2 0 0) (V3 1 0 0) (V3 1 0 0)) by (intros [s [S E]]; svec; injection E; lra).
  split; [exact H|]. apply C35_wake_singularity; [intros E; injection E; lra | exact H].
Qed.
Print Assumptions C35_wake_singularity.
