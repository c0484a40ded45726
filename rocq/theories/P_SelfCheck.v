(** Property C79: the self checks of the coordinate system never fail, and a wrong matrix does not pass them. *)

From Coq Require Import ZArith Reals List Bool Lra Lia Psatz Nsatz.
From Verif Require Import Num PyBase RNum Spec M_Rotations M_Csys M_Sail M_SelfCheck L_Rot L_Csys P_Rot2.
Import ListNotations.
Open Scope R_scope.

(** Two vectors agree within [e] in every coordinate; a matrix agrees with a linear map within [e] in every entry. *)
Definition within (e : R) (a b : vec R) : Prop :=
  Rabs (vx a - vx b) < e /\ Rabs (vy a - vy b) < e /\ Rabs (vz a - vz b) < e.
Definition entries_within (e : R) (m : mat R) (f : vec R -> vec R) : Prop :=
  forall v, In v [V3 1 0 0; V3 0 1 0; V3 0 0 1] -> within e (mapply m v) (f v).

(** The Taylor polynomial of scipy. *)
Lemma sin_taylor y : 0 <= y <= 5 / 10000 -> Rabs (y - y ^ 3 / 6 + y ^ 5 / 120 - sin y) <= / 10 ^ 26.
Proof.
  intros Y. destruct (pre_sin_bound y 0) as [_ U]; try lra. destruct (pre_sin_bound y 1) as [L _]; try lra.
  unfold sin_approx, sin_term in *. cbn [sum_f_R0 Nat.mul Nat.add fact pow INR] in *.
  assert (P : 0 <= y ^ 7 / 5040 <= / 10 ^ 26).
  { assert (0 <= y ^ 7 <= (5 / 10000) ^ 7) by (split; [apply pow_le; lra | apply pow_incr; lra]). lra. }
  apply Rabs_le. lra.
Qed.

(** The quaternion matrix with the sine of the half angle [s] and its cosine [w]. *)
Definition qmat (u : vec R) (s w : R) : mat R :=
  let x := s * vx u in let y := s * vy u in let z := s * vz u in
  M3 (V3 (x * x - y * y - z * z + w * w) (2 * (x * y - z * w)) (2 * (x * z + y * w)))
     (V3 (2 * (x * y + z * w)) (- (x * x) + y * y - z * z + w * w) (2 * (y * z - x * w)))
     (V3 (2 * (x * z - y * w)) (2 * (y * z + x * w)) (- (x * x) - y * y + z * z + w * w)).
Lemma qmat_rot u th v : sdot u u = 1 -> mapply (qmat u (sin (th / 2)) (cos (th / 2))) v = srot u th v.
Proof.
  intros U. destruct u as [a b c]. destruct v as [x y z]. unfold srot, qmat. rewrite (half_cos th), (half_sin th).
  pose proof (sincos1 (th/2)) as S1. vnum; svec.
  set (C := cos (th/2)) in *; set (D := sin (th/2)) in *; clearbody C D. clear th.
  vec_eq; nsatz.
Qed.
Lemma prod_small a b d e : Rabs a <= 1 -> Rabs b <= d -> d <= e -> Rabs (a * b) <= e.
Proof. intros A B D. rewrite Rabs_mult. pose proof (Rabs_pos a). pose proof (Rabs_pos b). nra. Qed.
Lemma qmat_near u s s' w e : sdot u u = 1 -> s * s + w * w = 1 -> Rabs (s' - s) <= e -> e <= 1 / 10 ->
  entries_within (8 * e + / 10 ^ 30) (qmat u s' w) (mapply (qmat u s w)).
Proof.
  intros U SW D E. destruct u as [a b c]. unfold sdot in U. cbn [vx vy vz] in U.
  assert (E0 : 0 <= e) by (eapply Rle_trans; [apply Rabs_pos | exact D]).
  assert (S1 : Rabs s <= 1) by (apply Rabs_le; nra). assert (W1 : Rabs w <= 1) by (apply Rabs_le; nra).
  set (d := s' - s) in *. assert (Es : s' = s + d) by (unfold d; ring). clearbody d. subst s'.
  set (q := 2 * s * d + d * d).
  assert (Q : Rabs q <= 3 * e).
  { unfold q. eapply Rle_trans; [apply Rabs_triang|]. rewrite !Rabs_mult, (Rabs_pos_eq 2) by lra. pose proof (Rabs_pos s). pose proof (Rabs_pos d). nra. }
  assert (X : forall k, Rabs k <= 1 -> Rabs (k * q) <= 3 * e) by (intros k K; eapply prod_small; [exact K | exact Q | lra]).
  assert (Y : forall k, Rabs k <= 1 -> Rabs (k * d) <= e) by (intros k K; eapply prod_small; [exact K | exact D | lra]).
  assert (T : 0 < / 10 ^ 30) by lra.
  assert (Dg : forall k, Rabs k <= 1 -> Rabs (k * q) < 8 * e + / 10 ^ 30) by (intros k K; specialize (X k K); lra).
  assert (Of : forall k l, Rabs k <= 1 -> Rabs l <= 1 -> Rabs (2 * (k * q + l * d)) < 8 * e + / 10 ^ 30).
  { intros k l K L. rewrite Rabs_mult, (Rabs_pos_eq 2) by lra. pose proof (Rabs_triang (k * q) (l * d)). specialize (X k K). specialize (Y l L). lra. }
  assert (P : forall k, k * k <= 1 -> Rabs k <= 1) by (intros; apply Rabs_le; nra).
  assert (WW : w * w <= 1) by nra.
  intros v [<-|[<-|[<-|[]]]]; unfold within, qmat; vnum; repeat split.
  - replace (_ - _) with ((a * a - b * b - c * c) * q) by (unfold q; ring). apply Dg, Rabs_le. nra.
  - replace (_ - _) with (2 * (a * b * q + c * w * d)) by (unfold q; ring). apply Of; apply P; nra.
  - replace (_ - _) with (2 * (a * c * q + (- (b * w)) * d)) by (unfold q; ring). apply Of; apply P; nra.
  - replace (_ - _) with (2 * (a * b * q + (- (c * w)) * d)) by (unfold q; ring). apply Of; apply P; nra.
  - replace (_ - _) with ((- (a * a) + b * b - c * c) * q) by (unfold q; ring). apply Dg, Rabs_le. nra.
  - replace (_ - _) with (2 * (b * c * q + a * w * d)) by (unfold q; ring). apply Of; apply P; nra.
  - replace (_ - _) with (2 * (a * c * q + b * w * d)) by (unfold q; ring). apply Of; apply P; nra.
  - replace (_ - _) with (2 * (b * c * q + (- (a * w)) * d)) by (unfold q; ring). apply Of; apply P; nra.
  - replace (_ - _) with ((- (a * a) - b * b + c * c) * q) by (unfold q; ring). apply Dg, Rabs_le. nra.
Qed.

Lemma scipy_qmat u th : sdot u u = 1 -> exists s, scipy_matrix (sscale th u) = qmat u s (cos (th / 2)) /\ Rabs (s - sin (th / 2)) <= / 10 ^ 26.
Proof.
  intros U. unfold scipy_matrix. rewrite vnorm_s, snorm_scale.
  assert (N1 : snorm u = 1) by (rewrite snorm_sqrt, U; apply sqrt_1).
  rewrite N1, Rmult_1_r.
  set (k := if (Rabs th <=? ndec 1 3)%N_ then _ else _).
  exists (k * th). split.
  - assert (W : cos (Rabs th / 2) = cos (th / 2)).
    { destruct (Rle_dec 0 th); [rewrite Rabs_pos_eq by assumption; reflexivity|].
      rewrite Rabs_left by lra. replace (- th / 2) with (- (th / 2)) by field. apply cos_neg. }
    clearbody k. change (Rabs th / nZ 2)%N_ with (Rabs th / 2).
    replace (ncos (Rabs th / 2)) with (cos (th / 2)) by (symmetry; exact W). destruct u as [a b c]. unfold qmat. vnum. svec. f_equal; vec_eq; ring.
  - set (t := Rabs th) in *. assert (T0 : 0 <= t) by apply Rabs_pos.
    assert (K : Rabs (k * t - sin (t / 2)) <= / 10 ^ 26).
    { unfold k. rnum. rewrite !ndec_R. change (10 ^ 3)%Z with 1000%Z. change (10 ^ 1)%Z with 10%Z. destruct (Rleb t (1 / 1000)) eqn:E.
      - apply Rleb_true in E. pose proof (sin_taylor (t / 2) ltac:(lra)) as B.
        replace ((5 / 10 - t * t / 48 + t * t * (t * t) / 3840) * t) with (t / 2 - (t / 2) ^ 3 / 6 + (t / 2) ^ 5 / 120) by field. exact B.
      - apply Rleb_false in E. replace (sin (t / 2) / t * t - sin (t / 2)) with 0 by (field; lra). rewrite Rabs_R0. lra. }
    unfold t in K. destruct (Rle_dec 0 th) as [P|P].
    + rewrite (Rabs_pos_eq th P) in K. exact K.
    + rewrite (Rabs_left th) in K by lra. replace (- th / 2) with (- (th / 2)) in K by field. rewrite sin_neg in K.
      rewrite <- Rabs_Ropp. replace (- (k * th - sin (th / 2))) with (k * - th - - sin (th / 2)) by ring. exact K.
Qed.

(** ** C79.  scipy's matrix is the right-handed rotation to 25 digits, for every angle. *)
Theorem C79_scipy : forall u th, sdot u u = 1 -> entries_within (/ 10 ^ 24) (scipy_matrix (sscale th u)) (srot u th).
Proof.
  intros u th U v V. destruct (scipy_qmat u th U) as (s & -> & D). rewrite <- (qmat_rot u th v U).
  destruct (qmat_near u (sin (th / 2)) s (cos (th / 2)) (/ 10 ^ 26) U) with (v := v) as (X & Y & Z); try assumption; try lra.
  - pose proof (sincos1 (th / 2)). lra.
  - assert (8 * / 10 ^ 26 + / 10 ^ 30 < / 10 ^ 24) by lra. unfold within. lra.
Qed.

Lemma close_iff a b : close a b = true <-> Rabs (a - b) < 15 / 10 ^ 8.
Proof. unfold close. rnum. rewrite ndec_R. change (10 ^ 8)%Z with 100000000%Z. rewrite Rltb_true. replace (10 ^ 8) with 100000000 by ring. reflexivity. Qed.
Definition entry_close (m n : mat R) : Prop :=
  forall v, In v [V3 1 0 0; V3 0 1 0; V3 0 0 1] -> within (15 / 10 ^ 8) (mapply m v) (mapply n v).
Lemma check_iff m axis th : axis <> szero ->
  matrix_check m axis th = Ok tt <-> entry_close m (scipy_matrix (sscale th (sunit axis))).
Proof.
  intros N. unfold matrix_check. cbv zeta. rewrite vdivs_s, vnorm_s, vscale_s.
  set (r := scipy_matrix _). clearbody r. destruct m as [[a b c] [d e f] [g h i]]. destruct r as [[a' b' c'] [d' e' f'] [g' h' i']].
  unfold vclose. cbn [r0 r1 r2 vx vy vz].
  assert (Q : entry_close (M3 (V3 a b c) (V3 d e f) (V3 g h i)) (M3 (V3 a' b' c') (V3 d' e' f') (V3 g' h' i')) <->
    (close a a' && close b b' && close c c' && (close d d' && close e e' && close f f') && (close g g' && close h h' && close i i'))%bool = true).
  { unfold entry_close, within. rewrite !andb_true_iff, !close_iff. split.
    - intros A. pose proof (A _ (or_introl eq_refl)) as Ax. pose proof (A _ (or_intror (or_introl eq_refl))) as Ay. pose proof (A _ (or_intror (or_intror (or_introl eq_refl)))) as Az.
      clear A. revert Ax Ay Az. vnum. rewrite ?Rmult_1_r, ?Rmult_0_r, ?Rplus_0_l, ?Rplus_0_r. tauto.
    - intros A v [<-|[<-|[<-|[]]]]; vnum; rewrite ?Rmult_1_r, ?Rmult_0_r, ?Rplus_0_l, ?Rplus_0_r; tauto. }
  rewrite Q. destruct (_ && _)%bool; split; intros; try reflexivity; discriminate.
Qed.

(** A matrix that passes the check is the wanted rotation within the tolerance ... *)
Theorem C79_detects : forall m axis th, axis <> szero -> matrix_check m axis th = Ok tt ->
  entries_within (16 / 10 ^ 8) m (srot (sunit axis) th).
Proof.
  intros m axis th N E v V. apply check_iff in E; [|assumption]. specialize (E v V).
  pose proof (C79_scipy (sunit axis) th (sunit_dot axis N) v V) as B. destruct E as (X & Y & Z), B as (X' & Y' & Z').
  assert (T : forall a b c, Rabs (a - b) < 15 / 10 ^ 8 -> Rabs (b - c) < / 10 ^ 24 -> Rabs (a - c) < 16 / 10 ^ 8).
  { intros a b c A B. pose proof (Rabs_triang (a - b) (b - c)) as T. replace (a - b + (b - c)) with (a - c) in T by ring. lra. }
  repeat split; eapply T; eassumption.
Qed.
(** ... the rotation itself always passes it, so that the constructor never stops ... *)
Theorem C79_passes : forall heel leeway, csys_self_checks heel leeway = Ok tt.
Proof.
  assert (P : forall axis th, axis <> szero -> matrix_check (rotation_matrix axis th) axis th = Ok tt).
  { intros axis th N. apply check_iff; [assumption|]. intros v V. rewrite rotation_matrix_spec by assumption.
    destruct (C79_scipy (sunit axis) th (sunit_dot axis N) v V) as (X & Y & Z).
    assert (/ 10 ^ 24 < 15 / 10 ^ 8) by lra. unfold within. rewrite (Rabs_minus_sym (vx (srot _ _ _))), (Rabs_minus_sym (vy (srot _ _ _))), (Rabs_minus_sym (vz (srot _ _ _))). lra. }
  intros heel leeway. unfold csys_self_checks. cbv zeta.
  assert (X : (V3 (nZ 1) (nZ 0) (nZ 0) : vec R) <> szero) by (intros E; injection E; rnum; lra).
  assert (Z : (V3 (nZ 0) (nZ 0) (nZ 1) : vec R) <> szero) by (intros E; injection E; rnum; lra).
  rewrite !P by assumption. reflexivity.
Qed.
(** ... and the rotation by another angle passes only if that angle is the same up to the tolerance and full turns. *)
Theorem C79_other_angle : forall ph th, matrix_check (rotation_matrix (V3 1 0 0) ph) (V3 1 0 0) th = Ok tt ->
  Rabs (cos ph - cos th) < 16 / 10 ^ 8 /\ Rabs (sin ph - sin th) < 16 / 10 ^ 8.
Proof.
  intros ph th E. assert (X : V3 1 0 0 <> szero) by (intros E'; injection E'; lra).
  pose proof (C79_detects _ _ _ X E (V3 0 1 0) (or_intror (or_introl eq_refl))) as (_ & Y & Z).
  rewrite rotation_matrix_spec in Y, Z by assumption.
  assert (U : sunit (V3 1 0 0) = V3 1 0 0).
  { unfold sunit. replace (snorm (V3 1 0 0)) with 1; [svec; vec_eq; field|]. unfold snorm. cbn [vx vy vz]. replace (1 ^ 2 + 0 ^ 2 + 0 ^ 2) with 1 by ring. symmetry. apply sqrt_1. }
  rewrite U in Y, Z. unfold srot in Y, Z. revert Y Z. svec. intros Y Z.
  split; [eapply Rle_lt_trans; [|exact Y] | eapply Rle_lt_trans; [|exact Z]]; right; f_equal; ring.
Qed.

(** A quarter turn to the wrong side is noticed; heel and leeway of the example yacht pass. *)
Example C79_case : matrix_check (rotation_matrix (V3 1 0 0) (PI / 2)) (V3 1 0 0) (- (PI / 2)) = Raise AssertionError.
Proof.
  destruct (matrix_check _ _ _) as [[]|e] eqn:E.
  - apply C79_other_angle in E. destruct E as [_ E]. rewrite sin_neg, sin_PI2 in E. rewrite Rabs_pos_eq in E by lra. lra.
  - revert E. unfold matrix_check. cbv zeta. destruct (_ && _)%bool; intros E; [discriminate|]. injection E as <-. reflexivity.
Qed.
Example C79_case2 : csys_self_checks 10 5 = Ok tt.
Proof. apply C79_passes. Qed.

Print Assumptions C79_scipy.
Print Assumptions C79_detects.
Print Assumptions C79_passes.
Print Assumptions C79_other_angle.
