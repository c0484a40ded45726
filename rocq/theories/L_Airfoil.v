(** Lemmas on the airfoil. *)

From Coq Require Import ZArith Reals List Bool Lra Psatz Lia.
From Verif Require Import Num PyBase RNum Spec M_Airfoil L_List L_Rot.
Import ListNotations.
Open Scope R_scope.

Lemma get_y_camber_ok m p x : 0 <= p <= 9/10 -> 0 <= x <= 1 -> get_y_camber m p x = Ok (scamber m p x).
Proof.
  intros P X. unfold get_y_camber, scamber. rnum.
  destruct (Rlt_dec x p) as [L|L].
  - rcases; simpl; try lra. f_equal. field. lra.
  - rcases; simpl; try lra; f_equal; field; lra.
Qed.
Lemma get_dy_dx_ok m p x : 0 <= p <= 9/10 -> 0 <= x <= 1 -> get_dy_dx_camber m p x = Ok (sslope m p x).
Proof.
  intros P X. unfold get_dy_dx_camber, sslope. rnum.
  destruct (Rlt_dec x p) as [L|L].
  - rcases; simpl; try lra. f_equal. field. lra.
  - rcases; simpl; try lra; f_equal; field; lra.
Qed.

Lemma check_ok m p t : check_naca_params m p t = Ok tt <-> accepted m p t.
Proof.
  unfold check_naca_params, accepted. rewrite !ndec_R. rnum. simpl IZR.
  split.
  - rcases; simpl; intros E; try discriminate; lra.
  - intros. rcases; simpl; auto; lra.
Qed.
Lemma check_bad m p t : ~ accepted m p t -> check_naca_params m p t = Raise (SystemExit 1).
Proof.
  intros H. destruct (check_naca_params m p t) as [[]|e] eqn:E; [apply check_ok in E; contradiction|].
  rewrite <- E. revert E. unfold check_naca_params.
  repeat match goal with |- context [if ?b then _ else _] => destruct b; auto end. discriminate.
Qed.

Lemma linspace_nth n k : (2 <= n)%nat -> (k < n)%nat -> nth_error (@linspace01 R RNum n) k = Some (station n k).
Proof.
  intros N K. unfold linspace01. rewrite nth_error_map_seq by assumption. f_equal.
  unfold station. assert (INR (n - 1) <> 0) by (apply not_0_INR; lia).
  destruct (Nat.eqb_spec (S k) n); destruct (Nat.ltb_spec 1 n); try lia; simpl.
  - replace k with (n - 1)%nat by lia. field; assumption.
  - rewrite <- !INR_IZR_INZ. field; assumption.
Qed.
Lemma linspace_length {F} `{Num F} n : length (linspace01 n) = n.
Proof. unfold linspace01. rewrite map_length, seq_length. reflexivity. Qed.
Lemma station_bounds n k : (2 <= n)%nat -> (k < n)%nat -> 0 <= station n k <= 1.
Proof.
  intros N K. unfold station. assert (0 < INR (n - 1)) by (apply lt_0_INR; lia).
  pose proof (pos_INR k). assert (INR k <= INR (n - 1)) by (apply le_INR; lia).
  split.
  - apply Rmult_le_pos; [assumption | left; apply Rinv_0_lt_compat; assumption].
  - apply (Rmult_le_reg_r (INR (n - 1))); [assumption|]. unfold Rdiv. rewrite Rmult_assoc, Rinv_l; lra.
Qed.
Lemma linspace_range n x : In x (@linspace01 R RNum n) -> 0 <= x <= 1.
Proof.
  intros H. apply In_nth_error in H. destruct H as [k Hk].
  pose proof (nth_error_Some_lt _ _ _ Hk) as L. rewrite linspace_length in L.
  destruct (Nat.le_gt_cases 2 n).
  - rewrite linspace_nth in Hk by assumption. injection Hk as <-. apply station_bounds; assumption.
  - assert (n = 1%nat) by lia. subst. assert (k = 0%nat) by lia. subst.
    simpl in Hk. injection Hk as <-. simpl; lra.
Qed.

(** half thickness: NACA polynomial *)
Definition sthick (t x : R) : R :=
  5 * t * (0.2969 * sqrt x - 0.126 * x - 0.3516 * x ^ 2 + 0.2843 * x ^ 3
           - (if Rlt_dec (1 - x) 0.0001 then 0.1036 else 0.1015) * x ^ 4).
Lemma thick_ok t x : get_camber_thickness t x = sthick t x.
Proof.
  unfold get_camber_thickness, thickness_poly, sthick. rewrite !ndec_R. rnum. simpl Z.pow.
  destruct (Rlt_dec (1 - x) 0.0001); rcases; try lra; field.
Qed.

Definition foil_of (m p t : R) (n : nat) : airfoil R :=
  let xs := linspace01 n in
  Airfoil xs (map (scamber m p) xs) (map (sthick t) xs)
    (map (fun x => x - sthick t x * sin (atan (sslope m p x))) xs)
    (map (fun x => x + sthick t x * sin (atan (sslope m p x))) xs)
    (map (fun x => scamber m p x + sthick t x * cos (atan (sslope m p x))) xs)
    (map (fun x => scamber m p x - sthick t x * cos (atan (sslope m p x))) xs).

Lemma map_combine3 {A B C D} (h : B * (C * D) -> A) {X} (f : X -> B) (g : X -> C) (k : X -> D) (l : list X) :
  map h (combine (map f l) (combine (map g l) (map k l))) = map (fun x => h (f x, (g x, k x))) l.
Proof. induction l; simpl; congruence. Qed.

Lemma VlmAirfoil_ok m p t n : accepted m p t -> VlmAirfoil m p t n = Ok (foil_of m p t n).
Proof.
  intros A. unfold VlmAirfoil. rewrite (proj2 (check_ok m p t) A). simpl bind.
  destruct A as (M & P & T).
  rewrite (mapM_map _ (scamber m p)) by (intros x X; apply get_y_camber_ok; [assumption | eapply linspace_range; eauto]).
  simpl bind.
  rewrite (mapM_map _ (sslope m p)) by (intros x X; apply get_dy_dx_ok; [assumption | eapply linspace_range; eauto]).
  simpl bind. unfold foil_of. f_equal. rewrite map_map.
  set (xs := linspace01 n).
  rewrite (map_ext _ _ (thick_ok t)).
  assert (E : xs = map (fun x => x) xs) by (symmetry; apply map_id).
  f_equal; [rewrite E at 1 | rewrite E at 1 | |];
    (etransitivity; [apply map_combine3 |]); apply map_ext; intros x; reflexivity.
Qed.

(** ** Shape of the camber line *)
Section Shape.
Context (m p : R) (Hm : 0 <= m) (Hp : 0 < p) (Hp1 : p < 1).

Lemma scamber_0 : scamber m p 0 = 0.
Proof. unfold scamber. destruct (Rlt_dec 0 p); [field; lra | lra]. Qed.
Lemma scamber_1 : scamber m p 1 = 0.
Proof. unfold scamber. destruct (Rlt_dec 1 p); [lra | field; lra]. Qed.
Lemma scamber_p : scamber m p p = m.
Proof. unfold scamber. destruct (Rlt_dec p p); [lra | field; lra]. Qed.
(* distance below the maximum *)
Lemma scamber_left x : x < p -> scamber m p x = m - m * ((p - x) / p) ^ 2.
Proof. intros; unfold scamber. destruct (Rlt_dec x p); [field; lra | lra]. Qed.
Lemma scamber_right x : p <= x -> scamber m p x = m - m * ((x - p) / (1 - p)) ^ 2.
Proof. intros; unfold scamber. destruct (Rlt_dec x p); [lra | field; lra]. Qed.
Lemma div_bounds a b : 0 < b -> 0 <= a <= b -> 0 <= a / b <= 1.
Proof.
  intros B A. split.
  - apply Rmult_le_pos; [lra | left; apply Rinv_0_lt_compat; assumption].
  - apply (Rmult_le_reg_r b); [assumption|]. unfold Rdiv. rewrite Rmult_assoc, Rinv_l; lra.
Qed.
Lemma parab_range q : 0 <= q <= 1 -> 0 <= m - m * q ^ 2 <= m.
Proof.
  intros Q. assert (0 <= q ^ 2 <= 1) by nra. assert (0 <= m * q ^ 2 <= m * 1).
  { split; [apply Rmult_le_pos; lra | apply Rmult_le_compat_l; lra]. } lra.
Qed.
Lemma parab_mono q r : 0 <= q -> q <= r -> m - m * r ^ 2 <= m - m * q ^ 2.
Proof.
  intros Q R. assert (q ^ 2 <= r ^ 2) by nra. assert (m * q ^ 2 <= m * r ^ 2) by (apply Rmult_le_compat_l; lra). lra.
Qed.
Lemma scamber_range x : 0 <= x <= 1 -> 0 <= scamber m p x <= m.
Proof.
  intros X. destruct (Rlt_dec x p).
  - rewrite scamber_left by assumption. apply parab_range, div_bounds; lra.
  - rewrite scamber_right by lra. apply parab_range, div_bounds; lra.
Qed.
Lemma scamber_rises x y : 0 <= x -> x <= y -> y <= p -> scamber m p x <= scamber m p y.
Proof.
  intros X Y P. destruct (Rlt_dec x p).
  - rewrite (scamber_left x) by assumption. destruct (Rlt_dec y p).
    + rewrite scamber_left by assumption. apply parab_mono; [apply div_bounds; lra|].
      unfold Rdiv; apply Rmult_le_compat_r; [left; apply Rinv_0_lt_compat; assumption | lra].
    + assert (y = p) by lra. subst. rewrite scamber_p. apply parab_range, div_bounds; lra.
  - assert (x = p) by lra. assert (y = p) by lra. subst. lra.
Qed.
Lemma scamber_falls x y : p <= x -> x <= y -> y <= 1 -> scamber m p y <= scamber m p x.
Proof.
  intros X Y P. rewrite !scamber_right by lra. apply parab_mono; [apply div_bounds; lra|].
  unfold Rdiv; apply Rmult_le_compat_r; [left; apply Rinv_0_lt_compat; lra | lra].
Qed.

(** ** The slope is the derivative *)
(* |camber(x + h) - camber(x) - slope(x) h| <= K h^2 *)
Lemma scamber_taylor x : exists K d, 0 <= K /\ 0 < d /\
  forall h, Rabs h < d -> Rabs (scamber m p (x + h) - scamber m p x - sslope m p x * h) <= K * h ^ 2.
Proof.
  assert (A : 0 <= m / p ^ 2) by (apply Rmult_le_pos; [assumption | left; apply Rinv_0_lt_compat, pow_lt; lra]).
  assert (B : 0 <= m / (1 - p) ^ 2) by (apply Rmult_le_pos; [assumption | left; apply Rinv_0_lt_compat, pow_lt; lra]).
  exists (m / p ^ 2 + m / (1 - p) ^ 2), (if Req_EM_T x p then 1 else Rabs (x - p)).
  split; [lra|]. split.
  { destruct (Req_EM_T x p); [lra | apply Rabs_pos_lt; lra]. }
  intros h H.
  assert (Q : scamber m p (x + h) - scamber m p x - sslope m p x * h = - (m / p ^ 2) * h ^ 2 \/
              scamber m p (x + h) - scamber m p x - sslope m p x * h = - (m / (1 - p) ^ 2) * h ^ 2).
  { destruct (Req_EM_T x p) as [E|E].
    - subst x. unfold sslope. destruct (Rlt_dec p p); [lra|]. rewrite scamber_p.
      destruct (Rlt_dec (p + h) p).
      + left. rewrite scamber_left by assumption. field; lra.
      + right. rewrite scamber_right by lra. field; lra.
    - unfold sslope. destruct (Rlt_dec x p) as [L|L].
      + left. assert (x + h < p) by (unfold Rabs in H; repeat destruct Rcase_abs in H; lra).
        rewrite !scamber_left by assumption. field; lra.
      + right. assert (p < x + h) by (unfold Rabs in H; repeat destruct Rcase_abs in H; lra).
        rewrite !scamber_right by lra. field; lra. }
  assert (0 <= h ^ 2) by nra.
  destruct Q as [Q|Q]; rewrite Q, Rabs_mult, Rabs_Ropp, (Rabs_right (h ^ 2)), Rabs_right by lra; nra.
Qed.
Lemma scamber_derivative x : derivable_pt_lim (scamber m p) x (sslope m p x).
Proof.
  destruct (scamber_taylor x) as (K & d & HK & Hd & T).
  intros eps He. assert (D : 0 < Rmin d (eps / (K + 1))).
  { apply Rmin_pos; [assumption|]. apply Rmult_lt_0_compat; [assumption | apply Rinv_0_lt_compat; lra]. }
  exists (mkposreal _ D). simpl. intros h Hh Hlt.
  assert (Rabs h < d) by (eapply Rlt_le_trans; [exact Hlt | apply Rmin_l]).
  assert (Rabs h < eps / (K + 1)) by (eapply Rlt_le_trans; [exact Hlt | apply Rmin_r]).
  specialize (T h ltac:(assumption)).
  replace ((scamber m p (x + h) - scamber m p x) / h - sslope m p x)
    with ((scamber m p (x + h) - scamber m p x - sslope m p x * h) / h) by (field; assumption).
  unfold Rdiv. rewrite Rabs_mult, (Rabs_inv h).
  assert (P : 0 < Rabs h) by (apply Rabs_pos_lt; assumption).
  assert (E : h ^ 2 = Rabs h * Rabs h) by (rewrite <- Rabs_mult, Rabs_right; nra).
  rewrite E in T. apply Rle_lt_trans with (K * Rabs h).
  - apply (Rmult_le_reg_r (Rabs h)); [assumption|]. rewrite Rmult_assoc, Rinv_l by lra. lra.
  - apply Rle_lt_trans with ((K + 1) * Rabs h); [nra|].
    apply (Rmult_lt_reg_l (/ (K + 1))); [apply Rinv_0_lt_compat; lra|].
    rewrite <- Rmult_assoc, Rinv_l by lra. unfold Rdiv in *. lra.
Qed.
End Shape.

(** ** Thickness *)
Lemma sthick_nonneg t x : 0 <= t -> 0 <= x <= 1 -> 0 <= sthick t x.
Proof.
  intros T X. unfold sthick. set (s := sqrt x).
  assert (S : s * s = x) by (apply sqrt_sqrt; lra).
  assert (S0 : 0 <= s) by apply sqrt_pos.
  assert (S1 : s <= 1) by (unfold s; rewrite <- sqrt_1; apply sqrt_le_1; lra).
  clearbody s.
  apply Rmult_le_pos; [lra|].
  set (a := if Rlt_dec (1 - x) 0.0001 then 0.1036 else 0.1015).
  assert (A : a <= 0.1036) by (unfold a; destruct Rlt_dec; lra). clearbody a.
  apply Rle_trans with (0.2969 * s - 0.126 * x - 0.3516 * x ^ 2 + 0.2843 * x ^ 3 - 0.1036 * x ^ 4).
  2:{ assert (0 <= x ^ 4) by (apply pow_le; lra). nra. }
  rewrite <- S.
  replace (0.2969 * s - 0.126 * (s * s) - 0.3516 * (s * s) ^ 2 + 0.2843 * (s * s) ^ 3 - 0.1036 * (s * s) ^ 4)
    with (s * ((1 - s) * (0.2969 + 0.1709 * s + 0.1709 * s ^ 2 - 0.1807 * s ^ 3 - 0.1807 * s ^ 4
                          + 0.1036 * s ^ 5 + 0.1036 * s ^ 6))) by lra.
  apply Rmult_le_pos; [assumption|]. apply Rmult_le_pos; [lra|].
  assert (P2 : 0 <= s ^ 2 <= 1) by nra.
  assert (P3 : 0 <= s ^ 3 <= s ^ 2) by (replace (s ^ 3) with (s * s ^ 2) by ring; nra).
  assert (P4 : 0 <= s ^ 4 <= s ^ 3) by (replace (s ^ 4) with (s * s ^ 3) by ring; nra).
  assert (0 <= s ^ 5) by (apply pow_le; assumption). assert (0 <= s ^ 6) by (apply pow_le; assumption). lra.
Qed.
Lemma sthick_0 t : sthick t 0 = 0.
Proof. unfold sthick. rewrite sqrt_0. ring. Qed.
Lemma sthick_1 t : sthick t 1 = 0.
Proof. unfold sthick. rewrite sqrt_1. destruct Rlt_dec; lra. Qed.
