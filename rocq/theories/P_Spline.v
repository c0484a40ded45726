(** C85: the interpolation "spline". *)

From Coq Require Import String ZArith Reals List Bool Lra Psatz Lia Arith.
From Verif Require Import Num PyBase RNum Spec M_Solve M_Interp M_Spline L_List L_Airfoil L_Solve L_Lattice L_Vlm P_Interp L_Spline.
Import ListNotations.
Open Scope R_scope.

(** ** Specification: cubic splines without knots at the second and the last but one abscissa *)
Record cubic := Cubic { k0 : R; k1 : R; k2 : R; k3 : R }.
Definition value (p : cubic) (x : R) : R := k0 p + k1 p * x + k2 p * x ^ 2 + k3 p * x ^ 3.
Definition slope (p : cubic) (x : R) : R := k1 p + 2 * k2 p * x + 3 * k3 p * x ^ 2.
Definition bend (p : cubic) (x : R) : R := 2 * k2 p + 6 * k3 p * x.
(** [p i] is the piece over the i-th interval *)
Record not_a_knot (xs ys : list R) (p : nat -> cubic) : Prop := {
  nk_ends : forall i a b c d, nth_error xs i = Some a -> nth_error xs (S i) = Some b -> nth_error ys i = Some c -> nth_error ys (S i) = Some d ->
    value (p i) a = c /\ value (p i) b = d;
  nk_smooth : forall i b, (S i < length xs - 1)%nat -> nth_error xs (S i) = Some b -> slope (p i) b = slope (p (S i)) b /\ bend (p i) b = bend (p (S i)) b;
  nk_first : p 0%nat = p 1%nat;
  nk_last : p (length xs - 3)%nat = p (length xs - 2)%nat }.
(** [y] is the value of the spline at [x]; the first and last pieces are continued *)
Definition spline_at (xs : list R) (p : nat -> cubic) (x y : R) : Prop := exists i, (i < length xs - 1)%nat /\
  (i = 0%nat \/ exists a, nth_error xs i = Some a /\ a <= x) /\ (i = (length xs - 2)%nat \/ exists b, nth_error xs (S i) = Some b /\ x <= b) /\ y = value (p i) x.

(** the words slope and bend mean derivatives *)
Lemma slope_derivative p x : derivable_pt_lim (value p) x (slope p x).
Proof.
  unfold value, slope. destruct p as [a b c d]. cbn [k0 k1 k2 k3].
  replace (b + 2 * c * x + 3 * d * x ^ 2) with (0 + b * 1 + c * (INR 2 * x ^ pred 2) + d * (INR 3 * x ^ pred 3)) by (simpl; ring).
  apply (derivable_pt_lim_plus (fun x => a + b * x + c * x ^ 2) (fun x => d * x ^ 3)).
  - apply (derivable_pt_lim_plus (fun x => a + b * x) (fun x => c * x ^ 2)).
    + apply (derivable_pt_lim_plus (fun _ => a) (fun x => b * x)); [apply derivable_pt_lim_const|]. apply (derivable_pt_lim_scal id). apply derivable_pt_lim_id.
    + apply (derivable_pt_lim_scal (fun x => x ^ 2)). apply derivable_pt_lim_pow.
  - apply (derivable_pt_lim_scal (fun x => x ^ 3)). apply derivable_pt_lim_pow.
Qed.
Lemma bend_derivative p x : derivable_pt_lim (slope p) x (bend p x).
Proof.
  unfold bend, slope. destruct p as [a b c d]. cbn [k0 k1 k2 k3].
  replace (2 * c + 6 * d * x) with (0 + 2 * c * 1 + 3 * d * (INR 2 * x ^ pred 2)) by (simpl; ring).
  apply (derivable_pt_lim_plus (fun x => b + 2 * c * x) (fun x => 3 * d * x ^ 2)).
  - apply (derivable_pt_lim_plus (fun _ => b) (fun x => 2 * c * x)); [apply derivable_pt_lim_const|]. apply (derivable_pt_lim_scal id). apply derivable_pt_lim_id.
  - apply (derivable_pt_lim_scal (fun x => x ^ 2)). apply derivable_pt_lim_pow.
Qed.

(** ** The cubic with given values and second derivatives at two points *)
Definition mk (a b ya yb M0 M1 : R) : cubic :=
  let h := b - a in
  Cubic ((M0 * b ^ 3 - M1 * a ^ 3) / (6 * h) + (ya / h - M0 * h / 6) * b - (yb / h - M1 * h / 6) * a)
        ((M1 * a ^ 2 - M0 * b ^ 2) / (2 * h) - (ya / h - M0 * h / 6) + (yb / h - M1 * h / 6))
        ((M0 * b - M1 * a) / (2 * h)) ((M1 - M0) / (6 * h)).
Section Mk.
Variables a b ya yb M0 M1 : R.
Hypothesis AB : a <> b.
Let p := mk a b ya yb M0 M1.
Ltac go := unfold p, mk, value, slope, bend; cbn [k0 k1 k2 k3]; field; lra.
Lemma mk_a : value p a = ya. Proof. go. Qed.
Lemma mk_b : value p b = yb. Proof. go. Qed.
Lemma mk_Ma : bend p a = M0. Proof. go. Qed.
Lemma mk_Mb : bend p b = M1. Proof. go. Qed.
Lemma mk_sa : slope p a = (yb - ya) / (b - a) - (b - a) * (2 * M0 + M1) / 6. Proof. go. Qed.
Lemma mk_sb : slope p b = (yb - ya) / (b - a) + (b - a) * (M0 + 2 * M1) / 6. Proof. go. Qed.
End Mk.
Lemma cubic_ext p q a b : a <> b -> value p a = value q a -> value p b = value q b -> bend p a = bend q a -> bend p b = bend q b -> p = q.
Proof.
  intros AB. destruct p as [p0 p1 p2 p3], q as [q0 q1 q2 q3]. unfold value, bend. cbn [k0 k1 k2 k3]. intros E1 E2 E3 E4.
  assert (D : a - b <> 0) by lra.
  assert (X3 : p3 = q3). { assert (Z : (p3 - q3) * (a - b) = 0) by lra. apply Rmult_integral in Z. destruct Z as [Z|Z]; [lra|contradiction]. }
  subst q3. assert (X2 : p2 = q2) by lra. subst q2.
  assert (X1 : p1 = q1). { assert (Z : (p1 - q1) * (a - b) = 0) by lra. apply Rmult_integral in Z. destruct Z as [Z|Z]; [lra|contradiction]. }
  subst q1. assert (X0 : p0 = q0) by lra. subst q0. reflexivity.
Qed.
Lemma cubic_ext3 p q b : value p b = value q b -> slope p b = slope q b -> bend p b = bend q b -> k3 p = k3 q -> p = q.
Proof.
  destruct p as [p0 p1 p2 p3], q as [q0 q1 q2 q3]. unfold value, slope, bend. cbn [k0 k1 k2 k3]. intros E1 E2 E3 ->.
  assert (X2 : p2 = q2) by lra. subst q2. assert (X1 : p1 = q1) by lra. subst q1. assert (X0 : p0 = q0) by lra. subst q0. reflexivity.
Qed.

Section Build.
Variables xs ys : list R.
Hypothesis L : (4 <= length xs)%nat.
Hypothesis LY : length ys = length xs.
Hypothesis A : ascending xs.
Let m := length xs.
Let X i := nth i xs 0.
Let Y i := nth i ys 0.
Lemma ne_x i a : nth_error xs i = Some a -> a = X i /\ (i < m)%nat.
Proof. intros E. split; [symmetry; apply nth_of_error; exact E | eapply nth_error_Some_lt; exact E]. Qed.
Lemma ne_y i a : nth_error ys i = Some a -> a = Y i.
Proof. intros E. symmetry. apply nth_of_error. exact E. Qed.
Lemma x_ne i : (i < m)%nat -> nth_error xs i = Some (X i).
Proof. intros I. apply nth_error_nth'. exact I. Qed.
Lemma y_ne i : (i < m)%nat -> nth_error ys i = Some (Y i).
Proof. intros I. apply nth_error_nth'. rewrite LY. exact I. Qed.
Lemma x_lt i : (S i < m)%nat -> X i < X (S i).
Proof. intros I. apply (A i); apply x_ne; lia. Qed.
Definition pieces (M : nat -> R) (i : nat) : cubic := mk (X i) (X (S i)) (Y i) (Y (S i)) (M i) (M (S i)).
Lemma equations M : (forall k, (k < m)%nat -> sumn m (fun l => sp_coef xs k l * M l) = sp_rhs xs ys k) <->
  (sp_h xs 1 * M 0%nat - (sp_h xs 0 + sp_h xs 1) * M 1%nat + sp_h xs 0 * M 2%nat = 0 /\
   sp_h xs (m - 2) * M (m - 3)%nat - (sp_h xs (m - 3) + sp_h xs (m - 2)) * M (m - 2)%nat + sp_h xs (m - 3) * M (m - 1)%nat = 0 /\
   forall i, (S (S i) < m)%nat -> sp_h xs i * M i + 2 * (sp_h xs i + sp_h xs (S i)) * M (S i) + sp_h xs (S i) * M (S (S i)) =
     6 * ((Y (S (S i)) - Y (S i)) / sp_h xs (S i) - (Y (S i) - Y i) / sp_h xs i)).
Proof.
  assert (RI : forall i, (S (S i) < m)%nat -> sp_rhs xs ys (S i) = 6 * ((Y (S (S i)) - Y (S i)) / sp_h xs (S i) - (Y (S i) - Y i) / sp_h xs i)).
  { intros i I. unfold sp_rhs, sp_d. fold m. replace (S i =? m - 1)%nat with false by (symmetry; apply Nat.eqb_neq; lia). cbn [Nat.eqb orb]. replace (S i - 1)%nat with i by lia. rnum. reflexivity. }
  split.
  - intros E. split; [|split].
    + rewrite <- row_first by exact L. fold m. rewrite (E 0%nat) by (unfold m; lia). reflexivity.
    + unfold m. rewrite <- row_last by exact L. fold m. rewrite (E (m - 1)%nat) by (unfold m; lia). unfold sp_rhs. fold m. rewrite Nat.eqb_refl, orb_true_r. rnum. reflexivity.
    + intros i I. rewrite <- (RI i I), <- (E (S i)) by lia. unfold m. rewrite row_inner by (try exact L; fold m; lia). replace (S i - 1)%nat with i by lia. replace (S i + 1)%nat with (S (S i)) by lia. reflexivity.
  - intros (E0 & E1 & E) k K. destruct (Nat.eq_dec k 0) as [->|K0]; [|destruct (Nat.eq_dec k (m - 1)) as [->|K1]].
    + unfold m. rewrite row_first by exact L. exact E0.
    + unfold m. rewrite row_last by exact L. fold m. unfold sp_rhs. fold m. rewrite Nat.eqb_refl, orb_true_r. exact E1.
    + unfold m. rewrite row_inner by (try exact L; fold m; lia). replace k with (S (k - 1)) by lia. rewrite RI by lia. rewrite <- E by lia. replace (S (k - 1) - 1)%nat with (k - 1)%nat by lia. replace (S (k - 1) + 1)%nat with (S (S (k - 1))) by lia. reflexivity.
Qed.
Lemma h_x i : sp_h xs i = X (S i) - X i. Proof. reflexivity. Qed.
Lemma slopes_agree M i : (S (S i) < m)%nat -> (slope (pieces M i) (X (S i)) = slope (pieces M (S i)) (X (S i)) <->
  sp_h xs i * M i + 2 * (sp_h xs i + sp_h xs (S i)) * M (S i) + sp_h xs (S i) * M (S (S i)) =
     6 * ((Y (S (S i)) - Y (S i)) / sp_h xs (S i) - (Y (S i) - Y i) / sp_h xs i)).
Proof.
  intros I. pose proof (x_lt i ltac:(lia)). pose proof (x_lt (S i) ltac:(lia)). unfold pieces. rewrite mk_sb, mk_sa by lra. rewrite !h_x. split; intros E; lra.
Qed.
Lemma thirds_agree M i : (S (S i) < m)%nat -> (k3 (pieces M i) = k3 (pieces M (S i)) <-> sp_h xs (S i) * M i - (sp_h xs i + sp_h xs (S i)) * M (S i) + sp_h xs i * M (S (S i)) = 0).
Proof.
  intros I. pose proof (x_lt i ltac:(lia)) as P. pose proof (x_lt (S i) ltac:(lia)) as Q. unfold pieces, mk. cbn [k3]. rewrite !h_x.
  set (a := X (S i) - X i) in *. set (b := X (S (S i)) - X (S i)) in *. assert (0 < a) by (unfold a; lra). assert (0 < b) by (unfold b; lra). split; intros E.
  - apply (f_equal (fun t => t * (6 * a * b))) in E. replace ((M (S i) - M i) / (6 * a) * (6 * a * b)) with ((M (S i) - M i) * b) in E by (field; lra).
    replace ((M (S (S i)) - M (S i)) / (6 * b) * (6 * a * b)) with ((M (S (S i)) - M (S i)) * a) in E by (field; lra). lra.
  - apply (Rmult_eq_reg_r (6 * a * b)); [|assert (0 < a * b) by (apply Rmult_lt_0_compat; assumption); lra]. replace ((M (S i) - M i) / (6 * a) * (6 * a * b)) with ((M (S i) - M i) * b) by (field; lra).
    replace ((M (S (S i)) - M (S i)) / (6 * b) * (6 * a * b)) with ((M (S (S i)) - M (S i)) * a) by (field; lra). lra.
Qed.
Lemma pieces_spline M : (forall k, (k < m)%nat -> sumn m (fun l => sp_coef xs k l * M l) = sp_rhs xs ys k) -> not_a_knot xs ys (pieces M).
Proof.
  intros E. apply equations in E. destruct E as (E0 & E1 & E). fold m in L.
  assert (SM : forall i, (S (S i) < m)%nat -> value (pieces M i) (X (S i)) = value (pieces M (S i)) (X (S i)) /\ slope (pieces M i) (X (S i)) = slope (pieces M (S i)) (X (S i)) /\
    bend (pieces M i) (X (S i)) = bend (pieces M (S i)) (X (S i))).
  { intros i I. pose proof (x_lt i ltac:(lia)). pose proof (x_lt (S i) ltac:(lia)). split; [|split; [apply slopes_agree; [exact I | apply E; exact I]|]].
    - unfold pieces. rewrite mk_b, mk_a by lra. reflexivity.
    - unfold pieces. rewrite mk_Mb, mk_Ma by lra. reflexivity. }
  constructor.
  - intros i a b c d Ha Hb Hc Hd. apply ne_x in Ha, Hb. apply ne_y in Hc, Hd. destruct Ha as [-> I], Hb as [-> J]. subst c d. pose proof (x_lt i J). unfold pieces. split; [apply mk_a | apply mk_b]; lra.
  - intros i b I Hb. apply ne_x in Hb. destruct Hb as [-> _]. fold m in I. apply SM. lia.
  - destruct (SM 0%nat ltac:(lia)) as (S1 & S2 & S3). apply (cubic_ext3 _ _ (X 1)); try assumption. apply thirds_agree; [lia | exact E0].
  - fold m. replace (m - 2)%nat with (S (m - 3)) by lia. destruct (SM (m - 3)%nat ltac:(lia)) as (S1 & S2 & S3). apply (cubic_ext3 _ _ (X (S (m - 3)))); try assumption. apply thirds_agree; [lia|].
    replace (S (S (m - 3))) with (m - 1)%nat by lia. replace (S (m - 3)) with (m - 2)%nat by lia. exact E1.
Qed.
(** the second derivatives of any such spline solve the equations *)
Lemma spline_pieces q : not_a_knot xs ys q -> exists M, (forall k, (k < m)%nat -> sumn m (fun l => sp_coef xs k l * M l) = sp_rhs xs ys k) /\ forall i, (S i < m)%nat -> q i = pieces M i.
Proof.
  intros [NE NS NF NL]. fold m in L, NS, NL. set (M := fun i => if (i <? m - 1)%nat then bend (q i) (X i) else bend (q (m - 2)%nat) (X (m - 1)%nat)).
  assert (B0 : forall i, (S i < m)%nat -> bend (q i) (X i) = M i). { intros i I. unfold M. replace (i <? m - 1)%nat with true by (symmetry; apply Nat.ltb_lt; lia). reflexivity. }
  assert (B1 : forall i, (S i < m)%nat -> bend (q i) (X (S i)) = M (S i)).
  { intros i I. destruct (Nat.eq_dec (S i) (m - 1)) as [J|J].
    - unfold M. replace (S i <? m - 1)%nat with false by (symmetry; apply Nat.ltb_ge; lia). replace (m - 2)%nat with i by lia. rewrite J. reflexivity.
    - destruct (NS i (X (S i)) ltac:(lia) (x_ne _ I)) as [_ ->]. apply B0. lia. }
  assert (Q : forall i, (S i < m)%nat -> q i = pieces M i).
  { intros i I. pose proof (x_lt i I). destruct (NE i _ _ _ _ (x_ne i ltac:(lia)) (x_ne (S i) I) (y_ne i ltac:(lia)) (y_ne (S i) I)) as [V1 V2].
    unfold pieces. apply (cubic_ext _ _ (X i) (X (S i))); [lra|rewrite mk_a by lra; exact V1|rewrite mk_b by lra; exact V2|rewrite mk_Ma by lra; apply B0; exact I|rewrite mk_Mb by lra; apply B1; exact I]. }
  exists M. split; [|exact Q]. apply equations. split; [|split].
  - apply thirds_agree; [lia|]. rewrite <- !Q by lia. rewrite NF. reflexivity.
  - pose proof (proj1 (thirds_agree M (m - 3) ltac:(lia))) as T. replace (S (S (m - 3))) with (m - 1)%nat in T by lia. replace (S (m - 3)) with (m - 2)%nat in T by lia. apply T. rewrite <- !Q by lia. rewrite NL. reflexivity.
  - intros i I. apply slopes_agree; [exact I|]. rewrite <- !Q by lia. apply (NS i (X (S i)) ltac:(lia) (x_ne (S i) ltac:(lia))).
Qed.
End Build.

(** ** The model computes it *)
Lemma increasing_ascending (xs : list R) : increasing xs = true <-> ascending xs.
Proof.
  induction xs as [|a [|b r] IH].
  - split; [intros _ [|i] x y X; discriminate|reflexivity].
  - split; [intros _ [|[|i]] x y X Y; discriminate|reflexivity].
  - cbn [increasing]. rewrite andb_true_iff, IH. rnum. rewrite Rltb_true. split.
    + intros [AB I] [|i] x y X Y; [injection X as <-; injection Y as <-; exact AB|]. exact (I i x y X Y).
    + intros I. split; [apply (I 0%nat); reflexivity|]. intros i x y X Y. apply (I (S i)); assumption.
Qed.
Lemma interval_spec xs x : ascending xs -> (2 <= length xs)%nat -> let i := sp_interval xs x in (i < length xs - 1)%nat /\
  (i = 0%nat \/ nth i xs 0 <= x) /\ (i = (length xs - 2)%nat \/ x < nth (S i) xs 0).
Proof.
  cbv zeta. induction xs as [|a [|b r] IH]; intros A L; cbn [length] in L; try lia. destruct r as [|c r].
  - cbn. split; [lia|]. auto.
  - change (sp_interval (a :: b :: c :: r) x) with (if Rltb x b then O else S (sp_interval (b :: c :: r) x)). destruct (Rltb x b) eqn:E.
    + apply Rltb_true in E. cbn [length]. split; [lia|]. split; [auto|]. right. exact E.
    + apply Rltb_false in E. destruct IH as (I1 & I2 & I3); [intros i u v U V; apply (A (S i)); assumption|cbn [length]; lia|]. set (k := sp_interval (b :: c :: r) x) in *. cbn [length] in *.
      split; [lia|]. split.
      * right. destruct I2 as [->|I2]; [cbn [nth]; lra | exact I2].
      * destruct I3 as [->|I3]; [left; lia | right; exact I3].
Qed.
Lemma piece_value xs ys M i x : nth i xs 0 <> nth (S i) xs 0 -> sp_piece xs ys M i x = value (pieces xs ys (fun k => nth k M 0) i) x.
Proof. intros N. unfold sp_piece, sp_h, value, pieces, mk. cbn [k0 k1 k2 k3]. rnum. field. lra. Qed.
(** For increasing abscissae, at least four, there is exactly one such spline, and the interpolation returns its values. *)
Theorem C85_spline : forall xs ys, ascending xs -> (4 <= length xs)%nat -> length ys = length xs ->
  exists p, not_a_knot xs ys p /\ (forall q, not_a_knot xs ys q -> forall i, (i < length xs - 1)%nat -> q i = p i) /\
    forall x_new, exists out, scipy_spline x_new xs ys = Ok out /\ length out = length x_new /\
      forall k x y, nth_error x_new k = Some x -> nth_error out k = Some y -> spline_at xs p x y.
Proof.
  intros xs ys A L LY.
  assert (ME : exists M, sp_bends xs ys = Ok M /\ exists fx, M = tab (length xs) fx /\ forall k, (k < length xs)%nat -> sumn (length xs) (fun l => sp_coef xs k l * fx l) = sp_rhs xs ys k).
  { destruct (sp_bends xs ys) as [M|e] eqn:E; unfold sp_bends in E.
    - exists M. split; [reflexivity|]. apply (solve_tab (length xs) (sp_coef xs) (sp_rhs xs ys)) in E. destruct E as (fx & -> & E & _). exists fx. auto.
    - exfalso. apply (solve_eq_raise (matrix (length xs) (sp_coef xs)) (tab (length xs) (sp_rhs xs ys))) in E. destruct E as [_ E].
      destruct (E (matrix_square _ _)) as (z & LZ & (k & I & N) & Z); [unfold matrix; rewrite !tab_length; reflexivity|]. unfold matrix in LZ. rewrite tab_length in LZ.
      rewrite (list_tab z _ 0 LZ) in I, Z. apply in_tab in I. destruct I as (i & Hi & ->). apply N.
      apply (spline_regular xs L A (fun k => nth k z 0)); [|exact Hi]. intros k K. rewrite <- srow_tab. apply Z. apply (nth_error_In _ k). exact (tab_nth_error _ (fun k => tab _ (sp_coef xs k)) k K). }
  destruct ME as (M & EM & fx & -> & FX). exists (pieces xs ys fx). split; [apply pieces_spline; assumption|]. split.
  - intros q Q i I. destruct (spline_pieces xs ys L LY A q Q) as (M & MX & EQ). rewrite EQ by lia.
    assert (U : forall k, (k < length xs)%nat -> M k = fx k).
    { intros k K. apply Rminus_diag_uniq. apply (spline_regular xs L A (fun k => M k - fx k)); [|exact K]. intros j J.
      rewrite (sumn_ext _ _ (fun l => sp_coef xs j l * M l + -1 * (sp_coef xs j l * fx l))) by (intros; ring). rewrite sumn_add, sumn_scale, MX, FX by exact J. ring. }
    unfold pieces. rewrite !U by lia. reflexivity.
  - intros x_new. unfold scipy_spline. rewrite LY, Nat.eqb_refl. replace (length xs <=? 3)%nat with false by (symmetry; apply Nat.leb_gt; lia). rewrite (proj2 (increasing_ascending xs) A). cbn [negb]. rewrite EM. cbn [bind].
    eexists. split; [reflexivity|]. split; [apply map_length|]. intros k x y X Y. rewrite nth_error_map, X in Y. assert (EY : y = sp_piece xs ys (tab (length xs) fx) (sp_interval xs x) x) by (cbn [option_map] in Y; congruence). clear Y.
    destruct (interval_spec xs x A ltac:(lia)) as (I1 & I2 & I3). set (i := sp_interval xs x) in *. exists i. split; [exact I1|]. split; [|split].
    + destruct I2 as [I2|I2]; [auto|]. right. eexists. split; [apply nth_error_nth'; lia | exact I2].
    + destruct I3 as [I3|I3]; [auto|]. right. eexists. split; [apply nth_error_nth'; lia | left; exact I3].
    + rewrite EY. rewrite piece_value. { unfold pieces. rewrite !tab_nth by lia. reflexivity. }
      pose proof (ascending_h xs i A ltac:(lia)) as P. unfold sp_h in P. rnum. lra.
Qed.
(** Everything else is refused. *)
Theorem C85_refused : forall x_new xs ys,
  (length ys <> length xs -> scipy_spline x_new xs ys = Raise TypeError) /\
  ((length xs < 4)%nat -> scipy_spline x_new xs ys = Raise TypeError) /\
  ((4 <= length xs)%nat -> length ys = length xs -> ~ ascending xs -> scipy_spline x_new xs ys = Raise ValueError).
Proof.
  intros x_new xs ys. unfold scipy_spline. split; [|split].
  - intros N. replace (length xs =? length ys)%nat with false by (symmetry; apply Nat.eqb_neq; congruence). reflexivity.
  - intros N. destruct (length xs =? length ys)%nat; [|reflexivity]. replace (length xs <=? 3)%nat with true by (symmetry; apply Nat.leb_le; lia). reflexivity.
  - intros N E A. rewrite E, Nat.eqb_refl. replace (length xs <=? 3)%nat with false by (symmetry; apply Nat.leb_gt; lia). cbn [negb].
    destruct (increasing xs) eqn:I; [|reflexivity]. apply increasing_ascending in I. contradiction.
Qed.

(** ** Consequences *)
Lemma spline_det xs ys p q x y z : ascending xs -> (4 <= length xs)%nat -> length ys = length xs -> not_a_knot xs ys p -> not_a_knot xs ys q -> spline_at xs p x y -> spline_at xs q x z -> y = z.
Proof.
  intros A L LY P Q. destruct (C85_spline xs ys A L LY) as (s & SP & U & _).
  assert (W : forall r v, not_a_knot xs ys r -> spline_at xs r x v -> spline_at xs s x v).
  { intros r v R (i & I & B & C & ->). exists i. rewrite (U r R i I). auto. }
  intros SY SZ. apply W in SY; [|exact P]. apply W in SZ; [|exact Q]. clear W P Q p q.
  revert y z SY SZ. assert (G : forall i j, (i < length xs - 1)%nat -> (j < length xs - 1)%nat -> (i < j)%nat ->
    (i = (length xs - 2)%nat \/ exists b, nth_error xs (S i) = Some b /\ x <= b) -> (j = 0%nat \/ exists a, nth_error xs j = Some a /\ a <= x) -> value (s i) x = value (s j) x).
  { intros i j I J IJ [B|(b & B & XB)] [C|(c & C & CX)]; try lia. destruct (Nat.eq_dec j (S i)) as [->|N].
    - rewrite B in C. injection C as <-. assert (x = b) by lra. subst x.
      destruct (nth_error_ex xs i) as [a Xa]; [lia|]. destruct (nth_error_ex xs (S (S i))) as [c Xc]; [lia|]. destruct (nth_error_ex ys i) as [d Yd]; [lia|]. destruct (nth_error_ex ys (S i)) as [e Ye]; [lia|]. destruct (nth_error_ex ys (S (S i))) as [f Yf]; [lia|].
      destruct (nk_ends _ _ _ SP i a b d e Xa B Yd Ye) as [_ ->]. destruct (nk_ends _ _ _ SP (S i) b c e f B Xc Ye Yf) as [-> _]. reflexivity.
    - pose proof (ascending_lt xs (S i) j b c A ltac:(lia) B C). lra. }
  intros y z (i & I & B & C & ->) (j & J & D & E & ->). destruct (Nat.lt_trichotomy i j) as [O|[->|O]]; [apply G; assumption|reflexivity|symmetry; apply G; assumption].
Qed.
Lemma spline_values xs ys p x_new out : ascending xs -> (4 <= length xs)%nat -> length ys = length xs -> not_a_knot xs ys p -> scipy_spline x_new xs ys = Ok out ->
  length out = length x_new /\ forall k x y, nth_error x_new k = Some x -> nth_error out k = Some y -> spline_at xs p x y.
Proof.
  intros A L LY P E. destruct (C85_spline xs ys A L LY) as (s & SP & U & W). destruct (W x_new) as (o & E' & LO & S). rewrite E in E'. injection E' as <-. split; [exact LO|].
  intros k x y X Y. destruct (S k x y X Y) as (i & I & B & C & ->). exists i. rewrite (U p P i I). auto.
Qed.
(** It passes through the data. *)
Theorem C85_through_the_data : forall x_new xs ys out k j x y v, ascending xs -> (4 <= length xs)%nat -> length ys = length xs -> scipy_spline x_new xs ys = Ok out ->
  nth_error x_new k = Some x -> nth_error out k = Some y -> nth_error xs j = Some x -> nth_error ys j = Some v -> y = v.
Proof.
  intros x_new xs ys out k j x y v A L LY E X Y XJ YJ. destruct (C85_spline xs ys A L LY) as (p & P & _). destruct (spline_values _ _ _ _ _ A L LY P E) as [_ SV].
  pose proof (SV k x y X Y) as SY. apply (spline_det xs ys p p x y v A L LY P P SY). assert (J : (j < length xs)%nat) by (eapply nth_error_Some_lt; exact XJ).
  destruct (Nat.eq_dec j (length xs - 1)) as [->|N].
  - exists (length xs - 2)%nat. split; [lia|]. destruct (nth_error_ex xs (length xs - 2)) as [a Xa]; [lia|]. destruct (nth_error_ex ys (length xs - 2)) as [b Yb]; [lia|].
    replace (length xs - 1)%nat with (S (length xs - 2)) in XJ, YJ by lia. split; [right; exists a; split; [exact Xa|]; left; apply (A _ _ _ Xa XJ)|]. split; [auto|]. symmetry. exact (proj2 (nk_ends _ _ _ P _ _ _ _ _ Xa XJ Yb YJ)).
  - exists j. split; [lia|]. destruct (nth_error_ex xs (S j)) as [a Xa]; [lia|]. destruct (nth_error_ex ys (S j)) as [b Yb]; [lia|]. split; [right; exists x; split; [exact XJ|lra]|].
    split; [right; exists a; split; [exact Xa|]; left; apply (A _ _ _ XJ Xa)|]. symmetry. exact (proj1 (nk_ends _ _ _ P _ _ _ _ _ XJ Xa YJ Yb)).
Qed.
(** Data on a cubic is reproduced everywhere, also outside the range of the data; in particular constant and linear data. *)
Theorem C85_cubic_data : forall x_new xs c, ascending xs -> (4 <= length xs)%nat -> scipy_spline x_new xs (map (value c) xs) = Ok (map (value c) x_new).
Proof.
  intros x_new xs c A L. assert (LY : length (map (value c) xs) = length xs) by apply map_length.
  assert (P : not_a_knot xs (map (value c) xs) (fun _ => c)).
  { constructor; try reflexivity; [|intros; split; reflexivity]. intros i a b u v Xa Xb Yu Yv. rewrite nth_error_map, Xa in Yu. rewrite nth_error_map, Xb in Yv. injection Yu as <-. injection Yv as <-. split; reflexivity. }
  destruct (C85_spline xs _ A L LY) as (s & _ & _ & W). destruct (W x_new) as (out & E & _). rewrite E. f_equal. destruct (spline_values _ _ _ _ _ A L LY P E) as [LO SV].
  apply list_ext; [rewrite map_length; exact LO|]. intros k K. destruct (nth_error_ex out k K) as [y Y]. destruct (nth_error_ex x_new k) as [x X]; [lia|].
  destruct (SV k x y X Y) as (i & _ & _ & _ & ->). rewrite nth_error_map, X, Y. reflexivity.
Qed.
(** Sums and multiples of data give sums and multiples of the interpolation. *)
Definition cadd (k : R) (p q : cubic) : cubic := Cubic (k0 p + k * k0 q) (k1 p + k * k1 q) (k2 p + k * k2 q) (k3 p + k * k3 q).
Lemma not_a_knot_add xs ys zs p q k : length ys = length xs -> length zs = length xs -> not_a_knot xs ys p -> not_a_knot xs zs q ->
  not_a_knot xs (zipWith (fun a b => a + k * b) ys zs) (fun i => cadd k (p i) (q i)).
Proof.
  intros LY LZ P Q. constructor.
  - intros i a b u v Xa Xb Yu Yv. apply nth_error_Some_lt in Yu as IU. apply nth_error_Some_lt in Yv as IV. rewrite zipWith_length in IU, IV.
    destruct (nth_error_ex ys i) as [c Yc]; [lia|]. destruct (nth_error_ex zs i) as [d Zd]; [lia|]. destruct (nth_error_ex ys (S i)) as [c' Yc']; [lia|]. destruct (nth_error_ex zs (S i)) as [d' Zd']; [lia|].
    rewrite (nth_error_zipWith _ _ _ _ _ _ Yc Zd) in Yu. rewrite (nth_error_zipWith _ _ _ _ _ _ Yc' Zd') in Yv. injection Yu as <-. injection Yv as <-.
    destruct (nk_ends _ _ _ P i a b c c' Xa Xb Yc Yc') as [<- <-]. destruct (nk_ends _ _ _ Q i a b d d' Xa Xb Zd Zd') as [<- <-]. unfold value, cadd. cbn [k0 k1 k2 k3]. split; ring.
  - intros i b I Xb. destruct (nk_smooth _ _ _ P i b I Xb) as [P1 P2]. destruct (nk_smooth _ _ _ Q i b I Xb) as [Q1 Q2].
    assert (SL : forall p q, slope (cadd k p q) b = slope p b + k * slope q b) by (intros; unfold slope, cadd; cbn [k0 k1 k2 k3]; ring).
    assert (BE : forall p q, bend (cadd k p q) b = bend p b + k * bend q b) by (intros; unfold bend, cadd; cbn [k0 k1 k2 k3]; ring). rewrite !SL, !BE, P1, P2, Q1, Q2. split; reflexivity.
  - rewrite (nk_first _ _ _ P), (nk_first _ _ _ Q). reflexivity.
  - rewrite (nk_last _ _ _ P), (nk_last _ _ _ Q). reflexivity.
Qed.
Theorem C85_linear : forall x_new xs ys zs k a b, scipy_spline x_new xs ys = Ok a -> scipy_spline x_new xs zs = Ok b ->
  scipy_spline x_new xs (zipWith (fun u v => u + k * v) ys zs) = Ok (zipWith (fun u v => u + k * v) a b).
Proof.
  intros x_new xs ys zs k a b EA EB.
  assert (OK : forall ys o, scipy_spline x_new xs ys = Ok o -> length ys = length xs /\ (4 <= length xs)%nat /\ ascending xs).
  { intros y o E. unfold scipy_spline in E. destruct (length xs =? length y)%nat eqn:E1; [|discriminate]. apply Nat.eqb_eq in E1. destruct (length xs <=? 3)%nat eqn:E2; [discriminate|]. apply Nat.leb_gt in E2.
    destruct (increasing xs) eqn:E3; [|discriminate]. apply increasing_ascending in E3. auto. }
  destruct (OK _ _ EA) as (LY & L & A). destruct (OK _ _ EB) as (LZ & _ & _).
  destruct (C85_spline xs ys A L LY) as (p & P & _). destruct (C85_spline xs zs A L LZ) as (q & Q & _). pose proof (not_a_knot_add xs ys zs p q k LY LZ P Q) as W.
  assert (LW : length (zipWith (fun u v => u + k * v) ys zs) = length xs) by (rewrite zipWith_length; lia).
  destruct (C85_spline xs _ A L LW) as (r & _ & _ & RX). destruct (RX x_new) as (o & E & _). rewrite E. f_equal.
  destruct (spline_values _ _ _ _ _ A L LY P EA) as [LA SA]. destruct (spline_values _ _ _ _ _ A L LZ Q EB) as [LB SB]. destruct (spline_values _ _ _ _ _ A L LW W E) as [LO SO].
  apply list_ext; [rewrite zipWith_length; lia|]. intros j J. destruct (nth_error_ex o j J) as [y Y]. destruct (nth_error_ex x_new j) as [x X]; [lia|]. destruct (nth_error_ex a j) as [u U]; [lia|]. destruct (nth_error_ex b j) as [v V]; [lia|].
  rewrite (nth_error_zipWith _ _ _ _ _ _ U V), Y. f_equal. pose proof (SO j x y X Y) as (i & I & B & C & ->).
  assert (E1 : u = value (p i) x). { apply (spline_det xs ys p p x _ _ A L LY P P (SA j x u X U)). exists i. auto. }
  assert (E2 : v = value (q i) x). { apply (spline_det xs zs q q x _ _ A L LZ Q Q (SB j x v X V)). exists i. auto. }
  rewrite E1, E2. unfold value, cadd. cbn [k0 k1 k2 k3]. ring.
Qed.
(** Unlike the linear interpolation it leaves the range of the data: here from data between 0 and 2/27 to a negative value. *)
Definition wavy : cubic := Cubic 0 (-1/3) (4/3) (-1).
Lemma thirds : ascending [0; 1/3; 2/3; 1].
Proof. intros [|[|[|[|i]]]] a b X Y; simpl in *; try discriminate; injection X as <-; injection Y as <-; lra. Qed.
Lemma wavy_data : map (value wavy) [0; 1/3; 2/3; 1] = [0; 0; 2/27; 0].
Proof. unfold value, wavy. cbn [map k0 k1 k2 k3]. repeat (f_equal; [lra|]). f_equal. lra. Qed.
Theorem C85_between_neighbours_refuted : exists xs ys n out y, ascending xs /\ (4 <= length xs)%nat /\ length ys = length xs /\ (forall v, In v ys -> 0 <= v <= 2/27) /\
  interpolate_girths scipy_spline "spline" xs ys n = Ok out /\ In y out /\ y < 0.
Proof.
  exists [0; 1/3; 2/3; 1], [0; 0; 2/27; 0], 7%nat. eexists. exists (value wavy (station 7 1)). split; [exact thirds|]. split; [simpl; lia|]. split; [reflexivity|].
  split; [intros v [<-|[<-|[<-|[<-|[]]]]]; lra|]. unfold interpolate_girths. simpl String.eqb. cbv iota. rewrite <- wavy_data, C85_cubic_data by (try exact thirds; simpl; lia). split; [reflexivity|]. split.
  - apply in_map. apply (nth_error_In _ 1). apply linspace_at. lia.
  - unfold station, value, wavy. simpl. lra.
Qed.
(** The case: five points, not on a cubic. *)
Example C85_case : ascending [0; 1/4; 1/2; 3/4; 1] /\ exists out, scipy_spline [1/8; 1/2] [0; 1/4; 1/2; 3/4; 1] [0; 0; 1; 0; 0] = Ok out /\ length out = 2%nat /\ nth_error out 1 = Some 1.
Proof.
  assert (A : ascending [0; 1/4; 1/2; 3/4; 1]). { intros [|[|[|[|[|i]]]]] a b X Y; simpl in *; try discriminate; injection X as <-; injection Y as <-; lra. }
  split; [exact A|]. destruct (C85_spline [0; 1/4; 1/2; 3/4; 1] [0; 0; 1; 0; 0] A ltac:(simpl; lia) eq_refl) as (p & _ & _ & W). destruct (W [1/8; 1/2]) as (out & E & LO & _). exists out. split; [exact E|]. split; [exact LO|].
  destruct out as [|a [|b [|]]]; try discriminate. cbn. f_equal. apply (C85_through_the_data [1/8; 1/2] _ _ _ 1%nat 2%nat (1/2) b 1 A) with (3 := E); try reflexivity. simpl; lia.
Qed.
Print Assumptions C85_spline.
Print Assumptions C85_refused.
Print Assumptions C85_through_the_data.
Print Assumptions C85_cubic_data.
Print Assumptions C85_linear.
Print Assumptions C85_between_neighbours_refuted.
