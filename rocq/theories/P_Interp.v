(** Interpolation of sail data: C23, C24. *)

From Coq Require Import String ZArith Reals List Bool Lra Psatz Lia.
From Verif Require Import Num PyBase RNum Spec M_Interp L_List L_Airfoil.
Import ListNotations.
Open Scope R_scope.

(** ** C23 *)
Lemma ascending_lt xs i j a b : ascending xs -> (i < j)%nat -> nth_error xs i = Some a -> nth_error xs j = Some b -> a < b.
Proof.
  intros I L A. revert b. induction L as [|j L IH]; intros b B.
  - eapply I; eauto.
  - destruct (nth_error_ex xs j) as [c C]. { apply nth_error_Some_lt in B. lia. }
    pose proof (IH c C). pose proof (I j c b C B). lra.
Qed.
Lemma ascending_inj xs i j a : ascending xs -> nth_error xs i = Some a -> nth_error xs j = Some a -> i = j.
Proof.
  intros I A B. destruct (Nat.lt_trichotomy i j) as [L|[L|L]]; [|assumption|].
  - pose proof (ascending_lt _ _ _ _ _ I L A B). lra. - pose proof (ascending_lt _ _ _ _ _ I L B A). lra.
Qed.
Lemma interp_from_linear pts : forall x0 y0 x, ascending (x0 :: map fst pts) -> x0 <= x ->
  linear_at (x0 :: map fst pts) (y0 :: map snd pts) x (interp_from x0 y0 pts x).
Proof.
  induction pts as [|[x1 y1] pts IH]; intros x0 y0 x I L.
  - right; left. exists x0. simpl. auto.
  - cbn [interp_from map fst snd]. rnum. pose proof (I 0%nat x0 x1 eq_refl eq_refl). destruct (Rltb x x1) eqn:E.
    + apply Rltb_true in E. right; right. exists 0%nat, x0, y0, x1, y1. simpl. repeat split; try lra; try (field; lra).
    + apply Rltb_false in E. destruct (IH x1 y1 x) as [(a & A & B & C)|[(a & A & B & C)|(j & a & b & c & d & A & B & C & D & E' & F)]].
      * intros i a b. apply (I (S i)).
      * assumption.
      * injection A as <-. right; right. exists 0%nat, x0, y0, x1, y1. simpl in *. repeat split; try lra. injection B as B. rewrite <- B. replace x with x1 by lra. field; lra.
      * right; left. exists a. simpl in *. rewrite map_length in *. rewrite Nat.sub_0_r in *. auto.
      * right; right. exists (S j), a, b, c, d. simpl in *. repeat (split; [assumption|]). assumption.
Qed.
Lemma combine_split' {A B} (l : list A) (m : list B) : length l = length m -> map fst (combine l m) = l /\ map snd (combine l m) = m.
Proof. revert m; induction l as [|a l IH]; intros [|b m] L; simpl in *; try discriminate; auto. destruct (IH m) as [E1 E2]; [lia|]. rewrite E1, E2. auto. Qed.

Lemma linspace_at n k : (k < n)%nat -> nth_error (@linspace01 R RNum n) k = Some (station n k).
Proof.
  intros K. assert (n = 1 \/ 2 <= n)%nat as [->|N] by lia; [|apply linspace_nth; assumption].
  assert (k = 0)%nat by lia. subst k. cbv [linspace01 map seq nth_error]. simpl. unfold station. simpl. f_equal. lra.
Qed.

Theorem C23_piecewise_linear : forall spline xs ys n, length xs = length ys -> xs <> [] -> ascending xs ->
  exists out, interpolate_girths spline "linear" xs ys n = Ok out /\ length out = n /\
    forall k, (k < n)%nat -> exists y, nth_error out k = Some y /\ linear_at xs ys (station n k) y.
Proof.
  intros spline xs ys n L N I. unfold interpolate_girths, np_interp. cbn [String.eqb]. simpl String.eqb. cbv iota.
  rewrite L, Nat.eqb_refl. cbn [negb]. destruct (combine_split' xs ys L) as [E1 E2].
  destruct (combine xs ys) as [|[x0 y0] pts]. { simpl in E1. congruence. } simpl in E1, E2.
  eexists. split; [reflexivity|]. split. { rewrite map_length, linspace_length. reflexivity. }
  intros k K. rewrite nth_error_map, linspace_at by assumption. simpl. eexists. split; [reflexivity|].
  rewrite <- E1, <- E2. rewrite <- E1 in I. rnum. destruct (Rltb (station n k) x0) eqn:E.
  - apply Rltb_true in E. left. exists x0. simpl. repeat split; lra.
  - apply Rltb_false in E. apply interp_from_linear; assumption.
Qed.

(* consequences for any function that is piecewise linear through the data *)
Lemma linear_at_bounds xs ys x y : length xs = length ys -> xs <> [] -> linear_at xs ys x y ->
  exists j a b, nth_error ys j = Some a /\ (nth_error ys (S j) = Some b \/ b = a) /\ Rmin a b <= y <= Rmax a b.
Proof.
  intros L N [(a & A & B & C)|[(a & A & B & C)|(j & a & b & c & d & A & B & C & D & E & F)]].
  - exists 0%nat, y, y. rewrite Rmin_left, Rmax_left by lra. repeat split; auto; lra.
  - exists (length xs - 1)%nat, y, y. rewrite Rmin_left, Rmax_left by lra. repeat split; auto; lra.
  - exists j, b, d. split; [assumption|]. split; [auto|].
    destruct (Req_dec a c) as [AC|AC].
    + subst c. replace (a - a) with 0 in F by ring. unfold Rdiv in F. replace ((x - a) * / 0 * (d - b)) with 0 in F.
      * unfold Rmin, Rmax. destruct (Rle_dec b d); lra.
      * replace (x - a) with 0 by lra. ring.
    + assert (T : 0 <= (x - a) / (c - a) <= 1).
      { assert (0 < c - a) by lra. split. - apply Rmult_le_pos; [lra|]. left; apply Rinv_0_lt_compat; assumption.
        - apply Rmult_le_reg_r with (c - a); [assumption|]. unfold Rdiv. rewrite Rmult_assoc, Rinv_l by lra. lra. }
      set (t := (x - a) / (c - a)) in *. subst y. unfold Rmin, Rmax. destruct (Rle_dec b d); nra.
Qed.
Lemma linear_at_data xs ys x y j v : length xs = length ys -> ascending xs -> linear_at xs ys x y ->
  nth_error xs j = Some x -> nth_error ys j = Some v -> y = v.
Proof.
  intros L I [(a & A & B & C)|[(a & A & B & C)|(i & a & b & c & d & A & B & C & D & E & F)]] X V.
  - destruct j as [|j]; [congruence|]. pose proof (ascending_lt xs 0 (S j) a x I ltac:(lia) A X). lra.
  - assert (J : (j < length xs)%nat) by (eapply nth_error_Some_lt; eauto). assert (j = length xs - 1 \/ j < length xs - 1)%nat as [->|J'] by lia; [congruence|].
    pose proof (ascending_lt xs j _ x a I J' X A). lra.
  - pose proof (I i a c A B) as AC. assert (i = j \/ j = S i \/ j < i \/ S i < j)%nat as [->|[->|[J|J]]] by lia.
    + assert (x = a) by congruence. assert (v = b) by congruence. subst. field; lra.
    + assert (x = c) by congruence. assert (v = d) by congruence. subst. field; lra.
    + pose proof (ascending_lt xs j i x a I J X A). lra.
    + pose proof (ascending_lt xs (S i) j c x I J B X). lra.
Qed.

(** every value is a convex combination of two neighbouring data values *)
Theorem C23_between_neighbours : forall spline xs ys n out k y, length xs = length ys -> xs <> [] -> ascending xs ->
  interpolate_girths spline "linear" xs ys n = Ok out -> nth_error out k = Some y ->
  exists j a b, nth_error ys j = Some a /\ (nth_error ys (S j) = Some b \/ b = a) /\ Rmin a b <= y <= Rmax a b.
Proof.
  intros spline xs ys n out k y L N I E K. destruct (C23_piecewise_linear spline xs ys n L N I) as (out' & E' & LO & P). rewrite E in E'. injection E' as <-.
  destruct (P k) as (y' & Y & LA). { apply nth_error_Some_lt in K. lia. } rewrite K in Y. injection Y as <-. eapply linear_at_bounds; eauto.
Qed.
(** the interpolation passes through the data *)
Theorem C23_through_the_data : forall spline xs ys n out k y j v, length xs = length ys -> xs <> [] -> ascending xs ->
  interpolate_girths spline "linear" xs ys n = Ok out -> nth_error out k = Some y ->
  nth_error xs j = Some (station n k) -> nth_error ys j = Some v -> y = v.
Proof.
  intros spline xs ys n out k y j v L N I E K X V. destruct (C23_piecewise_linear spline xs ys n L N I) as (out' & E' & LO & P). rewrite E in E'. injection E' as <-.
  destruct (P k) as (y' & Y & LA). { apply nth_error_Some_lt in K. lia. } rewrite K in Y. injection Y as <-. eapply linear_at_data; eauto.
Qed.
(** affine data is reproduced on the range of the girths *)
Theorem C23_affine : forall spline xs n out k y a b x0 x1, xs <> [] -> ascending xs ->
  interpolate_girths spline "linear" xs (map (fun x => a + b * x) xs) n = Ok out -> nth_error out k = Some y ->
  nth_error xs 0 = Some x0 -> nth_error xs (length xs - 1) = Some x1 -> x0 <= station n k <= x1 -> y = a + b * station n k.
Proof.
  intros spline xs n out k y a b x0 x1 N I E K X0 X1 B. set (ys := map _ xs) in *.
  assert (L : length xs = length ys) by (unfold ys; rewrite map_length; reflexivity).
  destruct (C23_piecewise_linear spline xs ys n L N I) as (out' & E' & LO & P). rewrite E in E'. injection E' as <-.
  destruct (P k) as (y' & Y & LA). { apply nth_error_Some_lt in K. lia. } rewrite K in Y. injection Y as <-.
  assert (Q : forall j x v, nth_error xs j = Some x -> nth_error ys j = Some v -> v = a + b * x).
  { intros j x v A V. unfold ys in V. rewrite nth_error_map, A in V. injection V as <-. reflexivity. }
  destruct LA as [(c & C & D & F)|[(c & C & D & F)|(j & c & d & e & f & C & D & F & G & J & M)]].
  - rewrite (Q _ _ _ C D). rewrite X0 in C. injection C as <-. do 2 f_equal. lra.
  - rewrite (Q _ _ _ C D). rewrite X1 in C. injection C as <-. do 2 f_equal. lra.
  - rewrite (Q _ _ _ C F), (Q _ _ _ D G) in M. pose proof (I j c e C D). subst y. field; lra.
Qed.
(** girths from 0 to 1: the first and last values are the first and last data *)
Theorem C23_ends : forall spline xs ys n out, length xs = length ys -> xs <> [] -> ascending xs ->
  interpolate_girths spline "linear" xs ys n = Ok out ->
  (nth_error xs 0 = Some 0 -> (1 <= n)%nat -> nth_error out 0 = nth_error ys 0) /\
  (nth_error xs (length xs - 1) = Some 1 -> (2 <= n)%nat -> nth_error out (n - 1) = nth_error ys (length ys - 1)).
Proof.
  intros spline xs ys n out L N I E. destruct (C23_piecewise_linear spline xs ys n L N I) as (out' & E' & LO & P). rewrite E in E'. injection E' as <-.
  assert (LX : (0 < length xs)%nat) by (destruct xs; [congruence | simpl; lia]). split.
  - intros X M. destruct (P 0%nat ltac:(lia)) as (y & Y & LA). destruct (nth_error_ex ys 0 ltac:(lia)) as [v V]. rewrite Y, V. f_equal.
    apply (linear_at_data _ _ _ _ 0%nat _ L I LA); [|assumption]. rewrite X. f_equal. unfold station. simpl. unfold Rdiv. ring.
  - intros X M. destruct (P (n - 1)%nat ltac:(lia)) as (y & Y & LA). destruct (nth_error_ex ys (length ys - 1) ltac:(lia)) as [v V]. rewrite Y, V. f_equal.
    apply (linear_at_data _ _ _ _ (length xs - 1)%nat _ L I LA); [|rewrite L; assumption]. rewrite X. f_equal. unfold station. symmetry. apply Rinv_r. apply not_0_INR. lia.
Qed.
(** data of different lengths or no data: ValueError; an unknown type: KeyError (any number system) *)
Theorem C23_rejections : forall (F : Type) (NF : Num F) (spline : @spline_oracle F) xs ys n,
  (length xs <> length ys \/ xs = [] -> interpolate_girths spline "linear" xs ys n = Raise ValueError) /\
  (forall ty, ty <> "linear"%string -> ty <> "spline"%string -> interpolate_girths spline ty xs ys n = Raise KeyError).
Proof.
  intros F NF spline xs ys n. split.
  - intros D. unfold interpolate_girths, np_interp. simpl String.eqb. cbv iota. destruct (length xs =? length ys)%nat eqn:E; [|reflexivity].
    apply Nat.eqb_eq in E. destruct D as [D|D]; [contradiction|]. subst xs. reflexivity.
  - intros ty A B. unfold interpolate_girths. apply String.eqb_neq in A, B. rewrite A, B. reflexivity.
Qed.

Lemma demo_ascending : ascending [0; 1/4; 1].
Proof. intros [|[|[|i]]] a b A B; simpl in *; try discriminate; injection A as <-; injection B as <-; lra. Qed.
Example C23_case : forall spline, ascending [0; 1/4; 1] /\ exists out, interpolate_girths spline "linear" [0; 1/4; 1] [3; 5; 1] 3 = Ok out /\ out = [3; 11/3; 1].
Proof.
  intros spline. split; [apply demo_ascending|].
  destruct (C23_piecewise_linear spline [0; 1/4; 1] [3; 5; 1] 3 eq_refl ltac:(discriminate) demo_ascending) as (out & E & L & P). exists out. split; [assumption|].
  destruct (P 0%nat ltac:(lia)) as (a & A & A'). destruct (P 1%nat ltac:(lia)) as (b & B & B'). destruct (P 2%nat ltac:(lia)) as (c & C & C').
  destruct out as [|o0 [|o1 [|o2 [|]]]]; try discriminate. simpl in A, B, C. injection A as ->. injection B as ->. injection C as ->.
  destruct (C23_ends spline [0; 1/4; 1] [3; 5; 1] 3 _ eq_refl ltac:(discriminate) demo_ascending E) as [Z O]. simpl in Z, O. specialize (Z eq_refl ltac:(lia)). specialize (O eq_refl ltac:(lia)).
  injection Z as ->. injection O as ->. f_equal. f_equal. unfold station in B'. simpl in B'.
  destruct B' as [(x & X & Y & Q)|[(x & X & Y & Q)|(j & x0 & y0 & x1 & y1 & X0 & X1 & Y0 & Y1 & Q & M)]].
  - simpl in X. injection X as <-. lra.
  - simpl in X. injection X as <-. lra.
  - destruct j as [|[|[|j]]]; simpl in X0, X1, Y0, Y1; try discriminate; injection X0 as <-; injection X1 as <-; injection Y0 as <-; injection Y1 as <-; lra.
Qed.

(** ** C24: for every number system and both interpolation types *)
Theorem C24_mirrored : forall (F : Type) (NF : Num F) (spline : @spline_oracle F) ty xs ys n s,
  interpolate_girths spline ty xs ys n = Ok s ->
  exists out, interpolate_and_mirror_girths spline ty xs ys n = Ok out /\
    rev out = out /\ skipn (length s) out = s /\ length out = (2 * length s)%nat /\
    (ty = "linear"%string -> length out = (2 * n)%nat).
Proof.
  intros F NF spline ty xs ys n s E. exists (rev s ++ s). unfold interpolate_and_mirror_girths. rewrite E. split; [reflexivity|].
  split; [rewrite rev_app_distr, rev_involutive; reflexivity|].
  split. { rewrite skipn_app, rev_length, Nat.sub_diag, skipn_all2 by (rewrite rev_length; lia). reflexivity. }
  split; [rewrite app_length, rev_length; lia|]. intros ->. rewrite app_length, rev_length. enough (length s = n) by lia.
  unfold interpolate_girths, np_interp in E. simpl String.eqb in E. cbv iota in E. destruct (negb _); [discriminate|].
  destruct (combine xs ys) as [|[x0 y0] pts]; [discriminate|]. injection E as <-. rewrite map_length, linspace_length. reflexivity.
Qed.
(** and it fails only where the interpolation fails *)
Theorem C24_failures : forall (F : Type) (NF : Num F) (spline : @spline_oracle F) ty xs ys n e,
  interpolate_and_mirror_girths spline ty xs ys n = Raise e <-> interpolate_girths spline ty xs ys n = Raise e.
Proof.
  intros. unfold interpolate_and_mirror_girths. destruct (interpolate_girths spline ty xs ys n); unfold bind; split; congruence.
Qed.
(** interpolate_data_for_sections: the k-th result is the jib's mirrored data followed by the main sail's *)
Theorem C24_sections : forall (F : Type) (NF : Num F) (spline : @spline_oracle F) ty dm dj gm gj n out,
  interpolate_data_for_sections spline ty dm dj gm gj n = Ok out ->
  length out = Nat.min (length dj) (length dm) /\
  forall k j m, nth_error dj k = Some j -> nth_error dm k = Some m ->
    exists sj sm, interpolate_girths spline ty gj j n = Ok sj /\ interpolate_girths spline ty gm m n = Ok sm /\
      nth_error out k = Some (rev sj ++ sj ++ rev sm ++ sm).
Proof.
  intros F NF spline ty dm dj gm gj n out E. unfold interpolate_data_for_sections in E.
  destruct (mapM _ dm) as [ms|] eqn:EM; [|discriminate]. unfold bind at 1 in E. destruct (mapM _ dj) as [js|] eqn:EJ; [|discriminate]. unfold bind in E. injection E as <-.
  rewrite zipWith_length, (mapM_length _ _ _ EM), (mapM_length _ _ _ EJ). split; [reflexivity|]. intros k j m J M.
  destruct (mapM_nth _ _ _ _ _ EM M) as (b & B & B'). destruct (mapM_nth _ _ _ _ _ EJ J) as (a & A & A').
  unfold interpolate_and_mirror_girths in A', B'. destruct (interpolate_girths spline ty gm m n) as [sm|] eqn:EM'; [|discriminate]. destruct (interpolate_girths spline ty gj j n) as [sj|] eqn:EJ'; [|discriminate].
  unfold bind in A', B'. injection A' as <-. injection B' as <-. exists sj, sm. split; [reflexivity|]. split; [reflexivity|].
  rewrite (nth_error_zipWith _ _ _ _ _ _ A B), <- app_assoc. reflexivity.
Qed.
Example C24_case : forall spline, exists s, interpolate_girths spline "linear" [0; 1/4; 1] [3; 5; 1] 3 = Ok s /\ length s = 3%nat.
Proof. intros spline. destruct (C23_case spline) as (_ & out & E & ->). eauto. Qed.
Example C24_sections_case : forall spline, exists out, interpolate_data_for_sections spline "linear" [[3; 5; 1]] [[2; 2; 2]; [1; 0; 1]] [0; 1/4; 1] [0; 1/4; 1] 3 = Ok out /\ length out = 1%nat.
Proof. intros spline. eexists. split; reflexivity. Qed.
Example C24_failure_case : forall spline, interpolate_and_mirror_girths spline "cubic" [0; 1] [3; 5] 3 = Raise KeyError.
Proof. reflexivity. Qed.

Print Assumptions C23_piecewise_linear.
Print Assumptions C23_between_neighbours.
Print Assumptions C23_through_the_data.
Print Assumptions C23_affine.
Print Assumptions C23_ends.
Print Assumptions C23_rejections.
Print Assumptions C24_mirrored.
Print Assumptions C24_failures.
Print Assumptions C24_sections.
