(** Lemmas about Gaussian elimination. *)

From Coq Require Import ZArith Reals List Bool Lra Psatz Lia Permutation.
From Verif Require Import Num PyBase RNum Spec M_Solve L_List.
Import ListNotations.
Open Scope R_scope.

(** ** Sums *)
Lemma fold_left_rsum l : forall a, fold_left Rplus l a = a + rsum l.
Proof.
  induction l as [|x l IH]; intros a; simpl; [lra|]. rewrite IH. unfold rsum. simpl. lra.
Qed.
Lemma nsum_rsum (l : list R) : nsum l = rsum l.
Proof. unfold nsum. change (@nadd R RNum) with Rplus. rewrite fold_left_rsum. simpl. lra. Qed.
Lemma rsum_cons a l : rsum (a :: l) = a + rsum l.
Proof. reflexivity. Qed.
Lemma rsum_app l m : rsum (l ++ m) = rsum l + rsum m.
Proof. induction l as [|a l IH]; [simpl app; change (rsum []) with 0; lra|]. cbn [app]. rewrite !rsum_cons, IH. lra. Qed.
Lemma rsum_map_mult k l : rsum (map (Rmult k) l) = k * rsum l.
Proof. induction l as [|a l IH]; [simpl; change (rsum []) with 0; lra|]. cbn [map]. rewrite !rsum_cons, IH. lra. Qed.
Lemma srow_cons a l x y : srow (a :: l) (x :: y) = a * x + srow l y.
Proof. reflexivity. Qed.
Lemma srow_nil x : srow [] x = 0.
Proof. reflexivity. Qed.
Lemma srow_nil_r l : srow l [] = 0.
Proof. destruct l; reflexivity. Qed.
Lemma dotl_srow (a b : list R) : dotl a b = srow a b.
Proof.
  unfold dotl. rewrite nsum_rsum. revert b. induction a as [|x a IH]; intros [|y b]; try reflexivity.
  cbn [zipWith]. rewrite rsum_cons, IH, srow_cons. reflexivity.
Qed.
Lemma srow_zero l n : srow l (repeat 0 n) = 0.
Proof.
  revert n. induction l as [|a l IH]; intros [|n]; try reflexivity. simpl repeat. rewrite srow_cons, IH. lra.
Qed.
Lemma srow_comb k : forall l m y, length l = length m -> srow (zipWith (fun a b => a - k * b) l m) y = srow l y - k * srow m y.
Proof.
  induction l as [|a l IH]; intros [|b m] y L; try discriminate; [rewrite !srow_nil; lra|].
  destruct y as [|c y]; [rewrite !srow_nil_r; lra|]. cbn [zipWith]. rewrite !srow_cons, IH by (simpl in L; lia). lra.
Qed.

(** ** Elimination *)
Definition holds (y : list R) (e : eqn) : Prop := srow (fst e) y = snd e.
Definition null (y : list R) (e : @eqn R) : Prop := srow (fst e) y = 0.

Lemma choose_pivot_perm rows : forall best piv rest, choose_pivot best rows = (piv, rest) -> Permutation (best :: rows) (piv :: rest).
Proof.
  induction rows as [|e rows IH]; intros best piv rest H.
  - injection H as <- <-. reflexivity.
  - cbn [choose_pivot] in H. destruct (nltb (lead best) (lead e)).
    + destruct (choose_pivot e rows) as [p r] eqn:E. injection H as <- <-.
      apply IH in E. transitivity (best :: p :: r); [constructor; exact E | constructor].
    + destruct (choose_pivot best rows) as [p r] eqn:E. injection H as <- <-.
      apply IH in E. transitivity (e :: best :: rows); [constructor|]. transitivity (e :: p :: r); [constructor; exact E | constructor].
Qed.
Lemma choose_pivot_max rows : forall best piv rest, choose_pivot best rows = (piv, rest) ->
  lead best <= lead piv /\ forall e, In e rows -> lead e <= lead piv.
Proof.
  induction rows as [|e rows IH]; intros best piv rest H.
  - injection H as <- <-. split; [lra | intros e []].
  - cbn [choose_pivot] in H. change (nltb (lead best) (lead e)) with (Rltb (lead best) (lead e)) in H.
    destruct (Rltb (lead best) (lead e)) eqn:C.
    + apply Rltb_true in C. destruct (choose_pivot e rows) as [p r] eqn:E. injection H as <- <-.
      apply IH in E. destruct E as [A B]. split; [lra|]. intros x [<-|I]; [assumption | auto].
    + apply Rltb_false in C. destruct (choose_pivot best rows) as [p r] eqn:E. injection H as <- <-.
      apply IH in E. destruct E as [A B]. split; [lra|]. intros x [<-|I]; [lra | auto].
Qed.

Lemma fst_eliminate (piv e : @eqn R) : fst (eliminate piv e) =
  zipWith (fun a b => a - hd 0 (fst e) / hd 0 (fst piv) * b) (tl (fst e)) (tl (fst piv)).
Proof. reflexivity. Qed.
Lemma eliminate_length n (piv e : @eqn R) : length (fst piv) = S n -> length (fst e) = S n -> length (fst (eliminate piv e)) = n.
Proof.
  rewrite fst_eliminate, zipWith_length. destruct (fst piv), (fst e); simpl; intros; lia.
Qed.
(* the eliminated left-hand side *)
Lemma eliminate_row n (piv e : @eqn R) y ys : length (fst piv) = S n -> length (fst e) = S n -> hd 0 (fst piv) <> 0 ->
  srow (fst (eliminate piv e)) ys = srow (fst e) (y :: ys) - hd 0 (fst e) / hd 0 (fst piv) * srow (fst piv) (y :: ys).
Proof.
  intros LP LE H. rewrite fst_eliminate. destruct (fst piv) as [|p ps]; [discriminate|]. destruct (fst e) as [|a as_]; [discriminate|].
  cbn [hd tl] in *. rewrite srow_comb by (simpl in *; lia). rewrite !srow_cons. field. assumption.
Qed.
Lemma eliminate_holds n (piv e : @eqn R) y ys : length (fst piv) = S n -> length (fst e) = S n -> hd 0 (fst piv) <> 0 ->
  holds (y :: ys) piv -> (holds ys (eliminate piv e) <-> holds (y :: ys) e).
Proof.
  intros LP LE H HP. unfold holds in *. rewrite (eliminate_row n piv e y ys LP LE H), HP.
  change (snd (eliminate piv e)) with (snd e - hd 0 (fst e) / hd 0 (fst piv) * snd piv). lra.
Qed.
Lemma eliminate_null n (piv e : @eqn R) y ys : length (fst piv) = S n -> length (fst e) = S n -> hd 0 (fst piv) <> 0 ->
  null (y :: ys) piv -> null ys (eliminate piv e) -> null (y :: ys) e.
Proof.
  intros LP LE H HP. unfold null in *. rewrite (eliminate_row n piv e y ys LP LE H), HP. lra.
Qed.

Lemma gauss_ok n : forall rows x, length rows = n -> (forall e, In e rows -> length (fst e) = n) ->
  gauss n rows = Ok x -> length x = n /\ forall y, length y = n -> ((forall e, In e rows -> holds y e) <-> y = x).
Proof.
  induction n as [|n IH]; intros rows x LR LE G.
  - simpl in G. injection G as <-. split; [reflexivity|]. intros y LY. destruct y; [|discriminate].
    destruct rows; [|discriminate]. split; [reflexivity | intros _ e []].
  - destruct rows as [|e rows]; [discriminate|]. cbn [gauss] in G. destruct (choose_pivot e rows) as [piv rest] eqn:CP.
    cbv zeta in G. change (neqb (hd (nZ 0) (fst piv)) (nZ 0)) with (Reqb (hd 0 (fst piv)) 0) in G. destruct (Reqb (hd 0 (fst piv)) 0) eqn:Z; [discriminate|].
    apply Reqb_false in Z. apply choose_pivot_perm in CP.
    destruct (gauss n (map (eliminate piv) rest)) as [xs|] eqn:GX; [|discriminate]. unfold bind in G.
    assert (LP : length (fst piv) = S n) by (apply LE, (Permutation_in _ (Permutation_sym CP)); left; reflexivity).
    assert (LRE : forall a, In a rest -> length (fst a) = S n) by (intros a I; apply LE, (Permutation_in _ (Permutation_sym CP)); right; assumption).
    apply IH in GX; [|rewrite map_length; apply Permutation_length in CP; simpl in *; unfold eqn in *; lia |
      intros a I; apply in_map_iff in I; destruct I as (b & <- & I); apply eliminate_length; auto].
    destruct GX as [LX X]. rewrite dotl_srow in G. rnum. injection G as <-. split; [simpl; lia|].
    intros y LY. destruct y as [|y ys]; [discriminate|].
    assert (PV : holds (y :: ys) piv <-> y = (snd piv - srow (tl (fst piv)) ys) / hd 0 (fst piv)).
    { unfold holds. destruct (fst piv) as [|p ps] eqn:FP; [discriminate|]. cbn [hd tl] in *. rewrite srow_cons.
      split; intros E; [rewrite <- E; field; assumption | rewrite E; field; assumption]. }
    split.
    + intros A. assert (HP : holds (y :: ys) piv) by (apply A, (Permutation_in _ (Permutation_sym CP)); left; reflexivity).
      assert (EX : ys = xs).
      { apply X; [simpl in LY; lia|]. intros a I. apply in_map_iff in I. destruct I as (b & <- & I).
        apply (proj2 (eliminate_holds n piv b y ys LP (LRE b I) Z HP)). apply A, (Permutation_in _ (Permutation_sym CP)). right; assumption. }
      subst ys. f_equal. apply PV. exact HP.
    + intros E. injection E as EY EX. subst ys. assert (HP : holds (y :: xs) piv) by (apply PV; exact EY).
      intros a I. apply (Permutation_in _ CP) in I. destruct I as [<-|I]; [exact HP|].
      apply (proj1 (eliminate_holds n piv a y xs LP (LRE a I) Z HP)). apply (proj2 (X xs LX) eq_refl). apply in_map. assumption.
Qed.
Lemma gauss_raise n : forall rows e, length rows = n -> (forall a, In a rows -> length (fst a) = n) ->
  gauss n rows = Raise e -> e = LinAlgError /\ exists z, length z = n /\ (exists k, In k z /\ k <> 0) /\ forall a, In a rows -> null z a.
Proof.
  induction n as [|n IH]; intros rows x LR LE G; [discriminate|].
  destruct rows as [|e rows]; [discriminate|]. cbn [gauss] in G. destruct (choose_pivot e rows) as [piv rest] eqn:CP.
  cbv zeta in G. change (neqb (hd (nZ 0) (fst piv)) (nZ 0)) with (Reqb (hd 0 (fst piv)) 0) in G.
  pose proof (choose_pivot_perm _ _ _ _ CP) as PM. destruct (Reqb (hd 0 (fst piv)) 0) eqn:Z.
  - injection G as <-. split; [reflexivity|]. apply Reqb_true in Z. apply choose_pivot_max in CP. destruct CP as [M1 M2].
    assert (L0 : lead piv = 0) by (unfold lead; rnum; rewrite Z; apply Rabs_R0).
    exists (1 :: repeat 0 n). split; [simpl; rewrite repeat_length; reflexivity|]. split; [exists 1; split; [left; reflexivity | lra]|].
    intros a I. assert (LA : lead a = 0).
    { assert (lead a <= 0) by (destruct I as [<-|I]; [lra | rewrite <- L0; auto]).
      assert (0 <= lead a) by apply Rabs_pos. lra. }
    unfold null. unfold lead in LA. rnum. destruct (fst a) as [|p ps]; [reflexivity|]. rewrite srow_cons, srow_zero. cbn [hd] in LA.
    destruct (Req_dec p 0) as [->|N]; [lra|]. apply Rabs_no_R0 in N. contradiction.
  - apply Reqb_false in Z. destruct (gauss n (map (eliminate piv) rest)) as [|e'] eqn:GX; [discriminate|].
    injection G as <-.
    assert (LP : length (fst piv) = S n) by (apply LE, (Permutation_in _ (Permutation_sym PM)); left; reflexivity).
    assert (LRE : forall a, In a rest -> length (fst a) = S n) by (intros a I; apply LE, (Permutation_in _ (Permutation_sym PM)); right; assumption).
    apply IH in GX; [|rewrite map_length; apply Permutation_length in PM; simpl in *; unfold eqn in *; lia |
      intros a I; apply in_map_iff in I; destruct I as (b & <- & I); apply eliminate_length; auto].
    destruct GX as (-> & z & LZ & (k & IK & NK) & N). split; [reflexivity|].
    exists ((- srow (tl (fst piv)) z) / hd 0 (fst piv) :: z). split; [simpl; lia|]. split; [exists k; split; [right|]; assumption|].
    assert (NP : null (- srow (tl (fst piv)) z / hd 0 (fst piv) :: z) piv).
    { unfold null. destruct (fst piv) as [|p ps]; [discriminate|]. cbn [hd tl] in *. rewrite srow_cons. field. assumption. }
    intros a I. apply (Permutation_in _ PM) in I. destruct I as [<-|I]; [exact NP|].
    eapply eliminate_null; eauto. apply N. apply in_map. assumption.
Qed.

Lemma solves_combine A b x : length b = length A ->
  (solves A b x <-> length x = length A /\ forall e, In e (combine A b) -> holds x e).
Proof.
  intros L. unfold solves. split.
  - intros (LX & _ & S). split; [assumption|]. intros [row r] I. apply In_nth_error in I. destruct I as [i I].
    apply nth_error_combine_inv in I. destruct I as [E E']. eapply S; eauto.
  - intros (LX & S). split; [assumption|]. split; [assumption|]. intros i row r E E'.
    apply (S (row, r)). apply (nth_error_In _ i). apply nth_error_combine; assumption.
Qed.
Lemma solve_eq_shape (A : list (list R)) (b : list R) : 
  forallb (fun row => (length row =? length A)%nat) A && (length b =? length A)%nat = true <-> (square A /\ length b = length A).
Proof.
  rewrite andb_true_iff, forallb_forall, Nat.eqb_eq. unfold square. split; intros [X Y]; (split; [|assumption]); intros r I.
  - apply Nat.eqb_eq, X, I.
  - apply Nat.eqb_eq, X, I.
Qed.
Lemma solve_eq_ok A b x : solve_eq A b = Ok x ->
  square A /\ length b = length A /\ forall y, solves A b y <-> y = x.
Proof.
  unfold solve_eq. destruct (_ && _) eqn:C; [|discriminate]. apply solve_eq_shape in C. destruct C as [SQ LB]. intros G.
  split; [assumption|]. split; [assumption|]. apply gauss_ok in G.
  - destruct G as [LX G]. intros y. rewrite solves_combine by assumption. split.
    + intros [LY H]. apply G; assumption.
    + intros ->. split; [assumption|]. apply G; auto.
  - rewrite combine_length. lia.
  - intros [r v] I. apply SQ. eapply in_combine_l; eauto.
Qed.
Lemma solve_eq_raise A b e : solve_eq A b = Raise e ->
  e = LinAlgError /\ (square A -> length b = length A ->
    exists z, length z = length A /\ (exists k, In k z /\ k <> 0) /\ forall row, In row A -> srow row z = 0).
Proof.
  unfold solve_eq. destruct (_ && _) eqn:C.
  - apply solve_eq_shape in C. destruct C as [SQ LB]. intros G. apply gauss_raise in G.
    + destruct G as (-> & z & LZ & NZ & G). split; [reflexivity|]. intros _ _. exists z. split; [assumption|]. split; [assumption|].
      intros row I. apply In_nth_error in I. destruct I as [i I]. destruct (nth_error_ex b i) as [r Hr]; [rewrite LB; eapply nth_error_Some_lt; eauto|].
      apply (G (row, r)). apply (nth_error_In _ i). apply nth_error_combine; assumption.
    + rewrite combine_length. lia.
    + intros [r v] I. apply SQ. eapply in_combine_l; eauto.
  - intros E. injection E as <-. split; [reflexivity|]. intros SQ LB. exfalso.
    rewrite (proj2 (solve_eq_shape A b) (conj SQ LB)) in C. discriminate.
Qed.
(** uniqueness as it is used below *)
Lemma solve_eq_unique A b x y : solve_eq A b = Ok x -> solves A b y -> y = x.
Proof. intros E S. apply (proj2 (proj2 (solve_eq_ok A b x E))). exact S. Qed.
Lemma solve_eq_solves A b x : solve_eq A b = Ok x -> solves A b x.
Proof. intros E. apply (proj2 (proj2 (solve_eq_ok A b x E))). reflexivity. Qed.
