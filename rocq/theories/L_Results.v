(** Lemmas on sums of parts of lists, for the results. *)

From Coq Require Import String ZArith Reals List Bool Lra Psatz Lia Arith.
From Verif Require Import Num PyBase RNum Spec M_Csys M_Coefs M_Forces M_Winds M_Vlm M_Sail M_Results
  L_List L_Rot L_Vel L_Csys L_Lattice L_Vlm.
Import ListNotations.
Open Scope R_scope.

Lemma ssum_app l m : ssum (l ++ m) = sadd (ssum l) (ssum m).
Proof. induction l as [|a l IH]; simpl. - destruct (ssum m). unfold szero. svec. vec_eq; ring. - rewrite IH. destruct a, (ssum l), (ssum m). svec. vec_eq; ring. Qed.
Lemma ssum_concat ll : ssum (concat ll) = ssum (map ssum ll).
Proof. induction ll as [|l ll IH]; simpl; [reflexivity|]. rewrite ssum_app, IH. reflexivity. Qed.
Lemma firstn_zipWith {A B C} (f : A -> B -> C) n l m : firstn n (zipWith f l m) = zipWith f (firstn n l) (firstn n m).
Proof. revert l m; induction n as [|n IH]; intros [|a l] [|b m]; simpl; try reflexivity. rewrite IH. reflexivity. Qed.
Lemma zipWith_app {A B C} (f : A -> B -> C) l l' m m' : length l = length m -> zipWith f (l ++ l') (m ++ m') = zipWith f l m ++ zipWith f l' m'.
Proof. revert m; induction l as [|a l IH]; intros [|b m] L; simpl in *; try discriminate; auto. f_equal. apply IH. lia. Qed.
Lemma zipWith_concat {A B C} (f : A -> B -> C) n ll mm : (forall a, In a ll -> length a = n) -> (forall a, In a mm -> length a = n) -> length ll = length mm ->
  zipWith f (concat ll) (concat mm) = concat (zipWith (zipWith f) ll mm).
Proof.
  revert mm; induction ll as [|l ll IH]; intros [|m mm] P Q L; simpl in *; try discriminate; auto.
  rewrite zipWith_app by (rewrite P, Q by auto; reflexivity). f_equal. apply IH; auto.
Qed.
Lemma firstn_nth {A} (l : list A) n k : (k < n)%nat -> nth_error (firstn n l) k = nth_error l k.
Proof. apply nth_error_firstn. Qed.
Lemma map_combine_seq {A B} (f : nat * A -> B) (l : list A) : forall a, map f (combine (seq a (length l)) l) = zipWith (fun i x => f (i, x)) (seq a (length l)) l.
Proof. induction l as [|x l IH]; intros a; simpl; [reflexivity|]. rewrite IH. reflexivity. Qed.
Lemma combine_seq_nth {A} (l : list A) g : forall a x, nth_error l g = Some x -> nth_error (combine (seq a (length l)) l) g = Some ((a + g)%nat, x).
Proof.
  intros a x E. apply nth_error_combine; [|assumption]. apply nth_error_seq. eapply nth_error_Some_lt; eauto.
Qed.
Lemma array_split_two {A} (l : list A) n m : (0 < n)%nat -> length l = (2 * n * m)%nat -> firstn (length l / 2) l = firstn (n * m) l.
Proof. intros N L. rewrite L. f_equal. replace (2 * n * m)%nat with ((n * m) * 2)%nat by lia. apply Nat.div_mul. lia. Qed.
Lemma list_nth_ext {A} (d : A) l : l = map (fun k => nth k l d) (seq 0 (length l)).
Proof. exact (list_tab l (length l) d eq_refl). Qed.
Lemma seq_shift_map {A} (f : nat -> A) a b : map f (seq (0 + a) b) = map (fun k => f (a + k)%nat) (seq 0 b).
Proof. simpl. revert a; induction b as [|b IH]; intros a; [reflexivity|]. cbn [seq map]. rewrite (IH (S a)), <- seq_shift, map_map. f_equal; [f_equal; lia|]. apply map_ext. intros k. f_equal. lia. Qed.
Lemma tab_app {A} a b (f : nat -> A) : tab (a + b) f = tab a f ++ tab b (fun k => f (a + k)%nat).
Proof. unfold tab. rewrite seq_app, map_app. f_equal. rewrite seq_shift_map. reflexivity. Qed.
Lemma vsumn_groups n m f : vsumn (n * m) f = vsumn n (fun g => vsumn m (fun q => f (g * m + q)%nat)).
Proof.
  induction n as [|n IH]; [reflexivity|]. replace (S n * m)%nat with (n * m + m)%nat by lia. replace (S n) with (n + 1)%nat by lia.
  unfold vsumn in *. rewrite !tab_app, !ssum_app, IH. f_equal. unfold tab at 2. cbn [seq map]. rewrite ssum_cons. change (ssum []) with szero.
  replace (n + 0)%nat with n by lia. set (u := ssum _). destruct u. unfold szero. svec. vec_eq; ring.
Qed.
Lemma firstn_tab {A} (l : list A) n d : (n <= length l)%nat -> firstn n l = tab n (fun k => nth k l d).
Proof.
  intros L. apply list_ext; rewrite ?tab_length, firstn_length; [lia|]. intros i I. rewrite nth_error_firstn, tab_nth_error by lia.
  apply nth_error_nth'. lia.
Qed.

(** ** Regrouping: sail 0 above, sail 0 under, sail 1 above, ... *)
Lemma every_second_nth {A} : forall i (l : list A), nth_error (every_second l) i = nth_error l (2 * i).
Proof.
  induction i as [|i IH]; intros l.
  - destruct l as [|a [|b l]]; reflexivity.
  - destruct l as [|a [|b l]].
    + rewrite !(proj2 (nth_error_None _ _)) by (simpl; lia). reflexivity.
    + cbn [every_second nth_error]. replace (2 * S i)%nat with (S (S (2 * i))) by lia. cbn [nth_error]. rewrite !(proj2 (nth_error_None _ _)) by (simpl; lia). reflexivity.
    + cbn [every_second nth_error]. replace (2 * S i)%nat with (S (S (2 * i))) by lia. cbn [nth_error]. apply IH.
Qed.
Lemma every_second_length {A} n : forall l : list A, length l = (2 * n)%nat -> length (every_second l) = n.
Proof.
  induction n as [|n IH]; intros [|a [|b l]] L; simpl in *; try lia; try reflexivity. f_equal. apply IH. lia.
Qed.
Lemma every_second_in {A} (l : list A) a : In a (every_second l) -> In a l.
Proof. intros I. apply In_nth_error in I. destruct I as [i I]. rewrite every_second_nth in I. eapply nth_error_In; eauto. Qed.
Lemma np_split_exact {A} (l : list A) G m : (0 < G)%nat -> length l = (G * m)%nat -> np_split l G = array_split l G.
Proof.
  intros G0 L. unfold np_split. destruct G as [|G]; [lia|]. rewrite L. replace (S G * m)%nat with (m * S G)%nat by lia. rewrite Nat.mod_mul by lia. reflexivity.
Qed.
Lemma second_groups {A} (parts : list (list A)) n m : (0 < n)%nat -> length parts = n -> (forall a, In a parts -> length a = (2 * m)%nat) ->
  exists gs, array_split (concat parts) (2 * n) = Ok gs /\ np_split (concat parts) (2 * n) = Ok gs /\ length (concat (every_second gs)) = (n * m)%nat /\
    forall g a q, nth_error parts g = Some a -> (q < m)%nat -> nth_error (concat (every_second gs)) (g * m + q) = nth_error a q.
Proof.
  intros N LP W. assert (LC : length (concat parts) = (2 * n * m)%nat) by (rewrite (concat_groups_length _ _ W), LP; lia).
  destruct (array_split_groups (concat parts) (2 * n) m) as (gs & E & LG & _ & WG & P); [lia|assumption|]. exists gs. split; [exact E|].
  split; [rewrite (np_split_exact _ _ m) by (lia || assumption); exact E|].
  assert (WE : forall a, In a (every_second gs) -> length a = m) by (intros a I; apply WG, every_second_in; assumption).
  split; [rewrite (concat_groups_length _ _ WE), (every_second_length n) by assumption; reflexivity|].
  intros g a q G Q. assert (GL : (g < n)%nat) by (rewrite <- LP; eapply nth_error_Some_lt; eauto).
  destruct (nth_error_ex gs (2 * g)) as [b B]; [lia|]. rewrite (concat_groups_nth _ m g b) by (auto; rewrite every_second_nth; assumption).
  rewrite (P _ _ _ B Q). replace (2 * g * m + q)%nat with (g * (2 * m) + q)%nat by lia. apply concat_groups_nth; auto. lia.
Qed.
(** the maximum *)
Lemma py_max_spec (l : list R) : l <> [] -> exists m, py_max l = Ok m /\ In m l /\ forall x, In x l -> x <= m.
Proof.
  intros N. destruct l as [|a l]; [congruence|]. clear N. eexists. split; [reflexivity|]. revert a. induction l as [|b l IH]; intros a.
  - simpl. split; [auto|]. intros x [<-|[]]. lra.
  - cbn [fold_left]. destruct (IH (if a <? b then b else a)%N_) as [I M]. set (m := fold_left _ l _) in *. revert I M. rnum. intros I M.
    destruct (Rltb a b) eqn:E; rewrite ?Rltb_true, ?Rltb_false in E; split.
    + destruct I as [<-|I]; simpl; auto.
    + intros x [<-|[<-|H]]; [|apply M; simpl; auto | apply M; simpl; auto]. pose proof (M b (or_introl eq_refl)). lra.
    + destruct I as [<-|I]; simpl; auto.
    + intros x [<-|[<-|H]]; [apply M; simpl; auto| | apply M; simpl; auto]. pose proof (M a (or_introl eq_refl)). lra.
Qed.
(** ** Python dicts *)
Lemma dict_set_value {A} (d : list (string * A)) k v k' : value_of (dict_set d k v) k' = if String.eqb k k' then Some v else value_of d k'.
Proof.
  unfold value_of. induction d as [|[a b] d IH]; simpl.
  - destruct (String.eqb k k'); reflexivity.
  - destruct (String.eqb a k) eqn:E; simpl.
    + apply String.eqb_eq in E. subst a. destruct (String.eqb k k'); reflexivity.
    + destruct (String.eqb a k') eqn:E2.
      * apply String.eqb_eq in E2. subst a. rewrite String.eqb_sym, E. reflexivity.
      * exact IH.
Qed.
Lemma py_dict_value {A} (rows : list (string * A)) k : value_of (py_dict rows) k = value_of (rev rows) k.
Proof.
  unfold py_dict. rewrite <- fold_left_rev_right. induction (rev rows) as [|[a b] l IH]; [reflexivity|]. cbn [fold_right fst snd]. rewrite dict_set_value, IH.
  unfold value_of. simpl. destruct (String.eqb a k); reflexivity.
Qed.
Lemma value_of_app {A} (l m : list (string * A)) k : value_of (l ++ m) k = match value_of l k with Some v => Some v | None => value_of m k end.
Proof. unfold value_of. induction l as [|[a b] l IH]; simpl; [reflexivity|]. destruct (String.eqb a k); [reflexivity|exact IH]. Qed.
Lemma value_of_none {A} (l : list (string * A)) k : (forall r, In r l -> fst r <> k) -> value_of l k = None.
Proof.
  unfold value_of. induction l as [|[a b] l IH]; simpl; intros P; [reflexivity|]. destruct (String.eqb a k) eqn:E; [|apply IH; auto].
  apply String.eqb_eq in E. exfalso. apply (P (a, b)); simpl; auto.
Qed.
