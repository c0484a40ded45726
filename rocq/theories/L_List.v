(** Lemmas on lists and on the Python building blocks, for any carrier. *)

From Coq Require Import ZArith List Bool Arith Lia.
From Verif Require Import Num PyBase.
Import ListNotations.

Lemma nth_error_seq a n i : i < n -> nth_error (seq a n) i = Some (a + i).
Proof.
  revert a i; induction n as [|n IH]; intros a i H; [lia|].
  destruct i; simpl; [f_equal; lia|]. rewrite IH by lia. f_equal; lia.
Qed.
Lemma nth_error_map_seq {A} (f : nat -> A) n i : i < n -> nth_error (map f (seq 0 n)) i = Some (f i).
Proof. intros H. rewrite nth_error_map, nth_error_seq by assumption. reflexivity. Qed.

Lemma nth_of_error {A} (l : list A) i d a : nth_error l i = Some a -> nth i l d = a.
Proof. intros H. apply nth_error_nth; assumption. Qed.
Lemma nth_error_Some_lt {A} (l : list A) i a : nth_error l i = Some a -> i < length l.
Proof. intros H. apply nth_error_Some. rewrite H; discriminate. Qed.
Lemma nth_error_ex {A} (l : list A) i : i < length l -> exists a, nth_error l i = Some a.
Proof. intros H. apply nth_error_Some in H. destruct (nth_error l i); [eauto | contradiction]. Qed.

Lemma list_ext {A} (l m : list A) : length l = length m ->
  (forall i, i < length l -> nth_error l i = nth_error m i) -> l = m.
Proof.
  revert m; induction l as [|a l IH]; intros [|b m] H E; simpl in *; try discriminate; auto.
  f_equal.
  - specialize (E 0 ltac:(lia)). simpl in E; congruence.
  - apply IH; [lia|]. intros i Hi. apply (E (S i)); lia.
Qed.

(** ** mapM *)
Lemma mapM_map {A B} (f : A -> res B) (g : A -> B) l :
  (forall a, In a l -> f a = Ok (g a)) -> mapM f l = Ok (map g l).
Proof.
  induction l as [|a l IH]; intros H; simpl; auto.
  rewrite (H a) by (left; reflexivity). simpl. rewrite IH by (intros; apply H; right; assumption). reflexivity.
Qed.
Lemma mapM_Forall2 {A B} (f : A -> res B) l bs : mapM f l = Ok bs -> Forall2 (fun a b => f a = Ok b) l bs.
Proof.
  revert bs; induction l as [|a l IH]; intros bs H; simpl in H.
  - injection H as <-; constructor.
  - destruct (f a) eqn:E; simpl in H; [|discriminate].
    destruct (mapM f l) eqn:E2; simpl in H; [|discriminate]. injection H as <-. constructor; auto.
Qed.
Lemma Forall2_nth_error {A B} (P : A -> B -> Prop) l m i a b :
  Forall2 P l m -> nth_error l i = Some a -> nth_error m i = Some b -> P a b.
Proof.
  intros H; revert i; induction H; intros [|i]; simpl; try discriminate; intros.
  - congruence. - eauto.
Qed.
Lemma Forall2_len {A B} (P : A -> B -> Prop) l m : Forall2 P l m -> length l = length m.
Proof. induction 1; simpl; auto. Qed.
Lemma mapM_length {A B} (f : A -> res B) l bs : mapM f l = Ok bs -> length bs = length l.
Proof. intros H. apply mapM_Forall2 in H. symmetry; eapply Forall2_len; eauto. Qed.
Lemma mapM_nth {A B} (f : A -> res B) l bs i a : mapM f l = Ok bs -> nth_error l i = Some a ->
  exists b, nth_error bs i = Some b /\ f a = Ok b.
Proof.
  intros H E. pose proof (mapM_length _ _ _ H) as L. apply mapM_Forall2 in H.
  destruct (nth_error_ex bs i) as [b Hb]; [rewrite L; eapply nth_error_Some_lt; eauto|].
  exists b; split; auto. exact (Forall2_nth_error _ _ _ _ _ _ H E Hb).
Qed.
Lemma mapM_raise {A B} (f : A -> res B) l e : mapM f l = Raise e -> exists a, In a l /\ f a = Raise e.
Proof.
  induction l as [|a l IH]; simpl; intros H; [discriminate|].
  destruct (f a) eqn:E; simpl in H.
  - destruct (mapM f l); simpl in H; [discriminate|]. injection H as ->.
    destruct IH as [x [? ?]]; auto. exists x; auto.
  - exists a; split; auto. congruence.
Qed.
Lemma mapM_ext {A B} (f g : A -> res B) l : (forall a, In a l -> f a = g a) -> mapM f l = mapM g l.
Proof.
  induction l as [|a l IH]; intros H; simpl; auto.
  rewrite (H a) by (left; reflexivity). rewrite IH; auto. intros; apply H; right; assumption.
Qed.

(** ** zipWith, combine *)
Lemma zipWith_length {A B C} (f : A -> B -> C) l m : length (zipWith f l m) = Nat.min (length l) (length m).
Proof. revert m; induction l as [|a l IH]; intros [|b m]; simpl; auto. Qed.
Lemma nth_error_zipWith {A B C} (f : A -> B -> C) l m i a b :
  nth_error l i = Some a -> nth_error m i = Some b -> nth_error (zipWith f l m) i = Some (f a b).
Proof.
  revert m i; induction l as [|x l IH]; intros [|y m] [|i]; simpl; try discriminate; intros.
  - congruence. - auto.
Qed.
Lemma nth_error_combine {A B} (l : list A) (m : list B) i a b :
  nth_error l i = Some a -> nth_error m i = Some b -> nth_error (combine l m) i = Some (a, b).
Proof.
  revert m i; induction l as [|x l IH]; intros [|y m] [|i]; simpl; try discriminate; intros.
  - congruence. - auto.
Qed.

(** ** Row-major double loops: [for i in range(N): for j in range(M)] *)
Lemma nth_error_rows {A} (f : nat -> nat -> A) N M i j : i < N -> j < M ->
  nth_error (flat_map (fun i => map (f i) (seq 0 M)) (seq 0 N)) (i * M + j) = Some (f i j).
Proof.
  intros Hi Hj.
  cut (forall a N i, i < N -> nth_error (flat_map (fun i => map (f i) (seq 0 M)) (seq a N)) (i * M + j) = Some (f (a + i) j)).
  { intros H. rewrite H by assumption. reflexivity. }
  clear N i Hi. intros a N; revert a; induction N as [|N IH]; intros a i Hi; [lia|].
  simpl. destruct i.
  - simpl. rewrite nth_error_app1 by (rewrite map_length, seq_length; lia).
    rewrite nth_error_map_seq by assumption. f_equal. f_equal. lia.
  - rewrite nth_error_app2 by (rewrite map_length, seq_length; simpl; lia).
    rewrite map_length, seq_length. replace (S i * M + j - M) with (i * M + j) by (simpl; lia).
    rewrite IH by lia. f_equal. f_equal. lia.
Qed.
Lemma rows_length {A} (f : nat -> nat -> A) N M a :
  length (flat_map (fun i => map (f i) (seq 0 M)) (seq a N)) = N * M.
Proof.
  revert a; induction N as [|N IH]; intros a; simpl; auto.
  rewrite app_length, map_length, seq_length, IH. reflexivity.
Qed.
Lemma map_rows {A B} (g : A -> B) (f : nat -> nat -> A) N M a :
  map g (flat_map (fun i => map (f i) (seq 0 M)) (seq a N)) =
  flat_map (fun i => map (fun j => g (f i j)) (seq 0 M)) (seq a N).
Proof.
  revert a; induction N as [|N IH]; intros a; simpl; auto. rewrite map_app, map_map, IH. reflexivity.
Qed.
(* every row-major index is i * M + j *)
Lemma divmod_lt k N M : k < N * M -> k / M < N /\ k mod M < M /\ k = k / M * M + k mod M.
Proof.
  intros H. assert (M <> 0) by (destruct M; lia).
  split; [apply Nat.div_lt_upper_bound; lia|]. split; [apply Nat.mod_upper_bound; assumption|].
  rewrite (Nat.div_mod k M) at 1 by assumption. lia.
Qed.

(** ** py_nth *)
Lemma py_nth_nat {A} (l : list A) i a : nth_error l i = Some a -> py_nth l (Z.of_nat i) = Ok a.
Proof.
  intros H. pose proof (nth_error_Some_lt _ _ _ H). unfold py_nth.
  destruct (Z.ltb_spec (Z.of_nat i) 0); [lia|].
  destruct (Z.ltb_spec (Z.of_nat i) 0); [lia|]. simpl.
  destruct (Z.leb_spec (Z.of_nat (length l)) (Z.of_nat i)); [lia|].
  rewrite Nat2Z.id, H. reflexivity.
Qed.
Lemma py_nth_Ok_nat {A} (l : list A) i a : py_nth l (Z.of_nat i) = Ok a -> nth_error l i = Some a.
Proof.
  unfold py_nth. destruct (Z.ltb_spec (Z.of_nat i) 0); [lia|].
  destruct (_ || _)%bool; [discriminate|]. rewrite Nat2Z.id.
  destruct (nth_error l i); [congruence | discriminate].
Qed.
Lemma py_nth_out {A} (l : list A) i : length l <= i -> py_nth l (Z.of_nat i) = Raise IndexError.
Proof.
  intros H. unfold py_nth. destruct (Z.ltb_spec (Z.of_nat i) 0); [lia|].
  destruct (Z.leb_spec (Z.of_nat (length l)) (Z.of_nat i)); [|lia].
  rewrite orb_true_r. reflexivity.
Qed.
(* a negative index counts from the end *)
Lemma py_nth_neg {A} (l : list A) k a : 0 < k -> k <= length l ->
  nth_error l (length l - k) = Some a -> py_nth l (- Z.of_nat k) = Ok a.
Proof.
  intros K L H. unfold py_nth. destruct (Z.ltb_spec (- Z.of_nat k) 0); [|lia].
  destruct (Z.ltb_spec (- Z.of_nat k + Z.of_nat (length l)) 0); [lia|]. simpl.
  destruct (Z.leb_spec (Z.of_nat (length l)) (- Z.of_nat k + Z.of_nat (length l))); [lia|].
  replace (Z.to_nat (- Z.of_nat k + Z.of_nat (length l))) with (length l - k) by lia. rewrite H. reflexivity.
Qed.

(** ** chunks *)
Lemma chunks_repeat_concat {A} (c r : nat) (l : list A) : length l = r * c ->
  List.concat (chunks (repeat c r) l) = l.
Proof.
  revert l; induction r as [|r IH]; intros l H; simpl in *.
  - destruct l; [reflexivity | discriminate].
  - rewrite IH by (rewrite skipn_length; lia). apply firstn_skipn.
Qed.
Lemma chunks_length {A} s (l : list A) : length (chunks s l) = length s.
Proof. revert l; induction s; intros l; simpl; auto. Qed.
Lemma skipn_skipn' {A} n m (l : list A) : skipn n (skipn m l) = skipn (m + n) l.
Proof. revert l; induction m as [|m IH]; intros [|a l]; simpl; auto. apply skipn_nil. Qed.
Lemma chunks_repeat_nth {A} (c r i : nat) (l : list A) : i < r ->
  nth_error (chunks (repeat c r) l) i = Some (firstn c (skipn (i * c) l)).
Proof.
  revert l i; induction r as [|r IH]; intros l i H; [lia|]. destruct i; simpl; auto.
  rewrite IH by lia. rewrite skipn_skipn'. reflexivity.
Qed.
Lemma nth_error_firstn {A} (l : list A) n i : i < n -> nth_error (firstn n l) i = nth_error l i.
Proof.
  revert l i; induction n as [|n IH]; intros [|a l] [|i] H; simpl; auto; try lia.
  apply IH; lia.
Qed.
Lemma nth_error_skipn {A} (l : list A) n i : nth_error (skipn n l) i = nth_error l (n + i).
Proof.
  revert l; induction n as [|n IH]; intros [|a l]; simpl; auto. destruct i; reflexivity.
Qed.

Lemma nth_error_combine_inv {A B} (l : list A) (m : list B) i a b :
  nth_error (combine l m) i = Some (a, b) -> nth_error l i = Some a /\ nth_error m i = Some b.
Proof.
  revert m i; induction l as [|x l IH]; intros [|y m] [|i]; simpl; try discriminate; intros.
  - injection H as -> ->. auto. - auto.
Qed.
Lemma nth_error_zipWith_inv {A B C} (f : A -> B -> C) l m i c :
  nth_error (zipWith f l m) i = Some c -> exists a b, nth_error l i = Some a /\ nth_error m i = Some b /\ c = f a b.
Proof.
  revert m i; induction l as [|x l IH]; intros [|y m] [|i]; simpl; try discriminate; intros H.
  - injection H as <-. eauto. - auto.
Qed.
Lemma mapM_app {A B} (f : A -> res B) l m bs cs : mapM f l = Ok bs -> mapM f m = Ok cs -> mapM f (l ++ m) = Ok (bs ++ cs).
Proof.
  revert bs; induction l as [|a l IH]; intros bs E M; simpl in *.
  - injection E as <-. exact M.
  - destruct (f a); [|discriminate]. simpl in *. destruct (mapM f l); [|discriminate]. simpl in *. injection E as <-.
    rewrite (IH _ eq_refl M). reflexivity.
Qed.
