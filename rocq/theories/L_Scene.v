(** Lemmas about the picture: rounding, the water surface, the axes. *)

From Coq Require Import String ZArith Reals List Bool Lra Psatz Lia Arith.
From Verif Require Import Num PyBase RNum Spec M_Plots L_List L_Results.
Import ListNotations.
Open Scope R_scope.

(** math.ceil and int() on the reals *)
Definition rceil (x : R) : Z := (1 - up (- x))%Z.
Definition rtrunc (x : R) : Z := if Rlt_dec x 0 then rceil x else (up x - 1)%Z.
#[export] Instance RRounding : Rounding R := {| nceil := rceil; ntrunc := rtrunc |}.

Lemma rceil_spec x : IZR (rceil x) - 1 < x <= IZR (rceil x).
Proof. unfold rceil. rewrite minus_IZR. destruct (archimed (- x)). lra. Qed.
Lemma rtrunc_spec x : 0 <= x -> IZR (rtrunc x) <= x < IZR (rtrunc x) + 1.
Proof. intros P. unfold rtrunc. destruct (Rlt_dec x 0); [lra|]. rewrite minus_IZR. destruct (archimed x). lra. Qed.

Lemma py_min_spec (l : list R) : l <> [] -> exists m, py_min l = Ok m /\ In m l /\ forall x, In x l -> m <= x.
Proof.
  intros N. destruct l as [|a l]; [congruence|]. clear N. eexists. split; [reflexivity|]. revert a. induction l as [|b l IH]; intros a.
  - simpl. split; [auto|]. intros x [<-|[]]. lra.
  - cbn [fold_left]. destruct (IH (if b <? a then b else a)%N_) as [I M]. set (m := fold_left _ l _) in *. revert I M. rnum. intros I M.
    destruct (Rltb b a) eqn:E; rewrite ?Rltb_true, ?Rltb_false in E; split.
    + destruct I as [<-|I]; simpl; auto.
    + intros x [<-|[<-|H]]; [|apply M; simpl; auto | apply M; simpl; auto]. pose proof (M b (or_introl eq_refl)). lra.
    + destruct I as [<-|I]; simpl; auto.
    + intros x [<-|[<-|H]]; [apply M; simpl; auto| | apply M; simpl; auto]. pose proof (M a (or_introl eq_refl)). lra.
Qed.
Lemma py_max_is (l : list R) m : In m l -> (forall x, In x l -> x <= m) -> py_max l = Ok m.
Proof.
  intros I M. destruct (py_max_spec l) as (m' & E & I' & M'). { intros ->. destruct I. } rewrite E. f_equal. apply Rle_antisym; auto.
Qed.
Lemma py_min_is (l : list R) m : In m l -> (forall x, In x l -> m <= x) -> py_min l = Ok m.
Proof.
  intros I M. destruct (py_min_spec l) as (m' & E & I' & M'). { intros ->. destruct I. } rewrite E. f_equal. apply Rle_antisym; auto.
Qed.

Lemma py_range_in a b x : In x (py_range a b) <-> (a <= x < b)%Z.
Proof.
  unfold py_range. rewrite in_map_iff. split.
  - intros (k & <- & I). apply in_seq in I. lia.
  - intros I. exists (Z.to_nat (x - a)). split; [lia|]. apply in_seq. lia.
Qed.

(** the water *)
Lemma sea_in w q : In q (@water_surface R RNum w) <-> exists x y, (- w <= x < w)%Z /\ (- w <= y < w)%Z /\ q = V3 (IZR x) (IZR y) 0.
Proof.
  unfold water_surface. rewrite in_flat_map. split.
  - intros (y & Y & I). apply in_map_iff in I. destruct I as (x & <- & X). apply py_range_in in X, Y. exists x, y. split; [exact X|]. split; [exact Y|]. rnum. f_equal. ring.
  - intros (x & y & X & Y & ->). exists y. split; [apply py_range_in; exact Y|]. apply in_map_iff. exists x. split; [|apply py_range_in; exact X]. rnum. f_equal. ring.
Qed.
Lemma sea_empty w : (w <= 0)%Z -> @water_surface R RNum w = [].
Proof. intros W. unfold water_surface, py_range. replace (Z.to_nat (w - - w)) with 0%nat by lia. reflexivity. Qed.
Lemma sea_axes w : (0 < w)%Z ->
  set_ax_eq (water_surface w) = Ok (Axes (- IZR w, IZR w - 1) (- IZR w, IZR w - 1) (- (IZR w - 1 / 2), IZR w - 1 / 2)).
Proof.
  intros W. assert (C : forall x y, (- w <= x < w)%Z -> (- w <= y < w)%Z -> In (V3 (IZR x) (IZR y) 0) (@water_surface R RNum w)) by (intros x y X Y; apply sea_in; eauto).
  assert (B : forall q, In q (@water_surface R RNum w) -> - IZR w <= vx q <= IZR w - 1 /\ - IZR w <= vy q <= IZR w - 1 /\ vz q = 0).
  { intros q I. apply sea_in in I. destruct I as (x & y & X & Y & ->). cbn [vx vy vz]. rewrite <- opp_IZR, <- minus_IZR. repeat split; apply IZR_le; lia. }
  assert (HI : forall f m, (exists q, In q (@water_surface R RNum w) /\ f q = m) -> (forall q, In q (@water_surface R RNum w) -> f q <= m) -> py_max (map f (water_surface w)) = Ok m).
  { intros f m (q & I & <-) M. apply py_max_is; [apply in_map; exact I|]. intros x X. apply in_map_iff in X. destruct X as (p & <- & P). auto. }
  assert (LO : forall f m, (exists q, In q (@water_surface R RNum w) /\ f q = m) -> (forall q, In q (@water_surface R RNum w) -> m <= f q) -> py_min (map f (water_surface w)) = Ok m).
  { intros f m (q & I & <-) M. apply py_min_is; [apply in_map; exact I|]. intros x X. apply in_map_iff in X. destruct X as (p & <- & P). auto. }
  assert (A : In (V3 (- IZR w) (- IZR w) 0) (@water_surface R RNum w)) by (rewrite <- opp_IZR; apply C; lia).
  assert (D : In (V3 (IZR w - 1) (IZR w - 1) 0) (@water_surface R RNum w)) by (rewrite <- minus_IZR; apply C; lia).
  unfold set_ax_eq. cbv zeta.
  rewrite (HI vx (IZR w - 1)) by (eauto || apply B). cbn [bind]. rewrite (LO vx (- IZR w)) by (eauto || (intros; apply B; assumption)). cbn [bind]. 
  rewrite (HI vy (IZR w - 1)) by (eauto || apply B). cbn [bind]. rewrite (LO vy (- IZR w)) by (eauto || (intros; apply B; assumption)). cbn [bind]. 
  rewrite (HI vz 0); [|exists (V3 (- IZR w) (- IZR w) 0); auto|intros q I; destruct (B q I) as (_ & _ & ->); lra]. cbn [bind]. 
  rewrite (LO vz 0); [|exists (V3 (- IZR w) (- IZR w) 0); auto|intros q I; destruct (B q I) as (_ & _ & ->); lra]. cbn [bind].
  assert (W1 : 1 <= IZR w) by (apply IZR_le; lia). 
  match goal with |- context [py_max ?l] => assert (HS : py_max l = Ok (2 * IZR w - 1)) end.
  { apply py_max_is; [left; rnum; ring|]. intros x [<-|[<-|[<-|[]]]]; rnum; lra. }
  rewrite HS. unfold bind. rewrite ndec_R. change (10 ^ 1)%Z with 10%Z. rnum. f_equal. f_equal; f_equal; field.
Qed.
