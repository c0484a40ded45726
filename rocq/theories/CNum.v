(** Checked real numbers: a third instance of the number class.

    [None] stands for the inf and NaN values of the program.  An operation gives [None] when an
    operand is [None], and where the operation on real numbers is undefined: division by
    zero, square root of a negative number, arcsin and arccos outside [-1,1], logarithm of a
    non-positive number, a power of a negative number or a non-positive power of zero.
    Comparisons with [None] are false, as comparisons with NaN are.
    With this instance "the program divides by zero here" is a statement about the model. *)

From Coq Require Import ZArith Reals List Bool Lra.
From Verif Require Import Num PyBase RNum.
Open Scope R_scope.

Definition lift1 (f : R -> R) (x : option R) : option R :=
  match x with Some a => Some (f a) | None => None end.
Definition lift2 (f : R -> R -> R) (x y : option R) : option R :=
  match x, y with Some a, Some b => Some (f a b) | _, _ => None end.
Definition cmp2 (f : R -> R -> bool) (x y : option R) : bool :=
  match x, y with Some a, Some b => f a b | _, _ => false end.
Definition guard (b : bool) (x : R) : option R := if b then Some x else None.

#[export] Instance CNum : Num (option R) | 100 := {|
  nadd := lift2 Rplus; nsub := lift2 Rminus; nmul := lift2 Rmult; nopp := lift1 Ropp; nabs := lift1 Rabs;
  ndiv := fun x y => match x, y with Some a, Some b => guard (negb (Reqb b 0)) (a / b) | _, _ => None end;
  nsqrt := fun x => match x with Some a => guard (Rleb 0 a) (sqrt a) | None => None end;
  nsin := lift1 sin; ncos := lift1 cos;
  nasin := fun x => match x with Some a => guard (Rleb (-1) a && Rleb a 1) (asin a) | None => None end;
  nacos := fun x => match x with Some a => guard (Rleb (-1) a && Rleb a 1) (acos a) | None => None end;
  natan := lift1 atan; natan2 := lift2 Ratan2;
  nln := fun x => match x with Some a => guard (Rltb 0 a) (ln a) | None => None end;
  npow := fun x y => match x, y with Some a, Some b => guard (Rltb 0 a || (Reqb a 0 && Rltb 0 b)) (Rpow a b) | _, _ => None end;
  npi := Some PI; nZ := fun n => Some (IZR n);
  nltb := cmp2 Rltb; nleb := cmp2 Rleb; neqb := cmp2 Reqb;
  nisnan := fun x => match x with Some _ => false | None => true end |}.

(** a vector of defined numbers *)
Definition fin (v : vec R) : vec (option R) := V3 (Some (vx v)) (Some (vy v)) (Some (vz v)).
(** a vector of undefined numbers *)
Definition undef : vec (option R) := V3 None None None.

Lemma fin_inj u v : fin u = fin v -> u = v.
Proof. destruct u, v; unfold fin; simpl. intros H; injection H; intros; subst; reflexivity. Qed.
Lemma fin_undef u : fin u <> undef. Proof. discriminate. Qed.

Lemma fin_add u v : vadd (fin u) (fin v) = fin (vadd u v). Proof. reflexivity. Qed.
Lemma fin_sub u v : vsub (fin u) (fin v) = fin (vsub u v). Proof. reflexivity. Qed.
Lemma fin_opp u : vopp (fin u) = fin (vopp u). Proof. reflexivity. Qed.
Lemma fin_scale k v : vscale (Some k) (fin v) = fin (vscale k v). Proof. reflexivity. Qed.
Lemma fin_dot u v : vdot (fin u) (fin v) = Some (vdot u v). Proof. reflexivity. Qed.
Lemma fin_cross u v : vcross (fin u) (fin v) = fin (vcross u v). Proof. reflexivity. Qed.
Lemma fin_v0 : v0 = fin v0. Proof. reflexivity. Qed.
Lemma fin_norm u : vnorm (fin u) = Some (vnorm u).
Proof.
  unfold vnorm. rewrite fin_dot. cbn [nsqrt CNum]. unfold guard.
  replace (Rleb 0 (vdot u u)) with true; [reflexivity|].
  symmetry. apply Rleb_true. destruct u as [x y z]. vnum.
  pose proof (Rle_0_sqr x). pose proof (Rle_0_sqr y). pose proof (Rle_0_sqr z). unfold Rsqr in *. lra.
Qed.
Lemma some_div a b : b <> 0 -> ndiv (Some a) (Some b) = Some (a / b).
Proof. intros H. cbn [ndiv CNum]. unfold guard. apply Reqb_false in H. rewrite H. reflexivity. Qed.
Lemma some_div0 a : ndiv (Some a) (Some 0) = None.
Proof. cbn [ndiv CNum]. unfold guard. replace (Reqb 0 0) with true; [reflexivity|]. symmetry; apply Reqb_true; reflexivity. Qed.
Lemma fin_divs u k : k <> 0 -> vdivs (fin u) (Some k) = fin (vdivs u k).
Proof. intros H. destruct u as [a b c]. unfold vdivs, fin. simpl vx; simpl vy; simpl vz. rewrite !some_div by assumption. reflexivity. Qed.
Lemma fin_divs0 u : vdivs (fin u) (Some 0) = undef.
Proof. unfold vdivs, fin. simpl vx; simpl vy; simpl vz. rewrite !some_div0. reflexivity. Qed.
Lemma undef_scale k : vscale k undef = undef.
Proof. destruct k; reflexivity. Qed.
Lemma some_dec n d : (0 <= d)%Z -> ndec n d = Some (ndec n d).
Proof.
  intros D. unfold ndec. change (nZ n) with (Some (IZR n)) at 1. change (nZ (10 ^ d)%Z) with (Some (IZR (10 ^ d))) at 1.
  rewrite some_div; [reflexivity|]. apply not_0_IZR. apply Z.pow_nonzero; [discriminate | assumption].
Qed.
Lemma some_mul a b : nmul (Some a) (Some b) = Some (nmul a b). Proof. reflexivity. Qed.
Lemma some_add a b : nadd (Some a) (Some b) = Some (nadd a b). Proof. reflexivity. Qed.
Lemma some_sub a b : nsub (Some a) (Some b) = Some (nsub a b). Proof. reflexivity. Qed.
