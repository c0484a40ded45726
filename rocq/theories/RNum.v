(** The exact-arithmetic instance: Coq's real numbers. *)

From Coq Require Import ZArith Reals List Bool Lra Psatz.
From Verif Require Import Num PyBase.
Open Scope R_scope.

(** arctan2(y, x); arctan2(0,0) = 0 *)
Definition Ratan2 (y x : R) : R :=
  if Rlt_dec 0 x then atan (y / x)
  else if Rlt_dec x 0 then (if Rle_dec 0 y then atan (y / x) + PI else atan (y / x) - PI)
  else if Rlt_dec 0 y then PI / 2
  else if Rlt_dec y 0 then - (PI / 2)
  else 0.

(** pow(x, y).  A negative base gives NaN in Python for a non-integer exponent and
    0 to a negative power gives inf; both are 0 here, theorems do not use them. *)
Definition Rpow (x y : R) : R :=
  if Rlt_dec 0 x then Rpower x y
  else if Req_EM_T y 0 then 1 else 0.

Definition Rltb (x y : R) : bool := if Rlt_dec x y then true else false.
Definition Rleb (x y : R) : bool := if Rle_dec x y then true else false.
Definition Reqb (x y : R) : bool := if Req_EM_T x y then true else false.

(** Division by zero, logarithms of non-positive numbers and square roots of
    negative numbers are total functions on R with arbitrary values; theorems carry the
    side conditions under which the Python operation is defined. *)
#[export] Instance RNum : Num R := {|
  nadd := Rplus; nsub := Rminus; nmul := Rmult; ndiv := Rdiv; nopp := Ropp;
  nabs := Rabs; nsqrt := sqrt; nsin := sin; ncos := cos; nasin := asin; nacos := acos;
  natan := atan; natan2 := Ratan2; nln := ln; npow := Rpow; npi := PI; nZ := IZR;
  nltb := Rltb; nleb := Rleb; neqb := Reqb; nisnan := fun _ => false |}.

Ltac rnum := cbv [nadd nsub nmul ndiv nopp nabs nsqrt nsin ncos nasin nacos natan natan2 nln npow
                  npi nZ nltb nleb neqb nisnan RNum] in *.
(* also open the vector operations *)
Ltac vnum := cbv [nadd nsub nmul ndiv nopp nabs nsqrt nsin ncos nasin nacos natan natan2 nln npow
                  npi nZ nltb nleb neqb nisnan RNum
                  v0 vadd vsub vopp vscale vdivs vdot vcross vnorm mapply r0 r1 r2 vx vy vz] in *.

Lemma Rltb_true x y : Rltb x y = true <-> x < y.
Proof. unfold Rltb; destruct (Rlt_dec x y); split; intros; auto; discriminate. Qed.
Lemma Rltb_false x y : Rltb x y = false <-> y <= x.
Proof. unfold Rltb; destruct (Rlt_dec x y); split; intros; auto; try discriminate; lra. Qed.
Lemma Rleb_true x y : Rleb x y = true <-> x <= y.
Proof. unfold Rleb; destruct (Rle_dec x y); split; intros; auto; discriminate. Qed.
Lemma Rleb_false x y : Rleb x y = false <-> y < x.
Proof. unfold Rleb; destruct (Rle_dec x y); split; intros; auto; try discriminate; lra. Qed.
Lemma Reqb_true x y : Reqb x y = true <-> x = y.
Proof. unfold Reqb; destruct (Req_EM_T x y); split; intros; auto; discriminate. Qed.
Lemma Reqb_false x y : Reqb x y = false <-> x <> y.
Proof. unfold Reqb; destruct (Req_EM_T x y); split; intros; auto; try discriminate; contradiction. Qed.

(** Decide a real comparison in the goal or a hypothesis. *)
Ltac rcase x y :=
  let H := fresh "H" in
  match goal with
  | |- context [Rltb x y] => destruct (Rltb x y) eqn:H; [apply Rltb_true in H | apply Rltb_false in H]
  | |- context [Rleb x y] => destruct (Rleb x y) eqn:H; [apply Rleb_true in H | apply Rleb_false in H]
  | |- context [Reqb x y] => destruct (Reqb x y) eqn:H; [apply Reqb_true in H | apply Reqb_false in H]
  end.
Ltac rcases :=
  repeat match goal with
  | |- context [Rltb ?x ?y] => let H := fresh "H" in
      destruct (Rltb x y) eqn:H; [apply Rltb_true in H | apply Rltb_false in H]
  | |- context [Rleb ?x ?y] => let H := fresh "H" in
      destruct (Rleb x y) eqn:H; [apply Rleb_true in H | apply Rleb_false in H]
  | |- context [Reqb ?x ?y] => let H := fresh "H" in
      destruct (Reqb x y) eqn:H; [apply Reqb_true in H | apply Reqb_false in H]
  end.

Lemma ndec_R n d : @ndec R RNum n d = IZR n / IZR (10 ^ d)%Z.
Proof. reflexivity. Qed.
