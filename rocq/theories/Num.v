(** Numbers as the Python code uses them.

    The model is written once, for an arbitrary carrier [F] with the operations
    below and *no laws*.  It is instantiated at Coq's real numbers ([RNum.v]),
    which gives the exact-arithmetic meaning of the program, and at primitive
    IEEE-754 doubles ([Validation.v]), which makes the model executable.
    Theorems that only concern indices, lengths and control flow are
    proved for every carrier. *)

From Coq Require Import ZArith List Bool.
Import ListNotations.

Class Num (F : Type) := mkNum {
  nadd : F -> F -> F;
  nsub : F -> F -> F;
  nmul : F -> F -> F;
  ndiv : F -> F -> F;
  nopp : F -> F;
  nabs : F -> F;
  nsqrt : F -> F;
  nsin : F -> F;
  ncos : F -> F;
  nasin : F -> F;
  nacos : F -> F;
  natan : F -> F;
  natan2 : F -> F -> F;      (* natan2 y x *)
  nln : F -> F;
  npow : F -> F -> F;
  npi : F;
  nZ : Z -> F;               (* integer literals and int -> float conversion *)
  nltb : F -> F -> bool;
  nleb : F -> F -> bool;
  neqb : F -> F -> bool;
  nisnan : F -> bool
}.

Declare Scope num_scope.
Delimit Scope num_scope with N_.
Infix "+" := nadd : num_scope.
Infix "-" := nsub : num_scope.
Infix "*" := nmul : num_scope.
Infix "/" := ndiv : num_scope.
Notation "- x" := (nopp x) : num_scope.
Infix "<?" := nltb : num_scope.
Infix "<=?" := nleb : num_scope.
Infix "=?" := neqb : num_scope.

Local Open Scope num_scope.

(** Decimal literal [n * 10^-d] (correctly rounded on doubles for the
    literals that occur, because [n] and [10^d] are below 2^53). *)
Definition ndec {F} `{Num F} (n : Z) (d : Z) : F := nZ n / nZ (10 ^ d)%Z.

Section Vec.
Context {F : Type} `{Num F}.

(** A numpy array of three floats. *)
Record vec := V3 { vx : F; vy : F; vz : F }.

Definition v0 : vec := V3 (nZ 0) (nZ 0) (nZ 0).

(* numpy elementwise [a + b], [a - b], [-a], [k * a], [a / k] *)
Definition vadd (a b : vec) := V3 (vx a + vx b) (vy a + vy b) (vz a + vz b).
Definition vsub (a b : vec) := V3 (vx a - vx b) (vy a - vy b) (vz a - vz b).
Definition vopp (a : vec) := V3 (- vx a) (- vy a) (- vz a).
Definition vscale (k : F) (a : vec) := V3 (k * vx a) (k * vy a) (k * vz a).
Definition vdivs (a : vec) (k : F) := V3 (vx a / k) (vy a / k) (vz a / k).
(* np.dot of two 3-vectors *)
Definition vdot (a b : vec) := vx a * vx b + vy a * vy b + vz a * vz b.
(* np.cross *)
Definition vcross (a b : vec) :=
  V3 (vy a * vz b - vz a * vy b)
     (vz a * vx b - vx a * vz b)
     (vx a * vy b - vy a * vx b).
(* np.linalg.norm *)
Definition vnorm (a : vec) : F := nsqrt (vdot a a).

(* np.sum over a list of numbers / of vectors (axis=0), left to right
   (numpy may use pairwise summation; the same in exact arithmetic). *)
Definition nsum (l : list F) : F := fold_left nadd l (nZ 0).
Definition vsum (l : list vec) : vec := fold_left vadd l v0.

(** 3x3 matrices as rows; [np.dot(M, v)]. *)
Record mat := M3 { r0 : vec; r1 : vec; r2 : vec }.
Definition mapply (m : mat) (v : vec) : vec :=
  V3 (vdot (r0 m) v) (vdot (r1 m) v) (vdot (r2 m) v).

(* np.deg2rad, np.rad2deg *)
Definition deg2rad (x : F) : F := x * (npi / nZ 180).
Definition rad2deg (x : F) : F := x * (nZ 180 / npi).

End Vec.
Arguments vec F : clear implicits.
Arguments mat F : clear implicits.
