(** Model of [np.linalg.solve] as used by solve_eq (solver/coefs.py 216-225).

    LAPACK's gesv is Gaussian elimination with partial pivoting followed by back
    substitution; numpy raises LinAlgError for a non-square matrix and for an exactly zero
    pivot.  The same algorithm is written here on rows of an augmented matrix:
    choose the row whose first entry is largest in absolute value,
    exchange it with the first row, eliminate, recurse, substitute back. *)

From Coq Require Import ZArith List Bool.
From Verif Require Import Num PyBase.
Import ListNotations.
Local Open Scope num_scope.

Section Solve.
Context {F : Type} `{Num F}.

(** One equation: coefficients of the remaining unknowns, right-hand side. *)
Definition eqn := (list F * F)%type.

Definition dotl (a b : list F) : F := nsum (zipWith nmul a b).

(* |first coefficient| *)
Definition lead (e : eqn) : F := nabs (hd (nZ 0) (fst e)).

(* The pivot row and the remaining rows (the first row takes the pivot's place). *)
Fixpoint choose_pivot (best : eqn) (rows : list eqn) : eqn * list eqn :=
  match rows with
  | [] => (best, [])
  | e :: rows' =>
    if lead best <? lead e then
      let '(p, rest) := choose_pivot e rows' in (p, best :: rest)
    else
      let '(p, rest) := choose_pivot best rows' in (p, e :: rest)
  end.

(* Subtract the multiple of the pivot row that removes the first unknown. *)
Definition eliminate (piv e : eqn) : eqn :=
  let k := hd (nZ 0) (fst e) / hd (nZ 0) (fst piv) in
  (zipWith (fun a b => a - k * b) (tl (fst e)) (tl (fst piv)), snd e - k * snd piv).

(* [n] unknowns left *)
Fixpoint gauss (n : nat) (rows : list eqn) : res (list F) :=
  match n with
  | O => Ok []
  | S n' =>
    match rows with
    | [] => Raise LinAlgError
    | e :: rows' =>
      let '(piv, rest) := choose_pivot e rows' in
      let h := hd (nZ 0) (fst piv) in
      if h =? nZ 0 then Raise LinAlgError
      else
        do xs <- gauss n' (map (eliminate piv) rest);
        Ok ((snd piv - dotl (tl (fst piv)) xs) / h :: xs)
    end
  end.

(* coefs.py 216-225, solve_eq *)
Definition solve_eq (coefs : list (list F)) (rhs : list F) : res (list F) :=
  let n := length coefs in
  if forallb (fun row => (length row =? n)%nat) coefs && (length rhs =? n)%nat
  then gauss n (combine coefs rhs)
  else Raise LinAlgError.

End Solve.
