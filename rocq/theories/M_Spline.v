(** Model of the interpolation "spline" of pySailingVLM/solver/interpolator.py line 11,
    [interpolate.splev(x_new, interpolate.splrep(x, y, s=0), der=0)].

    With [s=0] scipy's splrep (FITPACK's curfit, degree 3) determines the cubic spline through
    all data points whose knots are the abscissae without the second and the last but one
    ("not-a-knot"), and splev evaluates it, outside the data by continuing the first or last
    piece.  FITPACK solves for coefficients of B-splines; here the same spline is
    determined from its second derivatives at the abscissae.  (P_Spline proves that there is only one
    such spline, so the two ways can only differ in rounding.) *)

From Coq Require Import ZArith List Bool Arith.
From Verif Require Import Num PyBase M_Solve.
Import ListNotations.
Local Open Scope num_scope.

Section Spline.
Context {F : Type} `{Num F}.

(* length of the i-th interval, slope of the chord over it *)
Definition sp_h (xs : list F) (i : nat) : F := nth (S i) xs (nZ 0) - nth i xs (nZ 0).
Definition sp_d (xs ys : list F) (i : nat) : F := (nth (S i) ys (nZ 0) - nth i ys (nZ 0)) / sp_h xs i.

(* The equations for the second derivatives.  Rows 1 .. m-2: the slopes of neighbouring pieces agree; first and last row:
   the third derivatives agree at the second and at the last but one abscissa. *)
Definition sp_coef (xs : list F) (i j : nat) : F :=
  let m := length xs in
  let h := sp_h xs in
  if (i =? 0)%nat then
    if (j =? 0)%nat then h 1%nat else if (j =? 1)%nat then - (h 0%nat + h 1%nat) else if (j =? 2)%nat then h 0%nat else nZ 0
  else if (i =? m - 1)%nat then
    if (j =? m - 3)%nat then h (m - 2)%nat else if (j =? m - 2)%nat then - (h (m - 3)%nat + h (m - 2)%nat)
    else if (j =? m - 1)%nat then h (m - 3)%nat else nZ 0
  else
    if (j =? i - 1)%nat then h (i - 1)%nat else if (j =? i)%nat then nZ 2 * (h (i - 1)%nat + h i)
    else if (j =? i + 1)%nat then h i else nZ 0.
Definition sp_rhs (xs ys : list F) (i : nat) : F :=
  if (i =? 0)%nat || (i =? length xs - 1)%nat then nZ 0
  else nZ 6 * (sp_d xs ys i - sp_d xs ys (i - 1)).
Definition sp_bends (xs ys : list F) : res (list F) :=
  let m := length xs in
  solve_eq (map (fun i => map (sp_coef xs i) (seq 0 m)) (seq 0 m)) (map (sp_rhs xs ys) (seq 0 m)).

(* the i-th piece, from the values and second derivatives [M] at its ends *)
Definition sp_piece (xs ys M : list F) (i : nat) (x : F) : F :=
  let h := sp_h xs i in
  let l := nth (S i) xs (nZ 0) - x in
  let r := x - nth i xs (nZ 0) in
  let M0 := nth i M (nZ 0) in
  let M1 := nth (S i) M (nZ 0) in
  M0 * (l * l * l) / (nZ 6 * h) + M1 * (r * r * r) / (nZ 6 * h) + (nth i ys (nZ 0) / h - M0 * h / nZ 6) * l
    + (nth (S i) ys (nZ 0) / h - M1 * h / nZ 6) * r.

(* the interval of [x]: the last one that does not begin right of it (FITPACK's splev) *)
Fixpoint sp_interval (xs : list F) (x : F) : nat :=
  match xs with
  | _ :: ((b :: (_ :: _)) as r) => if x <? b then O else S (sp_interval r x)
  | _ => O
  end.

Fixpoint increasing (xs : list F) : bool :=
  match xs with
  | a :: ((b :: _) as r) => (a <? b) && increasing r
  | _ => true
  end.

(* splrep: TypeError for data of different lengths and for less than four points; ValueError ("Error on input data") if the
   abscissae are not increasing.  (For equal neighbouring abscissae the versions of FITPACK differ; the model refuses them.) *)
Definition scipy_spline (x_new xs ys : list F) : res (list F) :=
  if negb (length xs =? length ys)%nat then Raise TypeError
  else if (length xs <=? 3)%nat then Raise TypeError
  else if negb (increasing xs) then Raise ValueError
  else
    do M <- sp_bends xs ys;
    Ok (map (fun x => sp_piece xs ys M (sp_interval xs x) x) x_new).

End Spline.
