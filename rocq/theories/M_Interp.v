(** Model of pySailingVLM/solver/interpolator.py.  scipy's splrep/splev (line 11)
    is an oracle: an arbitrary function argument [spline]. *)

From Coq Require Import ZArith List Bool String.
From Verif Require Import Num PyBase.
Import ListNotations.
Local Open Scope num_scope.

Section Interp.
Context {F : Type} `{Num F}.

(* np.interp inside the data range: walk to the interval [x_j <= x < x_{j+1}]; the
   value is slope * (x - x_j) + y_j.  Right of the last abscissa: the last value.
   (numpy finds the interval by bisection; the same for increasing abscissae.) *)
Fixpoint interp_from (x0 y0 : F) (pts : list (F * F)) (x : F) : F :=
  match pts with
  | [] => y0
  | (x1, y1) :: pts' =>
    if x <? x1 then (y1 - y0) / (x1 - x0) * (x - x0) + y0
    else interp_from x1 y1 pts' x
  end.

(* np.interp(x, xp, fp) for one x; left of the first abscissa: the first value.
   ValueError for empty data or different lengths. *)
Definition np_interp (xs xp fp : list F) : res (list F) :=
  if negb (List.length xp =? List.length fp)%nat then Raise ValueError
  else match combine xp fp with
       | [] => Raise ValueError
       | (x0, y0) :: pts =>
         Ok (map (fun x => if x <? x0 then y0 else interp_from x0 y0 pts x) xs)
       end.

(* the oracle: x_new, x, y *)
Definition spline_oracle := list F -> list F -> list F -> res (list F).

(* interpolator.py 6-17, interpolate_girths *)
Definition interpolate_girths (spline : spline_oracle) (ty : string) (x y : list F) (n_points : nat) : res (list F) :=
  let x_new := linspace01 n_points in
  if String.eqb ty "linear" then np_interp x_new x y
  else if String.eqb ty "spline" then spline x_new x y
  else Raise KeyError.

(* interpolator.py 19-22, interpolate_and_mirror_girths *)
Definition interpolate_and_mirror_girths (spline : spline_oracle) (ty : string) (x y : list F)
    (n_points : nat)  : res (list F) :=
  do s <- interpolate_girths spline ty x y n_points;
  Ok (rev s ++ s).

(* interpolator.py 24-30, interpolate_data_for_sections *)
Definition interpolate_data_for_sections (spline : spline_oracle) (ty : string) (data_main data_jib : list (list F))
    (ms_girths jib_girths : list F) (n_span : nat) : res (list (list F)) :=
  do ms <- mapM (fun d => interpolate_and_mirror_girths spline ty ms_girths d n_span) data_main;
  do jb <- mapM (fun d => interpolate_and_mirror_girths spline ty jib_girths d n_span) data_jib;
  Ok (zipWith (fun j m => j ++ m) jb ms).

End Interp.
