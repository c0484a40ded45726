(** Model of two functions that the program itself does not call: plot_mesh of
    pySailingVLM/solver/additional_functions.py and calc_centerline_moments of
    pySailingVLM/rotations/csys_transformations.py. *)

From Coq Require Import ZArith List Bool String.
From Verif Require Import Num PyBase M_Csys M_Panels M_Results.
Import ListNotations.

Section MeshPlot.
Context {F : Type} `{Num F}.

(** What plot_mesh draws: the labels of the axes set, and for every curve the values along each axis and the
    colour handed over (None for a colour not given). *)
Record mesh_plot := MeshPlot { mp_title : string; mp_labels : list string; mp_curves : list (list (list F) * option string) }.

(* additional_functions.py 131: labels = {0: 'X', 1: 'Y', 2: 'Z'} *)
Definition axis_label (d : Z) : res string :=
  match d with 0%Z => Ok "X"%string | 1%Z => Ok "Y"%string | 2%Z => Ok "Z"%string | _ => Raise KeyError end.
(* additional_functions.py 149, 151: mesh[i, :, d] of a mesh of points with three coordinates *)
Definition axis_values (row : list (vec F)) (d : Z) : res (list F) :=
  match d with
  | 0%Z | (-3)%Z => Ok (map vx row) | 1%Z | (-2)%Z => Ok (map vy row) | 2%Z | (-1)%Z => Ok (map vz row)
  | _ => Raise IndexError
  end.

(* additional_functions.py 128-158.  The figure, the two kinds of axes and show are not modelled, nor what
   matplotlib does with a colour of None (the default of color2). *)
Definition plot_mesh (mesh1 : list (list (vec F))) (mesh2 : option (list (list (vec F)))) (dims : list Z)
  (color1 color2 : option string) (title : string) : res mesh_plot :=
  do labels <- match dims with [_; _] | [_; _; _] => mapM axis_label dims | _ => Ok [] end;
  let curve row (colour : option string) :=
    do vs <- match dims with [a; b] => mapM (axis_values row) [a; b] | _ => Ok [map vx row; map vy row; map vz row] end;
    Ok (vs, colour) in
  do curves <- mapM (fun i =>
    do row <- py_nth mesh1 (Z.of_nat i);
    do c <- curve row color1;
    match mesh2 with
    | None => Ok [c]
    | Some m => do row2 <- py_nth m (Z.of_nat i); do c2 <- curve row2 color2; Ok [c; c2]
    end) (seq 0 (List.length mesh1));
  Ok (MeshPlot title labels (List.concat curves)).

(* csys_transformations.py 84-90, for a non-empty array (of an empty one numpy returns the number 0 as total) *)
Definition calc_centerline_moments (c : csys F) (M : list (vec F)) : list (vec F) * vec F :=
  let M_cl := from_xyz_to_centerline_csys c M in (M_cl, vsum (above_water M_cl)).
End MeshPlot.
Arguments mesh_plot : clear implicits.
