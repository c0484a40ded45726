(** Model of pySailingVLM/rotations/csys_transformations.py.
    The four self checks against scipy (lines 18-36) are in M_SelfCheck.v: they compare
    rotation_matrix with the same rotation computed by scipy. *)

From Coq Require Import ZArith List Bool.
From Verif Require Import Num PyBase M_Rotations.
Import ListNotations.
Local Open Scope num_scope.

Section Csys.
Context {F : Type} `{Num F}.

(* csys_transformations.py 8-41: the constructor's arguments *)
Record csys := Csys { heel_deg : F; leeway_deg : F; ref_vec : vec F }.

(* csys_transformations.py 13-16 *)
Definition heeling_rotation_matrix (c : csys) : mat F :=
  rotation_matrix (V3 (nZ 1) (nZ 0) (nZ 0)) (deg2rad (- heel_deg c)).
Definition reverse_heeling_rotation_matrix (c : csys) : mat F :=
  rotation_matrix (V3 (nZ 1) (nZ 0) (nZ 0)) (deg2rad (heel_deg c)).
Definition leeway_rotation_matrix (c : csys) : mat F :=
  rotation_matrix (V3 (nZ 0) (nZ 0) (nZ 1)) (deg2rad (leeway_deg c)).
Definition reverse_leeway_rotation_matrix (c : csys) : mat F :=
  rotation_matrix (V3 (nZ 0) (nZ 0) (nZ 1)) (deg2rad (- leeway_deg c)).

(* csys_transformations.py 43-53 *)
Definition rotate_point_with_mirror (c : csys) (p : vec F) : vec F :=
  let p := if nZ 0 <? vz p then mapply (heeling_rotation_matrix c) p
           else mapply (reverse_heeling_rotation_matrix c) p in
  mapply (leeway_rotation_matrix c) p.

(* csys_transformations.py 55-65 *)
Definition reverse_rotations_with_mirror (c : csys) (p : vec F) : vec F :=
  let p := mapply (reverse_leeway_rotation_matrix c) p in
  if nZ 0 <? vz p then mapply (reverse_heeling_rotation_matrix c) p
  else mapply (heeling_rotation_matrix c) p.

(* csys_transformations.py 67-73 *)
Definition rotate_point_without_mirror (c : csys) (p : vec F) : vec F :=
  mapply (leeway_rotation_matrix c) (mapply (heeling_rotation_matrix c) p).

(* csys_transformations.py 75-82 *)
Definition from_xyz_to_centerline_csys (c : csys) (vs : list (vec F)) : list (vec F) :=
  map (mapply (leeway_rotation_matrix c)) vs.

End Csys.
Arguments csys F : clear implicits.
