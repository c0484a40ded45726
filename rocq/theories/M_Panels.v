(** Model of pySailingVLM/solver/panels.py. *)

From Coq Require Import ZArith List Bool.
From Verif Require Import Num PyBase M_Mesher.
Import ListNotations.
Local Open Scope num_scope.

Section Panels.
Context {F : Type} `{Num F}.

(** A panel: the 4x3 array [pSE, pSW, pNW, pNE] (panels.py 33). *)
Record panel := Panel { pp1 : vec F; pp2 : vec F; pp3 : vec F; pp4 : vec F }.

(* [mesh[i][j]]; the default is never used for a rectangular mesh and in-range
   indices (numpy arrays are rectangular). *)
Definition mesh_at (mesh : list (list (vec F))) (i j : nat) : vec F :=
  nth j (nth i mesh []) v0.

(* panels.py 10-44, make_panels_from_mesh_spanwise: panels, trailing_edge_info,
   leading_edge_info.  The double loop fills the arrays in row-major order.
   [mesh.shape[1]] is the length of the first row (IndexError for an empty mesh,
   which is a 1-dimensional numpy array). *)
Definition make_panels_from_mesh_spanwise (mesh : list (list (vec F)))
  : res (list panel * list bool * list bool) :=
  match mesh with
  | [] => Raise IndexError
  | row :: _ =>
    let n_lines := length mesh in
    let M := (length row - 1)%nat in
    let N := (n_lines - 1)%nat in
    let idx := flat_map (fun i => map (fun j => (i, j)) (seq 0 M)) (seq 0 N) in
    Ok (map (fun ij => let i := fst ij in let j := snd ij in
               Panel (mesh_at mesh (i + 1) j) (mesh_at mesh i j)
                     (mesh_at mesh i (j + 1)) (mesh_at mesh (i + 1) (j + 1))) idx,
        map (fun ij => (fst ij =? n_lines - 2)%nat) idx,
        map (fun ij => if (fst ij =? n_lines - 2)%nat then false else (fst ij =? 0)%nat) idx)
  end.

(* panels.py 47-64, make_panels_from_le_te_points with grid_size = [nc, ns] *)
Definition make_panels_from_le_te_points (le_SW te_SE le_NW te_NE : vec F) (nc ns : nat)
  : res (list panel * list bool * list bool) :=
  let south_line := discrete_segment le_SW te_SE nc in
  let north_line := discrete_segment le_NW te_NE nc in
  make_panels_from_mesh_spanwise (make_point_mesh south_line north_line ns).

(* panels.py 117-130, area of one panel *)
Definition panel_area (p : panel) : F :=
  let s0 := vsub (pp2 p) (pp1 p) in
  let s1 := vsub (pp3 p) (pp2 p) in
  let s2 := vsub (pp4 p) (pp3 p) in
  nZ 0 + ndec 5 1 * vnorm (vcross s0 s1) + ndec 5 1 * vnorm (vcross s1 s2).

(* panels.py 103-132, get_panels_area *)
Definition get_panels_area (ps : list panel) : list F := map panel_area ps.

End Panels.
Arguments panel F : clear implicits.
