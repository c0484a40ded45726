(** Model of pySailingVLM/solver/mesher.py. *)

From Coq Require Import ZArith List Bool.
From Verif Require Import Num PyBase M_Airfoil.
Import ListNotations.
Local Open Scope num_scope.

Section Mesher.
Context {F : Type} `{Num F}.

(* mesher.py 5-14, discrete_segment.  For n = 0 numpy only warns about the
   division and the result is [p2]. *)
Definition discrete_segment (p1 p2 : vec F) (n : nat) : list (vec F) :=
  let step := vdivs (vsub p2 p1) (nZ (Z.of_nat n)) in
  map (fun i => vadd p1 (vscale (nZ (Z.of_nat i)) step)) (seq 0 n) ++ [p2].

(* mesher.py 17-25, make_point_mesh *)
Definition make_point_mesh (s1 s2 : list (vec F)) (n : nat) : list (list (vec F)) :=
  zipWith (fun p1 p2 => discrete_segment p1 p2 n) s1 s2.

(* mesher.py 43, [te_line += chords_vec]: numpy broadcasting of a chord array of
   length 1, elementwise for equal lengths, ValueError otherwise. *)
Definition add_chords (le : list (vec F)) (ch : list (vec F)) : res (list (vec F)) :=
  if (length ch =? length le)%nat then Ok (zipWith vadd le ch)
  else match ch with
       | [c] => Ok (map (fun p => vadd p c) le)
       | _ => Raise ValueError
       end.

(* mesher.py 57-67, one iteration of the loop: one section.  [counter] indexes
   distance and camber (IndexError when they are too short). *)
Definition airfoil_section (n : nat) (distance camber : list F) (counter : nat)
    (p1 p2 : vec F) : res (list (vec F)) :=
  do p <- py_nth distance (Z.of_nat counter);
  do m <- py_nth camber (Z.of_nat counter);
  do foil <- VlmAirfoil m p (nZ 0) n;
  let xs := map (fun x => (vx p2 - vx p1) * x + vx p1) (af_xc foil) in
  let ys := map (fun y => (vx p2 - vx p1) * y) (af_yc foil) in
  Ok (zipWith (fun x y => V3 x y (vz p1)) xs ys).

(* mesher.py 28-69, make_airfoil_mesh with le_points = [le_SW, le_NW] and
   grid_size = [nc, ns] *)
Definition make_airfoil_mesh (le_SW le_NW : vec F) (nc ns : nat) (chords_vec : list (vec F))
    (distance camber : list F) : res (list (list (vec F))) :=
  let le_line := discrete_segment le_SW le_NW ns in
  do te_line <- add_chords le_line chords_vec;
  mapM (fun a => airfoil_section (nc + 1) distance camber (fst a) (fst (snd a)) (snd (snd a)))
       (combine (seq 0 (length le_line)) (combine le_line te_line)).

End Mesher.
