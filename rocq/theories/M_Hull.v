(** Model of pySailingVLM/yacht_geometry/hull_geometry.py. *)

From Coq Require Import ZArith List Bool String.
From Verif Require Import Num PyBase M_Airfoil M_Csys.
Import ListNotations.
Local Open Scope num_scope.

Section Hull.
Context {F : Type} `{Num F}.

(** Attributes of a HullGeometry object. *)
Record hull := Hull {
  hu_centre : list (vec F); hu_port : list (vec F); hu_starboard : list (vec F);
  hu_port_under : list (vec F); hu_starboard_under : list (vec F); hu_clr : vec F }.

(* hull_geometry.py 24-28: one deck line from the offsets along and across the boat *)
Definition deck_line (base sheer : F) (x y : list F) : list (vec F) :=
  let scale := base * nZ 3 in
  zipWith (fun a b => V3 (ndec (-11) 1 * base + scale * a) (scale * b) sheer) x y.

(* hull_geometry.py 12-39, HullGeometry.__init__; foretriangle_base = None is a TypeError at line 23
   (the foil of line 18 has been made by then).  np.zeros(n) times the scale is np.zeros(n). *)
Definition HullGeometry (sheer : F) (base : option F) (c : csys F) (clr_upright : vec F) : res hull :=
  do foil <- VlmAirfoil (ndec 1 2) (nZ 0) (ndec 28 2) 51;
  match base with
  | None => Raise TypeError
  | Some b =>
    let under := nZ (-1) * sheer in
    let turn := map (rotate_point_with_mirror c) in
    Ok (Hull
      (turn (deck_line b sheer (af_xc foil) (map (fun _ => nZ 0) (af_xc foil))))
      (turn (deck_line b sheer (af_xu foil) (rev (af_yu foil))))
      (turn (deck_line b sheer (af_xl foil) (rev (af_yl foil))))
      (turn (deck_line b under (af_xu foil) (rev (af_yu foil))))
      (turn (deck_line b under (af_xl foil) (rev (af_yl foil))))
      (rotate_point_without_mirror c clr_upright))
  end.

End Hull.
Arguments hull F : clear implicits.
