(** Model of pySailingVLM/yacht_geometry/sail_geometry.py and sail_factory.py. *)

From Coq Require Import ZArith List Bool String.
From Verif Require Import Num PyBase M_Rotations M_Csys M_Mesher M_Panels.
Import ListNotations.
Local Open Scope num_scope.

Section Sail.
Context {F : Type} `{Num F}.

(* sail_geometry.py 168-180, rotate_points_around_le *)
Definition rotate_points_around_le (points : list (vec F)) (p1 p2 : vec F) (twist : list F)
  : res (list (vec F)) :=
  do t0 <- py_nth twist 0;
  if forallb (fun t => t =? t0) twist
  then Ok (rotate_points_around_arbitrary_axis points p1 p2 (deg2rad t0))
  else Ok (zipWith (fun p t => rotate_point_around_arbitrary_axis p1 p2 (deg2rad t) p) points twist).

(* np.testing.assert_almost_equal (7 decimals): |a - b| < 1.5e-7 for all entries *)
Definition close (a b : F) : bool := nabs (a - b) <? ndec 15 8.
Definition vclose (a b : vec F) : bool :=
  close (vx a) (vx b) && close (vy a) (vy b) && close (vz a) (vz b).
Definition all_close (l m : list (vec F)) : bool :=
  forallb (fun ab => vclose (fst ab) (snd ab)) (combine l m).

(* sail_geometry.py 122-127: the dictionary lookup twist_dict[LLT_twist] (the
   value is overwritten in the next line; only the KeyError remains observable). *)
Definition lookup_twist_mode (mode : string) : res unit :=
  if existsb (String.eqb mode) ["sheeting_angle_const"; "average_const"; "real_twist"]%string
  then Ok tt else Raise KeyError.

(* sail_geometry.py 128-129: every section's twist repeated for its sh1 points.
   hstack of sh1 copies, reshape(sh1, sh0), transpose, flatten *)
Definition spread_twist (sh0 sh1 : nat) (twist : list F) : res (list F) :=
  do rows <- reshape sh1 sh0 (List.concat (repeat twist sh1));
  Ok (List.concat (transpose sh0 (nZ 0) rows)).

(* sail_geometry.py 131-135 / 137-141: twist one (flattened) mesh about its luff
   and check that the luff did not move *)
Definition twist_mesh (sh1 : nat) (mesh : list (vec F)) (twist : list F) : res (list (vec F)) :=
  let luff := every_nth sh1 v0 mesh in
  do p2 <- py_nth luff (-1);
  do p1 <- py_nth luff 0;
  do tr <- rotate_points_around_le mesh p1 p2 twist;
  if all_close (every_nth sh1 v0 tr) luff then Ok tr else Raise AssertionError.

(** Attributes of a SailGeometry object. *)
Record sail := SailGeom {
  sl_name : string; sl_csys : csys F; sl_head : vec F; sl_tack : vec F;
  sl_above : list (panel F); sl_under : list (panel F);
  sl_te : list bool; sl_le : list bool;
  sl_above_zero : list (panel F); sl_under_zero : list (panel F) }.

Definition bools_eqb (a b : list bool) : bool :=
  (List.length a =? List.length b)%nat && forallb (fun p => Bool.eqb (fst p) (snd p)) (combine a b).

(* The mirror image of a mounting point, sail_geometry.py 72-75 *)
Definition mount_mirror (p : vec F) : vec F := V3 (vx p) (vy p) (- vz p).

(* sail_geometry.py 82-97: one unrotated mesh: list of sections *)
Definition zero_mesh (le_SW le_NW : vec F) (nc ns : nat) (chords dist camber : list F)
  : res (list (list (vec F))) :=
  make_airfoil_mesh le_SW le_NW nc ns (map (fun c => V3 c (nZ 0) (nZ 0)) chords) dist camber.

(* sail_geometry.py 103-112, 146-153: rotate for heel and leeway *)
Definition heel_mesh (c : csys F) (mesh : list (vec F)) : list (vec F) :=
  map (rotate_point_with_mirror c) mesh.

(* sail_geometry.py 22-164, SailGeometry.__init__.  Simplified: [mesh.shape] is taken as
   (ns+1, nc+1), which is what make_airfoil_mesh returns; initial_sail_twist_deg,
   interpolated_camber and interpolated_distance_from_luff are given (SailFactory's callers always
   pass them); LLT_twist may be None. *)
Definition SailGeometry (head tack : vec F) (c : csys F) (ns nc : nat) (chords twist : list F)
    (name : string) (LLT_twist : option string) (camber dist : list F) : res sail :=
  let sh0 := (ns + 1)%nat in
  let sh1 := (nc + 1)%nat in
  do mesh <- zero_mesh tack head nc ns chords dist camber;
  do (above_zero, _, _) <- make_panels_from_mesh_spanwise (transpose sh1 v0 mesh);
  do mesh_u <- zero_mesh (mount_mirror head) (mount_mirror tack) nc ns (rev chords) dist (rev camber);
  do (under_zero, _, _) <- make_panels_from_mesh_spanwise (transpose sh1 v0 mesh_u);
  let m := heel_mesh c (List.concat mesh) in
  let mu := heel_mesh c (List.concat mesh_u) in
  do (m, mu) <-
    match LLT_twist with
    | None => Ok (m, mu)
    | Some mode =>
      do _ <- py_min twist;                       (* np.min of an empty array: ValueError *)
      do _ <- lookup_twist_mode mode;
      do tw <- spread_twist sh0 sh1 twist;
      do m' <- twist_mesh sh1 m tw;
      do mu' <- twist_mesh sh1 mu (rev tw);
      Ok (m', mu')
    end;
  do m <- reshape sh0 sh1 m;
  do mu <- reshape sh0 sh1 mu;
  do (above, te, le) <- make_panels_from_mesh_spanwise (transpose sh1 v0 m);
  do (under, te_u, le_u) <- make_panels_from_mesh_spanwise (transpose sh1 v0 mu);
  do _ <- guard (bools_eqb te te_u) AssertionError;
  do _ <- guard (bools_eqb le le_u) AssertionError;
  Ok (SailGeom name c head tack above under te le above_zero under_zero).

(** Attributes of a SailSet object. *)
Record sail_set := SailSet_ {
  ss_sails : list sail; ss_panels : list (panel F);
  ss_te : list bool; ss_le : list bool; ss_zero : list (panel F) }.

(* sail_geometry.py 211-230, SailSet.__init__; np.concatenate([]) is a ValueError *)
Definition SailSet (sails : list sail) : res sail_set :=
  match sails with
  | [] => Raise ValueError
  | _ =>
    let te := List.concat (map sl_te sails) in
    let le := List.concat (map sl_le sails) in
    Ok (SailSet_ sails
          (List.concat (map sl_above sails) ++ List.concat (map sl_under sails))
          (te ++ te) (le ++ le)
          (List.concat (map sl_above_zero sails) ++ List.concat (map sl_under_zero sails)))
  end.

(* sail_factory.py 7-17 *)
Record factory := Factory {
  fa_csys : csys F; fa_ns : nat; fa_nc : nat; fa_rake_deg : F; fa_sheer : F }.
Definition fa_rake (f : factory) : F := deg2rad (fa_rake_deg f).
Definition sheer_xyz (f : factory) : vec F :=
  V3 (- fa_sheer f * ncos (fa_rake f)) (nZ 0) (fa_sheer f * nsin (fa_rake f)).

(* sail_factory.py 20-31: (head_mounting, tack_mounting) of the main sail *)
Definition main_mounting (f : factory) (luff boom : F) : vec F * vec F :=
  let rake := fa_rake f in
  let b := V3 (- boom * ncos rake) (nZ 0) (boom * nsin rake) in
  let tack := V3 (vx (sheer_xyz f) + vx b) (nZ 0) (vz (sheer_xyz f) + vz b) in
  let head := V3 (vx tack - luff * ncos rake) (nZ 0) (vz tack + luff * nsin rake) in
  (head, tack).

(* sail_factory.py 19-37, make_main_sail *)
Definition make_main_sail (f : factory) (luff boom : F) (chords twist : list F)
    (LLT_twist : option string) (camber dist : list F) : res sail :=
  let '(head, tack) := main_mounting f luff boom in
  SailGeometry head tack (fa_csys f) (fa_ns f) (fa_nc f) chords twist "main_sail" LLT_twist camber dist.

(* sail_factory.py 40-54: forestay length, angle and (head, tack) of the jib *)
Definition forestay_length (f : factory) (base height : F) : F :=
  nsqrt (base * base + height * height - nZ 2 * base * height * ncos (fa_rake f)).
Definition forestay_angle (f : factory) (base height : F) : F :=
  nasin (height * nsin (fa_rake f) / forestay_length f base height).
Definition jib_mounting (f : factory) (luff base height mast_LOA : F) : vec F * vec F :=
  let rake := fa_rake f in
  let ang := forestay_angle f base height in
  let tack := V3 (- base + vx (sheer_xyz f) - mast_LOA / nsin rake) (nZ 0) (vz (sheer_xyz f)) in
  let head := V3 (vx tack + luff * ncos ang) (nZ 0) (vz tack + luff * nsin ang) in
  (head, tack).

(* sail_factory.py 39-60, make_jib *)
Definition make_jib (f : factory) (luff base height : F) (chords twist : list F) (mast_LOA : F)
    (LLT_twist : option string) (camber dist : list F) : res sail :=
  let '(head, tack) := jib_mounting f luff base height mast_LOA in
  SailGeometry head tack (fa_csys f) (fa_ns f) (fa_nc f) chords twist "jib" LLT_twist camber dist.

End Sail.
Arguments sail F : clear implicits.
Arguments sail_set F : clear implicits.
Arguments factory F : clear implicits.
