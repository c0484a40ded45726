(** Model of pySailingVLM/solver/coefs.py (solve_eq is in M_Solve). *)

From Coq Require Import ZArith List Bool Arith.
From Verif Require Import Num PyBase M_Panels M_Velocity M_Solve.
Import ListNotations.
Local Open Scope num_scope.

Section Coefs.
Context {F : Type} `{Num F}.

(** A ring: the 4x3 array [A, B, C, D]. *)
Record ring := Ring { rA : vec F; rB : vec F; rC : vec F; rD : vec F }.

(* coefs.py 30-40: velocity at [p] of ring [r] with unit circulation; the horseshoe
   replaces the ring at the trailing edge. *)
Definition influence (gor : F) (p : vec F) (r : ring) (te : bool) (V : vec F) : vec F :=
  if te then vortex_horseshoe_v2 p (rA r) (rB r) (rC r) (rD r) V gor
  else vortex_ring p (rA r) (rB r) (rC r) (rD r) gor.

(* coefs.py 29-46 for one point: one row of v_ind_coeff *)
Definition influence_row (gor : F) (rings : list ring) (te : list bool) (V : list (vec F))
    (p : vec F) : list (vec F) :=
  map (fun a => influence gor p (fst a) (fst (snd a)) (snd (snd a)))
      (combine rings (combine te V)).

(* coefs.py 21-48, calc_velocity_coefs: (coefs, v_ind_coeff).  All arrays have one
   entry per panel in every caller. *)
Definition calc_velocity_coefs (V : list (vec F)) (points : list (vec F)) (rings : list ring)
    (normals : list (vec F)) (te : list bool) (gor : F)
  : list (list F) * list (list (vec F)) :=
  let vind := map (influence_row gor rings te V) points in
  (zipWith (fun row n => map (fun a => vdot a n) row) vind normals, vind).

(** What is computed per panel (one entry of each of the seven result arrays). *)
Record pvars := PVars {
  pv_n : vec F; pv_ctr : vec F; pv_cp : vec F; pv_ring : ring;
  pv_span : vec F; pv_lead : vec F; pv_trail : vec F }.

(* coefs.py 162-163 / 184-185: quarter points of the two chordwise edges *)
Definition quarter_B (p : panel F) : vec F := vadd (pp2 p) (vdivs (vsub (pp1 p) (pp2 p)) (nZ 4)).
Definition quarter_C (p : panel F) : vec F := vadd (pp3 p) (vdivs (vsub (pp4 p) (pp3 p)) (nZ 4)).
(* coefs.py 171-172: aft points of a trailing-edge ring *)
Definition aft_A (p : panel F) : vec F := vadd (pp1 p) (vdivs (vsub (pp1 p) (pp2 p)) (nZ 4)).
Definition aft_D (p : panel F) : vec F := vadd (pp4 p) (vdivs (vsub (pp4 p) (pp3 p)) (nZ 4)).

(* coefs.py 149-167, 190-194 given the ring's aft points *)
Definition panel_vars (gor : F) (p : panel F) (A D : vec F) : pvars :=
  let vect_B := vsub (pp4 p) (pp2 p) in
  let vect_A := vsub (pp3 p) (pp1 p) in
  let lead := vdivs (vadd (pp2 p) (pp3 p)) (nZ 2) in
  let trail := vdivs (vadd (pp1 p) (pp4 p)) (nZ 2) in
  let dist := vsub trail lead in
  let ctr := vadd lead (vscale (ndec 75 2) dist) in
  let cp := vadd lead (vscale (ndec 25 2) dist) in
  let B := quarter_B p in
  let C := quarter_C p in
  let n := vcross vect_A vect_B in
  let n := vdivs n (vnorm n) in
  PVars n ctr cp (Ring A B C D) (vscale gor (vsub C B)) lead trail.

(* coefs.py 59-113, calculate_normals_collocations_cps_rings_spans_leading_trailing_mid_points
   (used by Aircraft): every ring takes its aft points from its own panel. *)
Definition simple_vlm_variables (panels : list (panel F)) (gor : F) : list pvars :=
  map (fun p => panel_vars gor p (aft_A p) (aft_D p)) panels.

(* coefs.py 138-194, one group of panels (one sail, above or under water) *)
Definition group_vlm_variables (gor : F) (ns : nat) (grid : list (panel F)) (te : list bool)
  : res (list pvars) :=
  mapM (fun kp =>
          let k := fst kp in let p := snd kp in
          do t <- py_nth te (Z.of_nat k);
          if (t : bool) then Ok (panel_vars gor p (aft_A p) (aft_D p))
          else
            do next <- py_nth grid (Z.of_nat k + Z.of_nat ns);
            Ok (panel_vars gor p (quarter_B next) (quarter_C next)))
       (combine (seq 0 (length grid)) grid).

(* coefs.py 115-207, calculate_vlm_variables.  When K is not a multiple of nc*ns
   a group is larger than the allocated result arrays: IndexError. *)
Definition calculate_vlm_variables (panels : list (panel F)) (te : list bool) (gor : F)
    (nc ns : nat) : res (list pvars) :=
  let K := length panels in
  if (nc * ns =? 0)%nat then Raise ZeroDivisionError
  else
    let G := (K / (nc * ns))%nat in
    do pss <- array_split panels G;
    do tss <- array_split te G;
    do vss <- mapM (fun a => group_vlm_variables gor ns (fst a) (snd a)) (combine pss tss);
    if (K =? G * (nc * ns))%nat then Ok (concat vss) else Raise IndexError.

(* coefs.py 210-213, calculate_RHS *)
Definition calculate_RHS (V normals : list (vec F)) : list F :=
  zipWith (fun v n => vdot (vopp v) n) V normals.

(* coefs.py 229-236, get_vlm_CL_CD_free_wing *)
Definition get_vlm_CL_CD_free_wing (force : list (vec F)) (V : vec F) (rho S : F) : F * F :=
  let total := vsum force in
  let q := ndec 5 1 * rho * (vnorm V * vnorm V) * S in
  (vz total / q, vx total / q).

(* coefs.py 238-244, get_vlm_Cxyz *)
Definition get_vlm_Cxyz (force : list (vec F)) (V : vec F) (rho S : F) : vec F :=
  let total := vsum force in
  let q := ndec 5 1 * rho * (vnorm V * vnorm V) * S in
  vdivs total q.

(* coefs.py 246-256, get_CL_CD_free_wing *)
Definition get_CL_CD_free_wing (AR AoA_deg : F) : F * F :=
  let a0 := nZ 2 * npi in
  let e_w := ndec 8 1 in
  let a := a0 / (nZ 1 + a0 / (npi * AR * e_w)) in
  let CL := a * deg2rad AoA_deg in
  (CL, CL * CL / (npi * AR * e_w)).

(* coefs.py 274, coefficient of one panel *)
Definition panel_coefficient (rho : F) (force wind : vec F) (area : F) : F :=
  vnorm force / (ndec 5 1 * rho * (vnorm wind * vnorm wind) * area).

(* [x.reshape(nc, ns)[:, j]] *)
Definition strip {A} (nc ns : nat) (d : A) (j : nat) (l : list A) : res (list A) :=
  do rows <- reshape nc ns l;
  Ok (map (fun row => nth j row d) rows).

(* coefs.py 284-286, one section *)
Definition section_coefficient (nc ns : nat) (c areas : list F) (j : nat) : res F :=
  do cs <- strip nc ns (nZ 0) j c;
  do ar <- strip nc ns (nZ 0) j areas;
  Ok (nsum (zipWith nmul cs ar) / nsum ar).

(* coefs.py 259-290, get_C *)
Definition get_C (panels : list (panel F)) (areas : list F) (force wind : list (vec F))
    (ns nc : nat) (rho : F) : res (list (list F)) :=
  if (ns * nc * 2 =? 0)%nat then Raise ZeroDivisionError
  else
    let k := (length panels / (ns * nc * 2))%nat in
    do winds <- np_split wind (2 * k);
    do forces <- np_split force (2 * k);
    do areass <- np_split areas (2 * k);
    mapM (fun i =>
            let ws := nth i winds [] in
            let fs := nth i forces [] in
            let ars := nth i areass [] in
            let c := zipWith (fun fw a => panel_coefficient rho (fst fw) (snd fw) a)
                             (combine fs ws) ars in
            mapM (section_coefficient nc ns c ars) (seq 0 ns))
         (seq 0 k).

(* coefs.py 325-328, normalisation of the section data of one sail *)
Definition sail_coefficient (section_areas c : list F) : F :=
  nsum (zipWith nmul section_areas c) / nsum section_areas.
Definition normalized_sections (section_areas c : list F) : list F :=
  let C := sail_coefficient section_areas c in
  map (fun x => x / C) c.

(* coefs.py 293-330, get_data_for_coeff_plot: mean heights, lift data, drag data.
   Arguments: the fields of the Vlm and Solver objects that are used. *)
Definition get_data_for_coeff_plot (panels : list (panel F)) (areas : list F)
    (lift drag wind cp : list (vec F)) (ns nc : nat) (rho : F)
  : res (list (list F) * list (list F) * list (list F)) :=
  do cl <- get_C panels areas lift wind ns nc rho;
  do cd <- get_C panels areas drag wind ns nc rho;
  let k := (length panels / (ns * nc * 2))%nat in
  do areass <- np_split areas (2 * k);
  do cps <- np_split cp (2 * k);
  do sec_areas <- mapM (fun i => mapM (fun j =>
                     do ar <- strip nc ns (nZ 0) j (nth i areass []); Ok (nsum ar))
                   (seq 0 ns)) (seq 0 k);
  do means <- mapM (fun i => mapM (fun j =>
                     do zs <- strip nc ns (nZ 0) j (map vz (nth i cps []));
                     Ok (nsum zs / nZ (Z.of_nat nc)))
                   (seq 0 ns)) (seq 0 k);
  Ok (means,
      map (fun i => normalized_sections (nth i sec_areas []) (nth i cl [])) (seq 0 k),
      map (fun i => normalized_sections (nth i sec_areas []) (nth i cd [])) (seq 0 k)).

End Coefs.
Arguments ring F : clear implicits.
Arguments pvars F : clear implicits.
