(** Model of pySailingVLM/runner (sail.py, cli.py, aircraft.py, the dataclasses of
    container.py). *)

From Coq Require Import ZArith List Bool String.
From Verif Require Import Num PyBase M_Rotations M_Csys M_Mesher M_Panels M_Velocity M_Solve M_Coefs
  M_Forces M_Winds M_Vlm M_Interp M_Sail M_Results M_Hull.
Import ListNotations.
Local Open Scope num_scope.

(** A keyword argument of a dataclass: left out, or given (possibly as None). *)
Inductive arg (A : Type) : Type := Omitted | Given (v : option A).
Arguments Omitted {A}.
Arguments Given {A} v.
Definition value {A} (default : A) (a : arg A) : option A :=
  match a with Omitted => Some default | Given v => v end.

Section Runner.
Context {F : Type} `{Num F}.

(* container.py 28-43, Conditions; parameters that the code compares with None are options *)
Record conditions := Conditions {
  cd_leeway : F; cd_heel : F; cd_sog : F; cd_tws : F; cd_alpha : F;
  cd_water_level : option F; cd_exp_coeff : option F; cd_ref_height : option F;
  cd_rho : F; cd_profile : string; cd_roughness : option F }.

Definition is_none {A} (o : option A) : bool := match o with None => true | Some _ => false end.

(* sail.py 45-55, Wind.__post_init__; the local ValueError becomes sys.exit() (status 0) *)
Definition Wind_post_init (c : conditions) : res unit :=
  if String.eqb (cd_profile c) "logarithmic" && (is_none (cd_roughness c) || is_none (cd_ref_height c))
  then Raise (SystemExit 0)
  else if String.eqb (cd_profile c) "expotentional" && (is_none (cd_exp_coeff c) || is_none (cd_ref_height c))
  then Raise (SystemExit 0)
  else if String.eqb (cd_profile c) "flat" && (is_none (cd_exp_coeff c) || is_none (cd_ref_height c))
  then Raise (SystemExit 0)
  else Ok tt.

(* sail.py 57-75, Wind.profile *)
Definition Wind_profile (c : conditions) : wind F :=
  Wind_ (cd_alpha c) (cd_tws c) (cd_sog c)
    (if String.eqb (cd_profile c) "exponential"
     then Exp (cd_exp_coeff c) (cd_ref_height c) (cd_water_level c)
     else if String.eqb (cd_profile c) "flat" then Flat
     else Log (cd_roughness c) (cd_ref_height c)).

(* sail.py 31-75: constructing Wind and asking for its profile *)
Definition Wind (c : conditions) : res (wind F) :=
  do _ <- Wind_post_init c; Ok (Wind_profile c).

(* container.py 66-89: the attributes of a MainSail / JibSail object *)
Record sail_def := SailDef {
  sd_twist : option (list F); sd_girths : option (list F); sd_chords : option (list F);
  sd_camber : option (list F); sd_dist : option (list F) }.

(* container.py 76-78 / 87-89, __post_init__: the default twist a * girths + b; None * a number is a
   TypeError *)
Definition fill_twist (a b : F) (twist girths : option (list F)) : res (option (list F)) :=
  match twist, girths with
  | Some t, _ => Ok (Some t)
  | None, Some g => Ok (Some (map (fun x => a * x + b) g))
  | None, None => Raise TypeError
  end.

(* container.py 66-78, MainSail(...) *)
Definition MainSail (twist girths chords camber dist : arg (list F)) : res sail_def :=
  let g := value [nZ 0; nZ 1 / nZ 8; nZ 1 / nZ 4; nZ 1 / nZ 2; nZ 3 / nZ 4; nZ 7 / nZ 8; nZ 1] girths in
  do t <- fill_twist (nZ 12) (nZ 5) (match twist with Omitted => None | Given t => t end) g;
  Ok (SailDef t g
    (value [nZ 4; ndec 382 2; ndec 364 2; ndec 32 1; ndec 264 2; ndec 232 2; nZ 2] chords)
    (value (repeat (nZ 5 * ndec 1 2) 7) camber)
    (value (repeat (ndec 5 1) 7) dist)).

(* container.py 80-89, JibSail(...) *)
Definition JibSail (twist girths chords camber dist : arg (list F)) : res sail_def :=
  let g := value [nZ 0; nZ 1 / nZ 4; nZ 1 / nZ 2; nZ 3 / nZ 4; nZ 1] girths in
  do t <- fill_twist (nZ 15) (nZ 7) (match twist with Omitted => None | Given t => t end) g;
  Ok (SailDef t g
    (value [ndec 38 1; ndec 298 2; ndec 215 2; ndec 133 2; ndec 5 1] chords)
    (value (repeat (nZ 0 * ndec 1 2) 5) camber)
    (value (repeat (ndec 5 1) 5) dist)).

(* container.py 48-58, Rig *)
Record rig := Rig {
  rg_main_luff : option F; rg_jib_luff : option F; rg_height : option F; rg_base : option F;
  rg_sheer : F; rg_boom : F; rg_rake : F; rg_mast_LOA : F; rg_sails_def : string }.

(* container.py 18-24, Solver; LLT_twist is a class variable *)
Record solver := Solver {
  sv_ns : nat; sv_nc : nat; sv_interp : string; sv_LLT : string }.

(* sail.py 89 / 91: which entries are None, and the arrays compared by
   check_input_arr_shapes (girths, twist, camber, distance); chords is not among them. *)
Definition jib_none (r : rig) (j : sail_def) : bool :=
  is_none (rg_base r) || is_none (rg_height r) || is_none (rg_jib_luff r) || is_none (sd_girths j)
  || is_none (sd_twist j) || is_none (sd_camber j) || is_none (sd_dist j).
Definition main_none (r : rig) (m : sail_def) : bool :=
  is_none (rg_main_luff r) || is_none (sd_girths m) || is_none (sd_twist m)
  || is_none (sd_camber m) || is_none (sd_dist m).

(* sail.py 27-30, check_input_arr_shapes on (1-dimensional) arrays, in order; None has no attribute
   shape *)
Definition check_input_arr_shapes (arrs : list (option (list F))) : res unit :=
  do _ <- mapM (fun a =>
    match a, hd None arrs with
    | Some a, Some first => guard (List.length a =? List.length first)%nat ValueError
    | _, _ => Raise AttributeError
    end) arrs;
  Ok tt.

(* sail.py 89, 91: jib_stuff[3:] and main_stuff[1:]; the chords are not among them *)
Definition sail_arrays (s : sail_def) : list (option (list F)) :=
  [sd_girths s; sd_twist s; sd_camber s; sd_dist s].

(* "try: ... except ValueError: print; sys.exit()" (sail.py 87, 107-109) *)
Definition exit_on_ValueError {A} (m : res A) : res A :=
  match m with Raise ValueError => Raise (SystemExit 0) | _ => m end.

(* sail.py 86-109, Sail.__post_init__.  jib_stuff / main_stuff are local variables that
   are only bound when the sail is not None. *)
Definition Sail_post_init (r : rig) (main jib : option sail_def) : res unit :=
  exit_on_ValueError (
    let stuff {A} (o : option A) : res A :=
      match o with Some a => Ok a | None => Raise UnboundLocalError end in
    do _ <-
      (if String.eqb (rg_sails_def r) "jib" then
         do j <- stuff jib; guard (negb (jib_none r j)) ValueError
       else if String.eqb (rg_sails_def r) "main" then
         do m <- stuff main; guard (negb (main_none r m)) ValueError
       else if String.eqb (rg_sails_def r) "jib_and_main" then
         do j <- stuff jib; do m <- stuff main;
         guard (negb (jib_none r j || main_none r m)) ValueError
       else Ok tt);
    if String.eqb (rg_sails_def r) "jib" then
      do j <- stuff jib; check_input_arr_shapes (sail_arrays j)
    else if String.eqb (rg_sails_def r) "main" then
      do m <- stuff main; check_input_arr_shapes (sail_arrays m)
    else
      do j <- stuff jib; do _ <- check_input_arr_shapes (sail_arrays j);
      do m <- stuff main; check_input_arr_shapes (sail_arrays m)).

(* using a None where an array or a number is needed *)
Definition need {A} (o : option A) : res A :=
  match o with Some a => Ok a | None => Raise TypeError end.

(* sail.py 111-144, __get_sail_set *)
Definition get_sail_set (spline : spline_oracle) (sv : solver) (r : rig) (main jib : option sail_def)
    (c : csys F) : res (sail_set F) :=
  let f := Factory c (sv_ns sv) (sv_nc sv) (rg_rake r) (rg_sheer r) in
  let it (g y : option (list F)) : res (list F) :=
    do g <- need g; do y <- need y;
    interpolate_girths spline (sv_interp sv) g y (sv_ns sv + 1) in
  let is s := String.eqb (rg_sails_def r) s in
  do jibs <-
    (if is "jib"%string || is "jib_and_main"%string then
       do j <- match jib with Some j => Ok j | None => Raise AttributeError end;
       do ch <- it (sd_girths j) (sd_chords j);
       do tw <- it (sd_girths j) (sd_twist j);
       do ca <- it (sd_girths j) (sd_camber j);
       do di <- it (sd_girths j) (sd_dist j);
       do luff <- need (rg_jib_luff r);
       do base <- need (rg_base r);
       do height <- need (rg_height r);
       do s <- make_jib f luff base height ch tw (rg_mast_LOA r) (Some (sv_LLT sv)) ca di;
       Ok [s]
     else Ok []);
  do mains <-
    (if is "main"%string || is "jib_and_main"%string then
       do m <- match main with Some m => Ok m | None => Raise AttributeError end;
       do ch <- it (sd_girths m) (sd_chords m);
       do tw <- it (sd_girths m) (sd_twist m);
       do ca <- it (sd_girths m) (sd_camber m);
       do di <- it (sd_girths m) (sd_dist m);
       do luff <- need (rg_main_luff r);
       do s <- make_main_sail f luff (rg_boom r) ch tw (Some (sv_LLT sv)) ca di;
       Ok [s]
     else Ok []);
  SailSet (jibs ++ mains).

(* cli.py 58-70: configuration to results.  The order is that of the code: the wind and sail checks,
   the sail set, the hull, the solver, the results. *)
Record run_result := RunResult {
  rr_set : sail_set F; rr_hull : hull F; rr_vlm : vlm F; rr_flow : flow_results F }.
Definition rr_clr (r : run_result) : vec F := hu_clr (rr_hull r).

Definition run (spline : spline_oracle) (cd : conditions) (sv : solver) (r : rig)
    (main jib : option sail_def) (ref clr_upright : vec F) : res run_result :=
  let c := Csys (cd_heel cd) (cd_leeway cd) ref in
  do w <- Wind cd;
  do _ <- Sail_post_init r main jib;
  do s <- get_sail_set spline sv r main jib c;
  do h <- HullGeometry (rg_sheer r) (rg_base r) c clr_upright;
  do v <- Vlm (ss_panels s) (sv_nc sv) (sv_ns sv) (cd_rho cd) w (ss_te s) (ss_le s);
  do fr <- InviscidFlowResults s c v;
  Ok (RunResult s h v fr).

(** Command line: which module is loaded, exit codes, which data goes to which plot. *)

(* What a directory on the module path holds under the name "variables": nothing, a module that loads,
   a module whose execution raises. *)
Inductive module_file := NoModule | Loads | Raises (e : exn).

(* cli.py 18-24 with Python's import rule: the first directory of sys.path that contains a module
   "variables" is used; args.dvars is appended at the end.  An ImportError, also one raised by the module
   itself, ends in sys.exit(0); any other exception of the module is passed on.  Result: the directory
   whose module is used.  Simplified: no module of that name is loaded, built in or frozen beforehand. *)
Fixpoint import_variables (path : list string) (files : string -> module_file) : res string :=
  match path with
  | [] => Raise ImportError
  | d :: path' =>
    match files d with
    | NoModule => import_variables path' files
    | Loads => Ok d
    | Raises e => Raise e
    end
  end.
Definition load_variable_module (sys_path : list string) (files : string -> module_file) (dvars : string)
  : res string :=
  match import_variables (sys_path ++ [dvars]) files with
  | Raise ImportError => Raise (SystemExit 0)
  | r => r
  end.

(** A saved section plot: file name, points of each sail (label, x, height). *)
Record plot := Plot { pl_file : string; pl_points : list (string * list F * list F) }.

(* panels_plotter.py 372-409, plot_section_coeff (drawing replaced by the data drawn);
   lbs[i] is an IndexError for a third sail *)
Definition plot_section_coeff (x_data y_data : list (list F)) (coeff_name : string) : res plot :=
  if negb (String.eqb coeff_name "lift" || String.eqb coeff_name "drag") then Raise (SystemExit 1)
  else
    let c_name := if String.eqb coeff_name "drag" then "cd"%string else "cl"%string in
    do pts <- mapM (fun i =>
        do x <- py_nth x_data (Z.of_nat i);
        do y <- py_nth y_data (Z.of_nat i);
        do lb <- py_nth ["jib"; "main"]%string (Z.of_nat i);
        Ok (lb, x, y)) (seq 0 (List.length y_data));
    Ok (Plot ("section_" ++ c_name) pts).

(* cli.py 91-93: the two section plots of a run *)
Definition cli_section_plots (v : vlm F) : res (plot * plot) :=
  do (mean_cp, cl_data, cd_data) <-
     get_data_for_coeff_plot (vl_panels v) (vl_areas v) (vl_lift v) (vl_drag v) (in_V (vl_inlet v))
       (vl_cp v) (vl_ns v) (vl_nc v) (vl_rho v);
  do p1 <- plot_section_coeff cd_data mean_cp "lift";
  do p2 <- plot_section_coeff cl_data mean_cp "drag";
  Ok (p1, p2).

(** Aircraft *)
Record aircraft := AircraftObj {
  ac_panels : list (panel F); ac_vars : list (pvars F); ac_gamma : list F;
  ac_V : list (vec F); ac_V_ctrl : list (vec F);
  ac_force : list (vec F); ac_pressure : list F; ac_CL : F; ac_CD : F; ac_Cp : F; ac_Cxyz : vec F;
  ac_CL_theory : F; ac_CD_theory : F }.

(* aircraft.py 15-73, Aircraft.__init__ *)
Definition Aircraft (chord half_span AoA_deg : F) (ns nc : nat) (V : vec F) (rho gor : F)
  : res aircraft :=
  let AR := nZ 2 * half_span / chord in
  let S := nZ 2 * half_span * chord in
  let '(CLt, CDt) := get_CL_CD_free_wing AR AoA_deg in
  let le_NW := V3 (nZ 0) (nZ 0) half_span in
  let le_SW := V3 (nZ 0) (nZ 0) (- half_span) in
  let te_NE := V3 chord (nZ 0) half_span in
  let te_SE := V3 chord (nZ 0) (- half_span) in
  let Rz := rotation_matrix (V3 (nZ 0) (nZ 0) (nZ 1)) (deg2rad (- AoA_deg)) in
  do (panels, te, le) <- make_panels_from_le_te_points (mapply Rz le_SW) (mapply Rz te_SE)
                            (mapply Rz le_NW) (mapply Rz te_NE) nc ns;
  let Vs := map (fun _ => V) panels in
  let areas := get_panels_area panels in
  let vars := simple_vlm_variables panels gor in
  let normals := map pv_n vars in
  let ctr := map pv_ctr vars in
  let cp := map pv_cp vars in
  let rings := map pv_ring vars in
  let spans := map pv_span vars in
  let '(coefs, vind) := calc_velocity_coefs Vs ctr rings normals te gor in
  let rhs := calculate_RHS Vs normals in
  do gamma <- solve_eq coefs rhs;
  let '(_, V_ctrl) := calculate_app_fs Vs vind gamma in
  do ok <- is_no_flux_BC_satisfied V_ctrl areas normals;
  do _ <- guard ok AssertionError;
  do (force, _, _) <- calc_force_wrapper Vs gamma rho cp rings ns normals spans te le "force_xyz" gor;
  let pressure := calc_pressure force normals areas in
  let '(CL, CD) := get_vlm_CL_CD_free_wing force V rho S in
  let q := ndec 5 1 * rho * (vnorm V * vnorm V) * S in
  Ok (AircraftObj panels vars gamma Vs V_ctrl force pressure CL CD (nsum pressure / q)
        (get_vlm_Cxyz force V rho S) CLt CDt).

End Runner.
