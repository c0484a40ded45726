(** Model of pySailingVLM/solver/forces.py. *)

From Coq Require Import ZArith List Bool String.
From Verif Require Import Num PyBase M_Panels M_Velocity M_Coefs.
Import ListNotations.
Local Open Scope num_scope.

Section Forces.
Context {F : Type} `{Num F}.

(* forces.py 7-19, calc_moment_arm_in_shifted_csys, for one point *)
Definition moment_arm (d : vec F) (cp : vec F) : vec F :=
  V3 (vx cp - vx d) (vy cp - vy d)
     (if nZ 0 <? vz cp then vz cp - vz d else vz cp + vz d).
Definition calc_moment_arm_in_shifted_csys (cps : list (vec F)) (d : vec F) : list (vec F) :=
  map (moment_arm d) cps.

(* forces.py 21-26, calc_moments *)
Definition calc_moments (arms forces : list (vec F)) : list (vec F) := zipWith vcross arms forces.

(* forces.py 28-38, determine_vector_from_its_dot_and_cross_product *)
Definition determine_vector_from_its_dot_and_cross_product (f : vec F) (r_dot_F : F)
    (r_cross_F : vec F) : vec F :=
  vdivs (vadd (vcross f r_cross_F) (vscale r_dot_F f)) (vdot f f).

(* forces.py 105-107: the circulation that acts on the bound vortex of panel [i];
   [gamma_magnitude[i-n_spanwise]] is a Python index, so it wraps when negative. *)
Definition net_circulation (gamma : list F) (le : list bool) (ns : nat) (i : nat) : res F :=
  let case1x1 := negb (existsb (fun b => b) le) in
  do l <- py_nth le (Z.of_nat i);
  do g <- py_nth gamma (Z.of_nat i);
  if l || case1x1 then Ok g
  else do g' <- py_nth gamma (Z.of_nat i - Z.of_nat ns); Ok (g - g').

(* forces.py 101-109, the loop: force[i] = rho * cross(V[i], span[i] * circulation) *)
Definition panel_forces (rho : F) (V spans : list (vec F)) (gamma : list F) (le : list bool)
    (ns : nat) : res (list (vec F)) :=
  mapM (fun ivs =>
          let i := fst ivs in let v := fst (snd ivs) in let s := snd (snd ivs) in
          do g <- net_circulation gamma le ns i;
          Ok (vscale rho (vcross v (vscale g s))))
       (combine (seq 0 (List.length spans)) (combine V spans)).

(* forces.py 51-111, calc_force_wrapper: (force, V_at_cp, V_induced).  A forbidden
   force_name ends the process with sys.exit(). *)
Definition calc_force_wrapper (V : list (vec F)) (gamma : list F) (rho : F) (cp : list (vec F))
    (rings : list (ring F)) (ns : nat) (normals spans : list (vec F)) (te le : list bool)
    (force_name : string) (gor : F)
  : res (list (vec F) * list (vec F) * list (vec F)) :=
  if negb (existsb (String.eqb force_name) ["lift"; "drag"; "force_xyz"]%string)
  then Raise (SystemExit 0)
  else
    let '(_, vind) := calc_velocity_coefs V cp rings normals te gor in
    let '(V_induced, V_at_cp) := calculate_app_fs V vind gamma in
    let V_for :=
      if String.eqb force_name "lift" then V
      else if String.eqb force_name "drag" then V_induced
      else V_at_cp in
    do f <- panel_forces rho V_for spans gamma le ns;
    Ok (f, V_at_cp, V_induced).

(* forces.py 114-116, calc_pressure *)
Definition calc_pressure (forces normals : list (vec F)) (areas : list F) : list F :=
  zipWith (fun fn a => vdot (fst fn) (snd fn) / a) (combine forces normals) areas.

(* forces.py 119-131, is_no_flux_BC_satisfied *)
Definition is_no_flux_BC_satisfied (V_app_fw : list (vec F)) (areas : list F)
    (normals : list (vec F)) : res bool :=
  let flux := zipWith (fun v n => vdot (vopp v) n) V_app_fw normals in
  if existsb (fun a => nisnan a || (a <? ndec 1 14)) areas then Raise ValueError
  else if existsb (fun f => (ndec 1 12 <? nabs f) || nisnan f) flux then Raise ValueError
  else Ok true.

(* forces.py 133-144, calc_pressure_coeff *)
Definition calc_pressure_coeff (pressure : list F) (rho : F) (V : list (vec F)) : list F :=
  zipWith (fun p v => p / (ndec 5 1 * rho * vdot v v)) pressure V.

End Forces.
