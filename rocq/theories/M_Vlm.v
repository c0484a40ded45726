(** Model of pySailingVLM/solver/vlm.py. *)

From Coq Require Import ZArith List Bool String.
From Verif Require Import Num PyBase M_Panels M_Velocity M_Solve M_Coefs M_Forces M_Winds.
Import ListNotations.
Local Open Scope num_scope.

Section Vlm.
Context {F : Type} `{Num F}.

(* vlm.py 23-52: the attributes after __post_init__ *)
Record vlm := VlmObj {
  vl_panels : list (panel F); vl_nc : nat; vl_ns : nat; vl_rho : F;
  vl_te : list bool; vl_le : list bool;
  vl_areas : list F;
  vl_vars : list (pvars F);            (* normals, ctr_p, cp, rings, span_vectors, mid points *)
  vl_inlet : inlet F;
  vl_coeff : list (list F); vl_vind : list (list (vec F)); vl_rhs : list F;
  vl_gamma : list F;
  vl_V_ind_ctrl : list (vec F); vl_V_ctrl : list (vec F);
  vl_force : list (vec F); vl_V_cp : list (vec F); vl_V_ind_cp : list (vec F);
  vl_pressure : list F; vl_pcoef : list F;
  vl_lift : list (vec F); vl_drag : list (vec F) }.

Definition vl_normals v := map pv_n (vl_vars v).
Definition vl_ctr v := map pv_ctr (vl_vars v).
Definition vl_cp v := map pv_cp (vl_vars v).
Definition vl_rings v := map pv_ring (vl_vars v).
Definition vl_spans v := map pv_span (vl_vars v).

(* vlm.py 52: gamma_orientation = -1.0 *)
Definition vlm_gor : F := nopp (nZ 1).

(* vlm.py 62-76, the part of __post_init__ after the lattice and the inflow are known *)
Definition vlm_solve (panels : list (panel F)) (nc ns : nat) (rho : F) (te le : list bool)
    (vars : list (pvars F)) (ic : inlet F) : res vlm :=
  let gor := vlm_gor in
  let areas := get_panels_area panels in
  let normals := map pv_n vars in
  let ctr := map pv_ctr vars in
  let cp := map pv_cp vars in
  let rings := map pv_ring vars in
  let spans := map pv_span vars in
  let V := in_V ic in
  let '(coeff, vind) := calc_velocity_coefs V ctr rings normals te gor in
  let rhs := calculate_RHS V normals in
  do gamma <- solve_eq coeff rhs;
  let '(V_ind_ctrl, V_ctrl) := calculate_app_fs V vind gamma in
  do ok <- is_no_flux_BC_satisfied V_ctrl areas normals;
  do _ <- guard ok AssertionError;
  do (force, V_cp, V_ind_cp) <-
     calc_force_wrapper V gamma rho cp rings ns normals spans te le "force_xyz" gor;
  let pressure := calc_pressure force normals areas in
  let pcoef := calc_pressure_coeff pressure rho V in
  do (lift, _, _) <-
     calc_force_wrapper V gamma rho cp rings ns normals spans te le "lift" gor;
  do (drag, _, _) <-
     calc_force_wrapper V gamma rho cp rings ns normals spans te le "drag" gor;
  Ok (VlmObj panels nc ns rho te le areas vars ic coeff vind rhs gamma V_ind_ctrl V_ctrl
             force V_cp V_ind_cp pressure pcoef lift drag).

(* vlm.py 54-76, __post_init__ *)
Definition Vlm (panels : list (panel F)) (nc ns : nat) (rho : F) (w : wind F)
    (te le : list bool) : res vlm :=
  do vars <- calculate_vlm_variables panels te vlm_gor nc ns;
  do ic <- InletConditions w (map pv_cp vars);
  vlm_solve panels nc ns rho te le vars ic.

End Vlm.
Arguments vlm F : clear implicits.
