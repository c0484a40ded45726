(** Model of pySailingVLM/solver/velocity.py. *)

From Coq Require Import ZArith List Bool.
From Verif Require Import Num PyBase.
Import ListNotations.
Local Open Scope num_scope.

Section Velocity.
Context {F : Type} `{Num F}.

(* velocity.py 8-19 and 48-49: is_in_vortex_core([r1, r2, [|r1 x r2|^2]]);
   the norm of the one-element array is the absolute value. *)
Definition core_eps : F := ndec 1 8.
Definition is_in_vortex_core (r1 r2 : vec F) (sq : F) : bool :=
  (vnorm r1 <? core_eps) || (vnorm r2 <? core_eps) || (nabs sq <? core_eps).

(* velocity.py 23-58, vortex_line *)
Definition vortex_line (p p1 p2 : vec F) (gamma : F) : vec F :=
  let r0 := vsub p2 p1 in
  let r1 := vsub p p1 in
  let r2 := vsub p p2 in
  let r1_cross_r2 := vcross r1 r2 in
  let sq := vnorm r1_cross_r2 * vnorm r1_cross_r2 in
  if is_in_vortex_core r1 r2 sq then v0
  else
    let q := vdivs r1_cross_r2 sq in
    let k := vdot r0 (vsub (vdivs r1 (vnorm r1)) (vdivs r2 (vnorm r2))) in
    let q := vscale k q in
    vscale (gamma / (nZ 4 * npi)) q.

(* velocity.py 64-82, vortex_infinite_line *)
Definition vortex_infinite_line (P A r0 : vec F) (gamma : F) : vec F :=
  let u_inf := vdivs r0 (vnorm r0) in
  let ap := vsub P A in
  let norm_ap := vnorm ap in
  let v_ind := vdivs (vcross u_inf ap) (norm_ap * (norm_ap - vdot u_inf ap)) in
  vscale (gamma / (nZ 4 * npi)) v_ind.

(* velocity.py 86-109, vortex_horseshoe *)
Definition vortex_horseshoe (p B C V : vec F) (gamma : F) : vec F :=
  let sub1 := vortex_infinite_line p C V gamma in
  let sub2 := vortex_line p B C gamma in
  let sub3 := vortex_infinite_line p B V (- (nZ 1) * gamma) in
  vadd (vadd sub1 sub2) sub3.

(* velocity.py 113-137, vortex_horseshoe_v2 *)
Definition vortex_horseshoe_v2 (p A B C D V : vec F) (gamma : F) : vec F :=
  let sub1 := vortex_line p A B gamma in
  let sub2 := vortex_line p B C gamma in
  let sub3 := vortex_line p C D gamma in
  let inf1 := vortex_infinite_line p D V gamma in
  let inf2 := vortex_infinite_line p A V (- (nZ 1) * gamma) in
  vadd (vadd (vadd (vadd sub1 sub2) sub3) inf1) inf2.

(* velocity.py 142-161, vortex_ring *)
Definition vortex_ring (p A B C D : vec F) (gamma : F) : vec F :=
  let sub1 := vortex_line p A B gamma in
  let sub2 := vortex_line p B C gamma in
  let sub3 := vortex_line p C D gamma in
  let sub4 := vortex_line p D A gamma in
  vadd (vadd (vadd sub1 sub2) sub3) sub4.

(* velocity.py 168-183, calc_induced_velocity: v_ind_coeff[i,j] * gamma[j] summed
   over j, starting from zeros.  Row [i] of the coefficients is a list. *)
Definition induced_at (row : list (vec F)) (gamma : list F) : vec F :=
  fold_left vadd (zipWith (fun a g => vscale g a) row gamma) v0.
Definition calc_induced_velocity (v_ind_coeff : list (list (vec F))) (gamma : list F)
  : list (vec F) :=
  map (fun row => induced_at row gamma) v_ind_coeff.

(* velocity.py 186-197, calculate_app_fs *)
Definition calculate_app_fs (V_app_infs : list (vec F)) (v_ind_coeff : list (list (vec F)))
    (gamma : list F) : list (vec F) * list (vec F) :=
  let V_induced := calc_induced_velocity v_ind_coeff gamma in
  (V_induced, zipWith vadd V_app_infs V_induced).

End Velocity.
