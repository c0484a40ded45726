(** The model on IEEE-754 doubles, run against numbers recorded in the repository's tests.
    These are tests of the model's fidelity, not proofs about the program. *)

From Coq Require Import ZArith List Bool String Floats Uint63.
From Verif Require Import Num PyBase M_Airfoil M_Rotations M_Csys M_Mesher M_Panels M_Velocity M_Solve
  M_Coefs M_Forces M_Winds M_Vlm M_Interp M_Sail M_Results M_Runner M_Output ValidationData.
Import ListNotations.
Open Scope float_scope.
Set Warnings "-inexact-float".

(** Elementary functions by series (accurate to about 1e-15 in the ranges used). *)
Definition f_ofZ (z : Z) : float :=
  match z with
  | Z0 => 0
  | Zpos _ => PrimFloat.of_uint63 (Uint63.of_Z z)
  | Zneg p => - PrimFloat.of_uint63 (Uint63.of_Z (Zpos p))
  end.
Definition f_pi : float := 3.141592653589793.
(* sum of x^(2k+1)/(2k+1)! with alternating signs *)
Fixpoint f_trig (n : nat) (k : float) (term x2 acc : float) : float :=
  match n with
  | O => acc
  | S n' => let term' := - term * x2 / ((k + 1) * (k + 2)) in
            f_trig n' (k + 2) term' x2 (acc + term')
  end.
Definition f_sin (x : float) : float := f_trig 20 1 x (x * x) x.
Definition f_cos (x : float) : float := f_trig 20 0 1 (x * x) 1.
Fixpoint f_atan_series (n : nat) (k : float) (pw x2 acc : float) : float :=
  match n with
  | O => acc
  | S n' => let pw' := - pw * x2 in f_atan_series n' (k + 2) pw' x2 (acc + pw' / (k + 2))
  end.
Definition f_half (x : float) : float := x / (1 + PrimFloat.sqrt (1 + x * x)).
Definition f_atan_small (x : float) : float :=
  let y := f_half (f_half (f_half x)) in 8 * f_atan_series 20 1 y (y * y) y.
Definition f_atan (x : float) : float :=
  if 1 <? x then f_pi / 2 - f_atan_small (1 / x)
  else if x <? -1 then - (f_pi / 2) - f_atan_small (1 / x)
  else f_atan_small x.
Definition f_asin (x : float) : float := f_atan (x / PrimFloat.sqrt (1 - x * x)).
Definition f_acos (x : float) : float := f_pi / 2 - f_asin x.
Definition f_atan2 (y x : float) : float :=
  if 0 <? x then f_atan (y / x)
  else if x <? 0 then (if 0 <=? y then f_atan (y / x) + f_pi else f_atan (y / x) - f_pi)
  else if 0 <? y then f_pi / 2 else if y <? 0 then - (f_pi / 2) else 0.
Fixpoint f_exp_series (n : nat) (k : float) (term x acc : float) : float :=
  match n with
  | O => acc
  | S n' => let t := term * x / k in f_exp_series n' (k + 1) t x (acc + t)
  end.
Definition f_sq (x : float) := x * x.
Definition f_exp (x : float) : float :=
  f_sq (f_sq (f_sq (f_sq (f_exp_series 25 1 1 (x / 16) 1)))).
(* ln x = 2^5 * 2 atanh((y-1)/(y+1)), y = x^(1/32) *)
Fixpoint f_atanh_series (n : nat) (k : float) (pw x2 acc : float) : float :=
  match n with
  | O => acc
  | S n' => let pw' := pw * x2 in f_atanh_series n' (k + 2) pw' x2 (acc + pw' / (k + 2))
  end.
Definition f_ln (x : float) : float :=
  let s := PrimFloat.sqrt in
  let y := s (s (s (s (s x)))) in
  let u := (y - 1) / (y + 1) in
  64 * f_atanh_series 25 1 u (u * u) u.
Definition f_pow (x y : float) : float := f_exp (y * f_ln x).

#[export] Instance FloatNum : Num float := {|
  nadd := PrimFloat.add; nsub := PrimFloat.sub; nmul := PrimFloat.mul; ndiv := PrimFloat.div;
  nopp := PrimFloat.opp; nabs := PrimFloat.abs; nsqrt := PrimFloat.sqrt;
  nsin := f_sin; ncos := f_cos; nasin := f_asin; nacos := f_acos; natan := f_atan;
  natan2 := f_atan2; nln := f_ln; npow := f_pow; npi := f_pi; nZ := f_ofZ;
  nltb := PrimFloat.ltb; nleb := PrimFloat.leb; neqb := PrimFloat.eqb;
  nisnan := PrimFloat.is_nan |}.

(** Comparison with an absolute/relative tolerance. *)
Definition near (tol a b : float) : bool :=
  PrimFloat.abs (a - b) <=? tol * (1 + PrimFloat.abs b).
Definition near_list (tol : float) (l m : list float) : bool :=
  (List.length l =? List.length m)%nat && forallb (fun p => near tol (fst p) (snd p)) (combine l m).

(** ** The jib + main sail run of test_jib_and_main_sail_vlm_runner.py.
    The interpolation type is "spline" there; all evaluation stations (multiples of 1/4)
    are data points, where the interpolating spline equals the linear interpolant. *)
Definition main_girths : list float := [0; 0.125; 0.25; 0.5; 0.75; 0.875; 1].
Definition jib_girths : list float := [0; 0.25; 0.5; 0.75; 1].
Definition t_main : sail_def :=
  SailDef (Some (map (fun g => 12 * g + 7) main_girths)) (Some main_girths)
          (Some [4.00; 3.82; 3.64; 3.20; 2.64; 2.32; 2.00])
          (Some (map (fun _ => 0) main_girths)) (Some (map (fun _ => 0.1) main_girths)).
Definition t_jib : sail_def :=
  SailDef (Some (map (fun g => 15 * g + 5) jib_girths)) (Some jib_girths)
          (Some (map (fun c => c - 0.4) [3.80; 2.98; 2.15; 1.33; 0.5]))
          (Some (map (fun _ => 0) jib_girths)) (Some (map (fun _ => 0.1) jib_girths)).
Definition t_cond : conditions :=
  Conditions 5 10 4.63 4.63 40 (Some 0) (Some 0.1428) (Some 10) 1.225 "exponential" (Some 0.05).
Definition t_rig : rig :=
  Rig (Some 12.4) (Some 10) (Some 11.5) (Some 3.9) 1.2 1.3 92 0.15 "jib_and_main".
Definition t_solver : solver := Solver 4 2 "linear" "real_twist".
Definition t_run : res run_result :=
  run (fun _ _ _ => Raise ValueError) t_cond t_solver t_rig (Some t_main) (Some t_jib) v0 (V3 0 0 (-1)).

Definition find_row (n : string) (l : list (string * float)) : option float :=
  match find (fun r => String.eqb (fst r) n) l with Some r => Some (snd r) | None => None end.
Definition col_values (n : string) (l : list (column float)) : list float :=
  flat_map (fun c => match c with
                     | NumCol m v => if String.eqb m n then v else []
                     | StrCol _ _ => [] end) l.
Definition str_values (l : list (column float)) : list string :=
  flat_map (fun c => match c with NumCol _ _ => [] | StrCol _ v => v end) l.

Definition t_tol : float := 1e-11.

Definition t_results :=
  match t_run with
  | Raise e => None
  | Ok r =>
    match components_table (rr_vlm r) (fr_csys (rr_flow r)) (rr_flow r) (rr_set r),
          wind_table (Wind_profile t_cond) (fr_csys (rr_flow r)) with
    | Ok t, Ok i => Some (r, t, integral_table (rr_flow r) (rr_clr r), i)
    | _, _ => None
    end
  end.

Definition same_names (l m : list string) : bool :=
  (List.length l =? List.length m)%nat && forallb (fun p => String.eqb (fst p) (snd p)) (combine l m).
Definition t_check : list bool :=
  match t_results with
  | None => []
  | Some (r, t, ints, inlet) =>
    [near_list t_tol (vl_gamma (rr_vlm r)) expected_gamma;
     forallb (fun e => match find_row (fst e) ints with
                       | Some x => near t_tol x (snd e) | None => false end) expected_integrals;
     same_names (filter (fun n => existsb (fun e => String.eqb (fst e) n) expected_integrals) (map fst ints)) (map fst expected_integrals);
     forallb (fun e => near_list t_tol (col_values (fst e) t) (snd e)) expected_components;
     same_names (map col_name t) (map fst expected_components ++ ["sail_name"%string]);
     same_names (str_values t) expected_names;
     same_names (map fst inlet) (map fst expected_inlet);
     near_list t_tol (map snd inlet) (map snd expected_inlet)]
  end.

(** All 32 recorded circulations, all 25 recorded integrals, all 36 numeric columns of the 16-row
    component table, the sail names and the 12 recorded inlet values satisfy
    |model - recorded| <= 1e-11 * (1 + |recorded|), with the columns and rows in the recorded order. The recorded run
    selects spline interpolation, this one linear (see above). *)
Example jib_and_main_run_agrees : t_check = repeat true 8.
Proof. vm_compute. reflexivity. Qed.
