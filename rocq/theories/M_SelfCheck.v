(** Model of the self checks of pySailingVLM/rotations/csys_transformations.py: the constructor compares its four
    matrices with the same rotations computed by scipy. *)

From Coq Require Import ZArith List Bool.
From Verif Require Import Num PyBase M_Rotations M_Sail.
Import ListNotations.
Local Open Scope num_scope.

Section SelfCheck.
Context {F : Type} `{Num F}.

(* scipy's Rotation.from_rotvec and as_matrix as used by csys_transformations.py 18-36, with the Taylor polynomial
   that scipy takes for angles up to 1e-3 (M_Rotations.from_rotvec has the quotient at all angles but 0). *)
Definition scipy_matrix (r : vec F) : mat F :=
  let angle := vnorm r in
  let a2 := angle * angle in
  let k := if angle <=? ndec 1 3 then ndec 5 1 - a2 / nZ 48 + a2 * a2 / nZ 3840
           else nsin (angle / nZ 2) / angle in
  let x := k * vx r in let y := k * vy r in let z := k * vz r in
  let w := ncos (angle / nZ 2) in
  let x2 := x * x in let y2 := y * y in let z2 := z * z in let w2 := w * w in
  let xy := x * y in let zw := z * w in let xz := x * z in
  let yw := y * w in let yz := y * z in let xw := x * w in
  M3 (V3 (x2 - y2 - z2 + w2) (nZ 2 * (xy - zw)) (nZ 2 * (xz + yw)))
     (V3 (nZ 2 * (xy + zw)) (- x2 + y2 - z2 + w2) (nZ 2 * (yz - xw)))
     (V3 (nZ 2 * (xz - yw)) (nZ 2 * (yz + xw)) (- x2 - y2 + z2 + w2)).

(* csys_transformations.py 18-21 (and 23-26, 28-31, 33-36): scipy's rotation by [theta] about the normalised axis
   against the given matrix; assert_almost_equal compares entry by entry with the tolerance 1.5e-7 *)
Definition matrix_check (m : mat F) (axis : vec F) (theta : F) : res unit :=
  let axis := vdivs axis (vnorm axis) in
  let r := scipy_matrix (vscale theta axis) in
  if vclose (r0 m) (r0 r) && vclose (r1 m) (r1 r) && vclose (r2 m) (r2 r) then Ok tt else Raise AssertionError.

(* csys_transformations.py 13-36: the four matrices of the constructor and their checks *)
Definition csys_self_checks (heel_deg leeway_deg : F) : res unit :=
  let ex := V3 (nZ 1) (nZ 0) (nZ 0) in
  let ez := V3 (nZ 0) (nZ 0) (nZ 1) in
  do _ <- matrix_check (rotation_matrix ex (deg2rad (- heel_deg))) ex (deg2rad (- heel_deg));
  do _ <- matrix_check (rotation_matrix ex (deg2rad heel_deg)) ex (deg2rad heel_deg);
  do _ <- matrix_check (rotation_matrix ez (deg2rad leeway_deg)) ez (deg2rad leeway_deg);
  matrix_check (rotation_matrix ez (deg2rad (- leeway_deg))) ez (deg2rad (- leeway_deg)).

End SelfCheck.
