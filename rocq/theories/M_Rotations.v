(** Model of pySailingVLM/rotations/geometry_calc.py. *)

From Coq Require Import ZArith List Bool.
From Verif Require Import Num PyBase.
Import ListNotations.
Local Open Scope num_scope.

Section Rotations.
Context {F : Type} `{Num F}.

(* geometry_calc.py 7-33, rotation_matrix *)
Definition rotation_matrix (axis : vec F) (theta : F) : mat F :=
  let axis := vdivs axis (nsqrt (vdot axis axis)) in
  let a := ncos (theta / nZ 2) in
  let s := nsin (theta / nZ 2) in
  let b := - vx axis * s in
  let c := - vy axis * s in
  let d := - vz axis * s in
  let aa := a * a in let bb := b * b in let cc := c * c in let dd := d * d in
  let bc := b * c in let ad := a * d in let ac := a * c in
  let ab := a * b in let bd := b * d in let cd := c * d in
  M3 (V3 (aa + bb - cc - dd) (nZ 2 * (bc + ad)) (nZ 2 * (bd - ac)))
     (V3 (nZ 2 * (bc - ad)) (aa + cc - bb - dd) (nZ 2 * (cd + ab)))
     (V3 (nZ 2 * (bd + ac)) (nZ 2 * (cd - ab)) (aa + dd - bb - cc)).

(** Homogeneous coordinates: 4-vectors and 4x4 matrices (rows). *)
Record vec4 := V4 { wx : F; wy : F; wz : F; ww : F }.
Record mat4 := M4 { q0 : vec4; q1 : vec4; q2 : vec4; q3 : vec4 }.
Definition dot4 (a b : vec4) : F := wx a * wx b + wy a * wy b + wz a * wz b + ww a * ww b.
Definition apply4 (m : mat4) (v : vec4) : vec4 :=
  V4 (dot4 (q0 m) v) (dot4 (q1 m) v) (dot4 (q2 m) v) (dot4 (q3 m) v).

(* a product of two of the matrices, entry by entry *)
Definition mul4 (a b : mat4) : mat4 :=
  let col (f : vec4 -> F) := V4 (f (q0 b)) (f (q1 b)) (f (q2 b)) (f (q3 b)) in
  let row r := V4 (dot4 r (col wx)) (dot4 r (col wy)) (dot4 r (col wz)) (dot4 r (col ww)) in
  M4 (row (q0 a)) (row (q1 a)) (row (q2 a)) (row (q3 a)).

(* geometry_calc.py 47-70 for one column of [ps], the point multiplied from the left by one matrix
   after the other *)
Definition rotate_point_around_arbitrary_axis (p1 p2 : vec F) (theta : F) (p : vec F) : vec F :=
  let o := nZ 0 in let i := nZ 1 in
  let x1 := vx p1 in let y1 := vy p1 in let z1 := vz p1 in
  let axis := vsub p2 p1 in
  let l := vnorm axis in
  let a := vx axis in let b := vy axis in let c := vz axis in
  let v := nsqrt (b * b + c * c) in
  let D := M4 (V4 i o o (- x1)) (V4 o i o (- y1)) (V4 o o i (- z1)) (V4 o o o i) in
  let D_inv := M4 (V4 i o o x1) (V4 o i o y1) (V4 o o i z1) (V4 o o o i) in
  let R_x := M4 (V4 i o o o) (V4 o (c / v) (- b / v) o) (V4 o (b / v) (c / v) o) (V4 o o o i) in
  let R_x_inv := M4 (V4 i o o o) (V4 o (c / v) (b / v) o) (V4 o (- b / v) (c / v) o) (V4 o o o i) in
  let R_y := M4 (V4 (v / l) o (- a / l) o) (V4 o i o o) (V4 (a / l) o (v / l) o) (V4 o o o i) in
  let R_y_inv := M4 (V4 (v / l) o (a / l) o) (V4 o i o o) (V4 (- a / l) o (v / l) o) (V4 o o o i) in
  let ct := ncos theta in let st := nsin theta in
  let R_z := M4 (V4 ct (- st) o o) (V4 st ct o o) (V4 o o i o) (V4 o o o i) in
  let r := apply4 D_inv (apply4 R_x_inv (apply4 R_y_inv (apply4 R_z (apply4 R_y
             (apply4 R_x (apply4 D (V4 (vx p) (vy p) (vz p) i))))))) in
  V3 (wx r) (wy r) (wz r).

(* geometry_calc.py 50-67: the product of the seven matrices, multiplied from the right *)
Definition turning_matrix (p1 p2 : vec F) (theta : F) : mat4 :=
  let o := nZ 0 in let i := nZ 1 in
  let x1 := vx p1 in let y1 := vy p1 in let z1 := vz p1 in
  let axis := vsub p2 p1 in
  let l := vnorm axis in
  let a := vx axis in let b := vy axis in let c := vz axis in
  let v := nsqrt (b * b + c * c) in
  let D := M4 (V4 i o o (- x1)) (V4 o i o (- y1)) (V4 o o i (- z1)) (V4 o o o i) in
  let D_inv := M4 (V4 i o o x1) (V4 o i o y1) (V4 o o i z1) (V4 o o o i) in
  let R_x := M4 (V4 i o o o) (V4 o (c / v) (- b / v) o) (V4 o (b / v) (c / v) o) (V4 o o o i) in
  let R_x_inv := M4 (V4 i o o o) (V4 o (c / v) (b / v) o) (V4 o (- b / v) (c / v) o) (V4 o o o i) in
  let R_y := M4 (V4 (v / l) o (- a / l) o) (V4 o i o o) (V4 (a / l) o (v / l) o) (V4 o o o i) in
  let R_y_inv := M4 (V4 (v / l) o (a / l) o) (V4 o i o o) (V4 (- a / l) o (v / l) o) (V4 o o o i) in
  let ct := ncos theta in let st := nsin theta in
  let R_z := M4 (V4 ct (- st) o o) (V4 st ct o o) (V4 o o i o) (V4 o o o i) in
  mul4 D_inv (mul4 R_x_inv (mul4 R_y_inv (mul4 R_z (mul4 R_y (mul4 R_x D))))).
Definition turn_by (m : mat4) (p : vec F) : vec F :=
  let r := apply4 m (V4 (vx p) (vy p) (vz p) (nZ 1)) in V3 (wx r) (wy r) (wz r).

(* geometry_calc.py 35-70, rotate_points_around_arbitrary_axis.  multi_dot takes the order with the
   fewest multiplications and of equal ones the one found first: a product of two 4x4 matrices costs 64,
   a product of a matrix and n points 16 n.  So up to four points are multiplied by one matrix after the
   other, and for more points the matrices are multiplied first. *)
Definition rotate_points_around_arbitrary_axis (ps : list (vec F)) (p1 p2 : vec F) (theta : F)
  : list (vec F) :=
  if (length ps <=? 4)%nat then map (rotate_point_around_arbitrary_axis p1 p2 theta) ps
  else map (turn_by (turning_matrix p1 p2 theta)) ps.

(* scipy's Rotation.from_rotvec followed by as_matrix, used by geometry_calc.py 84-85: the
   quaternion (r * sin(angle/2)/angle, cos(angle/2)) with angle = |r|, and its matrix.
   For small angles scipy replaces sin(angle/2)/angle by its Taylor polynomial of degree 4;
   here only the value 1/2 at angle 0 is kept. *)
Definition from_rotvec (r : vec F) : mat F :=
  let angle := vnorm r in
  let k := if angle =? nZ 0 then ndec 5 1 else nsin (angle / nZ 2) / angle in
  let x := k * vx r in let y := k * vy r in let z := k * vz r in
  let w := ncos (angle / nZ 2) in
  let x2 := x * x in let y2 := y * y in let z2 := z * z in let w2 := w * w in
  let xy := x * y in let zw := z * w in let xz := x * z in
  let yw := y * w in let yz := y * z in let xw := x * w in
  M3 (V3 (x2 - y2 - z2 + w2) (nZ 2 * (xy - zw)) (nZ 2 * (xz + yw)))
     (V3 (nZ 2 * (xy + zw)) (- x2 + y2 - z2 + w2) (nZ 2 * (yz - xw)))
     (V3 (nZ 2 * (xz - yw)) (nZ 2 * (yz + xw)) (- x2 - y2 + z2 + w2)).

(* geometry_calc.py 73-85, rotate_points_around_origin_axis *)
Definition rotate_points_around_origin_axis (ps : list (vec F)) (axis : vec F) (theta : F)
  : list (vec F) :=
  let axis := vdivs axis (vnorm axis) in
  let r := from_rotvec (vscale theta axis) in
  map (mapply r) ps.

End Rotations.
