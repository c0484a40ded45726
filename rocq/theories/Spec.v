(** Definitions used to state the properties.  They are written directly with Coq's real numbers
    and lists and do not use the model's own arithmetic helpers. *)

From Coq Require Import String ZArith Reals List Bool.
From Verif Require Import Num.
Import ListNotations.
Open Scope R_scope.

(** ** Vectors of R^3 (the record [vec R] with components [vx], [vy], [vz]) *)
Definition sadd (a b : vec R) : vec R := V3 (vx a + vx b) (vy a + vy b) (vz a + vz b).
Definition ssub (a b : vec R) : vec R := V3 (vx a - vx b) (vy a - vy b) (vz a - vz b).
Definition sopp (a : vec R) : vec R := V3 (- vx a) (- vy a) (- vz a).
Definition sscale (k : R) (a : vec R) : vec R := V3 (k * vx a) (k * vy a) (k * vz a).
Definition szero : vec R := V3 0 0 0.
Definition sdot (a b : vec R) : R := vx a * vx b + vy a * vy b + vz a * vz b.
Definition scross (a b : vec R) : vec R :=
  V3 (vy a * vz b - vz a * vy b) (vz a * vx b - vx a * vz b) (vx a * vy b - vy a * vx b).
Definition snorm (a : vec R) : R := sqrt (vx a ^ 2 + vy a ^ 2 + vz a ^ 2).
(** unit vector in the direction of [a] *)
Definition sunit (a : vec R) : vec R := sscale (/ snorm a) a.
Definition sdist (a b : vec R) : R := snorm (ssub a b).

(** mirror image in the water plane z = 0 *)
Definition smirror (a : vec R) : vec R := V3 (vx a) (vy a) (- vz a).

(** Right-handed rotation of [v] about the unit vector [u] by the angle [th] (Rodrigues) *)
Definition srot (u : vec R) (th : R) (v : vec R) : vec R :=
  sadd (sadd (sscale (cos th) v) (sscale (sin th) (scross u v)))
       (sscale ((1 - cos th) * sdot u v) u).

(** Right-handed rotation of the point [p] about the line through [a] and [b] *)
Definition srot_line (a b : vec R) (th : R) (p : vec R) : vec R :=
  sadd a (srot (sunit (ssub b a)) th (ssub p a)).

(** degrees to radians *)
Definition rad (deg : R) : R := deg * (PI / 180).

(** A linear map that preserves dot products and cross products: a rotation. *)
Record rotation_map (f : vec R -> vec R) : Prop := {
  rm_add : forall a b, f (sadd a b) = sadd (f a) (f b);
  rm_scale : forall k a, f (sscale k a) = sscale k (f a);
  rm_dot : forall a b, sdot (f a) (f b) = sdot a b;
  rm_cross : forall a b, scross (f a) (f b) = f (scross a b) }.

(** sums *)
Definition ssum (l : list (vec R)) : vec R := fold_right sadd szero l.
Definition rsum (l : list R) : R := fold_right Rplus 0 l.

(** [th] is the direction angle of the plane vector (x, y): -PI < th <= PI *)
Definition is_direction (th x y : R) : Prop :=
  - PI < th <= PI /\ x = sqrt (x ^ 2 + y ^ 2) * cos th /\ y = sqrt (x ^ 2 + y ^ 2) * sin th.

(** [v] lies in the horizontal plane *)
Definition horizontal (v : vec R) : Prop := vz v = 0.

(** ** Airfoils
    The NACA 4 digit camber line and its slope *)
Definition scamber (m p x : R) : R :=
  if Rlt_dec x p then m / p ^ 2 * (2 * p * x - x ^ 2)
  else m / (1 - p) ^ 2 * (1 - 2 * p + 2 * p * x - x ^ 2).
Definition sslope (m p x : R) : R :=
  if Rlt_dec x p then 2 * m / p ^ 2 * (p - x) else 2 * m / (1 - p) ^ 2 * (p - x).
(** equally spaced stations from 0 to 1 *)
Definition station (n k : nat) : R := INR k / INR (n - 1).

(** the documented parameter ranges *)
Definition accepted (m p t : R) : Prop := 0 <= m <= 3/10 /\ 0 <= p <= 9/10 /\ 0 <= t <= 4/10.

(** ** Meshes and panels *)
(** the point [mesh[i][j]], if there is one *)
Definition mesh_point {F} (mesh : list (list (vec F))) (i j : nat) : option (vec F) :=
  match nth_error mesh i with Some row => nth_error row j | None => None end.
(** the point at the fraction [t] of the way from [a] to [b] *)
Definition slerp (a b : vec R) (t : R) : vec R := sadd a (sscale t (ssub b a)).
(** bilinear interpolation: [s] from leading to trailing edge, [t] from south to north *)
Definition sbilinear (le_s te_s le_n te_n : vec R) (s t : R) : vec R :=
  slerp (slerp le_s te_s s) (slerp le_n te_n s) t.
(** area of a triangle, and of a plane convex quadrilateral (split along the diagonal a-c) *)
Definition striangle (a b c : vec R) : R := snorm (scross (ssub b a) (ssub c a)) / 2.
Definition squad (a b c d : vec R) : R := striangle a b c + striangle a c d.

(** ** Vortices *)
(** the excluded neighbourhood of a vortex segment *)
Definition in_core (p p1 p2 : vec R) : Prop :=
  snorm (ssub p p1) < / 10 ^ 8 \/ snorm (ssub p p2) < / 10 ^ 8 \/
  snorm (scross (ssub p p1) (ssub p p2)) ^ 2 < / 10 ^ 8.
(** closed form of the Biot-Savart integral over a straight segment *)
Definition biot_savart (p p1 p2 : vec R) (g : R) : vec R :=
  let r0 := ssub p2 p1 in let r1 := ssub p p1 in let r2 := ssub p p2 in
  let x := scross r1 r2 in
  sscale (g / (4 * PI) * (sdot r0 (ssub (sunit r1) (sunit r2)) / snorm x ^ 2)) x.
(** the integrand of the Biot-Savart law: dl x r / |r|^3 at the fraction [t] of the segment *)
Definition biot_integrand (p p1 p2 : vec R) (t : R) : vec R :=
  let r := ssub p (slerp p1 p2 t) in sscale (/ snorm r ^ 3) (scross (ssub p2 p1) r).
(** [f t] tends to [l] as [t] tends to infinity *)
Definition tends_to (f : R -> vec R) (l : vec R) : Prop :=
  forall eps, 0 < eps -> exists T, forall t, T < t -> sdist (f t) l < eps.
(** [p] is on the half line from [a] in the direction [d] *)
Definition on_half_line (a d p : vec R) : Prop := exists s, 0 <= s /\ p = sadd a (sscale s d).
(** [p] is on the line through [a] in the direction [d] *)
Definition on_line (a d p : vec R) : Prop := exists s, p = sadd a (sscale s d).

(** ** Sails *)
(** heel about the x axis (to leeward for positive angles), then leeway about the z axis; degrees *)
Definition sheel (heel leeway : R) (p : vec R) : vec R :=
  srot (V3 0 0 1) (rad leeway) (srot (V3 1 0 0) (- rad heel) p).
(** the point at the chord fraction [x] of the section at the fraction [t] of the luff; the luff lies in the plane y = 0 *)
Definition ssection (tack head : vec R) (t chord m d x : R) : vec R :=
  let luff := slerp tack head t in
  V3 (vx luff + x * chord) (chord * scamber m d x) (vz luff).
(** a luff end projected on the plane y = 0 *)
Definition onto_plane (p : vec R) : vec R := V3 (vx p) 0 (vz p).

(** ** Linear systems (a matrix is a list of rows) *)
(** left-hand side of one equation *)
Definition srow (a x : list R) : R := rsum (map (fun p => fst p * snd p) (combine a x)).
Definition square (A : list (list R)) : Prop := forall row, In row A -> length row = length A.
(** [x] satisfies every equation of A x = b *)
Definition solves (A : list (list R)) (b x : list R) : Prop :=
  length x = length A /\ length b = length A /\
  forall i row r, nth_error A i = Some row -> nth_error b i = Some r -> srow row x = r.

(** ** Lattices *)
(** index of the panel in row [i] (counted from the leading edge) and strip [j] of group [g];
    a group is one sail above or one sail under the water *)
Definition cell (nc ns g i j : nat) : nat := ((g * nc + i) * ns + j)%nat.
(** flags of [G] groups of [nc] times [ns] panels *)
Record flags (nc ns G : nat) (te le : list bool) : Prop := {
  fl_te_len : length te = (G * (nc * ns))%nat;
  fl_le_len : length le = (G * (nc * ns))%nat;
  fl_te : forall g i j, (g < G)%nat -> (i < nc)%nat -> (j < ns)%nat ->
    nth_error te (cell nc ns g i j) = Some (i =? nc - 1)%nat;
  fl_le : forall g i j, (g < G)%nat -> (i < nc)%nat -> (j < ns)%nat ->
    nth_error le (cell nc ns g i j) = Some ((i =? 0) && (2 <=? nc))%nat%bool }.
(** [f 0, ..., f (n - 1)], and sums of such *)
Definition tab {A} (n : nat) (f : nat -> A) : list A := map f (seq 0 n).
Definition sumn (n : nat) (f : nat -> R) : R := rsum (tab n f).
Definition vsumn (n : nat) (f : nat -> vec R) : vec R := ssum (tab n f).

(** ** Interpolation *)
(** strictly increasing *)
Definition ascending (xs : list R) : Prop :=
  forall i a b, nth_error xs i = Some a -> nth_error xs (S i) = Some b -> a < b.
(** [y] is the value at [x] of the piecewise linear function through the points (xs, ys), extended by constants *)
Definition linear_at (xs ys : list R) (x y : R) : Prop :=
  (exists x0, nth_error xs 0 = Some x0 /\ nth_error ys 0 = Some y /\ x <= x0) \/
  (exists x1, nth_error xs (length xs - 1) = Some x1 /\ nth_error ys (length xs - 1) = Some y /\ x1 <= x) \/
  (exists j x0 y0 x1 y1, nth_error xs j = Some x0 /\ nth_error xs (S j) = Some x1 /\
     nth_error ys j = Some y0 /\ nth_error ys (S j) = Some y1 /\ x0 <= x <= x1 /\ y = y0 + (x - x0) / (x1 - x0) * (y1 - y0)).

(** ** Tables *)
(** the value in the row named [k] of a two-column table (the first one, if there are several) *)
Definition value_of {A} (t : list (string * A)) (k : string) : option A :=
  option_map snd (find (fun r => String.eqb (fst r) k) t).
(** the vector in the rows [k.x], [k.y], [k.z] *)
Definition vector_of (t : list (string * R)) (k : string) : option (vec R) :=
  match value_of t (k ++ ".x"), value_of t (k ++ ".y"), value_of t (k ++ ".z") with
  | Some x, Some y, Some z => Some (V3 x y z)
  | _, _, _ => None
  end%string.

(** ** Coefficients *)
(** mean of [x] weighted with [w] *)
Definition wmean (n : nat) (w x : nat -> R) : R := sumn n (fun r => w r * x r) / sumn n w.
(** force coefficient of a force [f] on the area [a] in the flow [v] *)
Definition scoef (rho : R) (f v : vec R) (a : R) : R := snorm f / (1/2 * rho * snorm v ^ 2 * a).
