(** Model of pySailingVLM/inlet/winds.py and inlet/inlet_conditions.py. *)

From Coq Require Import ZArith List Bool.
From Verif Require Import Num PyBase M_Csys.
Import ListNotations.
Local Open Scope num_scope.

Section Winds.
Context {F : Type} `{Num F}.

(** The three profile classes.  Their numeric parameters can be [None] (the
    configuration check lets some through); using them then is a TypeError. *)
Inductive profile :=
| Flat                                                              (* winds.py 60-66 *)
| Log (roughness ref_height : option F)                             (* winds.py 78-93 *)
| Exp (exp_coeff ref_height water_level : option F).                (* winds.py 104-119 *)

(* winds.py 8-18, WindBase.__init__ *)
Record wind := Wind_ { w_alpha_deg : F; w_tws : F; w_sog : F; w_prof : profile }.

Definition w_alpha (w : wind) : F := deg2rad (w_alpha_deg w).

Definition opt_arg (o : option F) : res F :=
  match o with Some x => Ok x | None => Raise TypeError end.

(* winds.py 30-35, length_to_xyz_vector *)
Definition length_to_xyz_vector (w : wind) (s : F) : vec F :=
  V3 (s * ncos (w_alpha w)) (s * nsin (w_alpha w)) (nZ 0).

(* winds.py 64-65, 91, 117: wind speed at a height *)
Definition wind_speed_at_h (w : wind) (h : F) : res F :=
  match w_prof w with
  | Flat => Ok (w_tws w)
  | Log r rh =>
    do r <- opt_arg r; do rh <- opt_arg rh;
    Ok (w_tws w * (nln (h / r) / nln (rh / r)))
  | Exp e rh wl =>
    do wl <- opt_arg wl; do rh <- opt_arg rh; do e <- opt_arg e;
    Ok (w_tws w * npow ((h - wl) / rh) e)
  end.

(* winds.py 64, 89, 116, get_true_wind_speed_at_h *)
Definition get_true_wind_speed_at_h (w : wind) (h : F) : res (vec F) :=
  do s <- wind_speed_at_h w h; Ok (length_to_xyz_vector w s).

(* winds.py 37-53, get_app_alfa_infs_at_h *)
Definition get_app_alfa_infs_at_h (w : wind) (tws_at_h : vec F) : F :=
  let tws_l := vnorm tws_at_h in
  let V := w_sog w in
  let alfa_yacht :=
    nacos ((V * ncos (w_alpha w) + tws_l)
           / nsqrt (V * V + nZ 2 * V * tws_l * ncos (w_alpha w) + tws_l * tws_l)) in
  w_alpha w - alfa_yacht.

(* winds.py 55-57, get_app_infs_at_h *)
Definition get_app_infs_at_h (w : wind) (tws_at_h : vec F) : vec F :=
  V3 (vx tws_at_h + w_sog w) (vy tws_at_h) (vz tws_at_h).

(* winds.py 121-143, ExpWindProfile.to_df_integral: the numbers of the
   'at_reference_height' report: true wind, apparent wind, AWA (COG), AWA (COW). *)
Definition exp_integral_report (w : wind) (c : csys F) (ref_height : F)
  : res (vec F * vec F * F * F) :=
  do tws <- get_true_wind_speed_at_h w ref_height;
  let app := get_app_infs_at_h w tws in
  let awa := rad2deg (natan2 (vy app) (vx app)) in
  Ok (tws, app, awa, awa - leeway_deg c).

(* inlet_conditions.py 6-19 *)
Record inlet := Inlet {
  in_cp : list (vec F); in_tws : list (vec F); in_V : list (vec F); in_awa_deg : list F }.

Definition InletConditions (w : wind) (cp : list (vec F)) : res inlet :=
  do tws <- mapM (fun p => get_true_wind_speed_at_h w (nabs (vz p))) cp;
  let V := map (get_app_infs_at_h w) tws in
  Ok (Inlet cp tws V (map (fun v => rad2deg (natan2 (vy v) (vx v))) V)).

End Winds.
Arguments profile F : clear implicits.
Arguments wind F : clear implicits.
Arguments inlet F : clear implicits.
