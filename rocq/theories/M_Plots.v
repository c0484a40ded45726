(** Model of the plots of pySailingVLM/solver/panels_plotter.py that show computed numbers:
    plot_cp, display_winds, display_CE_CLR and the three-dimensional picture around them.  Drawing is
    replaced by the data drawn.  (plot_section_coeff is in M_Runner.) *)

From Coq Require Import ZArith List Bool String Ascii.
From Verif Require Import Num PyBase M_Csys M_Mesher M_Panels M_Coefs M_Winds M_Vlm M_Sail M_Results M_Hull M_Runner.
Import ListNotations.
Local Open Scope num_scope.

(** math.ceil and int() of a float *)
Class Rounding (F : Type) := mkRounding { nceil : F -> Z; ntrunc : F -> Z }.

(* range(a, b) *)
Definition py_range (a b : Z) : list Z := map (fun k => (a + Z.of_nat k)%Z) (seq 0 (Z.to_nat (b - a))).

Section Plots.
Context {F : Type} `{Num F}.

(** A coloured polygon of cp_plot.html: corners in the x-z plane, value shown. *)
Record polygon := Polygon { pg_points : list (F * F); pg_value : F }.

(* panels_plotter.py 356-359, plot_cp: columns of different length are a ValueError of the data frame *)
Definition plot_cp (mesh : list (panel F)) (p_coeffs : list F) : res (list polygon) :=
  let xz p := (vx p, vz p) in
  let outline p := [xz (pp1 p); xz (pp2 p); xz (pp3 p); xz (pp4 p); xz (pp1 p)] in
  if negb (List.length mesh =? List.length p_coeffs)%nat then Raise ValueError
  else Ok (zipWith (fun p c => Polygon (outline p) c) mesh p_coeffs).

(** An arrow: colour, tail, head, opaque (above the water) or faint. *)
Record arrow := Arrow { ar_colour : string; ar_tail : vec F; ar_head : vec F; ar_strong : bool }.

(* panels_plotter.py 215-231: np.split into nc*l rows (ValueError if they are not equal), every
   nc-th of them, flattened *)
Definition first_rows {A} (nc l : nat) (x : list A) : res (list A) :=
  do rows <- np_split x (nc * l);
  Ok (List.concat (map (fun k => nth (k * nc) rows []) (seq 0 l))).

(* panels_plotter.py 253, 258-261: the value of color_counter for the arrows i, i+1, ... of the induced wind *)
Fixpoint colour_counters (ns i n c : nat) : list nat :=
  match n with
  | O => []
  | S n' =>
    let c' := if (i mod ns =? 0)%nat && negb (i =? 0)%nat then S c else c in
    c' :: colour_counters ns (S i) n' c'
  end.

(* panels_plotter.py 188-274, display_winds; [induced] is V_induced_at_cp if the induced wind is shown.
   [water] is water_size, an integer computed from the size of the yacht (line 107).  With nc * ns = 0
   line 208 divides by zero. *)
Definition display_winds (water : F) (ic : inlet F) (induced : option (list (vec F))) (ns nc : nat) : res (list arrow) :=
  let cp := in_cp ic in
  let mean_AWA := nsum (in_awa_deg ic) / nZ (Z.of_nat (List.length (in_awa_deg ic))) in
  let shift_x := ndec (-925) 3 * water * ncos (deg2rad mean_AWA) in
  let shift_y := ndec (-925) 3 * water * nsin (deg2rad mean_AWA) in
  if (ns * nc =? 0)%nat then Raise ZeroDivisionError else
  let l := (List.length cp / (ns * nc))%nat in
  do tws <- first_rows nc l (in_tws ic);
  do app <- first_rows nc l (in_V ic);
  do pts <- first_rows nc l cp;
  do ind <- match induced with Some v => first_rows nc l v | None => Ok [] end;
  do _ <- guard (List.length tws =? ns * l)%nat AssertionError;
  do _ <- guard (List.length app =? ns * l)%nat AssertionError;
  do _ <- match induced with Some _ => guard (List.length ind =? ns * l)%nat AssertionError | None => Ok tt end;
  let colours := if Nat.eqb l 2 then ["peru"; "red"]%string else ["peru"; "red"; "peru"; "red"]%string in
  do _ <- guard (Nat.eqb (List.length colours) l) AssertionError;
  let draw colour := zipWith (fun (w p : vec F) =>
      Arrow colour (V3 shift_x shift_y (vz p)) (V3 (shift_x + vx w) (shift_y + vy w) (vz p)) (nZ 0 <? vz p)) in
  do red <- mapM (fun a =>
      let '(k, (w, p)) := a in
      do colour <- py_nth colours (Z.of_nat k);
      Ok (Arrow colour p (V3 (vx p + vx w) (vy p + vy w) (vz p)) (nZ 0 <? vz p)))
    (combine (colour_counters ns 0 (List.length ind) 0) (combine ind pts));
  Ok (draw "green"%string tws pts ++ draw "blue"%string app pts ++ red).

(* additional_functions.py 19-22, normalize *)
Definition normalize (v : vec F) : vec F := vdivs v (vnorm v).

(* panels_plotter.py 277-306, display_CE_CLR: (tail, vector) of the two arrows *)
Definition display_CE_CLR (fr : flow_results F) (h : hull F) : (vec F * vec F) * (vec F * vec F) :=
  let lengths := map vnorm (fr_V_fs fr) in
  let scale := ndec 8 1 * (nsum lengths / nZ (Z.of_nat (List.length lengths))) in
  let f := vscale scale (normalize (fr_F_total fr)) in
  ((fr_coe fr, f), (hu_clr h, vopp f)).

(* cli.py 87: the wind arrows (for a given water_size) and the force arrows of a run; the induced wind is not shown.
   The whole figure is cli_display below. *)
Definition cli_winds (water : F) (sv : solver) (rr : @run_result F) : res (list arrow) :=
  display_winds water (vl_inlet (rr_vlm rr)) None (sv_ns sv) (sv_nc sv).
Definition cli_CE_CLR (rr : @run_result F) := display_CE_CLR (rr_flow rr) (rr_hull rr).
(* cli.py 89: the data of plot_cp of a run *)
Definition cli_plot_cp (rr : @run_result F) : res (list polygon) :=
  plot_cp (ss_zero (rr_set rr)) (vl_pcoef (rr_vlm rr)).

(** ** The picture *)
Context {RD : Rounding F}.

(* panels_plotter.py 107 and 166, water_size *)
Definition water_size (leading trailing : list (vec F)) : res Z :=
  do a <- py_max (map (fun p => nabs (vz p)) leading);
  do b <- py_max (map (fun p => nabs (vz p)) trailing);
  do m <- py_max [a; b];
  Ok (ntrunc (ndec 11 1 * nZ (nceil m))).

(* panels_plotter.py 108-110 and 167-169: np.meshgrid of two ranges, row by row, and z = 0 * x + 0 * y *)
Definition water_surface (w : Z) : list (vec F) :=
  let r := py_range (- w) w in
  flat_map (fun y => map (fun x => V3 (nZ x) (nZ y) (nZ 0 * nZ x + nZ 0 * nZ y)) r) r.

(** The limits of the three axes. *)
Record axes := Axes { ax_x : F * F; ax_y : F * F; ax_z : F * F }.

(* panels_plotter.py 63-86 and 129-152, set_ax_eq (its result, the range, is not used); max() of an empty array is a ValueError *)
Definition set_ax_eq (pts : list (vec F)) : res axes :=
  let span f := do hi <- py_max (map f pts); do lo <- py_min (map f pts); Ok (hi, lo) in
  do (x1, x0) <- span vx;
  do (y1, y0) <- span vy;
  do (z1, z0) <- span vz;
  do m <- py_max [x1 - x0; y1 - y0; z1 - z0];
  let r := m / nZ 2 in
  let mid hi lo := (hi + lo) * ndec 5 1 in
  let lim hi lo := (mid hi lo - r, mid hi lo + r) in
  Ok (Axes (lim x1 x0) (lim y1 y0) (lim z1 z0)).

(* matplotlib.colors.Normalize(vmin, vmax): the place of [d] on the colour scale *)
Definition colour_scale (vmin vmax d : F) : F := if vmin =? vmax then nZ 0 else (d - vmin) / (vmax - vmin).

(** What display_panels_xyz draws: the panels with their place on the colour scale (None: no colour), the ends
    of the scale, the points of the water surface, the axes. *)
Record picture := Picture {
  pi_panels : list (panel F * option F); pi_scale : option (F * F); pi_water : Z; pi_sea : list (vec F); pi_axes : axes }.

(* panels_plotter.py 49-113, display_panels_xyz *)
Definition display_panels_xyz (v : vlm F) (color_panels_by : string) : res picture :=
  let data := if String.eqb color_panels_by "gamma_magnitude" then vl_pressure v
              else if String.eqb color_panels_by "p_coeffs" then vl_pcoef v
              else vl_pressure v in
  do vmin <- py_min data;
  do vmax <- py_max data;
  let coloured := zipWith (fun p d => (p, Some (colour_scale vmin vmax d))) (vl_panels v) data in
  do w <- water_size (map pv_lead (vl_vars v)) (map pv_trail (vl_vars v));
  do a <- set_ax_eq (water_surface w);
  Ok (Picture coloured (Some (vmin, vmax)) w (water_surface w) a).

(* panels_plotter.py 115-172, display_panels_or_rings (not used by a run) *)
Definition display_panels_or_rings (things : list (panel F)) (pressure : list F) (leading trailing : list (vec F)) : res picture :=
  do w <- water_size leading trailing;
  do a <- set_ax_eq (water_surface w);
  Ok (Picture (zipWith (fun p _ => (p, None)) things pressure) None w (water_surface w) a).

(* panels_plotter.py 174-185, display_hull: the lines and whether they are drawn opaque *)
Definition display_hull (h : hull F) : list (list (vec F) * bool) :=
  [(hu_centre h, true); (hu_port h, true); (hu_starboard h, true); (hu_port_under h, false); (hu_starboard_under h, false)].

(** The whole figure: title, panels with water and axes, hull lines, wind arrows, the two force arrows. *)
Record figure := Figure {
  fi_title : string; fi_picture : picture; fi_hull : list (list (vec F) * bool);
  fi_winds : list arrow; fi_forces : (vec F * vec F) * (vec F * vec F) }.

Definition newline : string := String (Ascii.ascii_of_nat 10) EmptyString.

(* panels_plotter.py 308-353, display_panels_xyz_and_winds; show_plot only opens the window *)
Definition display_panels_xyz_and_winds (v : vlm F) (fr : flow_results F) (ic : inlet F) (h : hull F)
    (show_induced_wind is_sailopt_mode : bool) : res figure :=
  let by_ := (if is_sailopt_mode then "gamma_magnitude" else "p_coeffs")%string in
  let mode := (if is_sailopt_mode then "SailOpt mode: Panels colored by optimal circulation " ++ newline
               else "VLM mode: Panels colored by coefficient of pressure " ++ newline)%string in
  do pic <- display_panels_xyz v by_;
  let red_text := (if show_induced_wind then ", Induced@CP (red)" else "")%string in
  let title := (mode ++ "Winds: True (green), Apparent (blue)" ++ red_text ++ " " ++ newline
                ++ "Centre of Effort & Center of Lateral Resistance (black)")%string in
  do winds <- display_winds (nZ (pi_water pic)) ic (if show_induced_wind then Some (fr_V_ind fr) else None) (vl_ns v) (vl_nc v);
  Ok (Figure title pic (display_hull h) winds (display_CE_CLR fr h)).

(* cli.py 87 *)
Definition cli_display (rr : @run_result F) : res figure :=
  display_panels_xyz_and_winds (rr_vlm rr) (rr_flow rr) (vl_inlet (rr_vlm rr)) (rr_hull rr) false false.

End Plots.
Arguments polygon F : clear implicits.
Arguments arrow F : clear implicits.
Arguments axes F : clear implicits.
Arguments picture F : clear implicits.
Arguments figure F : clear implicits.
