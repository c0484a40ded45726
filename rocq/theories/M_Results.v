(** Model of pySailingVLM/solver/additional_functions.py, results/inviscid_flow.py
    and the table building part of results/save_utils.py.  A DataFrame is a list of named
    columns; Excel formatting (save_utils.py 54-137) is not modelled. *)

From Coq Require Import ZArith List Bool String.
From Verif Require Import Num PyBase M_Rotations M_Csys M_Panels M_Coefs M_Forces M_Winds M_Vlm M_Sail.
Import ListNotations.
Local Open Scope num_scope.

Section Results.
Context {F : Type} `{Num F}.

(* additional_functions.py 24-36: the first half of the entries (its sum is taken by the callers) *)
Definition above_water {A} (l : list A) : list A := firstn (List.length l / 2) l.

(* additional_functions.py 41-49, get_cp_strainght_yacht *)
Definition get_cp_straight_yacht (c : csys F) (cps : list (vec F)) : list (vec F) :=
  map (reverse_rotations_with_mirror c) cps.

(* additional_functions.py 51-62, cp_to_girths *)
Definition cp_to_girths (cps : list (vec F)) (tack : vec F) : res (list F) :=
  let zs := map vz cps in
  do mx <- py_max zs;
  Ok (map (fun z => (z - vz tack) / (mx - vz tack)) zs).

(* additional_functions.py 67-96, get_cp_z_as_girths_all: (girths, upright points);
   order: sail 0 above, sail 0 under, sail 1 above, ... *)
Definition get_cp_z_as_girths_all (s : sail_set F) (c : csys F) (cp : list (vec F))
  : res (list F * list (vec F)) :=
  let n := List.length (ss_sails s) in
  do ch <- array_split cp (2 * n);
  do parts <- mapM (fun isl =>
      let i := fst isl in
      let pts := nth i ch [] ++ nth (i + n) ch [] in
      let up := get_cp_straight_yacht c pts in
      do g <- cp_to_girths up (sl_tack (snd isl));
      Ok (g, up))
    (combine (seq 0 n) (ss_sails s));
  Ok (List.concat (map fst parts), List.concat (map snd parts)).

(* additional_functions.py 103-125, get_cp_z_as_girths_all_above: (girths, names).
   np.asarray(chunks).flatten() is the concatenation (the chunks have equal sizes). *)
Definition get_cp_z_as_girths_all_above (g : list F) (s : sail_set F)
  : res (list F * list string) :=
  let n := List.length (ss_sails s) in
  do zs <- np_split g (2 * n);
  let above := List.concat (every_second zs) in
  if (n =? 0)%nat then Raise ZeroDivisionError
  else
    let rep := (List.length above / n)%nat in
    Ok (above, flat_map (fun sl => repeat (sl_name sl) rep) (ss_sails s)).

(** Per-sail totals, the dynamic part of the integral table. *)
Record sail_total := SailTotal { st_name : string; st_F : vec F; st_M : vec F }.

(** inviscid_flow.py 14-102: attributes. *)
Record flow_results := FlowResults {
  fr_csys : csys F; fr_gamma : list F; fr_pressure : list F;
  fr_V_ind : list (vec F); fr_V_fs : list (vec F); fr_awa_fs : list F;
  fr_F : list (vec F); fr_F_total : vec F;
  fr_arms : list (vec F);
  fr_sails : list sail_total;
  fr_M : list (vec F); fr_M_total : vec F;
  fr_coe : vec F;
  fr_F_cl : list (vec F); fr_F_cl_total : vec F;
  fr_M_cl : list (vec F); fr_M_cl_total : vec F }.

(* inviscid_flow.py 27: arctan(y / x) *)
Definition awa_app_fs (v : vec F) : F := natan (vy v / vx v).

(* inviscid_flow.py 15-102, InviscidFlowResults.__init__ *)
Definition InviscidFlowResults (s : sail_set F) (c : csys F) (v : vlm F) : res flow_results :=
  let force := vl_force v in
  let r := calc_moment_arm_in_shifted_csys (vl_cp v) (ref_vec c) in
  let half := (List.length force / 2)%nat in
  let n := List.length (ss_sails s) in
  do fch <- array_split (firstn half force) n;
  do rch <- array_split (firstn half r) n;
  let totals := map (fun isl =>
      let f := nth (fst isl) fch [] in
      let a := nth (fst isl) rch [] in
      SailTotal (sl_name (snd isl)) (vsum f) (vsum (calc_moments a f)))
    (combine (seq 0 n) (ss_sails s)) in
  let M := calc_moments r force in
  let M_total := vsum (above_water M) in
  let F_total := vsum (above_water force) in
  let rF := zipWith vdot r force in
  let coe := determine_vector_from_its_dot_and_cross_product F_total (nsum (above_water rF)) M_total in
  let F_cl := from_xyz_to_centerline_csys c force in
  let M_cl := from_xyz_to_centerline_csys c M in
  Ok (FlowResults c (vl_gamma v) (vl_pressure v) (vl_V_ind_cp v) (vl_V_cp v)
        (map awa_app_fs (vl_V_cp v)) force F_total r totals M M_total coe
        F_cl (vsum (above_water F_cl)) M_cl (vsum (above_water M_cl))).

(* inviscid_flow.py 104-106, estimate_heeling_moment_from_keel: (COG, COW) *)
Definition keel_moment (fr : flow_results) (clr : vec F) : vec F * vec F :=
  let m := vcross clr (vopp (fr_F_total fr)) in
  (m, mapply (leeway_rotation_matrix (fr_csys fr)) m).

(** A DataFrame column. *)
Inductive column := NumCol (name : string) (l : list F) | StrCol (name : string) (l : list string).
Definition vcols (name : string) (l : list (vec F)) : list column :=
  [NumCol (name ++ ".x") (map vx l); NumCol (name ++ ".y") (map vy l); NumCol (name ++ ".z") (map vz l)].

Definition col_name (c : column) : string := match c with NumCol n _ => n | StrCol n _ => n end.

(* pd.DataFrame.from_records of a dict: the columns are sorted by name (by code points, stable) *)
Fixpoint insert_by {A} (key : A -> string) (a : A) (l : list A) : list A :=
  match l with
  | [] => [a]
  | b :: l' => if String.leb (key a) (key b) then a :: l else b :: insert_by key a l'
  end.
Definition sort_by {A} (key : A -> string) (l : list A) : list A := fold_right (insert_by key) [] l.

(* inviscid_flow.py 108-129, __iter__ *)
Definition flow_dict (fr : flow_results) : list column :=
  [NumCol "Circulation_magnitude" (fr_gamma fr)]
  ++ vcols "V_induced_COG" (fr_V_ind fr)
  ++ [NumCol "V_induced_length" (map vnorm (fr_V_ind fr))]
  ++ vcols "V_app_fs_COG" (fr_V_fs fr)
  ++ [NumCol "V_app_fs_length" (map vnorm (fr_V_fs fr));
      NumCol "AWA_fs_COG_deg" (map rad2deg (fr_awa_fs fr));
      NumCol "AWA_fs_COW_deg" (map (fun a => rad2deg a - leeway_deg (fr_csys fr)) (fr_awa_fs fr));
      NumCol "Pressure" (fr_pressure fr)]
  ++ vcols "F_sails_COG" (fr_F fr)
  ++ vcols "M_sails_COG" (fr_M fr)
  ++ vcols "F_sails_COW" (fr_F_cl fr).
(* inviscid_flow.py 131-134, to_df_full *)
Definition flow_df_full (fr : flow_results) : list column := sort_by col_name (flow_dict fr).

(* inlet_conditions.py 21-40, __iter__ and the column added by to_df_full *)
Definition inlet_dict (ic : inlet F) (c : csys F) : list column :=
  vcols "cp_points_COG" (in_cp ic)
  ++ vcols "TWS_COG" (in_tws ic)
  ++ [NumCol "TWS_length" (map vnorm (in_tws ic))]
  ++ vcols "V_app_infs_COG" (in_V ic)
  ++ [NumCol "V_app_infs_length" (map vnorm (in_V ic));
      NumCol "AWA_infs_COG_deg" (in_awa_deg ic);
      NumCol "AWA_infs_COW_deg" (map (fun a => a - leeway_deg c) (in_awa_deg ic))].
(* inlet_conditions.py 34-43, to_df_full *)
Definition inlet_df_full (ic : inlet F) (c : csys F) : list column := sort_by col_name (inlet_dict ic c).

(* np.array_split(df, 2)[0]: the first ceil(n/2) rows of every column *)
Definition col_above (col : column) : column :=
  let h {A} (l : list A) := firstn (List.length l - List.length l / 2) l in
  match col with
  | NumCol n l => NumCol n (h l)
  | StrCol n l => StrCol n (h l)
  end.

(* save_utils.py 12-34 and 48: the columns of the merged 'Components' table *)
Definition components_table (v : vlm F) (c : csys F) (fr : flow_results) (s : sail_set F)
  : res (list column) :=
  do (g_all, up_all) <- get_cp_z_as_girths_all s c (vl_cp v);
  do (g_above, names) <- get_cp_z_as_girths_all_above g_all s;
  do ups <- array_split up_all (2 * List.length (ss_sails s));
  let up_above := List.concat (every_second ups) in
  do sl0 <- py_nth (ss_sails s) 0;
  Ok (map col_above (flow_df_full fr)
      ++ map col_above (inlet_df_full (vl_inlet v) (sl_csys sl0))
      ++ [NumCol "cp_points_upright.z" (map vz up_above);
          NumCol "girths" g_above; StrCol "sail_name" names]).

(* inviscid_flow.py 136-176, the entries written by to_df_integral after estimate_heeling_moment_from_keel(clr)
   and, for the sails, by 64-83, in this order; an entry with a key that is already present replaces its value *)
Definition vrows (n1 n2 n3 : string) (a : vec F) : list (string * F) :=
  [(n1, vx a); (n2, vy a); (n3, vz a)].
Definition xyz_rows (name : string) (a : vec F) : list (string * F) :=
  vrows (name ++ ".x") (name ++ ".y") (name ++ ".z") a.
Definition cow_rows (name : string) (a : vec F) : list (string * F) :=
  vrows (name ++ ".x (heel)") (name ++ ".y (pitch)") (name ++ ".z (yaw)") a
  ++ [(name ++ ".z (yaw - JG sign)", - vz a)]%string.
Definition integral_rows (fr : flow_results) (clr : vec F) : list (string * F) :=
  let '(mk, mk_cl) := keel_moment fr clr in
  xyz_rows "F_sails_total_COG" (fr_F_total fr)
  ++ xyz_rows "F_sails_total_COW" (fr_F_cl_total fr)
  ++ xyz_rows "M_sails_total_COG" (fr_M_total fr)
  ++ cow_rows "M_sails_total_COW" (fr_M_cl_total fr)
  ++ xyz_rows "M_keel_total_COG" mk
  ++ cow_rows "M_keel_total_COW" mk_cl
  ++ xyz_rows "M_total_COG" (vadd (fr_M_total fr) mk)
  ++ cow_rows "M_total_COW" (vadd (fr_M_cl_total fr) mk_cl)
  ++ flat_map (fun t =>
       xyz_rows ("F_" ++ st_name t ++ "_total_COG") (st_F t)
       ++ xyz_rows ("M_" ++ st_name t ++ "_total_COG") (st_M t)) (fr_sails fr).

(* a Python dict, filled entry by entry *)
Fixpoint dict_set {A} (d : list (string * A)) (k : string) (v : A) : list (string * A) :=
  match d with
  | [] => [(k, v)]
  | (k', v') :: d' => if String.eqb k' k then (k, v) :: d' else (k', v') :: dict_set d' k v
  end.
Definition py_dict {A} (rows : list (string * A)) : list (string * A) :=
  fold_left (fun d r => dict_set d (fst r) (snd r)) rows [].
(* inviscid_flow.py 136-181, to_df_integral: the columns 'Quantity' and 'Value'; the rows are the sorted
   columns of from_records *)
Definition integral_table (fr : flow_results) (clr : vec F) : list (string * F) :=
  sort_by fst (py_dict (integral_rows fr clr)).

End Results.
Arguments flow_results F : clear implicits.
Arguments sail_total F : clear implicits.
Arguments column F : clear implicits.
