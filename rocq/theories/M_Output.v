(** Model of pySailingVLM/results/save_utils.py and of the output part of runner/cli.py: the workbook, its
    cell colours, the files written and their order. *)

From Coq Require Import ZArith List Bool String Ascii.
From Verif Require Import Num PyBase M_Csys M_Winds M_Coefs M_Vlm M_Sail M_Interp M_Results M_Hull M_Runner M_Plots.
Import ListNotations.
Local Open Scope num_scope.
Local Open Scope string_scope.
Local Open Scope list_scope.

(** ** Cell colours *)

(* format_COG and format_COW of save_utils.py 75-84 (format_percent is for a column 'Camber_estimate' that no table has) *)
Inductive colour := Sand | Blue.
(* a conditional format: rows and columns (first, last), the condition on the cell (not blank, >= 0, < 0), the colour *)
Inductive condition := NoBlanks | AtLeast0 | Below0.
Record rule := Rule { ru_row0 : nat; ru_col0 : nat; ru_row1 : nat; ru_col1 : nat; ru_cond : condition; ru_colour : colour }.

(* Python's [sub in s] *)
Fixpoint py_in (sub s : string) : bool :=
  String.prefix sub s || match s with EmptyString => false | String _ s' => py_in sub s' end.

(* save_utils.py 98-106: the rules of the sheet 'Components', for the columns with the given names *)
Definition components_rules (max_row : nat) (names : list string) : list rule :=
  flat_map (fun ic => let '(i, col) := ic in
    (if py_in "COG" col then [Rule 1 i max_row i AtLeast0 Sand; Rule 1 i max_row i Below0 Sand] else []) ++
    (if py_in "COW" col then [Rule 1 i max_row i AtLeast0 Blue; Rule 1 i max_row i Below0 Blue] else []))
  (combine (seq 0 (List.length names)) names).

(* save_utils.py 121-132: the rules of a summary sheet with the given names in the column 'Quantity' *)
Definition summary_rules (names : list string) : list rule :=
  flat_map (fun ic => let '(i, q) := ic in let ri := S i in
    (if py_in "COG" q then [Rule 1 0 ri 0 NoBlanks Sand; Rule 0 1 ri 1 AtLeast0 Sand; Rule 0 1 ri 1 Below0 Sand] else []) ++
    (if py_in "COW" q then [Rule 1 0 ri 0 NoBlanks Blue; Rule 0 1 ri 1 AtLeast0 Blue; Rule 0 1 ri 1 Below0 Blue] else []))
  (combine (seq 0 (List.length names)) names).

Section Output.
Context {F : Type} `{Num F}.

(** A cell: text or a number. *)
Inductive cell := Text (s : string) | Number (x : F).

(* Excel: a text is larger than every number *)
Definition holds (c : condition) (v : cell) : bool :=
  match c, v with
  | NoBlanks, Text s => negb (String.eqb s "")
  | NoBlanks, Number _ => true
  | AtLeast0, Text _ => true
  | AtLeast0, Number x => nZ 0 <=? x
  | Below0, Text _ => false
  | Below0, Number x => x <? nZ 0
  end%N_.

(* the colour shown: of the rules that cover the cell and hold, the one added first (xlsxwriter gives it the
   highest priority) *)
Definition shown (rules : list rule) (r c : nat) (v : cell) : option colour :=
  option_map ru_colour
    (find (fun u => (ru_row0 u <=? r)%nat && (r <=? ru_row1 u)%nat && (ru_col0 u <=? c)%nat && (c <=? ru_col1 u)%nat
                    && holds (ru_cond u) v) rules).

(** ** The tables *)

(* winds.py 68-75, 95-102, 121-147, to_df_integral (from_records sorts) *)
Definition wind_table (w : wind F) (c : csys F) : res (list (string * F)) :=
  match w_prof w with
  | Exp e rh wl =>
    do rh <- opt_arg rh;
    do (tws, app, awa, awa_cow) <- exp_integral_report w c rh;
    do wl <- opt_arg wl;
    Ok (sort_by fst (
      [("Reference_measurement_height", rh); ("Reference_water_level_for_wind_profile", wl)]
      ++ xyz_rows "TWS_at_reference_height_COG" tws
      ++ [("TWS_length_at_reference_height", vnorm tws)]
      ++ xyz_rows "V_app_infs_at_reference_height_COG" app
      ++ [("V_app_infs_length_at_reference_height_COG", vnorm app);
          ("AWA_infs_at_reference_height_COG_deg", awa);
          ("AWA_infs_at_reference_height_COW_deg", awa_cow)])%list)
  | _ => Ok [("Not implemented - dummy variable", nZ 123456789)]
  end.

(** ** The disk *)

(** A sheet: a table by columns, or the two columns 'Quantity' and 'Value'; with its colour rules. *)
Inductive sheet :=
| Table (cols : list (column F)) (rules : list rule)
| Summary (rows : list (string * F)) (rules : list rule).

(** What a file holds. *)
Inductive content :=
| Workbook (sheets : list (string * sheet))
| PressurePlot (ps : list (polygon F))
| SectionPlot (pts : list (string * list F * list F))
| Other (text : string).

(** The disk: which paths are directories, what the files hold. *)
Record disk := Disk { d_dir : string -> bool; d_file : string -> option content }.

(** An action on the disk that may raise an exception. *)
Definition io (A : Type) : Type := disk -> disk * res A.
Definition io_ret {A} (m : res A) : io A := fun d => (d, m).
Definition io_bind {A B} (m : io A) (f : A -> io B) : io B :=
  fun d => match m d with (d', Ok a) => f a d' | (d', Raise e) => (d', Raise e) end.

(* os.path.join of two paths *)
Definition ends_with_slash (s : string) : bool :=
  match String.get (String.length s - 1) s with Some c => Ascii.eqb c "/" | None => false end.
Definition path_join (a b : string) : string :=
  if String.prefix "/" b then b
  else if String.eqb a "" || ends_with_slash a then (a ++ b)%string
  else (a ++ "/" ++ b)%string.

(* save_utils.py 51-52.  os.makedirs('') is a FileNotFoundError.  Simplified: the parents that makedirs
   creates are not recorded; a path is a string (no "..", no links). *)
Definition makedirs (p : string) : io unit := fun d =>
  if d_dir d p || match d_file d p with Some _ => true | None => false end then (d, Ok tt)
  else if String.eqb p "" then (d, Raise FileNotFoundError)
  else (Disk (fun q => String.eqb q p || d_dir d q) (d_file d), Ok tt).

(* opening [p], a path in the directory [dir], for writing; an existing file is replaced.
   Simplified: no permissions, no full disk, [p] is not a directory. *)
Definition write (dir p : string) (c : content) : io unit := fun d =>
  if d_dir d dir then (Disk (d_dir d) (fun q => if String.eqb q p then Some c else d_file d q), Ok tt)
  else (d, Raise match d_file d dir with Some _ => NotADirectoryError | None => FileNotFoundError end).

(* shutil.copy(src, dst) with dst a path in [dir] that is not a directory *)
Definition copy (src dir dst : string) : io unit := fun d =>
  match d_file d src with
  | None => (d, Raise FileNotFoundError)
  | Some c => if String.eqb src dst then (d, Raise SameFileError) else write dir dst c d
  end.

(** ** The workbook *)

Definition column_rows (c : column F) : nat :=
  match c with NumCol _ l => List.length l | StrCol _ l => List.length l end.

(* to_excel with float_format "%.<n>f": every float is replaced by float("%.<n>f" % x), the function [fmt n] *)
Definition format_column (fmt : nat -> F -> F) (c : column F) : column F :=
  match c with NumCol n l => NumCol n (map (fmt 8%nat) l) | StrCol n l => StrCol n l end.
Definition summary_sheet (fmt : nat -> F -> F) (rows : list (string * F)) : sheet :=
  Summary (map (fun r => (fst r, fmt 2%nat (snd r))) rows) (summary_rules (map fst rows)).

(* save_utils.py 46-136, save_to_excel *)
Definition save_to_excel (fmt : nat -> F -> F) (output_dir : string) (merged : list (column F)) (file_name : string)
    (integral inlet_integral : list (string * F)) : io unit :=
  let max_row := fold_right Nat.max 0%nat (map column_rows merged) in
  io_bind (makedirs output_dir) (fun _ =>
  write output_dir (path_join output_dir file_name)
    (Workbook [("Components", Table (map (format_column fmt) merged) (components_rules max_row (map col_name merged)));
               ("Integrals", summary_sheet fmt integral);
               ("IC_at_reference_height", summary_sheet fmt inlet_integral)])).

(* save_utils.py 12-42, save_results_to_file; [w] is myvlm.inlet_conditions.winds *)
Definition save_results_to_file (fmt : nat -> F -> F) (v : vlm F) (w : wind F) (c : csys F) (fr : flow_results F) (clr : vec F)
    (s : sail_set F) (output_dir file_name : option string) : io unit :=
  io_bind (io_ret (components_table v c fr s)) (fun merged =>
  let integral := integral_table fr clr in
  io_bind (io_ret (do sl0 <- py_nth (ss_sails s) 0; wind_table w (sl_csys sl0))) (fun inlet_integral =>
  io_bind (io_ret (need file_name)) (fun file_name =>
  io_bind (io_ret (need output_dir)) (fun output_dir =>
  save_to_excel fmt output_dir merged (file_name ++ ".xlsx")%string integral inlet_integral)))).

(** ** The program *)

(* container.py 9-14, Output *)
Record output := Output_ { o_case_name : option string; o_case_dir : option string; o_name : option string; o_file_name : option string }.
(* the defaults: the file container.py itself, its directory [pkg], a name with the time of the start [stamp] *)
Definition Output (pkg stamp : string) (case_name case_dir name file_name : arg string) : output :=
  Output_ (value "container.py" case_name) (value pkg case_dir)
          (value ("results_example_jib_and_mainsail_vlm/" ++ stamp)%string name) (value "my_fancy_results" file_name).

(** The objects made from the variables module (cli.py 47-54). *)
Record case := Case {
  ca_out : output; ca_cond : @conditions F; ca_solver : solver; ca_rig : @rig F;
  ca_main : @sail_def F; ca_jib : @sail_def F; ca_ref : vec F; ca_clr : vec F }.

(* cli.py 56-93, main after reading the variables.  The figure (87) must be computable; it is shown, not saved.
   hv.save and plt.savefig write into the directory out.name; savefig appends ".png". *)
Definition cli_main {RD : Rounding F} (spline : spline_oracle) (fmt : nat -> F -> F) (ca : case) : io run_result :=
  let out := ca_out ca in
  let cd := ca_cond ca in
  io_bind (io_ret (run spline cd (ca_solver ca) (ca_rig ca) (Some (ca_main ca)) (Some (ca_jib ca)) (ca_ref ca) (ca_clr ca))) (fun rr =>
  let c := Csys (cd_heel cd) (cd_leeway cd) (ca_ref ca) in
  io_bind (save_results_to_file fmt (rr_vlm rr) (Wind_profile cd) c (rr_flow rr) (rr_clr rr) (rr_set rr) (o_name out) (o_file_name out)) (fun _ =>
  io_bind (io_ret (need (o_case_dir out))) (fun case_dir =>
  io_bind (io_ret (need (o_case_name out))) (fun case_name =>
  io_bind (io_ret (need (o_name out))) (fun name =>
  io_bind (copy (path_join case_dir case_name) name (path_join name case_name)) (fun _ =>
  io_bind (io_ret (cli_display rr)) (fun _ =>
  io_bind (io_ret (cli_plot_cp rr)) (fun polygons =>
  io_bind (write name (name ++ "/cp_plot.html")%string (PressurePlot polygons)) (fun _ =>
  let v := rr_vlm rr in
  io_bind (io_ret (get_data_for_coeff_plot (vl_panels v) (vl_areas v) (vl_lift v) (vl_drag v) (in_V (vl_inlet v))
       (vl_cp v) (vl_ns v) (vl_nc v) (vl_rho v))) (fun data =>
  let '(mean_cp, cl_data, cd_data) := data in
  io_bind (io_ret (plot_section_coeff cd_data mean_cp "lift")) (fun p1 =>
  io_bind (write name (name ++ "/" ++ pl_file p1 ++ ".png")%string (SectionPlot (pl_points p1))) (fun _ =>
  io_bind (io_ret (plot_section_coeff cl_data mean_cp "drag")) (fun p2 =>
  io_bind (write name (name ++ "/" ++ pl_file p2 ++ ".png")%string (SectionPlot (pl_points p2))) (fun _ =>
  io_ret (Ok rr))))))))))))))).

End Output.
Arguments cell F : clear implicits.
Arguments sheet F : clear implicits.
Arguments content F : clear implicits.
Arguments disk F : clear implicits.
Arguments case F : clear implicits.
