(** Properties C71 - C73: the sheet of inlet conditions, the colours of the cells, the rounding of the workbook. *)

From Coq Require Import String Ascii ZArith Reals List Bool Lia Lra Psatz.
From Verif Require Import Num PyBase RNum Spec M_Csys M_Sail M_Winds M_Vlm M_Interp M_Results M_Hull M_Runner M_Plots
  L_List L_Rot L_Csys L_Angle L_Sail L_Lattice L_Solve L_Vlm L_Vlm2 L_Results L_Runner P_Vlm P_Winds P_Coefs P_Results P_Run P_Plots L_Scene P_Scene P_Output M_Output.
Import ListNotations.
Open Scope R_scope.

(** ** C71: the sheet IC_at_reference_height *)
Lemma blows_norm al s v : blows al s v -> snorm v = Rabs s.
Proof.
  intros ->. unfold snorm. cbn [vx vy vz]. replace ((s * cos (rad al)) ^ 2 + (s * sin (rad al)) ^ 2 + 0 ^ 2) with (s * s).
  - apply sqrt_Rsqr_abs.
  - pose proof (sin2_cos2 (rad al)) as Q. unfold Rsqr in Q. replace (s * s) with (s * s * (sin (rad al) * sin (rad al) + cos (rad al) * cos (rad al))) by (rewrite Q; ring). ring.
Qed.
Lemma vnorm_s (v : vec R) : vnorm v = snorm v.
Proof. unfold vnorm, vdot, snorm. rnum. f_equal. ring. Qed.

(** The exponential profile: twelve rows, in this order, with the wind the profile gives at the measurement height. *)
Theorem C71_exponential : forall al tws sog e rh wl c, 0 < rh -> wl < rh ->
  let s := tws * Rpower ((rh - wl) / rh) e in
  exists t v a, wind_table (Wind_ al tws sog (Exp (Some e) (Some rh) (Some wl))) c = Ok t /\
    map fst t = ["AWA_infs_at_reference_height_COG_deg"; "AWA_infs_at_reference_height_COW_deg"; "Reference_measurement_height";
      "Reference_water_level_for_wind_profile"; "TWS_at_reference_height_COG.x"; "TWS_at_reference_height_COG.y"; "TWS_at_reference_height_COG.z";
      "TWS_length_at_reference_height"; "V_app_infs_at_reference_height_COG.x"; "V_app_infs_at_reference_height_COG.y";
      "V_app_infs_at_reference_height_COG.z"; "V_app_infs_length_at_reference_height_COG"]%string /\
    value_of t "Reference_measurement_height" = Some rh /\ value_of t "Reference_water_level_for_wind_profile" = Some wl /\
    blows al s v /\ vector_of t "TWS_at_reference_height_COG" = Some v /\ value_of t "TWS_length_at_reference_height" = Some (Rabs s) /\
    vector_of t "V_app_infs_at_reference_height_COG" = Some (sadd v (V3 sog 0 0)) /\
    value_of t "V_app_infs_length_at_reference_height_COG" = Some (snorm (sadd v (V3 sog 0 0))) /\
    value_of t "AWA_infs_at_reference_height_COG_deg" = Some a /\ value_of t "AWA_infs_at_reference_height_COW_deg" = Some (a - leeway_deg c) /\
    (sadd v (V3 sog 0 0) <> szero -> is_direction (rad a) (vx (sadd v (V3 sog 0 0))) (vy v)).
Proof.
  intros al tws sog e rh wl c RH WL s. set (w := Wind_ al tws sog (Exp (Some e) (Some rh) (Some wl))).
  assert (P : Rpow ((rh - wl) / rh) e = Rpower ((rh - wl) / rh) e).
  { unfold Rpow. destruct (Rlt_dec 0 ((rh - wl) / rh)) as [|N]; [reflexivity|]. exfalso. apply N. apply Rdiv_lt_0_compat; lra. }
  pose proof (xyz_blows w s) as B. set (v := length_to_xyz_vector w s) in *.
  set (a := rad2deg (natan2 (vy (get_app_infs_at_h w v)) (vx (get_app_infs_at_h w v)))).
  assert (T : get_true_wind_speed_at_h w rh = Ok v).
  { unfold get_true_wind_speed_at_h. change (wind_speed_at_h w rh) with (@Ok R (tws * Rpow ((rh - wl) / rh) e)). rewrite P. reflexivity. }
  assert (AP : get_app_infs_at_h w v = sadd v (V3 sog 0 0)). { generalize v. intros [x y z]. unfold get_app_infs_at_h, sadd, w. cbn [w_sog vx vy vz]. rnum. f_equal; ring. }
  unfold wind_table. cbn [w_prof w]. unfold opt_arg at 1. unfold bind at 1. unfold exp_integral_report. fold w. rewrite T. unfold bind at 2. cbv zeta. fold a. unfold bind at 1. unfold opt_arg at 1. unfold bind at 1.
  rewrite AP. rewrite !vnorm_s, (blows_norm _ _ _ B). eexists _, v, a. split; [reflexivity|].
  assert (V3eq : forall u : vec R, V3 (vx u) (vy u) (vz u) = u) by (intros [? ? ?]; reflexivity).
  split; [reflexivity|]. unfold vector_of. rewrite !sort_value.
  split; [reflexivity|]. split; [reflexivity|]. split; [exact B|].
  split; [exact (f_equal Some (V3eq v))|]. split; [reflexivity|]. split; [exact (f_equal Some (V3eq (sadd v (V3 sog 0 0))))|].
  split; [reflexivity|]. split; [reflexivity|]. split; [reflexivity|].
  intros NZ. unfold a. rewrite AP, rad_rad2deg. change natan2 with Ratan2.
  replace (vy v) with (vy (sadd v (V3 sog 0 0))) by (svec; ring). apply atan2_direction.
  destruct (Req_dec (vx (sadd v (V3 sog 0 0))) 0) as [X|X]; [|left; exact X]. right. intros Y. apply NZ.
  rewrite <- (V3eq (sadd v (V3 sog 0 0))), X, Y. unfold szero. f_equal. rewrite B. svec. ring.
Qed.
(** The reported speed is the reference speed exactly when the water level is 0. *)
Theorem C71_reference_speed : forall al tws sog e rh wl c t, 0 < tws -> 0 < e -> 0 < rh -> wl < rh ->
  wind_table (Wind_ al tws sog (Exp (Some e) (Some rh) (Some wl))) c = Ok t ->
  (value_of t "TWS_length_at_reference_height" = Some tws <-> wl = 0) /\
  (wl < 0 -> exists s, value_of t "TWS_length_at_reference_height" = Some s /\ tws < s) /\
  (0 < wl -> exists s, value_of t "TWS_length_at_reference_height" = Some s /\ s < tws).
Proof.
  intros al tws sog e rh wl c t TW EP RH WL E. destruct (C71_exponential al tws sog e rh wl c RH WL) as (t' & v & a & E' & _ & _ & _ & _ & _ & L & _).
  rewrite E in E'. injection E' as <-. set (q := Rpower ((rh - wl) / rh) e) in *.
  assert (QP : 0 < q) by (unfold q, Rpower; apply exp_pos). rewrite Rabs_right in L by (apply Rle_ge, Rmult_le_pos; lra). rewrite L.
  assert (XP : 0 < (rh - wl) / rh) by (apply Rdiv_lt_0_compat; lra).
  assert (LO : wl < 0 -> 1 < q). { intros W. unfold q, Rpower. rewrite <- exp_0. apply exp_increasing. apply Rmult_lt_0_compat; [assumption|]. rewrite <- ln_1. apply ln_increasing; [lra|].
    apply Rmult_lt_reg_r with rh; [assumption|]. unfold Rdiv. rewrite Rmult_assoc, Rinv_l; lra. }
  assert (HI : 0 < wl -> q < 1). { intros W. unfold q, Rpower. rewrite <- exp_0. apply exp_increasing.
    assert (N : ln ((rh - wl) / rh) < 0). { rewrite <- ln_1. apply ln_increasing; [assumption|]. apply Rmult_lt_reg_r with rh; [assumption|]. unfold Rdiv. rewrite Rmult_assoc, Rinv_l; lra. } nra. }
  assert (EQ : wl = 0 -> q = 1). { intros ->. unfold q. replace ((rh - 0) / rh) with 1 by (field; lra). unfold Rpower. rewrite ln_1, Rmult_0_r. apply exp_0. }
  split; [|split].
  - split.
    + intros Q. injection Q as Q. destruct (Rtotal_order wl 0) as [W|[W|W]]; [specialize (LO W)|assumption|specialize (HI W)]; nra.
    + intros W. rewrite (EQ W). f_equal. ring.
  - intros W. exists (tws * q). split; [reflexivity|]. specialize (LO W). nra.
  - intros W. exists (tws * q). split; [reflexivity|]. specialize (HI W). nra.
Qed.
(** The claim "the sheet gives the conditions at the reference height" fails for the flat and the logarithmic profile. *)
Theorem C71_profiles_refuted : forall c, exists w1 w2 t,
  w_prof w1 = Flat /\ w_prof w2 = Log (Some (1/20)) (Some 10) /\
  (forall h, 1 <= h -> (exists v, get_true_wind_speed_at_h w1 h = Ok v) /\ exists v, get_true_wind_speed_at_h w2 h = Ok v) /\
  wind_table w1 c = Ok t /\ wind_table w2 c = Ok t /\
  forall k, In k ["TWS_length_at_reference_height"; "AWA_infs_at_reference_height_COG_deg"; "Reference_measurement_height"]%string -> value_of t k = None.
Proof.
  intros c. exists (Wind_ 50 8 4 Flat), (Wind_ 50 8 4 (Log (Some (1/20)) (Some 10))). eexists. split; [reflexivity|]. split; [reflexivity|].
  split; [intros h _; split; eexists; reflexivity|]. split; [reflexivity|]. split; [reflexivity|]. intros k [<-|[<-|[<-|[]]]]; reflexivity.
Qed.
(** With any other profile the third sheet of the workbook that a finished run writes has one row, which says nothing about the wind. *)
Theorem C71_placeholder : forall spline fmt ca (rr : @run_result R) name file case_dir case_name d y,
  (0 < sv_ns (ca_solver ca))%nat -> (0 < sv_nc (ca_solver ca))%nat ->
  run spline (ca_cond ca) (ca_solver ca) (ca_rig ca) (Some (ca_main ca)) (Some (ca_jib ca)) (ca_ref ca) (ca_clr ca) = Ok rr ->
  visible (ss_panels (rr_set rr)) -> cd_profile (ca_cond ca) <> "exponential"%string ->
  ca_out ca = Output_ (Some case_name) (Some case_dir) (Some name) (Some file) ->
  plain name -> relative file -> relative case_name -> usable d name ->
  ~ In case_name [(file ++ ".xlsx")%string; "cp_plot.html"%string; "section_cl.png"%string; "section_cd.png"%string] ->
  path_join case_dir case_name <> in_dir name (file ++ ".xlsx") -> path_join case_dir case_name <> in_dir name case_name ->
  d_file d (path_join case_dir case_name) = Some y ->
  exists d' s1 s2 rules, cli_main spline fmt ca d = (d', Ok rr) /\
    d_file d' (in_dir name (file ++ ".xlsx")) = Some (Workbook [s1; s2; ("IC_at_reference_height", Summary [("Not implemented - dummy variable", fmt 2%nat 123456789)] rules)]%string).
Proof.
  intros sp fmt ca rr name file cdir cname d y NS NC RUN VI PR OUT PN RF RC U NI N1 N2 Y.
  destruct (C70_files sp fmt ca rr name file cdir cname d y NS NC RUN VI OUT PN RF RC U NI N1 N2 Y) as (d' & wb & comps & ic & polys & p & q & E & _ & WT & _ & _ & (r1 & r2 & r3 & RW) & FI & _).
  assert (IC : ic = [("Not implemented - dummy variable"%string, 123456789)]).
  { apply String.eqb_neq in PR. revert WT. unfold wind_table, Wind_profile. cbn [w_prof]. rewrite PR. destruct (String.eqb (cd_profile (ca_cond ca)) "flat"); intros WT; apply Ok_inj in WT; symmetry; exact WT. }
  subst ic. exists d'. do 3 eexists. split; [exact E|]. rewrite (FI (file ++ ".xlsx")%string wb) by (left; reflexivity). rewrite RW. reflexivity.
Qed.
Example C71_placeholder_case : forall spline fmt,
  let d := demo_disk ["/home/me"; "old"]%string [("/home/me/variables.py", "my case"); ("old/run.xlsx", "an old workbook")]%string in
  let ca := demo_case (Output_ (Some "variables.py") (Some "/home/me") (Some "old") (Some "run"))%string in
  exists rr d' s1 s2 rules, cli_main spline fmt ca d = (d', Ok rr) /\
    d_file d' "old/run.xlsx" = Some (Workbook [s1; s2; ("IC_at_reference_height", Summary [("Not implemented - dummy variable", fmt 2%nat 123456789)] rules)]%string).
Proof.
  intros sp fmt d ca. destruct (demo_case_run sp (ca_out ca)) as (rr & RUN & VI). exists rr.
  apply (C71_placeholder sp fmt ca rr "old" "run" "/home/me" "variables.py" d (Other "my case")); try reflexivity; try (apply Nat.lt_0_1); try exact RUN; try exact VI; try discriminate.
  { split; [discriminate|reflexivity]. } { left. reflexivity. } { intros [X|[X|[X|[X|[]]]]]; discriminate X. }
Qed.
Example C71_case : exists t, wind_table (Wind_ 0 8 4 (Exp (Some 1) (Some 10) (Some (-(5/2))))) (Csys 0 5 szero) = Ok t /\
  value_of t "TWS_length_at_reference_height" = Some 10 /\ value_of t "V_app_infs_length_at_reference_height_COG" = Some 14.
Proof.
  destruct (C71_exponential 0 8 4 1 10 (-(5/2)) (Csys 0 5 szero)) as (t & v & a & E & _ & _ & _ & B & _ & L & _ & LA & _); [lra|lra|].
  exists t. split; [exact E|]. rewrite L, LA. assert (Q : 8 * Rpower ((10 - -(5/2)) / 10) 1 = 10) by (rewrite Rpower_1; lra).
  rewrite Q in *. split; [f_equal; apply Rabs_right; lra|]. f_equal. rewrite B. replace (rad 0) with 0 by (unfold rad; field). rewrite cos_0, sin_0.
  unfold sadd, snorm. cbn [vx vy vz]. replace ((10 * 1 + 4) ^ 2 + (10 * 0 + 0) ^ 2 + (0 + 0) ^ 2) with (14 * 14) by ring. apply sqrt_square. lra.
Qed.
Print Assumptions C71_exponential.
Print Assumptions C71_reference_speed.
Print Assumptions C71_profiles_refuted.
Print Assumptions C71_placeholder.

(** ** C72: colours *)
(** [s] contains [sub] *)
Definition contains (sub s : string) : Prop := exists a b, s = (a ++ sub ++ b)%string.
(** the colour a label calls for: sand for course over ground, blue for course over water *)
Inductive label_colour (s : string) : option colour -> Prop :=
| lc_cog : contains "COG" s -> label_colour s (Some Sand)
| lc_cow : ~ contains "COG" s -> contains "COW" s -> label_colour s (Some Blue)
| lc_none : ~ contains "COG" s -> ~ contains "COW" s -> label_colour s None.

Lemma prefix_spec a s : String.prefix a s = true <-> exists b, s = (a ++ b)%string.
Proof.
  revert s. induction a as [|c a IH]; intros s.
  - split; [exists s; reflexivity|destruct s; reflexivity].
  - destruct s as [|c' s]; cbn [String.prefix].
    + split; [discriminate|intros [b B]; discriminate].
    + destruct (ascii_dec c c') as [->|N].
      * rewrite IH. split; intros [b B]; exists b; [rewrite B; reflexivity|injection B as B; exact B].
      * split; [discriminate|]. intros [b B]. injection B as B _. congruence.
Qed.
Lemma py_in_spec sub s : py_in sub s = true <-> contains sub s.
Proof.
  induction s as [|c s IH].
  - cbn [py_in]. rewrite orb_false_r, prefix_spec. split.
    + intros [b B]. exists ""%string, b. exact B.
    + intros (a & b & E). exists b. destruct a; [exact E|discriminate].
  - cbn [py_in]. rewrite orb_true_iff, IH, prefix_spec. split.
    + intros [[b B]|(a & b & E)]; [exists ""%string, b; exact B|exists (String c a), b; rewrite E; reflexivity].
    + intros (a & b & E). destruct a as [|c' a]; [left; exists b; exact E|]. right. exists a, b. injection E as _ E. exact E.
Qed.
Definition label (s : string) : option colour := if py_in "COG" s then Some Sand else if py_in "COW" s then Some Blue else None.
Lemma label_spec s o : label_colour s o <-> label s = o.
Proof.
  unfold label. split.
  - intros H. inversion H as [A|A B|A B]; subst.
    + apply py_in_spec in A. rewrite A. reflexivity.
    + destruct (py_in "COG" s) eqn:E; [apply py_in_spec in E; contradiction|]. apply py_in_spec in B. rewrite B. reflexivity.
    + destruct (py_in "COG" s) eqn:E; [apply py_in_spec in E; contradiction|]. destruct (py_in "COW" s) eqn:E'; [apply py_in_spec in E'; contradiction|]. reflexivity.
  - intros <-. destruct (py_in "COG" s) eqn:E; [constructor; apply py_in_spec; exact E|].
    assert (~ contains "COG" s) by (rewrite <- py_in_spec, E; discriminate).
    destruct (py_in "COW" s) eqn:E'; constructor; auto; [apply py_in_spec; exact E'|]. rewrite <- py_in_spec, E'. discriminate.
Qed.

(* a rule covers a cell *)
Definition covers (r c : nat) (v : cell R) (u : rule) : bool :=
  (ru_row0 u <=? r)%nat && (r <=? ru_row1 u)%nat && (ru_col0 u <=? c)%nat && (c <=? ru_col1 u)%nat && holds (ru_cond u) v.
Lemma shown_covers rules r c v : shown rules r c v = option_map ru_colour (find (covers r c v) rules).
Proof. reflexivity. Qed.
Lemma find_app {A} (f : A -> bool) l m : find f (l ++ m) = match find f l with Some a => Some a | None => find f m end.
Proof. induction l as [|a l IH]; [reflexivity|]. simpl. destruct (f a); [reflexivity|exact IH]. Qed.
Lemma find_none_iff {A} (f : A -> bool) l : (forall a, In a l -> f a = false) -> find f l = None.
Proof. induction l as [|a l IH]; [reflexivity|]. intros H. simpl. rewrite H by (left; reflexivity). apply IH. intros b I. apply H. right. exact I. Qed.
Lemma holds_some x : holds AtLeast0 (Number x) = negb (holds Below0 (Number x)).
Proof. unfold holds. rnum. change (nZ 0) with 0. unfold Rleb, Rltb. destruct (Rle_dec 0 x), (Rlt_dec x 0); try lra; reflexivity. Qed.

Lemma covers_col r i v u : (i < ru_col0 u)%nat \/ (ru_col1 u < i)%nat -> covers r i v u = false.
Proof. intros H. unfold covers. destruct H as [H|H]; apply Nat.leb_gt in H; rewrite H, ?andb_false_r; reflexivity. Qed.
Lemma covers_row r i v u : (r < ru_row0 u)%nat \/ (ru_row1 u < r)%nat -> covers r i v u = false.
Proof. intros H. unfold covers. destruct H as [H|H]; apply Nat.leb_gt in H; rewrite H, ?andb_false_r; reflexivity. Qed.
Lemma covers_in r i v u : (ru_row0 u <= r <= ru_row1 u)%nat -> (ru_col0 u <= i <= ru_col1 u)%nat -> covers r i v u = holds (ru_cond u) v.
Proof. intros [A B] [C D]. unfold covers. apply Nat.leb_le in A, B, C, D. rewrite A, B, C, D. reflexivity. Qed.

(* the two rules of one column *)
Definition pair_rules (r0 r1 i : nat) (o : colour) : list rule := [Rule r0 i r1 i AtLeast0 o; Rule r0 i r1 i Below0 o].
Lemma pair_shown r0 r1 i o r x l : (r0 <= r <= r1)%nat -> find (covers r i (Number x)) (pair_rules r0 r1 i o ++ l) = Some (Rule r0 i r1 i (if Rle_dec 0 x then AtLeast0 else Below0) o).
Proof.
  intros RR. unfold pair_rules. cbn [app find]. rewrite !covers_in by (cbn [ru_row0 ru_row1 ru_col0 ru_col1]; lia). cbn [ru_cond].
  rewrite holds_some. unfold holds. rnum. change (nZ 0) with 0. unfold Rltb. destruct (Rlt_dec x 0), (Rle_dec 0 x); try lra; reflexivity.
Qed.

(** Components: every number in a column has the colour of the label of the column; the header has none. *)
Theorem C72_components : forall max_row names i name r (x : R) o, nth_error names i = Some name -> (1 <= r <= max_row)%nat ->
  label_colour name o ->
  shown (components_rules max_row names) r i (Number x) = o /\ shown (components_rules max_row names) 0 i (Text name : cell R) = None.
Proof.
  intros m names i name r x o N RR LB. apply label_spec in LB.
  assert (HD : forall v u, In u (components_rules m names) -> covers 0 i v u = false).
  { intros v u I. unfold components_rules in I. apply in_flat_map in I. destruct I as ((j & col) & _ & I). apply covers_row. left.
    apply in_app_or in I. destruct I as [I|I]; [destruct (py_in "COG" col)|destruct (py_in "COW" col)]; try (destruct I; fail); destruct I as [<-|[<-|[]]]; simpl; lia. }
  split; [|rewrite shown_covers, find_none_iff; [reflexivity|intros u I; apply HD; exact I]].
  rewrite shown_covers. unfold components_rules.
  enough (G : forall names k, (k <= i)%nat -> nth_error names (i - k) = Some name ->
    option_map ru_colour (find (covers r i (Number x)) (flat_map (fun ic => let '(i, col) := ic in
      (if py_in "COG" col then pair_rules 1 m i Sand else []) ++ (if py_in "COW" col then pair_rules 1 m i Blue else [])) (combine (seq k (List.length names)) names))) = o).
  { apply (G names 0%nat); [lia|]. rewrite Nat.sub_0_r. exact N. }
  clear N HD names. induction names as [|a names IH]; intros k K N; [destruct (i - k)%nat; discriminate|].
  cbn [List.length seq combine flat_map]. rewrite find_app. destruct (Nat.eq_dec k i) as [->|NE].
  - rewrite Nat.sub_diag in N. injection N as ->. unfold label in LB. destruct (py_in "COG" name).
    + rewrite pair_shown by exact RR. exact LB.
    + destruct (py_in "COW" name); cbn [app].
      * rewrite <- (app_nil_r (pair_rules _ _ _ _)), pair_shown by exact RR. exact LB.
      * cbn [find]. rewrite find_none_iff; [exact LB|]. intros u I. apply in_flat_map in I. destruct I as ((j & col) & I' & I).
        apply in_combine_l, in_seq in I'. apply covers_col. left. apply in_app_or in I.
        destruct I as [I|I]; [destruct (py_in "COG" col)|destruct (py_in "COW" col)]; try (destruct I; fail); destruct I as [<-|[<-|[]]]; simpl; lia.
  - rewrite find_none_iff.
    + apply IH; [lia|]. replace (i - k)%nat with (S (i - S k))%nat in N by lia. exact N.
    + intros u I. apply covers_col. right. apply in_app_or in I.
      destruct I as [I|I]; [destruct (py_in "COG" a)|destruct (py_in "COW" a)]; try (destruct I; fail); destruct I as [<-|[<-|[]]]; simpl; lia.
Qed.

(** A summary sheet: row [i] shows the colour of the first labelled row at or below it. *)
Inductive next_label : list string -> option colour -> Prop :=
| nl_nil : next_label [] None
| nl_here a l o : label_colour a (Some o) -> next_label (a :: l) (Some o)
| nl_skip a l o : label_colour a None -> next_label l o -> next_label (a :: l) o.
Definition first_label (l : list string) : option colour :=
  match find (fun s => match label s with Some _ => true | None => false end) l with Some s => label s | None => None end.
Lemma first_label_spec l o : next_label l o -> first_label l = o.
Proof.
  unfold first_label. induction 1 as [|a l o H|a l o H1 H2 IH]; [reflexivity| |]; cbn [find]; [apply label_spec in H|apply label_spec in H1].
  - rewrite H. exact H.
  - rewrite H1. exact IH.
Qed.
Lemma next_label_ex l : exists o, next_label l o.
Proof.
  induction l as [|a l [o IH]]; [exists None; constructor|]. destruct (label a) as [c|] eqn:E.
  - exists (Some c). constructor. apply label_spec. exact E.
  - exists o. apply nl_skip; [apply label_spec; exact E|exact IH].
Qed.

Definition row_rules (i : nat) (q : string) : list rule := let ri := S i in
    (if py_in "COG" q then [Rule 1 0 ri 0 NoBlanks Sand; Rule 0 1 ri 1 AtLeast0 Sand; Rule 0 1 ri 1 Below0 Sand] else []) ++
    (if py_in "COW" q then [Rule 1 0 ri 0 NoBlanks Blue; Rule 0 1 ri 1 AtLeast0 Blue; Rule 0 1 ri 1 Below0 Blue] else []).
Lemma row_rules_above i q r c v : (S i < r)%nat -> find (covers r c v) (row_rules i q) = None.
Proof.
  intros L. apply find_none_iff. intros u I. apply covers_row. right. unfold row_rules in I. cbv zeta in I. apply in_app_or in I.
  destruct I as [I|I]; [destruct (py_in "COG" q)|destruct (py_in "COW" q)]; try (destruct I; fail); destruct I as [<-|[<-|[<-|[]]]]; simpl; lia.
Qed.
Lemma row_rules_at i q r c v : (r <= S i)%nat -> (c = 1%nat \/ c = 0%nat /\ (1 <= r)%nat /\ holds NoBlanks v = true) ->
  option_map ru_colour (find (covers r c v) (row_rules i q)) = label q.
Proof.
  intros L C. assert (X : holds AtLeast0 v || holds Below0 v = true).
  { destruct v as [s|x]; [reflexivity|]. rewrite holds_some. destruct (holds Below0 (Number x)); reflexivity. }
  assert (G : forall o l, option_map ru_colour (find (covers r c v) ([Rule 1 0 (S i) 0 NoBlanks o; Rule 0 1 (S i) 1 AtLeast0 o; Rule 0 1 (S i) 1 Below0 o] ++ l)) = Some o).
  { intros o l. cbn [app find]. destruct C as [->|(-> & R1 & H)].
    - rewrite covers_col by (simpl; lia). rewrite !covers_in by (cbn [ru_row0 ru_row1 ru_col0 ru_col1]; lia). cbn [ru_cond].
      apply orb_prop in X. destruct X as [X|X]; rewrite X; [reflexivity|]. destruct (holds AtLeast0 v); reflexivity.
    - rewrite covers_in by (cbn [ru_row0 ru_row1 ru_col0 ru_col1]; lia). cbn [ru_cond]. rewrite H. reflexivity. }
  unfold row_rules, label. cbv zeta. destruct (py_in "COG" q); [apply G|]. destruct (py_in "COW" q); cbn [app]; [|reflexivity].
  rewrite <- (app_nil_r [_; _; _]). apply G.
Qed.
Lemma summary_shown names r c v : (c = 1%nat \/ c = 0%nat /\ (1 <= r)%nat /\ holds NoBlanks v = true) ->
  shown (summary_rules names) r c v = first_label (skipn (r - 1) names).
Proof.
  intros C. rewrite shown_covers. change (summary_rules names) with (flat_map (fun ic => let '(i, q) := ic in row_rules i q) (combine (seq 0 (List.length names)) names)).
  enough (G : forall names k, option_map ru_colour (find (covers r c v) (flat_map (fun ic => let '(i, q) := ic in row_rules i q) (combine (seq k (List.length names)) names))) = first_label (skipn (r - 1 - k) names)).
  { rewrite G, Nat.sub_0_r. reflexivity. }
  clear names. induction names as [|a names IH]; intros k; [rewrite skipn_nil; reflexivity|].
  cbn [List.length seq combine flat_map]. rewrite find_app. destruct (Nat.lt_ge_cases (S k) r) as [L|L].
  - rewrite row_rules_above by exact L. rewrite IH. replace (r - 1 - k)%nat with (S (r - 1 - S k)) by lia. reflexivity.
  - pose proof (row_rules_at k a r c v L C) as A. replace (r - 1 - k)%nat with 0%nat by lia. cbn [skipn]. unfold first_label. cbn [find].
    destruct (find (covers r c v) (row_rules k a)) as [u|] eqn:F; cbn [option_map] in A.
    + rewrite <- A. cbn [option_map]. rewrite A. reflexivity.
    + rewrite <- A. rewrite IH. replace (r - 1 - S k)%nat with 0%nat by lia. reflexivity.
Qed.
Theorem C72_summary : forall names i name (x : R) o, nth_error names i = Some name -> name <> ""%string -> next_label (skipn i names) o ->
  shown (summary_rules names) (S i) 0 (Text name : cell R) = o /\ shown (summary_rules names) (S i) 1 (Number x) = o.
Proof.
  intros names i name x o N NE L. apply first_label_spec in L. split.
  - rewrite summary_shown. { simpl. rewrite Nat.sub_0_r. exact L. } right. split; [reflexivity|]. split; [lia|]. unfold holds. apply String.eqb_neq in NE. rewrite NE. reflexivity.
  - rewrite summary_shown by (left; reflexivity). simpl. rewrite Nat.sub_0_r. exact L.
Qed.
(** So where every row is labelled, every row has its own colour. *)
Theorem C72_all_labelled : forall names, (forall n, In n names -> contains "COG" n \/ contains "COW" n) ->
  forall i name (x : R) o, nth_error names i = Some name -> label_colour name o ->
  shown (summary_rules names) (S i) 0 (Text name : cell R) = o /\ shown (summary_rules names) (S i) 1 (Number x) = o.
Proof.
  intros names H i name x o N LB. apply C72_summary; [exact N| |].
  - intros ->. destruct (H _ (nth_error_In _ _ N)) as [(a & b & E)|(a & b & E)]; destruct a; discriminate.
  - assert (S : skipn i names = name :: skipn (S i) names).
    { clear H LB. revert i N. induction names as [|a names IH]; intros [|i] N; try discriminate; [injection N as ->; reflexivity|]. exact (IH i N). }
    rewrite S. inversion LB as [A|A B|A B]; subst; [constructor; exact LB..|]. destruct (H _ (nth_error_In _ _ N)); contradiction.
Qed.
(** Integrals: every row of every run is labelled, so every row has its own colour. *)
Lemma dict_set_keys {A} (d : list (string * A)) k v r : In r (dict_set d k v) -> fst r = k \/ In (fst r) (map fst d).
Proof.
  induction d as [|(k' & v') d IH]; cbn [dict_set].
  - intros [<-|[]]. left. reflexivity.
  - destruct (String.eqb k' k).
    + intros [<-|I]; [left; reflexivity|]. right. right. apply in_map. exact I.
    + intros [<-|I]; [right; left; reflexivity|]. destruct (IH I) as [E|E]; [left; exact E|right; right; exact E].
Qed.
Lemma py_dict_keys {A} (rows : list (string * A)) r : In r (py_dict rows) -> In (fst r) (map fst rows).
Proof.
  unfold py_dict. enough (G : forall d, In r (fold_left (fun d r => dict_set d (fst r) (snd r)) rows d) -> In (fst r) (map fst d) \/ In (fst r) (map fst rows)).
  { intros I. destruct (G [] I) as [[]|X]; exact X. }
  induction rows as [|a rows IH]; intros d I; cbn [fold_left] in I; [left; apply in_map; exact I|].
  destruct (IH _ I) as [X|X]; [|right; right; exact X]. apply in_map_iff in X. destruct X as (r' & E & I').
  apply dict_set_keys in I'. rewrite E in I'. destruct I' as [X|X]; [right; left; congruence|left; exact X].
Qed.
Lemma label_in a sub b : contains sub (a ++ sub ++ b).
Proof. exists a, b. reflexivity. Qed.
Lemma integral_labels fr clr n : In n (map fst (integral_table fr clr)) -> contains "COG" n \/ contains "COW" n.
Proof.
  intros I. apply in_map_iff in I. destruct I as (r & <- & I). unfold integral_table in I. apply in_sort in I. apply py_dict_keys in I.
  unfold integral_rows in I. destruct (keel_moment fr clr) as [mk mkc]. rewrite <- !(py_in_spec "COG"), <- !(py_in_spec "COW").
  rewrite !map_app in I. repeat (apply in_app_or in I; destruct I as [I|I]).
  all: try (unfold xyz_rows, cow_rows, vrows in I; rewrite ?map_app in I; simpl in I; repeat (destruct I as [<-|I]; [vm_compute; tauto|]); destruct I; fail).
  left. apply py_in_spec. apply in_map_iff in I. destruct I as (row & <- & I). apply in_flat_map in I. destruct I as (t & _ & I). fold (sail_rows t) in I.
  apply sail_rows_keys in I. destruct I as (pre & suf & _ & SU & ->).
  destruct SU as [->|[->| ->]]; rewrite <- append_assoc; [exists ((pre ++ st_name t) ++ "_total_")%string, ".x"%string|exists ((pre ++ st_name t) ++ "_total_")%string, ".y"%string|exists ((pre ++ st_name t) ++ "_total_")%string, ".z"%string]; rewrite !append_assoc; reflexivity.
Qed.
Theorem C72_integrals : forall fr clr i name (x : R) o, nth_error (map fst (integral_table fr clr)) i = Some name -> label_colour name o ->
  o <> None /\ shown (summary_rules (map fst (integral_table fr clr))) (S i) 0 (Text name : cell R) = o /\
  shown (summary_rules (map fst (integral_table fr clr))) (S i) 1 (Number x) = o.
Proof.
  intros fr clr i name x o N LB. split.
  - destruct (integral_labels fr clr name (nth_error_In _ _ N)); inversion LB; subst; try discriminate; contradiction.
  - apply C72_all_labelled; try assumption. intros n I. apply (integral_labels fr clr). exact I.
Qed.
(** The claim "a row is coloured as course over ground only if its quantity is labelled so" fails on the sheet of inlet conditions:
    there the heights and the length of the true wind, which have no label, are coloured like the labelled row below them. *)
Theorem C72_inlet : forall al tws sog e rh wl c t (x : R), 0 < rh -> wl < rh ->
  wind_table (Wind_ al tws sog (Exp (Some e) (Some rh) (Some wl))) c = Ok t ->
  forall i name, nth_error (map fst t) i = Some name ->
    shown (summary_rules (map fst t)) (S i) 1 (Number x) = Some (if Nat.eqb i 1 then Blue else Sand) /\
    (label_colour name None <-> In name ["Reference_measurement_height"; "Reference_water_level_for_wind_profile"; "TWS_length_at_reference_height"]%string).
Proof.
  intros al tws sog e rh wl c t x RH WL E i name N. destruct (C71_exponential al tws sog e rh wl c RH WL) as (t' & v & a & E' & NM & _).
  rewrite E in E'. injection E' as <-. rewrite NM in *. rewrite summary_shown by (left; reflexivity). cbn [Nat.sub]. rewrite Nat.sub_0_r.
  rewrite label_spec.
  do 12 (destruct i as [|i]; [injection N as <-; split; [vm_compute; reflexivity|split; [intros L; vm_compute in L; first [discriminate L|simpl; tauto]|intros L; repeat (destruct L as [L|L]; [first [discriminate L|reflexivity]|]); destruct L]]|]).
  destruct i; discriminate.
Qed.
Theorem C72_own_label_refuted : exists (w : wind R) c t i name (x : R), wind_table w c = Ok t /\ nth_error t i = Some (name, x) /\ label_colour name None /\
  shown (summary_rules (map fst t)) (S i) 0 (Text name : cell R) = Some Sand /\ shown (summary_rules (map fst t)) (S i) 1 (Number x) = Some Sand.
Proof.
  exists (Wind_ 50 8 4 (Exp (Some 1) (Some 10) (Some 0))), (Csys 0 5 szero). eexists. exists 2%nat. eexists _, _. split; [reflexivity|]. split; [reflexivity|].
  split; [apply label_spec; reflexivity|]. rewrite !summary_shown; [split; reflexivity|left; reflexivity|right; repeat split; lia].
Qed.
Example C72_case : shown (components_rules 5 ["Circulation_magnitude"; "F_sails_COG.x"; "F_sails_COW.x"]%string) 3 1 (Number (-2) : cell R) = Some Sand /\
  shown (components_rules 5 ["Circulation_magnitude"; "F_sails_COG.x"; "F_sails_COW.x"]%string) 3 2 (Number 2 : cell R) = Some Blue /\
  shown (components_rules 5 ["Circulation_magnitude"; "F_sails_COG.x"; "F_sails_COW.x"]%string) 3 0 (Number 2 : cell R) = None /\
  exists fr clr i x, nth_error (map fst (integral_table fr clr)) i = Some "F_sails_total_COW.y"%string /\
    shown (summary_rules (map fst (integral_table fr clr))) (S i) 1 (Number x : cell R) = Some Blue.
Proof.
  split; [|split; [|split]]; [eapply C72_components; [reflexivity|lia|apply label_spec; reflexivity]..|].
  destruct (demo_run (fun _ _ y => Ok y) 4 szero) as (rr & s & E & SS & NM & B & P & EV & EF). exists (rr_flow rr), szero.
  assert (X : In "F_sails_total_COW.y"%string (map fst (integral_table (rr_flow rr) szero))).
  { assert (V : value_of (integral_table (rr_flow rr) szero) "F_sails_total_COW.y" = Some (vy (fr_F_cl_total (rr_flow rr)))).
    { destruct (C61_overall_rows (rr_flow rr) szero) as (_ & _ & V & _). unfold vector_of in V. simpl append in V. destruct (value_of _ "F_sails_total_COW.x"); [|discriminate].
      destruct (value_of _ "F_sails_total_COW.y"); [|discriminate]. destruct (value_of _ "F_sails_total_COW.z"); [|discriminate]. injection V as V. rewrite <- V. reflexivity. }
    unfold value_of in V. destruct (find _ _) as [row|] eqn:F; [|discriminate]. apply find_some in F. destruct F as [I Q]. apply String.eqb_eq in Q. rewrite <- Q. apply in_map. exact I. }
  apply In_nth_error in X. destruct X as [i X]. exists i, 1. split; [exact X|]. apply (C72_integrals _ _ _ _ 1 (Some Blue) X). apply label_spec. reflexivity.
Qed.
Print Assumptions C72_components.
Print Assumptions C72_summary.
Print Assumptions C72_all_labelled.
Print Assumptions C72_integrals.
Print Assumptions C72_inlet.
Print Assumptions C72_own_label_refuted.

(** ** C73: the rounded workbook *)
(** [fmt n] rounds to [n] decimals *)
Definition rounds (fmt : nat -> R -> R) : Prop := forall n x, Rabs (fmt n x - x) <= / (2 * 10 ^ n).
Definition rounded_rows (fmt : nat -> R -> R) (rows : list (string * R)) : list (string * R) := map (fun r => (fst r, fmt 2%nat (snd r))) rows.
Definition rounded_table (fmt : nat -> R -> R) (t : list (column R)) : list (column R) :=
  map (fun c => match c with NumCol n l => NumCol n (map (fmt 8%nat) l) | StrCol n l => StrCol n l end) t.

Lemma rounded_value fmt rows k : value_of (rounded_rows fmt rows) k = option_map (fmt 2%nat) (value_of rows k).
Proof.
  unfold value_of, rounded_rows. induction rows as [|a rows IH]; [reflexivity|]. cbn [map find fst]. destruct (String.eqb (fst a) k); [reflexivity|exact IH].
Qed.
Lemma rounded_num fmt t nm k : num_at (rounded_table fmt t) nm k = option_map (fmt 8%nat) (num_at t nm k).
Proof.
  unfold num_at, rounded_table. induction t as [|a t IH]; [reflexivity|]. cbn [map find].
  replace (column_name match a with NumCol n l => NumCol n (map (fmt 8%nat) l) | StrCol n l => StrCol n l end) with (column_name a) by (destruct a; reflexivity).
  destruct (String.eqb (column_name a) nm); [|exact IH]. destruct a; [apply nth_error_map|reflexivity].
Qed.
Definition axes : list (string * (vec R -> R)) := [(".x"%string, vx); (".y"%string, vy); (".z"%string, vz)].
Lemma vector_axis t k v ax pr : In (ax, pr) axes -> vector_of t k = Some v -> value_of t (k ++ ax) = Some (pr v).
Proof.
  unfold vector_of. intros I E. destruct (value_of t (k ++ ".x")) eqn:X; [|discriminate]. destruct (value_of t (k ++ ".y")) eqn:Y; [|discriminate]. destruct (value_of t (k ++ ".z")) eqn:Z; [|discriminate].
  injection E as <-. destruct I as [I|[I|[I|[]]]]; injection I as <- <-; assumption.
Qed.
Lemma vec_axis t nm k v ax pr : In (ax, pr) axes -> vec_at t nm k = Some v -> num_at t (nm ++ ax) k = Some (pr v).
Proof.
  unfold vec_at. intros I E. destruct (num_at t (nm ++ ".x") k) eqn:X; [|discriminate]. destruct (num_at t (nm ++ ".y") k) eqn:Y; [|discriminate]. destruct (num_at t (nm ++ ".z") k) eqn:Z; [|discriminate].
  injection E as <-. destruct I as [I|[I|[I|[]]]]; injection I as <- <-; assumption.
Qed.
Lemma sumn_axis n V ax pr : In (ax, pr) axes -> pr (vsumn n V) = sumn n (fun k => pr (V k)).
Proof. rewrite vsumn_comp. intros [I|[I|[I|[]]]]; injection I as <- <-; reflexivity. Qed.
Lemma sumn_snoc n f : sumn (S n) f = sumn n f + f n.
Proof. unfold sumn, tab. rewrite seq_S, map_app, rsum_app. unfold rsum at 2. simpl. ring. Qed.
Lemma sumn_round fmt d n f : rounds fmt -> Rabs (sumn n (fun k => fmt d (f k)) - sumn n f) <= INR n * / (2 * 10 ^ d).
Proof.
  intros RF. induction n as [|n IH]; [unfold sumn, rsum; simpl; rewrite Rminus_0_r, Rabs_R0; lra|]. rewrite !sumn_snoc, S_INR.
  specialize (RF d (f n)). replace (sumn n (fun k => fmt d (f k)) + fmt d (f n) - (sumn n f + f n)) with ((sumn n (fun k => fmt d (f k)) - sumn n f) + (fmt d (f n) - f n)) by ring.
  eapply Rle_trans; [apply Rabs_triang|]. lra.
Qed.
Lemma sumn_groups n m f : sumn (n * m) f = sumn n (fun g => sumn m (fun q => f (g * m + q)%nat)).
Proof.
  pose proof (vsumn_groups n m (fun k => V3 (f k) 0 0)) as E. apply (f_equal vx) in E. rewrite !vsumn_comp in E. cbn [vx] in E. etransitivity; [exact E|].
  apply sumn_ext. intros g _. rewrite vsumn_comp. reflexivity.
Qed.

(** In the workbook of every finished run the rounded totals, the rounded totals of the sails and the rounded panel values agree
    up to the rounding; [q] is F (force) or M (moment), [ax] an axis. *)
Theorem C73_workbook : forall spline fmt cd sv r main jib (ref clr : vec R) rr q ax pr, rounds fmt ->
  (0 < sv_ns sv)%nat -> (0 < sv_nc sv)%nat -> run spline cd sv r main jib ref clr = Ok rr ->
  (q = "F" \/ q = "M")%string -> In (ax, pr) axes ->
  let names := map sl_name (ss_sails (rr_set rr)) in let n := length names in let m := (sv_nc sv * sv_ns sv)%nat in
  let W := rounded_rows fmt (integral_table (rr_flow rr) (rr_clr rr)) in
  exists comps tot xs ys, components_table (rr_vlm rr) (Csys (cd_heel cd) (cd_leeway cd) ref) (rr_flow rr) (rr_set rr) = Ok comps /\
    value_of W (q ++ "_sails_total_COG" ++ ax) = Some tot /\
    length xs = n /\ (forall g name, nth_error names g = Some name -> value_of W (q ++ "_" ++ name ++ "_total_COG" ++ ax) = nth_error xs g) /\
    length ys = (n * m)%nat /\ (forall k, (k < n * m)%nat -> num_at (rounded_table fmt comps) (q ++ "_sails_COG" ++ ax) k = nth_error ys k) /\
    (* total against sails, total against panels, sail against its panels; one sail is the total *)
    Rabs (tot - rsum xs) <= (INR n + 1) / 200 /\
    Rabs (tot - rsum ys) <= 1 / 200 + INR (n * m) / (2 * 10 ^ 8) /\
    (forall g x, nth_error xs g = Some x -> Rabs (x - sumn m (fun p => nth (g * m + p) ys 0)) <= 1 / 200 + INR m / (2 * 10 ^ 8)) /\
    (n = 1%nat -> xs = [tot]).
Proof.
  intros spline fmt cd sv r main jib ref clr rr q ax pr RF NS NC E QQ AX names n m W.
  destruct (run_inv _ _ _ _ _ _ _ _ _ E) as (w & EW & _ & EG & EH & EV & EF). set (c := Csys (cd_heel cd) (cd_leeway cd) ref) in *.
  destruct (get_sail_set_inv _ _ _ _ _ _ _ EG) as (sails & SS & ES & I & NM & B).
  destruct (C50_rows _ _ sails _ _ _ _ _ _ NC NS B SS EV EF) as (comps & up & CT & _ & _ & ROWS). fold m in ROWS.
  destruct (sail_set_flags _ _ sails _ B SS) as [LP FG].
  destruct (C60_complete_results _ _ _ _ _ _ _ _ (eq_trans (fl_te_len _ _ _ _ _ FG) (eq_sym LP)) EV) as (_ & _ & _ & LC & _ & _ & _ & _ & _ & _ & LF & _).
  rewrite LP in LC, LF. fold m in LC, LF.
  assert (LN : length sails = n) by (unfold n, names; rewrite ES, map_length; reflexivity).
  assert (N0 : (0 < n)%nat) by (rewrite <- LN; destruct sails; [discriminate|simpl; lia]). rewrite LN in LC, LF.
  assert (LES : length (ss_sails (rr_set rr)) = n) by (rewrite ES; exact LN).
  destruct (C48_totals _ _ _ _ n m EF LES N0 LF LC) as (TF & TM & LSA & SA & _).
  set (V := fun k => nth k (if String.eqb q "F" then vl_force (rr_vlm rr) else fr_M (rr_flow rr)) szero).
  assert (ST : exists T S, T = vsumn (n * m) V /\ vector_of (integral_table (rr_flow rr) (rr_clr rr)) (q ++ "_sails_total_COG") = Some T /\
    (forall g name, nth_error names g = Some name -> vector_of (integral_table (rr_flow rr) (rr_clr rr)) (q ++ "_" ++ name ++ "_total_COG") = Some (S g)) /\
    forall g, (g < n)%nat -> S g = vsumn m (fun p => V (g * m + p)%nat)).
  { assert (NN : forall t, In t (fr_sails (rr_flow rr)) -> In (st_name t) (sail_names (rg_sails_def r))).
    { intros t T. apply In_nth_error in T. destruct T as [g T]. assert (g < n)%nat by (rewrite <- LSA; eapply nth_error_Some_lt; exact T).
      destruct (nth_error_ex sails g) as [sl SL]; [lia|]. rewrite ES in SA. destruct (SA g sl SL) as (t' & T' & SN & _). assert (t' = t) by congruence. subst t'. rewrite SN, <- NM. apply in_map. eapply nth_error_In; exact SL. }
    assert (SNI : forall x, In x (sail_names (rg_sails_def r)) -> x = "jib"%string \/ x = "main_sail"%string).
    { intros x. unfold sail_names. destruct (String.eqb _ "jib"); [|destruct (String.eqb _ "main")]; simpl; intuition. }
    destruct (C61_overall_rows (rr_flow rr) (rr_clr rr)) as (OV & _).
    destruct OV as [OF OM]. { intros t T. destruct (SNI _ (NN t T)) as [-> | ->]; discriminate. }
    assert (SR : forall g name, nth_error names g = Some name -> exists t, nth_error (fr_sails (rr_flow rr)) g = Some t /\ st_name t = name /\
      st_F t = vsumn m (fun p => nth (g * m + p) (vl_force (rr_vlm rr)) szero) /\ st_M t = vsumn m (fun p => nth (g * m + p) (fr_M (rr_flow rr)) szero) /\
      vector_of (integral_table (rr_flow rr) (rr_clr rr)) ("F_" ++ name ++ "_total_COG") = Some (st_F t) /\ vector_of (integral_table (rr_flow rr) (rr_clr rr)) ("M_" ++ name ++ "_total_COG") = Some (st_M t)).
    { intros g name G. unfold names in G. rewrite nth_error_map in G. destruct (nth_error (ss_sails (rr_set rr)) g) as [sl|] eqn:SL; [|discriminate]. injection G as <-.
      destruct (SA g sl SL) as (t & T & SN & A1 & A2). exists t. split; [exact T|]. split; [exact SN|]. split; [exact A1|]. split; [exact A2|]. rewrite <- SN. apply (C61_sail_rows (rr_flow rr) (rr_clr rr) g t T).
      intros g' t' LT T' EQ. assert (G' : (g' < n)%nat) by (rewrite <- LSA; eapply nth_error_Some_lt; exact T').
      destruct (nth_error_ex (ss_sails (rr_set rr)) g') as [sl' SL']; [lia|]. destruct (SA g' sl' SL') as (t2 & T2 & SN' & _). assert (t2 = t') by congruence. subst t2.
      assert (D : NoDup (map sl_name (ss_sails (rr_set rr)))).
      { rewrite ES, NM. unfold sail_names. destruct (String.eqb _ "jib"); [|destruct (String.eqb _ "main")]; repeat constructor; simpl; intuition discriminate. }
      rewrite NoDup_nth_error in D. assert (g' = g); [|lia]. apply D; [rewrite map_length; lia|]. rewrite !nth_error_map, SL, SL'. simpl. congruence. }
    destruct QQ as [-> | ->]; cbn [String.eqb Ascii.eqb Bool.eqb] in V.
    - exists (fr_F_total (rr_flow rr)), (fun g => vsumn m (fun p => V (g * m + p)%nat)). split; [exact TF|]. split; [exact OF|]. split; [|reflexivity].
      intros g name G. destruct (SR g name G) as (t & _ & _ & A & _ & X & _). change ("F" ++ "_" ++ name ++ "_total_COG")%string with ("F_" ++ name ++ "_total_COG")%string. rewrite X, A. reflexivity.
    - exists (fr_M_total (rr_flow rr)), (fun g => vsumn m (fun p => V (g * m + p)%nat)). split; [exact TM|]. split; [exact OM|]. split; [|reflexivity].
      intros g name G. destruct (SR g name G) as (t & _ & _ & _ & A & _ & X). change ("M" ++ "_" ++ name ++ "_total_COG")%string with ("M_" ++ name ++ "_total_COG")%string. rewrite X, A. reflexivity. }
  destruct ST as (T & S & ET & VT & VS & SV).
  assert (PV : forall k, (k < n * m)%nat -> vec_at comps (q ++ "_sails_COG") k = Some (V k)).
  { intros k K. assert (M0 : (0 < m)%nat) by (unfold m; nia). assert (G : (k / m < n)%nat) by (apply Nat.div_lt_upper_bound; lia).
    destruct (nth_error_ex sails (k / m)) as [sl SL]; [lia|]. destruct (ROWS _ _ SL) as (top & _ & _ & RW). destruct (RW (k mod m)%nat) as (_ & _ & _ & _ & f & p & i & u & x & gam & prs & F1 & F2 & P1 & _ & _ & _ & _ & _ & _ & _ & _ & _ & _ & _ & M2 & _); [apply Nat.mod_upper_bound; lia|].
    replace (k / m * m + k mod m)%nat with k in * by (rewrite (Nat.div_mod k m) at 1; lia).
    destruct QQ as [-> | ->]; cbn [String.eqb Ascii.eqb Bool.eqb] in V.
    - change ("F" ++ "_sails_COG")%string with "F_sails_COG"%string. rewrite F2. f_equal. symmetry. apply nth_of_error. exact F1.
    - change ("M" ++ "_sails_COG")%string with "M_sails_COG"%string. rewrite M2. f_equal. symmetry. apply nth_of_error.
      destruct (flow_results_inv _ _ _ _ EF) as (_ & _ & _ & _ & EM & _). rewrite EM. apply nth_error_zipWith; [rewrite nth_error_map, P1; reflexivity|exact F1]. }
  exists comps, (fmt 2%nat (pr T)), (tab n (fun g => fmt 2%nat (pr (S g)))), (tab (n * m) (fun k => fmt 8%nat (pr (V k)))).
  split; [exact CT|]. split. { unfold W. rewrite rounded_value, <- append_assoc, (vector_axis _ _ _ _ _ AX VT). reflexivity. }
  split; [apply tab_length|]. split.
  { intros g name G. unfold W. rewrite rounded_value. replace (q ++ "_" ++ name ++ "_total_COG" ++ ax)%string with ((q ++ "_" ++ name ++ "_total_COG") ++ ax)%string by (rewrite !append_assoc; reflexivity).
    rewrite (vector_axis _ _ _ _ _ AX (VS g name G)), tab_nth_error; [reflexivity|]. eapply nth_error_Some_lt. exact G. }
  split; [apply tab_length|]. split.
  { intros k K. rewrite rounded_num, <- append_assoc, (vec_axis _ _ _ _ _ _ AX (PV k K)), tab_nth_error by exact K. reflexivity. }
  assert (TS : pr T = sumn n (fun g => pr (S g))).
  { rewrite ET, (sumn_axis _ _ _ _ AX), sumn_groups. apply sumn_ext. intros g G. rewrite (SV g G), (sumn_axis _ _ _ _ AX). reflexivity. }
  assert (E2 : / (2 * 10 ^ 2) = 1 / 200) by lra. assert (E8 : forall x, x * / (2 * 10 ^ 8) = x / (2 * 10 ^ 8)) by (intros; reflexivity).
  split; [|split; [|split]].
  - change (rsum (tab n (fun g => fmt 2%nat (pr (S g))))) with (sumn n (fun g => fmt 2%nat (pr (S g)))).
    pose proof (sumn_round fmt 2 n (fun g => pr (S g)) RF) as A. pose proof (RF 2%nat (pr T)) as A'. rewrite E2 in A, A'. rewrite TS in A' at 2.
    rewrite Rabs_minus_sym in A. pose proof (Rabs_triang (fmt 2%nat (pr T) - sumn n (fun g => pr (S g))) (sumn n (fun g => pr (S g)) - sumn n (fun k => fmt 2%nat (pr (S k))))) as TR.
    match type of TR with Rabs ?a <= _ => replace a with (fmt 2%nat (pr T) - sumn n (fun g => fmt 2%nat (pr (S g)))) in TR by ring end. lra.
  - change (rsum (tab (n * m) (fun k => fmt 8%nat (pr (V k))))) with (sumn (n * m) (fun k => fmt 8%nat (pr (V k)))).
    pose proof (sumn_round fmt 8 (n * m) (fun k => pr (V k)) RF) as A. pose proof (RF 2%nat (pr T)) as A'. rewrite E2 in A'. rewrite E8 in A. assert (PT : pr T = sumn (n * m) (fun k => pr (V k))) by (rewrite ET; apply (sumn_axis _ _ _ _ AX)). rewrite PT in A' at 2.
    rewrite Rabs_minus_sym in A. pose proof (Rabs_triang (fmt 2%nat (pr T) - sumn (n * m) (fun k => pr (V k))) (sumn (n * m) (fun k => pr (V k)) - sumn (n * m) (fun k => fmt 8%nat (pr (V k))))) as TR.
    match type of TR with Rabs ?a <= _ => replace a with (fmt 2%nat (pr T) - sumn (n * m) (fun k => fmt 8%nat (pr (V k)))) in TR by ring end. lra.
  - intros g x X. assert (G : (g < n)%nat) by (rewrite <- (tab_length n (fun g => fmt 2%nat (pr (S g)))); eapply nth_error_Some_lt; exact X). rewrite tab_nth_error in X by exact G. injection X as <-.
    rewrite (sumn_ext m _ (fun p => fmt 8%nat (pr (V (g * m + p)%nat)))). 2:{ intros p P. apply nth_of_error. rewrite tab_nth_error; [reflexivity|nia]. }
    pose proof (sumn_round fmt 8 m (fun p => pr (V (g * m + p)%nat)) RF) as A. pose proof (RF 2%nat (pr (S g))) as A'. rewrite E2 in A'. rewrite E8 in A. assert (PT : pr (S g) = sumn m (fun p => pr (V (g * m + p)%nat))) by (rewrite (SV g G); apply (sumn_axis _ _ _ _ AX)). rewrite PT in A' at 2.
    rewrite Rabs_minus_sym in A. pose proof (Rabs_triang (fmt 2%nat (pr (S g)) - sumn m (fun p => pr (V (g * m + p)%nat))) (sumn m (fun p => pr (V (g * m + p)%nat)) - sumn m (fun p => fmt 8%nat (pr (V (g * m + p)%nat))))) as TR.
    match type of TR with Rabs ?a <= _ => replace a with (fmt 2%nat (pr (S g)) - sumn m (fun p => fmt 8%nat (pr (V (g * m + p)%nat)))) in TR by ring end. lra.
  - intros N1. assert (Q : pr T = pr (S 0%nat)) by (rewrite TS, N1; unfold sumn, tab, rsum; simpl; ring). rewrite Q, N1. reflexivity.
Qed.
(* rounding to the nearest multiple of 10^-n *)
Definition nearest (n : nat) (x : R) : R := IZR (Int_part (x * 10 ^ n + 1/2)) / 10 ^ n.
Example C73_case : rounds nearest /\ forall sp, exists rr, run sp L_Runner.demo_conditions demo_solver (demo_rig (Some 4)) (Some demo_main) None szero szero = Ok rr.
Proof.
  split.
  - intros n x. unfold nearest. assert (P : 0 < 10 ^ n) by (apply pow_lt; lra). destruct (base_Int_part (x * 10 ^ n + 1/2)) as [A B].
    replace (IZR (Int_part (x * 10 ^ n + 1/2)) / 10 ^ n - x) with ((IZR (Int_part (x * 10 ^ n + 1/2)) - x * 10 ^ n) * / 10 ^ n) by (field; lra).
    rewrite Rabs_mult, (Rabs_right (/ 10 ^ n)) by (left; apply Rinv_0_lt_compat; exact P). rewrite Rinv_mult.
    apply Rmult_le_compat_r; [left; apply Rinv_0_lt_compat; exact P|]. apply Rabs_le. lra.
  - intros sp. destruct (demo_run sp 4 szero) as (rr & s & E & _). exists rr. exact E.
Qed.
Print Assumptions C73_workbook.

(** ** C74: the layout of the sheets *)
(** the columns of the sheet Components, in order *)
Theorem C74_columns : forall (v : vlm R) c fr s t, components_table v c fr s = Ok t ->
  map column_name t = ["AWA_fs_COG_deg"; "AWA_fs_COW_deg"; "Circulation_magnitude"; "F_sails_COG.x"; "F_sails_COG.y"; "F_sails_COG.z";
    "F_sails_COW.x"; "F_sails_COW.y"; "F_sails_COW.z"; "M_sails_COG.x"; "M_sails_COG.y"; "M_sails_COG.z"; "Pressure";
    "V_app_fs_COG.x"; "V_app_fs_COG.y"; "V_app_fs_COG.z"; "V_app_fs_length"; "V_induced_COG.x"; "V_induced_COG.y"; "V_induced_COG.z"; "V_induced_length";
    "AWA_infs_COG_deg"; "AWA_infs_COW_deg"; "TWS_COG.x"; "TWS_COG.y"; "TWS_COG.z"; "TWS_length"; "V_app_infs_COG.x"; "V_app_infs_COG.y"; "V_app_infs_COG.z";
    "V_app_infs_length"; "cp_points_COG.x"; "cp_points_COG.y"; "cp_points_COG.z"; "cp_points_upright.z"; "girths"; "sail_name"]%string.
Proof.
  intros v c fr s t. unfold components_table. intros E.
  destruct (get_cp_z_as_girths_all s c (vl_cp v)) as [(ga & ua)|]; [|discriminate]. unfold bind at 1 in E.
  destruct (get_cp_z_as_girths_all_above ga s) as [(gb & nm)|]; [|discriminate]. unfold bind at 1 in E.
  destruct (array_split ua _) as [ups|]; [|discriminate]. unfold bind at 1 in E. cbv zeta in E.
  destruct (py_nth (ss_sails s) 0) as [sl0|]; [|discriminate]. unfold bind in E. apply (f_equal (fun x => match x with Ok y => y | Raise _ => t end)) in E. cbv beta iota in E. rewrite <- E.
  reflexivity.
Qed.
(** the rows of the sheet Integrals, in order: three per force and moment, one more (the sign of the yaw moment) in the course over water *)
Definition xyz (s : string) : list string := [s ++ ".x"; s ++ ".y"; s ++ ".z"]%string.
Definition cow (s : string) : list string := [s ++ ".x (heel)"; s ++ ".y (pitch)"; s ++ ".z (yaw - JG sign)"; s ++ ".z (yaw)"]%string.
Theorem C74_rows : forall spline cd sv r main jib (ref clr : vec R) rr, run spline cd sv r main jib ref clr = Ok rr ->
  let sails := map sl_name (ss_sails (rr_set rr)) in let has (n : string) := existsb (String.eqb n) sails in
  map fst (integral_table (rr_flow rr) (rr_clr rr)) =
    (if has "jib"%string then xyz "F_jib_total_COG" else []) ++ (if has "main_sail"%string then xyz "F_main_sail_total_COG" else []) ++
    xyz "F_sails_total_COG" ++ xyz "F_sails_total_COW" ++
    (if has "jib"%string then xyz "M_jib_total_COG" else []) ++ xyz "M_keel_total_COG" ++ cow "M_keel_total_COW" ++
    (if has "main_sail"%string then xyz "M_main_sail_total_COG" else []) ++
    xyz "M_sails_total_COG" ++ cow "M_sails_total_COW" ++ xyz "M_total_COG" ++ cow "M_total_COW".
Proof.
  intros spline cd sv r main jib ref clr rr E sails has.
  destruct (run_inv _ _ _ _ _ _ _ _ _ E) as (w & EW & _ & EG & EH & EV & EF). set (c := Csys (cd_heel cd) (cd_leeway cd) ref) in *.
  destruct (get_sail_set_inv _ _ _ _ _ _ _ EG) as (sl & SS & ES & I & NM & B).
  assert (TN : map st_name (fr_sails (rr_flow rr)) = sail_names (rg_sails_def r)).
  { destruct (C48_run _ _ sl _ _ _ _ c B SS EV) as (fr' & EF' & LF & _ & SR). rewrite EF in EF'. injection EF' as <-. rewrite <- NM.
    apply list_ext; rewrite !map_length; [exact LF|]. intros i Hi. rewrite LF in Hi. destruct (nth_error_ex sl i Hi) as [s HS]. destruct (SR i s HS) as (t & HT & N & _). rewrite !nth_error_map, HS, HT. simpl. congruence. }
  assert (SN : sails = sail_names (rg_sails_def r)) by (unfold sails; rewrite ES; exact NM).
  unfold has. rewrite SN. unfold integral_table, integral_rows. destruct (keel_moment (rr_flow rr) (rr_clr rr)) as [mk mkc].
  unfold sail_names in *. destruct (String.eqb _ "jib"); [|destruct (String.eqb _ "main")].
  - destruct (fr_sails (rr_flow rr)) as [|a [|b l]]; try discriminate. injection TN as A. cbn [flat_map]. rewrite A. reflexivity.
  - destruct (fr_sails (rr_flow rr)) as [|a [|b l]]; try discriminate. injection TN as A. cbn [flat_map]. rewrite A. reflexivity.
  - destruct (fr_sails (rr_flow rr)) as [|a [|b [|d l]]]; try discriminate. injection TN as A A'. cbn [flat_map]. rewrite A, A'. reflexivity.
Qed.
Example C74_case : forall sp, exists rr t, run sp L_Runner.demo_conditions demo_solver (demo_rig (Some 4)) (Some demo_main) None szero szero = Ok rr /\
  components_table (rr_vlm rr) (Csys 0 0 szero) (rr_flow rr) (rr_set rr) = Ok t /\ length t = 37%nat /\
  length (integral_table (rr_flow rr) (rr_clr rr)) = 33%nat.
Proof.
  intros sp. destruct (demo_run sp 4 szero) as (rr & s & E & SS & NM & B & P & EV & EF). exists rr.
  destruct (outputs_total _ _ demo_solver _ _ _ _ _ _ Nat.lt_0_1 Nat.lt_0_1 E) as (t & _ & _ & _ & _ & _ & _ & _ & _ & CT & _).
  exists t. split; [exact E|]. split; [exact CT|]. split; [rewrite <- (map_length column_name), (C74_columns _ _ _ _ _ CT); reflexivity|].
  rewrite <- (map_length fst). rewrite (C74_rows _ _ _ _ _ _ _ _ _ E).
  assert (ES : ss_sails (rr_set rr) = [s]) by (injection SS as SS; rewrite <- SS; reflexivity). rewrite ES. cbn [map]. rewrite NM. reflexivity.
Qed.
Print Assumptions C74_columns.
Print Assumptions C74_rows.
