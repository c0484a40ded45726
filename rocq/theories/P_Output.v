(** Properties C70 - C73: the files a run leaves, the sheet of inlet conditions, cell colours, rounding. *)

From Coq Require Import String Ascii ZArith Reals List Bool Lia Lra Psatz.
From Verif Require Import Num PyBase RNum Spec M_Csys M_Sail M_Winds M_Vlm M_Interp M_Results M_Hull M_Runner M_Plots M_Output
  L_List L_Rot L_Csys L_Sail L_Lattice L_Vlm2 L_Runner P_Vlm P_Winds P_Coefs P_Results P_Run P_Plots L_Scene P_Scene.
Import ListNotations.
Open Scope R_scope.

(** ** Lemmas *)
Lemma sail_csys {F} {NF : Num F} head tack c ns nc chords twist name mode camber dist (s : sail F) :
  SailGeometry head tack c ns nc chords twist name mode camber dist = Ok s -> sl_csys s = c.
Proof.
  unfold SailGeometry. cbv zeta. intros H.
  repeat match type of H with
  | bind ?m _ = Ok _ => let x := fresh "x" in let E := fresh "E" in
      apply bind_Ok in H; destruct H as [x [E H]]; try (destruct x as [x ?]); try (destruct x as [x ?]) end.
  injection H as <-. reflexivity.
Qed.
Lemma get_sail_set_csys {F} {NF : Num F} spline sv r main jib (c : csys F) ss : get_sail_set spline sv r main jib c = Ok ss ->
  forall s, In s (ss_sails ss) -> sl_csys s = c.
Proof.
  unfold get_sail_set. cbv zeta. intros E. apply bind_Ok in E. destruct E as (js & EJ & E). apply bind_Ok in E. destruct E as (ms & EM & E).
  assert (L : ss_sails ss = js ++ ms). { destruct (js ++ ms) as [|x l]; [discriminate|]. injection E as <-. reflexivity. }
  rewrite L. intros s I. apply in_app_or in I. destruct I as [I|I].
  - destruct (_ || _) in EJ; [|injection EJ as <-; destruct I]. unbind. injection EJ as <-. destruct I as [<-|[]].
    match goal with H : make_jib _ _ _ _ _ _ _ _ _ _ = Ok _ |- _ => unfold make_jib in H; destruct (jib_mounting _ _ _ _ _) as [h t] in H; exact (sail_csys _ _ _ _ _ _ _ _ _ _ _ _ H) end.
  - destruct (_ || _) in EM; [|injection EM as <-; destruct I]. unbind. injection EM as <-. destruct I as [<-|[]].
    match goal with H : make_main_sail _ _ _ _ _ _ _ _ = Ok _ |- _ => unfold make_main_sail in H; destruct (main_mounting _ _ _) as [h t] in H; exact (sail_csys _ _ _ _ _ _ _ _ _ _ _ _ H) end.
Qed.
Lemma Wind_is_profile {F} {NF : Num F} (cd : @conditions F) w : Wind cd = Ok w -> w = Wind_profile cd.
Proof. unfold Wind. destruct (Wind_post_init cd); [|discriminate]. intros E. injection E as <-. reflexivity. Qed.

Lemma wind_table_total {F} {NF : Num F} (w : wind F) (c : csys F) h s : get_true_wind_speed_at_h w h = Ok s -> exists t, wind_table w c = Ok t.
Proof.
  unfold get_true_wind_speed_at_h, wind_speed_at_h, wind_table, exp_integral_report, get_true_wind_speed_at_h, wind_speed_at_h.
  destruct (w_prof w) as [|r rh|e rh wl]; [eexists; reflexivity..|]. destruct wl, rh, e; try discriminate. intros _. eexists. reflexivity.
Qed.

Lemma io_bind_ok {F A B} (m : @io F A) (f : A -> io B) d d' a : m d = (d', Ok a) -> io_bind m f d = f a d'.
Proof. intros E. unfold io_bind. rewrite E. reflexivity. Qed.
Lemma io_bind_raise {F A B} (m : @io F A) (f : A -> io B) d d' e : m d = (d', Raise e) -> io_bind m f d = (d', Raise e).
Proof. intros E. unfold io_bind. rewrite E. reflexivity. Qed.
Lemma io_bind_ret {F A B} (m : res A) (f : A -> @io F B) d a : m = Ok a -> io_bind (io_ret m) f d = f a d.
Proof. intros ->. reflexivity. Qed.

(** everything that a finished computation still needs for its output is computable *)
Lemma outputs_total spline cd sv r main jib (ref clr : vec R) rr : (0 < sv_ns sv)%nat -> (0 < sv_nc sv)%nat -> run spline cd sv r main jib ref clr = Ok rr ->
  let c := Csys (cd_heel cd) (cd_leeway cd) ref in
  exists comps ic polys h l dr p q sl0, components_table (rr_vlm rr) c (rr_flow rr) (rr_set rr) = Ok comps /\
    py_nth (ss_sails (rr_set rr)) 0 = Ok sl0 /\ sl_csys sl0 = c /\ wind_table (Wind_profile cd) c = Ok ic /\
    (visible (ss_panels (rr_set rr)) -> exists fig, cli_display rr = Ok fig) /\ cli_plot_cp rr = Ok polys /\ section_data (rr_vlm rr) = Ok (h, l, dr) /\
    plot_section_coeff dr h "lift" = Ok p /\ plot_section_coeff l h "drag" = Ok q /\ cli_section_plots (rr_vlm rr) = Ok (p, q) /\
    pl_file p = "section_cl"%string /\ pl_file q = "section_cd"%string.
Proof.
  intros NS NC E c. destruct (run_inv _ _ _ _ _ _ _ _ _ E) as (w & EW & _ & EG & EH & EV & EF). fold c in EG, EH, EF.
  destruct (get_sail_set_inv _ _ _ _ _ _ _ EG) as (sails & SS & ES & I & NM & B).
  destruct (C50_rows _ _ sails _ _ _ _ _ _ NC NS B SS EV EF) as (comps & up & CT & _).
  assert (NE : (0 < length sails)%nat) by (destruct sails; [discriminate | simpl; lia]).
  destruct (nth_error_ex sails 0 NE) as [sl0 SL]. assert (PS : py_nth (ss_sails (rr_set rr)) 0 = Ok sl0) by (rewrite ES; apply (py_nth_nat sails 0); exact SL).
  assert (SC : sl_csys sl0 = c) by (eapply get_sail_set_csys; [exact EG | rewrite ES; eapply nth_error_In; exact SL]).
  assert (LS : (length sails <= 2)%nat). { rewrite <- (map_length sl_name), NM. unfold sail_names. destruct (String.eqb _ "jib"); [simpl; lia|]. destruct (String.eqb _ "main"); simpl; lia. }
  destruct (sail_set_flags _ _ sails _ B SS) as [LP FG].
  assert (WT : exists ic, wind_table (Wind_profile cd) c = Ok ic).
  { destruct (Vlm_inv _ _ _ _ _ _ _ _ (eq_trans (fl_te_len _ _ _ _ _ FG) (eq_sym LP)) EV) as (vars & ic & _ & _ & _ & LV & IC & _). rewrite LP in LV.
    destruct vars as [|v0 vars]; [simpl in LV; nia|]. unfold InletConditions in IC. cbn [map mapM] in IC. destruct (get_true_wind_speed_at_h w _) as [s|] eqn:T in IC; [|discriminate].
    rewrite (Wind_is_profile _ _ EW) in T. eapply wind_table_total. exact T. }
  destruct WT as [ic WT].
  assert (AR : visible (ss_panels (rr_set rr)) -> exists fig, cli_display rr = Ok fig).
  { intros (x & e & X & IE & Z). destruct (C76_picture _ _ _ _ _ _ _ _ _ NS NC E) as (m & [T _] & _ & PO).
    destruct PO as (fig & _ & _ & D & _); [|eauto]. eapply Rlt_le_trans; [apply Rabs_pos_lt; exact Z | exact (T x e X IE)]. }
  destruct (C64_polygons _ _ _ _ _ _ _ _ _ E) as (polys & PO & _).
  destruct (C52_plot_data _ _ sails _ _ _ _ NC NS B SS EV) as (h & l & dr & GD & LH & LL & LD & _).
  destruct (plot_spec dr h "lift" "section_cl") as (p & P1 & PF & P2 & P3); [congruence|lia|auto|].
  destruct (plot_spec l h "drag" "section_cd") as (q & Q1 & QF & Q2 & Q3); [congruence|lia|auto|].
  exists comps, ic, polys, h, l, dr, p, q, sl0. repeat (split; [assumption|]). split; [|auto].
  unfold cli_section_plots. unfold section_data in GD. rewrite GD. unfold bind at 1. rewrite P1. unfold bind at 1. rewrite Q1. reflexivity.
Qed.

(** ** C70: the files a run leaves *)

(** a relative file name *)
Definition relative (f : string) : Prop := String.prefix "/" f = false.
(** a directory name that is not empty and does not end with a slash *)
Definition plain (n : string) : Prop := n <> ""%string /\ ends_with_slash n = false.
(** the file [f] in the directory [n] *)
Definition in_dir (n f : string) : string := (n ++ "/" ++ f)%string.
(** [n] is a directory or can be made one *)
Definition usable {F} (d : disk F) (n : string) : Prop := d_dir d n = true \/ d_file d n = None.

Lemma join_plain n f : plain n -> relative f -> path_join n f = in_dir n f.
Proof. intros [N E] P. unfold path_join, in_dir. unfold relative in P. rewrite P, E. apply String.eqb_neq in N. rewrite N. reflexivity. Qed.
Lemma prefix_cons f : String.prefix "" f = true.
Proof. destruct f; reflexivity. Qed.
Lemma app_ne_slash f : relative f -> relative (f ++ ".xlsx").
Proof. destruct f as [|c f]; unfold relative; [reflexivity|]. cbn [String.append String.prefix]. destruct (ascii_dec _ c); [|reflexivity]. destruct f; discriminate. Qed.
Lemma in_dir_inj n f g : in_dir n f = in_dir n g -> f = g.
Proof. unfold in_dir. induction n as [|c n IH]; simpl; intros E; [injection E as E; exact E | injection E as E; exact (IH E)]. Qed.
Lemma in_dir_app n f : (n ++ "/" ++ f)%string = in_dir n f.
Proof. reflexivity. Qed.
Lemma in_dir_neq n f : n <> in_dir n f.
Proof. unfold in_dir. intros E. apply (f_equal String.length) in E. rewrite append_length in E. simpl in E. lia. Qed.
Lemma xlsx_not f g : In g ["cp_plot.html"; "section_cl.png"; "section_cd.png"]%string -> (f ++ ".xlsx")%string <> g.
Proof.
  intros I E. destruct I as [<-|[<-|[<-|[]]]];
  repeat (destruct f as [|? f]; [discriminate E | simpl in E; first [discriminate E | injection E as _ E]]).
Qed.

(** the workbook made of three tables: eight decimals in the first, two in the others *)
Definition rounded_workbook (fmt : nat -> R -> R) (wb : content R) (comps : list (column R)) (integrals ic : list (string * R)) : Prop :=
  exists r1 r2 r3, wb = Workbook [
    ("Components", Table (map (fun c => match c with NumCol n l => NumCol n (map (fmt 8%nat) l) | StrCol n l => StrCol n l end) comps) r1);
    ("Integrals", Summary (map (fun r => (fst r, fmt 2%nat (snd r))) integrals) r2);
    ("IC_at_reference_height", Summary (map (fun r => (fst r, fmt 2%nat (snd r))) ic) r3)]%string.

Section Files.
Variables (spline : @spline_oracle R) (fmt : nat -> R -> R) (ca : case R) (rr : @run_result R) (name file case_dir case_name : string).
Let c := Csys (cd_heel (ca_cond ca)) (cd_leeway (ca_cond ca)) (ca_ref ca).
Hypothesis NS : (0 < sv_ns (ca_solver ca))%nat.
Hypothesis NC : (0 < sv_nc (ca_solver ca))%nat.
Hypothesis RUN : run spline (ca_cond ca) (ca_solver ca) (ca_rig ca) (Some (ca_main ca)) (Some (ca_jib ca)) (ca_ref ca) (ca_clr ca) = Ok rr.
Hypothesis OUT : ca_out ca = Output_ (Some case_name) (Some case_dir) (Some name) (Some file).
Hypothesis PN : plain name.
Hypothesis RF : relative file.
Hypothesis RC : relative case_name.
Let src := path_join case_dir case_name.
Let xlsx := in_dir name (file ++ ".xlsx").
Let dst := in_dir name case_name.

Lemma saved d : usable d name -> exists wb comps ic polys p q, let d1 := Disk (fun x => String.eqb x name || d_dir d x) (fun x => if String.eqb x xlsx then Some wb else d_file d x) in
  components_table (rr_vlm rr) c (rr_flow rr) (rr_set rr) = Ok comps /\ wind_table (Wind_profile (ca_cond ca)) c = Ok ic /\
  cli_plot_cp rr = Ok polys /\ cli_section_plots (rr_vlm rr) = Ok (p, q) /\
  rounded_workbook fmt wb comps (integral_table (rr_flow rr) (rr_clr rr)) ic /\
  (forall e, copy src name dst d1 = (d1, Raise e) -> exists d1', cli_main spline fmt ca d = (d1', Raise e) /\ (forall x, d_dir d1' x = d_dir d1 x) /\ (forall x, d_file d1' x = d_file d1 x)) /\
  (forall y, visible (ss_panels (rr_set rr)) -> d_file d1 src = Some y -> src <> dst -> exists d', cli_main spline fmt ca d = (d', Ok rr) /\ (forall x, d_dir d' x = d_dir d1 x) /\
     forall x, d_file d' x = if String.eqb x (in_dir name "section_cd.png") then Some (SectionPlot (pl_points q)) else
       if String.eqb x (in_dir name "section_cl.png") then Some (SectionPlot (pl_points p)) else
       if String.eqb x (in_dir name "cp_plot.html") then Some (PressurePlot polys) else
       if String.eqb x dst then Some y else d_file d1 x).
Proof.
  intros U. destruct (outputs_total _ _ _ _ _ _ _ _ _ NS NC RUN) as (comps & ic & polys & h & l & dr & p & q & sl0 & CT & PS & SC & WT & AR & PO & SD & P1 & Q1 & CS & PF & QF).
  fold c in CT, SC, WT.
  set (wb := Workbook [("Components", Table (map (format_column fmt) comps) (components_rules (fold_right Nat.max 0%nat (map column_rows comps)) (map col_name comps)));
               ("Integrals", summary_sheet fmt (integral_table (rr_flow rr) (rr_clr rr)));
               ("IC_at_reference_height", summary_sheet fmt ic)]%string).
  exists wb, comps, ic, polys, p, q. intros d1. repeat (split; [assumption|]).
  split. { do 3 eexists. unfold wb, summary_sheet. reflexivity. }
  assert (MK : exists d0, makedirs name d = (d0, Ok tt) /\ d_dir d0 name = true /\ (forall x, d_dir d0 x = String.eqb x name || d_dir d x) /\ d_file d0 = d_file d).
  { unfold makedirs. destruct U as [D|D].
    - rewrite D. exists d. split; [reflexivity|]. repeat split; auto. intros x. destruct (String.eqb_spec x name) as [->|]; auto.
    - rewrite D. destruct (d_dir d name) eqn:DD; cbn [orb].
      + exists d. split; [reflexivity|]. repeat split; auto. intros x. destruct (String.eqb_spec x name) as [->|]; auto.
      + destruct PN as [N _]. apply String.eqb_neq in N. rewrite N. eexists. split; [reflexivity|]. cbn [d_dir d_file]. rewrite String.eqb_refl. auto. }
  destruct MK as (d0 & MK & DN & DD & DF).
  set (d1' := Disk (d_dir d0) (fun x => if String.eqb x xlsx then Some wb else d_file d x)).
  assert (SV : save_results_to_file fmt (rr_vlm rr) (Wind_profile (ca_cond ca)) c (rr_flow rr) (rr_clr rr) (rr_set rr) (Some name) (Some file) d = (d1', Ok tt)).
  { unfold save_results_to_file. rewrite (io_bind_ret _ _ _ _ CT). cbv beta zeta. erewrite io_bind_ret; [|rewrite PS; cbn [bind]; rewrite SC; exact WT]. cbv beta.
    erewrite io_bind_ret; [|reflexivity]. erewrite io_bind_ret; [|reflexivity]. unfold save_to_excel. cbv zeta. rewrite (io_bind_ok _ _ _ _ _ MK).
    unfold write. rewrite DN, join_plain; [|assumption|apply app_ne_slash; exact RF]. rewrite DF. reflexivity. }
  assert (DN1 : forall fl : string -> option (content R), d_dir (Disk (d_dir d0) fl) name = true) by (intros; exact DN).
  split.
  - intros e CE. exists d1'. split; [|split; [exact DD|reflexivity]].
    unfold cli_main. cbv zeta. rewrite OUT. cbn [o_name o_file_name o_case_dir o_case_name]. rewrite (io_bind_ret _ _ _ _ RUN). cbv beta. fold c.
    rewrite (io_bind_ok _ _ _ _ _ SV). erewrite io_bind_ret; [|reflexivity]. erewrite io_bind_ret; [|reflexivity]. erewrite io_bind_ret; [|reflexivity].
    apply io_bind_raise. rewrite (join_plain name case_name PN RC). fold src dst.
    revert CE. unfold copy, write, d1. cbn [d_dir d_file d1']. destruct (if String.eqb src xlsx then _ else _); [|intros X; injection X as <-; reflexivity].
    destruct (String.eqb src dst); [intros X; injection X as <-; reflexivity|]. rewrite String.eqb_refl. cbn [orb]. discriminate.
  - intros y VI Y NE. destruct (AR VI) as [fig AR']. eexists. split; [|split].
    + unfold cli_main. cbv zeta. rewrite OUT. cbn [o_name o_file_name o_case_dir o_case_name]. rewrite (io_bind_ret _ _ _ _ RUN). cbv beta. fold c.
      rewrite (io_bind_ok _ _ _ _ _ SV). erewrite io_bind_ret; [|reflexivity]. erewrite io_bind_ret; [|reflexivity]. erewrite io_bind_ret; [|reflexivity].
      rewrite (join_plain name case_name PN RC). fold src dst.
      erewrite io_bind_ok. 2:{ unfold copy. change (d_file d1' src) with (d_file d1 src). rewrite Y. apply String.eqb_neq in NE. rewrite NE. unfold write. unfold d1'. rewrite DN1. reflexivity. }
      rewrite (io_bind_ret _ _ _ _ AR'). cbv beta. rewrite (io_bind_ret _ _ _ _ PO). cbv beta.
      erewrite io_bind_ok; [|unfold write; cbn [d_dir]; rewrite DN; reflexivity].
      unfold section_data in SD. rewrite (io_bind_ret _ _ _ _ SD). cbv beta iota.
      rewrite (io_bind_ret _ _ _ _ P1). cbv beta. rewrite PF, QF || rewrite PF.
      erewrite io_bind_ok; [|unfold write; cbn [d_dir]; rewrite DN; reflexivity].
      rewrite (io_bind_ret _ _ _ _ Q1). cbv beta. rewrite QF.
      erewrite io_bind_ok; [|unfold write; cbn [d_dir]; rewrite DN; reflexivity]. reflexivity.
    + intros x. cbn [d_dir]. apply DD.
    + intros x. cbn [d_file]. reflexivity.
Qed.
End Files.

(** A finished run leaves the workbook, a copy of the case file and three plots, and touches nothing else. *)
Theorem C70_files : forall spline fmt ca (rr : @run_result R) name file case_dir case_name d y,
  (0 < sv_ns (ca_solver ca))%nat -> (0 < sv_nc (ca_solver ca))%nat ->
  run spline (ca_cond ca) (ca_solver ca) (ca_rig ca) (Some (ca_main ca)) (Some (ca_jib ca)) (ca_ref ca) (ca_clr ca) = Ok rr ->
  visible (ss_panels (rr_set rr)) ->
  ca_out ca = Output_ (Some case_name) (Some case_dir) (Some name) (Some file) ->
  plain name -> relative file -> relative case_name -> usable d name ->
  ~ In case_name [(file ++ ".xlsx")%string; "cp_plot.html"%string; "section_cl.png"%string; "section_cd.png"%string] ->
  path_join case_dir case_name <> in_dir name (file ++ ".xlsx") -> path_join case_dir case_name <> in_dir name case_name ->
  d_file d (path_join case_dir case_name) = Some y ->
  let c := Csys (cd_heel (ca_cond ca)) (cd_leeway (ca_cond ca)) (ca_ref ca) in
  exists d' wb comps ic polys p q, cli_main spline fmt ca d = (d', Ok rr) /\
    components_table (rr_vlm rr) c (rr_flow rr) (rr_set rr) = Ok comps /\ wind_table (Wind_profile (ca_cond ca)) c = Ok ic /\
    cli_plot_cp rr = Ok polys /\ cli_section_plots (rr_vlm rr) = Ok (p, q) /\
    rounded_workbook fmt wb comps (integral_table (rr_flow rr) (rr_clr rr)) ic /\
    let files := [(file ++ ".xlsx", wb); (case_name, y); ("cp_plot.html", PressurePlot polys);
                  ("section_cl.png", SectionPlot (pl_points p)); ("section_cd.png", SectionPlot (pl_points q))]%string in
    (forall f x, In (f, x) files -> d_file d' (in_dir name f) = Some x) /\
    (forall z, (forall f x, In (f, x) files -> z <> in_dir name f) -> d_file d' z = d_file d z) /\
    (forall z, d_dir d' z = true <-> z = name \/ d_dir d z = true).
Proof.
  intros sp fmt ca rr name file cdir cname d y NS NC RUN VI OUT PN RF RC U NI N1 N2 Y c.
  destruct (saved sp fmt ca rr name file cdir cname NS NC RUN OUT PN RF RC d U) as (wb & comps & ic & polys & p & q & CT & WT & PO & CS & RW & _ & FIN). fold c in CT, WT.
  destruct (FIN y VI) as (d' & E & DD & DF).
  { cbn [d_file]. apply String.eqb_neq in N1. rewrite N1. exact Y. } { exact N2. }
  exists d', wb, comps, ic, polys, p, q. do 6 (split; [assumption|]).
  assert (NE : forall a b, a <> b -> String.eqb (in_dir name a) (in_dir name b) = false) by (intros a b N; apply String.eqb_neq; intros X; apply N; exact (in_dir_inj _ _ _ X)).
  assert (NX : forall g, In g ["cp_plot.html"; "section_cl.png"; "section_cd.png"]%string -> (file ++ ".xlsx")%string <> g) by (intros; apply xlsx_not; assumption).
  cbn [d_file d_dir] in DF, DD. split; [|split].
  - intros f x I. rewrite DF. simpl in NI. destruct I as [X|[X|[X|[X|[X|[]]]]]]; injection X as <- <-.
    + rewrite !NE by first [apply NX; simpl; tauto | intros X; apply NI; left; congruence]. rewrite ?String.eqb_refl. reflexivity.
    + rewrite !NE by (intros X; apply NI; rewrite X; tauto). rewrite String.eqb_refl. reflexivity.
    + rewrite !NE by discriminate. rewrite String.eqb_refl. reflexivity.
    + rewrite !NE by discriminate. rewrite String.eqb_refl. reflexivity.
    + rewrite String.eqb_refl. reflexivity.
  - intros z N. rewrite DF.
    assert (Q : forall f x, In (f, x) [(file ++ ".xlsx", wb); (cname, y); ("cp_plot.html", PressurePlot polys);
                  ("section_cl.png", SectionPlot (pl_points p)); ("section_cd.png", SectionPlot (pl_points q))]%string -> String.eqb z (in_dir name f) = false).
    { intros f x I. apply String.eqb_neq. exact (N f x I). }
    rewrite (Q _ _ (or_introl eq_refl)), (Q _ _ (or_intror (or_introl eq_refl))), (Q _ _ (or_intror (or_intror (or_introl eq_refl)))),
      (Q _ _ (or_intror (or_intror (or_intror (or_introl eq_refl))))), (Q _ _ (or_intror (or_intror (or_intror (or_intror (or_introl eq_refl)))))). reflexivity.
  - intros z. rewrite DD, orb_true_iff, String.eqb_eq. reflexivity.
Qed.

(** A computation that raises leaves the disk as it was. *)
Theorem C70_nothing_on_error : forall spline fmt ca (d : disk R) e,
  run spline (ca_cond ca) (ca_solver ca) (ca_rig ca) (Some (ca_main ca)) (Some (ca_jib ca)) (ca_ref ca) (ca_clr ca) = Raise e ->
  cli_main spline fmt ca d = (d, Raise e).
Proof. intros sp fmt ca d e E. unfold cli_main, io_ret. cbv zeta. rewrite E. reflexivity. Qed.

(** The case file decides whether a finished run gets its plots: absent, or the target itself, it stops the program after the workbook. *)
Theorem C70_case_file : forall spline fmt ca (rr : @run_result R) name file case_dir case_name d,
  (0 < sv_ns (ca_solver ca))%nat -> (0 < sv_nc (ca_solver ca))%nat ->
  run spline (ca_cond ca) (ca_solver ca) (ca_rig ca) (Some (ca_main ca)) (Some (ca_jib ca)) (ca_ref ca) (ca_clr ca) = Ok rr ->
  visible (ss_panels (rr_set rr)) ->
  ca_out ca = Output_ (Some case_name) (Some case_dir) (Some name) (Some file) ->
  plain name -> relative file -> relative case_name -> usable d name ->
  path_join case_dir case_name <> in_dir name (file ++ ".xlsx") ->
  (exists e, snd (cli_main spline fmt ca d) = Raise e) <->
    d_file d (path_join case_dir case_name) = None \/ path_join case_dir case_name = in_dir name case_name.
Proof.
  intros sp fmt ca rr name file cdir cname d NS NC RUN VI OUT PN RF RC U N1.
  destruct (saved sp fmt ca rr name file cdir cname NS NC RUN OUT PN RF RC d U) as (wb & comps & ic & polys & p & q & CT & WT & PO & CS & RW & ERR & FIN).
  cbn [d_file] in *. assert (N1' := N1). apply String.eqb_neq in N1'. unfold copy in ERR. cbn [d_file] in ERR. rewrite N1' in ERR, FIN.
  destruct (d_file d (path_join cdir cname)) as [y|] eqn:Y.
  - destruct (String.eqb_spec (path_join cdir cname) (in_dir name cname)) as [Q|Q].
    + destruct (ERR SameFileError eq_refl) as (d' & E & _). rewrite E. split; [auto|intros _; eexists; reflexivity].
    + destruct (FIN y VI eq_refl Q) as (d' & E & _). rewrite E. split; [intros [e X]; discriminate X | intros [X|X]; [discriminate|contradiction]].
  - destruct (ERR FileNotFoundError eq_refl) as (d' & E & _). rewrite E. split; [auto|intros _; eexists; reflexivity].
Qed.
Theorem C70_stopped : forall spline fmt ca (rr : @run_result R) name file case_dir case_name d,
  (0 < sv_ns (ca_solver ca))%nat -> (0 < sv_nc (ca_solver ca))%nat ->
  run spline (ca_cond ca) (ca_solver ca) (ca_rig ca) (Some (ca_main ca)) (Some (ca_jib ca)) (ca_ref ca) (ca_clr ca) = Ok rr ->
  ca_out ca = Output_ (Some case_name) (Some case_dir) (Some name) (Some file) ->
  plain name -> relative file -> relative case_name -> usable d name ->
  path_join case_dir case_name <> in_dir name (file ++ ".xlsx") ->
  d_file d (path_join case_dir case_name) = None \/ path_join case_dir case_name = in_dir name case_name ->
  exists d' wb, cli_main spline fmt ca d =
      (d', Raise match d_file d (path_join case_dir case_name) with None => FileNotFoundError | Some _ => SameFileError end) /\
    d_file d' (in_dir name (file ++ ".xlsx")) = Some wb /\ (exists comps ic, rounded_workbook fmt wb comps (integral_table (rr_flow rr) (rr_clr rr)) ic) /\
    forall z, z <> in_dir name (file ++ ".xlsx") -> d_file d' z = d_file d z.
Proof.
  intros sp fmt ca rr name file cdir cname d NS NC RUN OUT PN RF RC U N1 H.
  destruct (saved sp fmt ca rr name file cdir cname NS NC RUN OUT PN RF RC d U) as (wb & comps & ic & polys & p & q & CT & WT & PO & CS & RW & ERR & FIN).
  cbn [d_file] in *. assert (N1' := N1). apply String.eqb_neq in N1'. unfold copy in ERR. cbn [d_file] in ERR. rewrite N1' in ERR.
  assert (L : forall e d', (forall x, d_file d' x = d_file {| d_dir := fun x => (x =? name)%string || d_dir d x; d_file := fun x => if (x =? in_dir name (file ++ ".xlsx"))%string then Some wb else d_file d x |} x) ->
     cli_main sp fmt ca d = (d', Raise e) -> exists d' wb, cli_main sp fmt ca d = (d', Raise e) /\
    d_file d' (in_dir name (file ++ ".xlsx")) = Some wb /\ (exists comps ic, rounded_workbook fmt wb comps (integral_table (rr_flow rr) (rr_clr rr)) ic) /\
    forall z, z <> in_dir name (file ++ ".xlsx") -> d_file d' z = d_file d z).
  { intros e d' DF E. exists d', wb. split; [exact E|]. cbn [d_file] in DF. split; [rewrite DF, String.eqb_refl; reflexivity|]. split; [eauto|].
    intros z N. rewrite DF. apply String.eqb_neq in N. rewrite N. reflexivity. }
  destruct (d_file d (path_join cdir cname)) as [y|] eqn:Y.
  - destruct H as [H|H]; [discriminate|]. apply String.eqb_eq in H. rewrite H in ERR. destruct (ERR SameFileError eq_refl) as (d' & E & _ & DF). exact (L _ _ DF E).
  - destruct (ERR FileNotFoundError eq_refl) as (d' & E & _ & DF). exact (L _ _ DF E).
Qed.

Definition demo_case (out : output) : case R :=
  Case out L_Runner.demo_conditions demo_solver (demo_rig (Some 4)) demo_main demo_main szero szero.
Lemma demo_case_run spline out : let ca := demo_case out in exists rr,
  run spline (ca_cond ca) (ca_solver ca) (ca_rig ca) (Some (ca_main ca)) (Some (ca_jib ca)) (ca_ref ca) (ca_clr ca) = Ok rr /\ visible (ss_panels (rr_set rr)).
Proof.
  destruct (demo_run spline 4 szero) as (rr & s & E & _ & _ & _ & P & _). exists rr. split; [exact E|]. rewrite P.
  destruct demo_tallest as [_ (p & e & Q & I & X)]. exists p, e. split; [exact Q|]. split; [exact I|]. intros Z. rewrite Z, Rabs_R0 in X. lra.
Qed.
(** a disk with the given files and directories *)
Definition demo_disk (dirs : list string) (files : list (string * string)) : disk R :=
  Disk (fun p => existsb (String.eqb p) dirs) (fun p => option_map Other (value_of files p)).

Example C70_case : forall spline fmt,
  let d := demo_disk ["/home/me"; "old"]%string [("/home/me/variables.py", "my case"); ("old/run.xlsx", "an old workbook")]%string in
  let ca := demo_case (Output_ (Some "variables.py") (Some "/home/me") (Some "old") (Some "run"))%string in
  exists rr d' wb, cli_main spline fmt ca d = (d', Ok rr) /\
    d_file d' "old/run.xlsx" = Some (Workbook wb) /\ d_file d' "old/variables.py" = Some (Other "my case") /\
    d_file d' "/home/me/variables.py" = Some (Other "my case") /\ d_file d' "run.xlsx" = None /\
    (exists ps, d_file d' "old/cp_plot.html" = Some (PressurePlot ps)).
Proof.
  intros sp fmt d ca. destruct (demo_case_run sp (ca_out ca)) as (rr & RUN & VI).
  destruct (C70_files sp fmt ca rr "old" "run" "/home/me" "variables.py" d (Other "my case")) as (d' & wb & comps & ic & polys & p & q & E & _ & _ & _ & _ & (r1 & r2 & r3 & W) & IN & OUT & _);
    try reflexivity; try (apply Nat.lt_0_1); try exact RUN; try exact VI.
  { split; [discriminate|reflexivity]. } { left. reflexivity. } { intros [X|[X|[X|[X|[]]]]]; discriminate X. } { discriminate. } { discriminate. }
  exists rr, d'. rewrite W in IN. eexists. split; [exact E|].
  split; [apply (IN "run.xlsx"%string); left; reflexivity|]. split; [apply (IN "variables.py"%string); right; left; reflexivity|].
  split; [rewrite OUT; [reflexivity|]|split; [rewrite OUT; [reflexivity|]|]].
  - intros f x [X|[X|[X|[X|[X|[]]]]]]; injection X as <- _; discriminate.
  - intros f x [X|[X|[X|[X|[X|[]]]]]]; injection X as <- _; discriminate.
  - exists polys. apply (IN "cp_plot.html"%string). right. right. left. reflexivity.
Qed.

(** The claim "the copy kept beside the results is the case that was run, and a run that can be computed gets its plots" fails:
    with the shipped settings (case_dir = the working directory) and the case in another directory [--dvars], a different file of
    the same name is kept, or the program stops before the plots; with output_args omitted the package's own container.py is kept. *)
Theorem C70_case_copy_refuted : forall spline fmt,
  exists (cwd dvars : string) (modules : string -> module_file),
    load_variable_module ["/usr/bin"]%string modules dvars = Ok dvars /\ modules dvars = Loads /\
    let ca := demo_case (Output_ (Some "variables.py"%string) (Some cwd) (Some "res"%string) (Some "run"%string)) in
    (exists d d' rr, d_file d (path_join dvars "variables.py") = Some (Other "the case") /\ cli_main spline fmt ca d = (d', Ok rr) /\
       d_file d' "res/variables.py" = Some (Other "another case")) /\
    (exists d d' wb, d_file d (path_join dvars "variables.py") = Some (Other "the case") /\ cli_main spline fmt ca d = (d', Raise FileNotFoundError) /\
       d_file d' "res/run.xlsx" = Some (Workbook wb) /\
       d_file d' "res/cp_plot.html" = None /\ d_file d' "res/section_cl.png" = None /\ d_file d' "res/section_cd.png" = None) /\
    let ca0 := demo_case (Output "/pkg/runner" "2022" Omitted Omitted (Given (Some "res")) Omitted)%string in
    (exists d d' rr, d_file d (path_join dvars "variables.py") = Some (Other "the case") /\ cli_main spline fmt ca0 d = (d', Ok rr) /\
       d_file d' "res/container.py" = Some (Other "the library") /\ d_file d' "res/variables.py" = None).
Proof.
  intros sp fmt. exists "/home/me"%string, "/cases/one"%string, (fun p => if String.eqb p "/cases/one" then Loads else NoModule).
  split; [reflexivity|]. split; [reflexivity|]. intros ca.
  assert (PL : plain "res") by (split; [discriminate|reflexivity]).
  split; [|split].
  - set (d := demo_disk [] [("/cases/one/variables.py", "the case"); ("/home/me/variables.py", "another case")]%string).
    destruct (demo_case_run sp (ca_out ca)) as (rr & RUN & VI).
    destruct (C70_files sp fmt ca rr "res" "run" "/home/me" "variables.py" d (Other "another case")) as (d' & wb & comps & ic & polys & p & q & E & _ & _ & _ & _ & _ & IN & _);
      try reflexivity; try (apply Nat.lt_0_1); try exact RUN; try exact VI; try assumption; try discriminate.
    { right. reflexivity. } { intros [X|[X|[X|[X|[]]]]]; discriminate X. }
    exists d, d', rr. split; [reflexivity|]. split; [exact E|]. apply (IN "variables.py"%string). right. left. reflexivity.
  - set (d := demo_disk [] [("/cases/one/variables.py", "the case")]%string).
    destruct (demo_case_run sp (ca_out ca)) as (rr & RUN & VI).
    destruct (C70_stopped sp fmt ca rr "res" "run" "/home/me" "variables.py" d) as (d' & wb & E & W & (comps & ic & r1 & r2 & r3 & WB) & OUT);
      try reflexivity; try (apply Nat.lt_0_1); try exact RUN; try exact VI; try assumption; try discriminate.
    { right. reflexivity. } { left. reflexivity. }
    exists d, d'. rewrite WB in W. eexists. split; [reflexivity|]. split; [exact E|]. split; [exact W|].
    split; [|split]; (rewrite OUT; [reflexivity|discriminate]).
  - intros ca0. set (d := demo_disk [] [("/cases/one/variables.py", "the case"); ("/pkg/runner/container.py", "the library")]%string).
    destruct (demo_case_run sp (ca_out ca0)) as (rr & RUN & VI).
    destruct (C70_files sp fmt ca0 rr "res" "my_fancy_results" "/pkg/runner" "container.py" d (Other "the library")) as (d' & wb & comps & ic & polys & p & q & E & _ & _ & _ & _ & _ & IN & OUT & _);
      try reflexivity; try (apply Nat.lt_0_1); try exact RUN; try exact VI; try assumption; try discriminate.
    { right. reflexivity. } { intros [X|[X|[X|[X|[]]]]]; discriminate X. }
    exists d, d', rr. split; [reflexivity|]. split; [exact E|]. split; [apply (IN "container.py"%string); right; left; reflexivity|].
    rewrite OUT; [reflexivity|]. intros f x [X|[X|[X|[X|[X|[]]]]]]; injection X as <- _; discriminate.
Qed.
Print Assumptions C70_files.
Print Assumptions C70_nothing_on_error.
Print Assumptions C70_case_file.
Print Assumptions C70_stopped.
Print Assumptions C70_case_copy_refuted.
