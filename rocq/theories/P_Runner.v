(** The command line program: variables module, configuration checks, plot labels: C54, C55, C62. *)

From Coq Require Import String ZArith Reals List Bool Lra Psatz Lia Arith.
From Verif Require Import Num PyBase RNum Spec M_Csys M_Panels M_Airfoil M_Coefs M_Forces M_Winds M_Vlm M_Interp M_Sail M_Results M_Hull M_Runner
  L_List L_Rot L_Vel L_Csys L_Airfoil L_Sail L_Lattice L_Vlm L_Results P_Airfoil P_Sail P_Interp P_Coefs.
Import ListNotations.
Open Scope R_scope.

(** ** C54 *)
Lemma import_spec path files : forall r, import_variables path files = r ->
  (exists a d b, path = a ++ d :: b /\ (forall x, In x a -> files x = NoModule) /\
     (files d = Loads /\ r = Ok d \/ exists e, files d = Raises e /\ r = Raise e)) \/
  (forall x, In x path -> files x = NoModule) /\ r = Raise ImportError.
Proof.
  induction path as [|d path IH]; intros r E; simpl in E.
  - right. split; [intros x []|congruence].
  - destruct (files d) eqn:F.
    + destruct (IH r E) as [(a & d' & b & -> & A & R)|[A ->]].
      * left. exists (d :: a), d', b. split; [reflexivity|]. split; [intros x [<-|I]; auto|exact R].
      * right. split; [intros x [<-|I]; auto|reflexivity].
    + left. exists [], d, path. split; [reflexivity|]. split; [intros x []|]. left. auto.
    + left. exists [], d, path. split; [reflexivity|]. split; [intros x []|]. right. eauto.
Qed.
Lemma import_first a d b files : (forall x, In x a -> files x = NoModule) -> files d <> NoModule ->
  import_variables (a ++ d :: b) files = match files d with Raises e => Raise e | _ => Ok d end.
Proof.
  intros A D. induction a as [|x a IH]; simpl.
  - destruct (files d); [contradiction|reflexivity..].
  - rewrite (A x) by (left; reflexivity). apply IH. intros y I. apply A. right. exact I.
Qed.

(** the module used is that of the first directory of the module path that has one; dvars comes last *)
Theorem C54_used : forall sys_path files dvars d,
  load_variable_module sys_path files dvars = Ok d <->
  exists before after, sys_path ++ [dvars] = before ++ d :: after /\ (forall x, In x before -> files x = NoModule) /\ files d = Loads.
Proof.
  intros path files dv d. unfold load_variable_module. split.
  - intros E. destruct (import_spec (path ++ [dv]) files _ eq_refl) as [(a & d' & b & P & A & [[L R]|(e & L & R)])|[A R]]; rewrite R in E.
    + injection E as ->. exists a, b. auto.
    + destruct e; discriminate.
    + discriminate.
  - intros (a & b & -> & A & L). rewrite import_first by (auto; congruence). rewrite L. reflexivity.
Qed.
(** so a module anywhere on the path before dvars is used instead of the one asked for *)
Theorem C54_shadowed : forall a d b files dvars, (forall x, In x a -> files x = NoModule) -> files d = Loads ->
  load_variable_module (a ++ d :: b) files dvars = Ok d.
Proof.
  intros a d b files dv A L. apply C54_used. exists a, (b ++ [dv]). split; [rewrite <- app_assoc; reflexivity|]. auto.
Qed.
(** the module of dvars is used exactly when no other directory has one (or is the same directory) *)
Theorem C54_dvars : forall sys_path files dvars, files dvars = Loads ->
  (load_variable_module sys_path files dvars = Ok dvars <->
   (forall x, In x sys_path -> files x = NoModule) \/ exists a b, sys_path = a ++ dvars :: b /\ forall x, In x a -> files x = NoModule).
Proof.
  intros path files dv L. rewrite C54_used. split.
  - intros (a & b & P & A & _). destruct b as [|y b] using rev_ind.
    + apply app_inj_tail in P. destruct P as [-> _]. left. exact A.
    + rewrite app_comm_cons, app_assoc in P. apply app_inj_tail in P. destruct P as [-> _]. right. exists a, b. auto.
  - intros [A|(a & b & -> & A)].
    + exists path, []. auto.
    + exists a, (b ++ [dv]). split; [rewrite <- app_assoc; reflexivity|]. auto.
Qed.
(** when no directory has the module, or the module itself fails to import something: status 0 *)
Theorem C54_status : forall sys_path files dvars e,
  load_variable_module sys_path files dvars = Raise e <->
  e = SystemExit 0 /\ (forall x, In x (sys_path ++ [dvars]) -> files x = NoModule) \/
  exists before d after e', sys_path ++ [dvars] = before ++ d :: after /\ (forall x, In x before -> files x = NoModule) /\ files d = Raises e' /\
    e = match e' with ImportError => SystemExit 0 | _ => e' end.
Proof.
  intros path files dv e. unfold load_variable_module. split.
  - intros E. destruct (import_spec (path ++ [dv]) files _ eq_refl) as [(a & d' & b & P & A & [[L R]|(e' & L & R)])|[A R]]; rewrite R in E.
    + discriminate.
    + right. exists a, d', b, e'. repeat (split; [assumption|]). destruct e'; congruence.
    + left. split; [congruence|assumption].
  - intros [[-> A]|(a & d & b & e' & -> & A & L & ->)].
    + destruct (import_spec (path ++ [dv]) files _ eq_refl) as [(a & d' & b & P & _ & Q)|[_ R]].
      * assert (N : files d' = NoModule) by (apply A; rewrite P; apply in_or_app; right; left; reflexivity). destruct Q as [[L _]|(e & L & _)]; congruence.
      * rewrite R. reflexivity.
    + rewrite import_first by (auto; congruence). rewrite L. destruct e'; reflexivity.
Qed.
Theorem C54_refuted :
  (exists sys_path files dvars, files dvars = Loads /\ load_variable_module sys_path files dvars <> Ok dvars) /\
  (exists sys_path files dvars n, files dvars = NoModule /\ load_variable_module sys_path files dvars = Raise (SystemExit n) /\ n = 0%Z) /\
  (exists sys_path files dvars n, files dvars = Raises ImportError /\ load_variable_module sys_path files dvars = Raise (SystemExit n) /\ n = 0%Z).
Proof.
  split; [|split].
  - exists ["cwd"%string], (fun _ => Loads), "case"%string. split; [reflexivity|]. cbv. discriminate.
  - exists ["cwd"%string], (fun _ => NoModule), "case"%string, 0%Z. repeat split.
  - exists ["cwd"%string], (fun d => if String.eqb d "case" then Raises ImportError else NoModule), "case"%string, 0%Z. repeat split.
Qed.
Example C54_case : let files d := if String.eqb d "cwd" then NoModule else Loads in
  load_variable_module ["cwd"; "lib"]%string files "case" = Ok "lib"%string /\ load_variable_module ["cwd"]%string files "case" = Ok "case"%string /\
  load_variable_module ["cwd"]%string (fun _ => NoModule) "case" = Raise (SystemExit 0).
Proof. repeat split. Qed.

(** ** C55 *)
Section Config.
Context {F : Type} {NF : Num F}.
Implicit Types (r : @rig F) (s j m : @sail_def F).
(** the arrays of a sail that the check looks at are present and equally long *)
Definition arrays_ok s : Prop := exists g t c d, sd_girths s = Some g /\ sd_twist s = Some t /\ sd_camber s = Some c /\ sd_dist s = Some d /\
  length t = length g /\ length c = length g /\ length d = length g.
Definition jib_ok r s : Prop := rg_base r <> None /\ rg_height r <> None /\ rg_jib_luff r <> None /\ arrays_ok s.
Definition main_ok r s : Prop := rg_main_luff r <> None /\ arrays_ok s.

Lemma check_shapes s : sd_girths s <> None -> sd_twist s <> None -> sd_camber s <> None -> sd_dist s <> None ->
  (arrays_ok s /\ check_input_arr_shapes (sail_arrays s) = Ok tt) \/ (~ arrays_ok s /\ check_input_arr_shapes (sail_arrays s) = Raise ValueError).
Proof.
  unfold arrays_ok, check_input_arr_shapes, sail_arrays. cbn [hd mapM]. destruct (sd_girths s) as [g|], (sd_twist s) as [t|], (sd_camber s) as [c|], (sd_dist s) as [d|]; try contradiction.
  intros _ _ _ _. rewrite Nat.eqb_refl. unfold guard, bind.
  destruct (Nat.eqb_spec (length t) (length g)); [|right; split; [|reflexivity]; intros (g' & t' & c' & d' & G & T & C & D & X & Y & Z); congruence].
  destruct (Nat.eqb_spec (length c) (length g)); [|right; split; [|reflexivity]; intros (g' & t' & c' & d' & G & T & C & D & X & Y & Z); congruence].
  destruct (Nat.eqb_spec (length d) (length g)); [|right; split; [|reflexivity]; intros (g' & t' & c' & d' & G & T & C & D & X & Y & Z); congruence].
  left. split; [exists g, t, c, d; auto 10|reflexivity].
Qed.
Lemma arrays_ok_some s : arrays_ok s -> sd_girths s <> None /\ sd_twist s <> None /\ sd_camber s <> None /\ sd_dist s <> None.
Proof. intros (g & t & c & d & -> & -> & -> & -> & _). repeat split; discriminate. Qed.
Lemma is_none_spec {A} (o : option A) : is_none o = false <-> o <> None.
Proof. destruct o; simpl; split; congruence. Qed.
Lemma jib_none_spec r s : jib_none r s = false <-> rg_base r <> None /\ rg_height r <> None /\ rg_jib_luff r <> None /\ sd_girths s <> None /\ sd_twist s <> None /\ sd_camber s <> None /\ sd_dist s <> None.
Proof. unfold jib_none. rewrite !orb_false_iff, !is_none_spec. tauto. Qed.
Lemma main_none_spec r s : main_none r s = false <-> rg_main_luff r <> None /\ sd_girths s <> None /\ sd_twist s <> None /\ sd_camber s <> None /\ sd_dist s <> None.
Proof. unfold main_none. rewrite !orb_false_iff, !is_none_spec. tauto. Qed.
Lemma jib_step r j : (jib_ok r j /\ jib_none r j = false /\ check_input_arr_shapes (sail_arrays j) = Ok tt) \/
  (~ jib_ok r j /\ (jib_none r j = true \/ jib_none r j = false /\ check_input_arr_shapes (sail_arrays j) = Raise ValueError)).
Proof.
  destruct (jib_none r j) eqn:E.
  - right. split; [|auto]. intros (A & B & C & D). apply arrays_ok_some in D. assert (jib_none r j = false) by (apply jib_none_spec; tauto). congruence.
  - apply jib_none_spec in E. destruct E as (A & B & C & D1 & D2 & D3 & D4). destruct (check_shapes j D1 D2 D3 D4) as [[O E]|[O E]]; rewrite E; unfold jib_ok; tauto.
Qed.
Lemma main_step r m : (main_ok r m /\ main_none r m = false /\ check_input_arr_shapes (sail_arrays m) = Ok tt) \/
  (~ main_ok r m /\ (main_none r m = true \/ main_none r m = false /\ check_input_arr_shapes (sail_arrays m) = Raise ValueError)).
Proof.
  destruct (main_none r m) eqn:E.
  - right. split; [|auto]. intros (A & D). apply arrays_ok_some in D. assert (main_none r m = false) by (apply main_none_spec; tauto). congruence.
  - apply main_none_spec in E. destruct E as (A & D1 & D2 & D3 & D4). destruct (check_shapes m D1 D2 D3 D4) as [[O E]|[O E]]; rewrite E; unfold main_ok; tauto.
Qed.
End Config.

(** the sails that sails_def names are checked: complete and consistent data passes, everything else ends the
    program with status 0 *)
Theorem C55_checked : forall (F : Type) (NF : Num F) (r : @rig F) j m,
  (rg_sails_def r = "jib"%string -> forall main,
     (jib_ok r j -> Sail_post_init r main (Some j) = Ok tt) /\ (~ jib_ok r j -> Sail_post_init r main (Some j) = Raise (SystemExit 0))) /\
  (rg_sails_def r = "main"%string -> forall jib,
     (main_ok r m -> Sail_post_init r (Some m) jib = Ok tt) /\ (~ main_ok r m -> Sail_post_init r (Some m) jib = Raise (SystemExit 0))) /\
  (rg_sails_def r = "jib_and_main"%string ->
     (jib_ok r j /\ main_ok r m -> Sail_post_init r (Some m) (Some j) = Ok tt) /\
     (~ (jib_ok r j /\ main_ok r m) -> Sail_post_init r (Some m) (Some j) = Raise (SystemExit 0))).
Proof.
  intros F NF r j m. unfold Sail_post_init. destruct (jib_step r j) as [(JO & JN & JS)|(JO & J)]; destruct (main_step r m) as [(MO & MN & MS)|(MO & M)];
    (split; [|split]); intros E; rewrite E; try intros other; simpl String.eqb; cbv iota; unfold bind, guard; (split; [intros X | intros X]);
    try (exfalso; tauto); rewrite ?JN, ?JS, ?MN, ?MS; try reflexivity;
    repeat match goal with
    | H : jib_none _ _ = true \/ _ |- _ => destruct H as [H|[H ?]]
    | H : main_none _ _ = true \/ _ |- _ => destruct H as [H|[H ?]]
    end; repeat match goal with H : jib_none _ _ = _ |- _ => rewrite H | H : main_none _ _ = _ |- _ => rewrite H end; simpl;
    repeat match goal with H : check_input_arr_shapes _ = _ |- _ => rewrite H end; reflexivity.
Qed.
(** the chords are never looked at *)
Theorem C55_chords_unchecked : forall (F : Type) (NF : Num F) (r : @rig F) main jib chords chords',
  let put c (s : @sail_def F) := SailDef (sd_twist s) (sd_girths s) c (sd_camber s) (sd_dist s) in
  Sail_post_init r (option_map (put chords) main) (option_map (put chords') jib) = Sail_post_init r main jib.
Proof. intros F NF r [m|] [j|] c c' put; reflexivity. Qed.
(** a sail with missing chords, or with chords of another length, fails afterwards when the geometry is made *)
Definition bad_chords {F} (s : @sail_def F) : Prop := exists g, sd_girths s = Some g /\ (sd_chords s = None \/ exists ch, sd_chords s = Some ch /\ length ch <> length g).
Theorem C55_chords_fail : forall (F : Type) (NF : Num F) spline sv (r : @rig F) main jib c, sv_interp sv = "linear"%string ->
  (In (rg_sails_def r) ["jib"; "jib_and_main"]%string -> (exists j, jib = Some j /\ bad_chords j) ->
     get_sail_set spline sv r main jib c = Raise TypeError \/ get_sail_set spline sv r main jib c = Raise ValueError) /\
  (rg_sails_def r = "main"%string -> (exists m, main = Some m /\ bad_chords m) ->
     get_sail_set spline sv r main jib c = Raise TypeError \/ get_sail_set spline sv r main jib c = Raise ValueError) /\
  (rg_sails_def r = "jib_and_main"%string -> (exists m, main = Some m /\ bad_chords m) -> forall ss, get_sail_set spline sv r main jib c <> Ok ss).
Proof.
  intros F NF spline sv r main jib c L. unfold get_sail_set. rewrite L.
  assert (X : forall g y, (length y : nat) <> length g -> interpolate_girths spline "linear" g y (sv_ns sv + 1) = Raise ValueError).
  { intros g y N. apply C23_rejections. left. congruence. }
  split; [|split].
  - intros [E|[E|[]]] (j & -> & g & G & [C|(ch & C & N)]); rewrite <- E; simpl String.eqb; simpl orb; cbv iota; unfold bind, need; rewrite G, C; [left; reflexivity|right|left; reflexivity|right];
      rewrite (X _ _ N); reflexivity.
  - intros E (j & -> & g & G & [C|(ch & C & N)]); rewrite E; simpl String.eqb; simpl orb; cbv iota; unfold bind, need; rewrite G, C; [left; reflexivity|right];
      rewrite (X _ _ N); reflexivity.
  - intros E (m & -> & g & G & H) ss. rewrite E; simpl String.eqb; simpl orb; cbv iota. match goal with |- bind ?x _ <> _ => destruct x; [|discriminate] end.
    unfold bind, need. rewrite G. destruct H as [C|(ch & C & N)]; rewrite C; [discriminate|]. rewrite (X _ _ N). discriminate.
Qed.
(** an unknown sails_def is accepted when both sails are given with consistent arrays; no sail set can be made *)
Theorem C55_unknown_name : forall (F : Type) (NF : Num F) (r : @rig F), ~ In (rg_sails_def r) ["jib"; "main"; "jib_and_main"]%string ->
  (forall j m, arrays_ok j -> arrays_ok m -> Sail_post_init r (Some m) (Some j) = Ok tt) /\
  forall spline sv main jib c, get_sail_set spline sv r main jib c = Raise ValueError.
Proof.
  intros F NF r N. assert (A : String.eqb (rg_sails_def r) "jib" = false /\ String.eqb (rg_sails_def r) "main" = false /\ String.eqb (rg_sails_def r) "jib_and_main" = false).
  { repeat split; apply String.eqb_neq; intros E; apply N; rewrite E; simpl; tauto. }
  destruct A as (A & B & C). split.
  - intros j m J M. unfold Sail_post_init. rewrite A, B, C. unfold bind.
    pose proof (arrays_ok_some _ J) as (J1 & J2 & J3 & J4). pose proof (arrays_ok_some _ M) as (M1 & M2 & M3 & M4).
    destruct (check_shapes j J1 J2 J3 J4) as [[_ ->]|[X _]]; [|contradiction]. destruct (check_shapes m M1 M2 M3 M4) as [[_ ->]|[X _]]; [|contradiction]. reflexivity.
  - intros. unfold get_sail_set. rewrite A, B, C. reflexivity.
Qed.
(** a sail that is named but was passed as None: UnboundLocalError *)
Theorem C55_missing_sail : forall (F : Type) (NF : Num F) (r : @rig F) main jib,
  (rg_sails_def r = "jib"%string /\ jib = None) \/ (rg_sails_def r = "main"%string /\ main = None) \/
  (rg_sails_def r = "jib_and_main"%string /\ (jib = None \/ main = None)) ->
  Sail_post_init r main jib = Raise UnboundLocalError.
Proof.
  intros F NF r main jib [[E ->]|[[E ->]|[E [-> | ->]]]]; unfold Sail_post_init; rewrite E; try reflexivity. simpl. destruct jib; reflexivity.
Qed.
(** the dataclasses: the twist of a MainSail or JibSail object is never missing, so that check cannot fail *)
Theorem C55_default_twist : forall (F : Type) (NF : Num F) twist girths chords camber dist,
  (forall s, MainSail twist girths chords camber dist = Ok s \/ JibSail twist girths chords camber dist = Ok s ->
     sd_twist s <> None /\ ((twist = Omitted \/ twist = Given None) -> forall g, sd_girths s = Some g -> exists t, sd_twist s = Some t /\ length t = length g)) /\
  (forall e, MainSail twist girths chords camber dist = Raise e \/ JibSail twist girths chords camber dist = Raise e ->
     e = TypeError /\ girths = Given None /\ (twist = Omitted \/ twist = Given None)) /\
  (girths = Given None -> twist = Omitted \/ twist = Given None ->
     MainSail twist girths chords camber dist = Raise TypeError /\ JibSail twist girths chords camber dist = Raise TypeError).
Proof.
  intros F NF tw gi ch ca di. split; [|split].
  - intros s E. unfold MainSail, JibSail in E. cbv zeta in E. destruct tw as [|[t|]], gi as [|[g|]]; simpl in E;
      destruct E as [E|E]; try discriminate; injection E as <-; cbn [sd_twist sd_girths]; (split; [discriminate|]); intros T g' G; try (destruct T; discriminate); injection G as <-;
      eexists; (split; [reflexivity|]); rewrite ?map_length; reflexivity.
  - intros e E. unfold MainSail, JibSail in E. cbv zeta in E. destruct tw as [|[t|]], gi as [|[g|]]; simpl in E; destruct E as [E|E]; try discriminate; injection E as <-; auto.
  - intros -> [-> | ->]; split; reflexivity.
Qed.
(** the default sails pass the check *)
Theorem C55_defaults : forall (F : Type) (NF : Num F) (r : @rig F), rg_base r <> None -> rg_height r <> None -> rg_jib_luff r <> None -> rg_main_luff r <> None ->
  exists m j, MainSail Omitted Omitted Omitted Omitted Omitted = Ok m /\ JibSail Omitted Omitted Omitted Omitted Omitted = Ok j /\
    main_ok r m /\ jib_ok r j /\ Sail_post_init r (Some m) (Some j) = Ok tt.
Proof.
  intros F NF r A B C D. do 2 eexists. split; [reflexivity|]. split; [reflexivity|].
  match goal with |- main_ok _ ?m /\ jib_ok _ ?j /\ _ => assert (M : main_ok r m); [|assert (J : jib_ok r j)] end.
  { split; [assumption|]. do 4 eexists. cbn [sd_girths sd_twist sd_camber sd_dist value]. repeat (split; [reflexivity|]). reflexivity. }
  { repeat (split; [assumption|]). do 4 eexists. cbn [sd_girths sd_twist sd_camber sd_dist value]. repeat (split; [reflexivity|]). reflexivity. }
  split; [exact M|]. split; [exact J|].
  destruct (in_dec string_dec (rg_sails_def r) ["jib"; "main"; "jib_and_main"]%string) as [I|I].
  - match goal with |- Sail_post_init r (Some ?m) (Some ?j) = _ => destruct (C55_checked F NF r j m) as (P1 & P2 & P3) end. destruct I as [E|[E|[E|[]]]]; symmetry in E; [apply (P1 E) | apply (P2 E) | apply (P3 E)]; eauto.
  - apply (C55_unknown_name F NF r I); [apply J | apply M].
Qed.
Theorem C55_refuted : exists (r : @rig R) m, rg_sails_def r = "main"%string /\ Sail_post_init r (Some m) None = Ok tt /\
  forall spline ns nc mode c, get_sail_set spline (Solver ns nc "linear" mode) r (Some m) None c = Raise ValueError.
Proof.
  exists (Rig (Some 10) None None None 1 1 90 0 "main"), (SailDef (Some [0; 10]) (Some [0; 1]) (Some [3]) (Some [0; 0]) (Some [1/2; 1/2])).
  split; [reflexivity|]. split; [reflexivity|]. intros. reflexivity.
Qed.
Example C55_case : let r sd := Rig (Some 10) (Some 9) (Some 11) (Some 4) 1 1 90 0 sd in let s := SailDef (Some [0; 10]) (Some [0; 1]) (Some [3; 2]) (Some [0; 0]) (Some [1/2; 1/2]) in
  let bad := SailDef (Some [0; 10; 20]) (Some [0; 1]) (Some [3; 2]) (Some [0; 0]) (Some [1/2; 1/2]) in
  jib_ok (r "jib"%string) s /\ main_ok (r "main"%string) s /\ ~ main_ok (r "main"%string) bad /\ arrays_ok s /\
  ~ In (rg_sails_def (r "genoa"%string)) ["jib"; "main"; "jib_and_main"]%string.
Proof.
  cbv zeta. assert (A : arrays_ok (SailDef (Some [0; 10]) (Some [0; 1]) (Some [3; 2]) (Some [0; 0]) (Some [1/2; 1/2]))).
  { do 4 eexists. cbn [sd_girths sd_twist sd_camber sd_dist]. repeat (split; [reflexivity|]). reflexivity. }
  split; [|split; [|split; [|split]]].
  - split; [discriminate|]. split; [discriminate|]. split; [discriminate|]. exact A.
  - split; [discriminate|]. exact A.
  - intros (_ & g & t & c & d & G & T & _ & _ & L & _). cbn [sd_girths sd_twist] in G, T. injection G as <-. injection T as <-. discriminate.
  - exact A.
  - simpl. intros [E|[E|[E|[]]]]; discriminate.
Qed.

Print Assumptions C54_used.
Print Assumptions C54_shadowed.
Print Assumptions C54_dvars.
Print Assumptions C54_status.
Print Assumptions C54_refuted.
Print Assumptions C55_checked.
Print Assumptions C55_chords_unchecked.
Print Assumptions C55_chords_fail.
Print Assumptions C55_unknown_name.
Print Assumptions C55_missing_sail.
Print Assumptions C55_default_twist.
Print Assumptions C55_defaults.
Print Assumptions C55_refuted.
