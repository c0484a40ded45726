(** Property C98: the plot of a mesh and the moments in centreline axes. *)

From Coq Require Import String ZArith Reals List Bool Lra Psatz Lia Arith.
From Verif Require Import Num PyBase RNum Spec M_Csys M_Panels M_Coefs M_Forces M_Winds M_Vlm M_Sail M_Results M_MeshPlot
  L_List L_Rot L_Vel L_Csys L_Sail L_Lattice L_Vlm L_Vlm2 L_Angle L_Results P_Results.
Import ListNotations.
Open Scope R_scope.

(** The coordinate an axis label names. *)
Definition named {F} (l : string) : option (vec F -> F) :=
  if String.eqb l "X" then Some (fun p => vx p) else if String.eqb l "Y" then Some (fun p => vy p)
  else if String.eqb l "Z" then Some (fun p => vz p) else None.
(** A curve runs through the points of a row: along each axis the coordinate that its label names. *)
Definition runs_through {F} (labels : list string) (row : list (vec F)) (colour : option string) (cv : list (list F) * option string) : Prop :=
  snd cv = colour /\ Forall2 (fun l vs => exists f, named l = Some f /\ vs = map f row) labels (fst cv).
Definition axis (d : Z) : Prop := (d = 0 \/ d = 1 \/ d = 2)%Z.
(** The name of an axis. *)
Definition name_of (d : Z) : string := match d with 0%Z => "X" | 1%Z => "Y" | _ => "Z" end.

Section Poly.
Context {F : Type} {NF : Num F}.

Lemma labels_ok dims ls : mapM axis_label dims = Ok ls -> Forall axis dims /\ ls = map name_of dims.
Proof.
  revert ls. induction dims as [|d dims IH]; cbn [mapM]; intros ls E; [injection E as <-; split; [constructor|reflexivity]|].
  destruct (axis_label d) as [l|] eqn:El; cbn [bind] in E; [|discriminate]. destruct (mapM axis_label dims) as [ls'|]; cbn [bind] in E; [|discriminate]. injection E as <-.
  destruct (IH _ eq_refl) as (A & ->). assert (X : axis d /\ l = name_of d).
  { unfold axis_label in El. destruct d as [|[p|[p|p|]|]|]; try discriminate; injection El as <-; (split; [unfold axis; lia|reflexivity]). }
  destruct X as (X & ->). split; [constructor; assumption|reflexivity].
Qed.
Lemma labels_axis dims : Forall axis dims -> mapM axis_label dims = Ok (map name_of dims).
Proof. intros A. apply mapM_map. intros d D. pose proof (proj1 (Forall_forall _ _) A d D) as [-> | [-> | ->]]; reflexivity. Qed.
Lemma labels_bad dims : ~ Forall axis dims -> mapM axis_label dims = Raise KeyError.
Proof.
  intros A. destruct (mapM axis_label dims) as [ls|e] eqn:E; [exfalso; apply A; exact (proj1 (labels_ok _ _ E))|].
  destruct (mapM_raise _ _ _ E) as (d & _ & D). unfold axis_label in D. destruct d as [|[p|[p|p|]|]|]; try discriminate; congruence.
Qed.
Lemma values_axis (row : list (vec F)) d : axis d -> exists f, named (name_of d) = Some f /\ axis_values row d = Ok (map f row).
Proof. intros [-> | [-> | ->]]; eexists; (split; [reflexivity|reflexivity]). Qed.

(** Which axes are labelled at all. *)
Definition labelled (dims : list Z) : Prop := length dims = 2%nat \/ length dims = 3%nat.
Definition curve_values (dims : list Z) (row : list (vec F)) : res (list (list F)) :=
  match dims with [a; b] => mapM (axis_values row) [a; b] | _ => Ok [map vx row; map vy row; map vz row] end.
Lemma curve_values_ok dims row : (length dims = 2%nat -> Forall axis dims) -> exists vs, curve_values dims row = Ok vs /\
  (length dims = 2%nat \/ dims = [0; 1; 2]%Z -> Forall2 (fun l vs => exists f, named l = Some f /\ vs = map f row) (map name_of dims) vs).
Proof.
  intros A. unfold curve_values. destruct dims as [|a [|b [|c dims]]].
  - eexists; split; [reflexivity|]. intros [L | L]; discriminate.
  - eexists; split; [reflexivity|]. intros [L | L]; discriminate.
  - specialize (A eq_refl). pose proof (Forall_inv A) as Xa. pose proof (Forall_inv (Forall_inv_tail A)) as Xb.
    destruct (values_axis row a Xa) as (f & Nf & Ef). destruct (values_axis row b Xb) as (g & Ng & Eg). cbn [mapM]. rewrite Ef, Eg. cbn [bind].
    eexists; split; [reflexivity|]. intros _. repeat constructor; [exists f|exists g]; auto.
  - eexists; split; [reflexivity|]. intros [L | L]; [discriminate|]. injection L as -> -> -> ->. repeat constructor; eexists; (split; [reflexivity|reflexivity]).
Qed.

Definition row_curves (m1 : list (list (vec F))) (m2 : option (list (list (vec F)))) dims (c1 c2 : option string) (i : nat) : res (list (list (list F) * option string)) :=
  do row <- py_nth m1 (Z.of_nat i);
  do c <- (do vs <- curve_values dims row; Ok (vs, c1));
  match m2 with
  | None => Ok [c]
  | Some m => do row2 <- py_nth m (Z.of_nat i); do c2 <- (do vs <- curve_values dims row2; Ok (vs, c2)); Ok [c; c2]
  end.
Lemma plot_mesh_eq (m1 : list (list (vec F))) m2 dims c1 c2 t : plot_mesh m1 m2 dims c1 c2 t =
  (do labels <- match dims with [_; _] | [_; _; _] => mapM axis_label dims | _ => Ok [] end;
   do curves <- mapM (row_curves m1 m2 dims c1 c2) (seq 0 (length m1)); Ok (MeshPlot t labels (List.concat curves))).
Proof. reflexivity. Qed.
Lemma labels_of dims : labelled dims -> match dims with [_; _] | [_; _; _] => mapM axis_label dims | _ => Ok [] end = mapM axis_label dims.
Proof. intros [L | L]; destruct dims as [|a [|b [|c [|d dims]]]]; try discriminate; reflexivity. Qed.

(** ** Accepted calls *)
(** The second mesh, if any, has a row for every row of the first. *)
Definition long_enough (m1 : list (list (vec F))) (m2 : option (list (list (vec F)))) : Prop := match m2 with None => True | Some m => (length m1 <= length m)%nat end.
Lemma row_curves_ok m1 m2 dims c1 c2 i row : (length dims = 2%nat -> Forall axis dims) -> nth_error m1 i = Some row ->
  (forall m, m2 = Some m -> (i < length m)%nat) -> exists cs, row_curves m1 m2 dims c1 c2 i = Ok cs.
Proof.
  intros A R M. unfold row_curves. rewrite (py_nth_nat _ _ _ R). cbn [bind]. destruct (curve_values_ok dims row A) as (vs & -> & _). cbn [bind].
  destruct m2 as [m|]; [|eexists; reflexivity]. specialize (M m eq_refl). destruct (nth_error m i) as [row2|] eqn:R2; [|apply nth_error_None in R2; lia].
  rewrite (py_nth_nat _ _ _ R2). cbn [bind]. destruct (curve_values_ok dims row2 A) as (vs2 & -> & _). cbn [bind]. eexists; reflexivity.
Qed.
End Poly.

(** The call is accepted exactly when the axes named are 0, 1 or 2 (asked only of two or three of them) and the
    second mesh is long enough; otherwise the exception is KeyError for the axes, IndexError for the mesh. *)
Theorem C98_accepts : forall (F : Type) (NF : Num F) (m1 : list (list (vec F))) m2 dims c1 c2 t,
  ((exists p, plot_mesh m1 m2 dims c1 c2 t = Ok p) <-> (labelled dims -> Forall axis dims) /\ long_enough m1 m2) /\
  (labelled dims -> ~ Forall axis dims -> plot_mesh m1 m2 dims c1 c2 t = Raise KeyError) /\
  ((labelled dims -> Forall axis dims) -> ~ long_enough m1 m2 -> plot_mesh m1 m2 dims c1 c2 t = Raise IndexError).
Proof.
  intros F NF m1 m2 dims c1 c2 t.
  assert (LB : (labelled dims -> Forall axis dims) -> exists ls, match dims with [_; _] | [_; _; _] => mapM axis_label dims | _ => Ok [] end = Ok ls).
  { intros A. destruct dims as [|a [|b [|c [|d dims]]]]; try (eexists; reflexivity).
    - eexists. apply labels_axis, A. left; reflexivity. - eexists. apply labels_axis, A. right; reflexivity. }
  assert (KE : labelled dims -> ~ Forall axis dims -> plot_mesh m1 m2 dims c1 c2 t = Raise KeyError).
  { intros L A. rewrite plot_mesh_eq, (labels_of _ L), (labels_bad _ A). reflexivity. }
  assert (IE : (labelled dims -> Forall axis dims) -> ~ long_enough m1 m2 -> plot_mesh m1 m2 dims c1 c2 t = Raise IndexError).
  { intros A S. rewrite plot_mesh_eq. destruct (LB A) as (ls & ->). cbn [bind]. destruct m2 as [m|]; [|exfalso; apply S; exact I]. cbn [long_enough] in S.
    assert (A2 : length dims = 2%nat -> Forall axis dims) by (intros X; apply A; left; exact X).
    destruct (mapM (row_curves m1 (Some m) dims c1 c2) (seq 0 (length m1))) as [cs|e] eqn:E.
    - exfalso. assert (I : nth_error (seq 0 (length m1)) (length m) = Some (length m)) by (rewrite nth_error_seq; [reflexivity|lia]).
      destruct (mapM_nth _ _ _ _ _ E I) as (cv & _ & X). unfold row_curves in X. destruct (py_nth m1 _) as [row|]; cbn [bind] in X; [|discriminate].
      destruct (curve_values dims row); cbn [bind] in X; [|discriminate]. rewrite py_nth_out in X by lia. cbn [bind] in X. discriminate.
    - destruct (mapM_raise _ _ _ E) as (i & Ii & X). apply in_seq in Ii. cbn [bind]. f_equal.
      destruct (nth_error m1 i) as [row|] eqn:R; [|apply nth_error_None in R; lia].
      destruct (le_lt_dec (length m) i) as [LE | LT].
      + unfold row_curves in X. rewrite (py_nth_nat _ _ _ R) in X. cbn [bind] in X. destruct (curve_values_ok dims row A2) as (vs & V & _). rewrite V in X. cbn [bind] in X.
        rewrite py_nth_out in X by lia. cbn [bind] in X. congruence.
      + destruct (row_curves_ok m1 (Some m) dims c1 c2 i row A2 R) as (cs & C); [intros m' M; injection M as <-; exact LT|]. congruence. }
  split; [|split; assumption]. split.
  - intros (p & P). split.
    + intros L. destruct (mapM axis_label dims) as [ls|e] eqn:E; [exact (proj1 (labels_ok _ _ E))|]. rewrite plot_mesh_eq, (labels_of _ L), E in P. discriminate.
    + destruct m2 as [m|]; [|exact I]. cbn [long_enough]. destruct (le_lt_dec (length m1) (length m)) as [LE | LT]; [exact LE|]. exfalso.
      assert (A : labelled dims -> Forall axis dims).
      { intros L. destruct (mapM axis_label dims) as [ls|e] eqn:E; [exact (proj1 (labels_ok _ _ E))|]. rewrite plot_mesh_eq, (labels_of _ L), E in P. discriminate. }
      rewrite (IE A) in P; [discriminate|]. cbn [long_enough]. lia.
  - intros (A & S). rewrite plot_mesh_eq. destruct (LB A) as (ls & ->). cbn [bind].
    destruct (mapM_total (row_curves m1 m2 dims c1 c2) (seq 0 (length m1))) as (cs & ->); [|eexists; reflexivity].
    intros i Ii. apply in_seq in Ii. destruct (nth_error m1 i) as [row|] eqn:R; [|apply nth_error_None in R; lia].
    apply (row_curves_ok m1 m2 dims c1 c2 i row); [intros X; apply A; left; exact X|exact R|]. intros m ->. cbn [long_enough] in S. lia.
Qed.

(** With two axes, or the three in their order, every axis carries the name of its coordinate, every row of the
    first mesh is drawn in the first colour and the row of the same index of the second in the second; further
    rows of the second mesh are not drawn. *)
Theorem C98_drawn : forall (F : Type) (NF : Num F) (m1 : list (list (vec F))) m2 dims c1 c2 t p,
  (length dims = 2%nat \/ dims = [0; 1; 2]%Z) -> plot_mesh m1 m2 dims c1 c2 t = Ok p ->
  mp_title p = t /\ mp_labels p = map name_of dims /\
  match m2 with
  | None => Forall2 (fun row cv => runs_through (mp_labels p) row c1 cv) m1 (mp_curves p)
  | Some m => length (mp_curves p) = (2 * length m1)%nat /\ forall i row, nth_error m1 i = Some row ->
      exists row2 cv cv2, nth_error m i = Some row2 /\ nth_error (mp_curves p) (2 * i) = Some cv /\ nth_error (mp_curves p) (2 * i + 1) = Some cv2 /\
        runs_through (mp_labels p) row c1 cv /\ runs_through (mp_labels p) row2 c2 cv2
  end.
Proof.
  intros F NF m1 m2 dims c1 c2 t p D P.
  assert (L : labelled dims) by (destruct D as [D | ->]; [left; exact D|right; reflexivity]).
  rewrite plot_mesh_eq, (labels_of _ L) in P. destruct (mapM axis_label dims) as [ls|e] eqn:E; cbn [bind] in P; [|discriminate].
  destruct (labels_ok _ _ E) as (A & ->). destruct (mapM _ _) as [cs|e] eqn:EC in P; cbn [bind] in P; [|discriminate]. injection P as <-. cbn [mp_title mp_labels mp_curves].
  split; [reflexivity|]. split; [reflexivity|].
  assert (A2 : length dims = 2%nat -> Forall axis dims) by (intros _; exact A).
  pose proof (mapM_length _ _ _ EC) as LC. rewrite seq_length in LC.
  assert (ROW : forall i row, nth_error m1 i = Some row -> exists c, nth_error cs i = Some c /\ row_curves m1 m2 dims c1 c2 i = Ok c).
  { intros i row R. assert (Li : (i < length m1)%nat) by (apply nth_error_Some; congruence).
    assert (I : nth_error (seq 0 (length m1)) i = Some i) by (rewrite nth_error_seq; [reflexivity|lia]).
    destruct (mapM_nth _ _ _ _ _ EC I) as (c & C1 & C2). exists c. auto. }
  destruct m2 as [m|].
  - assert (S2 : forall c, In c cs -> length c = 2%nat).
    { intros c C. apply In_nth_error in C. destruct C as (i & C). assert (Li : (i < length cs)%nat) by (apply nth_error_Some; congruence).
      destruct (nth_error m1 i) as [row|] eqn:R; [|apply nth_error_None in R; lia]. destruct (ROW i row R) as (c' & C' & X). replace c' with c in X by congruence.
      unfold row_curves in X. destruct (py_nth m1 _) as [?|]; cbn [bind] in X; [|discriminate]. destruct (curve_values dims _); cbn [bind] in X; [|discriminate].
      destruct (py_nth m _) as [?|]; cbn [bind] in X; [|discriminate]. destruct (curve_values dims _); cbn [bind] in X; [|discriminate]. injection X as <-. reflexivity. }
    split; [rewrite (concat_groups_length _ _ S2); lia|]. intros i row R. destruct (ROW i row R) as (c & C & X).
    unfold row_curves in X. rewrite (py_nth_nat _ _ _ R) in X. cbn [bind] in X. destruct (curve_values_ok dims row A2) as (vs & V & VF). rewrite V in X. cbn [bind] in X.
    destruct (py_nth m _) as [row2|] eqn:R2; cbn [bind] in X; [|discriminate]. apply py_nth_Ok_nat in R2. destruct (curve_values_ok dims row2 A2) as (vs2 & V2 & VF2). rewrite V2 in X. cbn [bind] in X. injection X as <-.
    exists row2, (vs, c1), (vs2, c2). split; [exact R2|].
    pose proof (concat_groups_nth cs 2 i _ 0 S2 C) as N0. pose proof (concat_groups_nth cs 2 i _ 1 S2 C) as N1.
    split; [|split; [|split; (split; [reflexivity|])]].
    + replace (2 * i)%nat with (i * 2 + 0)%nat by lia. rewrite N0 by lia. reflexivity.
    + replace (2 * i + 1)%nat with (i * 2 + 1)%nat by lia. rewrite N1 by lia. reflexivity.
    + exact (VF D). + exact (VF2 D).
  - assert (N : forall i row, nth_error m1 i = Some row -> exists cv, nth_error cs i = Some [cv] /\ runs_through (map name_of dims) row c1 cv).
    { intros i row R. destruct (ROW i row R) as (c & C & X). unfold row_curves in X. rewrite (py_nth_nat _ _ _ R) in X. cbn [bind] in X.
      destruct (curve_values_ok dims row A2) as (vs & V & VF). rewrite V in X. cbn [bind] in X. injection X as <-. exists (vs, c1). split; [exact C|]. split; [reflexivity|exact (VF D)]. }
    clear - LC N. revert cs LC N. induction m1 as [|row m1 IH]; intros [|c cs] LC N; try discriminate; cbn [List.concat]; [constructor|].
    destruct (N 0%nat row eq_refl) as (cv & C & X). injection C as ->. cbn [app]. constructor; [exact X|]. apply IH; [cbn [length] in LC; lia|].
    intros i r R. exact (N (S i) r R).
Qed.

(** Three axes in another order are labelled in that order, but drawn in the order x, y, z. *)
Theorem C98_order_refuted : exists (m1 : list (list (vec R))) dims p, length dims = 3%nat /\ Forall axis dims /\
  plot_mesh m1 None dims (Some "green"%string) None "3d plot" = Ok p /\ ~ Forall2 (fun row cv => runs_through (mp_labels p) row (Some "green"%string) cv) m1 (mp_curves p).
Proof.
  exists [[V3 1 2 3]], [1; 0; 2]%Z. eexists. split; [reflexivity|]. split; [repeat constructor; unfold axis; lia|]. split; [reflexivity|].
  cbn [mp_labels mp_curves List.concat app map]. intros X. inversion X as [|? ? ? ? (_ & Y) _]; subst. inversion Y as [|? ? ? ? (f & N & V) _]; subst. cbn in N. injection N as <-. cbn [map vy] in V. injection V as V. lra.
Qed.

(** ** calc_centerline_moments *)
(** Given the moments of the panels above the water followed by as many below, every moment is turned about the
    vertical by the leeway, and the total is that of the panels above, turned: its size and its yawing component
    are those of the untransformed total.  Applied to the moments of a solved flow it gives the reported ones. *)
Definition turned (c : csys R) (v : vec R) : vec R :=
  V3 (vx v * cos (rad (leeway_deg c)) - vy v * sin (rad (leeway_deg c))) (vx v * sin (rad (leeway_deg c)) + vy v * cos (rad (leeway_deg c))) (vz v).
Lemma turned_sum c l : ssum (map (turned c) l) = turned c (ssum l).
Proof.
  induction l as [|a l IH]; [unfold turned; cbn [map ssum fold_right]; vec_eq; cbn; ring|]. cbn [map]. change (ssum (turned c a :: map (turned c) l)) with (sadd (turned c a) (ssum (map (turned c) l))).
  change (ssum (a :: l)) with (sadd a (ssum l)). rewrite IH. unfold turned, sadd. vec_eq; cbn [vx vy vz]; ring.
Qed.
Theorem C98_moments : forall (c : csys R) (above below : list (vec R)), length above = length below -> above <> [] ->
  let (M, total) := calc_centerline_moments c (above ++ below) in
  M = map (turned c) (above ++ below) /\ total = turned c (ssum above) /\ snorm total = snorm (ssum above) /\ vz total = vz (ssum above).
Proof.
  intros c ab be L _. unfold calc_centerline_moments. cbv zeta.
  assert (T : forall v, mapply (leeway_rotation_matrix c) v = turned c v) by (intros v; rewrite leeway_apply; unfold turned, leeway_a; vec_eq; ring).
  assert (E : from_xyz_to_centerline_csys c (ab ++ be) = map (turned c) (ab ++ be)) by (unfold from_xyz_to_centerline_csys; apply map_ext; exact T).
  rewrite E. assert (H : above_water (map (turned c) (ab ++ be)) = map (turned c) ab).
  { unfold above_water. rewrite map_length, app_length, <- L. replace ((length ab + length ab) / 2)%nat with (length (map (turned c) ab)) by (rewrite map_length; replace (length ab + length ab)%nat with (length ab * 2)%nat by lia; rewrite Nat.div_mul; lia).
    rewrite map_app. rewrite firstn_app, firstn_all, Nat.sub_diag, firstn_O; apply app_nil_r. }
  rewrite H, vsum_ssum, turned_sum. repeat split. rewrite <- T. apply rm_norm, leeway_rm.
Qed.
Theorem C98_reported : forall (s : sail_set R) c v fr, InviscidFlowResults s c v = Ok fr -> calc_centerline_moments c (fr_M fr) = (fr_M_cl fr, fr_M_cl_total fr).
Proof.
  intros s c v fr E. destruct (flow_results_inv _ _ _ _ E) as (_ & _ & _ & _ & _ & _ & _ & _ & _ & EM & ET). rewrite ET, EM. unfold calc_centerline_moments, from_xyz_to_centerline_csys. cbv zeta. rewrite vsum_ssum. reflexivity.
Qed.

(** Two rows seen from the side (y across, z up), with a second mesh of three rows; the third is not drawn. *)
Example C98_case : let m1 := [[V3 0 1 2; V3 0 3 4]; [V3 1 1 2; V3 1 3 5]] in let m2 := [[V3 0 0 0]; [V3 9 8 7]; [V3 1 1 1]] in
  plot_mesh m1 (Some m2) [1; 2]%Z (Some "green"%string) (Some "red"%string) "side" =
    Ok (MeshPlot "side" ["Y"; "Z"]%string [([[1; 3]; [2; 4]], Some "green"%string); ([[0]; [0]], Some "red"%string); ([[1; 3]; [2; 5]], Some "green"%string); ([[8]; [7]], Some "red"%string)])
  /\ plot_mesh m2 (Some m1) [1; 2]%Z (Some "green"%string) (Some "red"%string) "side" = Raise IndexError
  /\ plot_mesh m1 None [1; 3]%Z (Some "green"%string) None "side" = Raise KeyError
  /\ let (_, total) := calc_centerline_moments (Csys 0 90 szero) [V3 1 0 5; V3 2 0 6; V3 7 7 7; V3 7 7 7] in total = V3 0 3 11.
Proof.
  cbv zeta. split; [reflexivity|]. split; [reflexivity|]. split; [reflexivity|].
  pose proof (C98_moments (Csys 0 90 szero) [V3 1 0 5; V3 2 0 6] [V3 7 7 7; V3 7 7 7] eq_refl ltac:(discriminate)) as X. cbn [app] in X.
  destruct (calc_centerline_moments _ _) as [M total]. destruct X as (_ & -> & _). unfold turned. cbn [leeway_deg]. replace (rad 90) with (PI / 2) by (unfold rad; field). rewrite cos_PI2, sin_PI2. unfold ssum. cbn. vec_eq; ring.
Qed.
Print Assumptions C98_accepts.
Print Assumptions C98_drawn.
Print Assumptions C98_order_refuted.
Print Assumptions C98_moments.
Print Assumptions C98_reported.
