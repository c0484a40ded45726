(** Lemmas on sail geometry. *)

From Coq Require Import String ZArith Reals List Bool Lra Psatz Lia.
From Verif Require Import Num PyBase RNum Spec M_Airfoil M_Rotations M_Csys M_Mesher M_Panels M_Sail
  L_List L_Rot L_Csys L_Airfoil L_Mesh.
Import ListNotations.
Open Scope R_scope.

(** ** Rectangular meshes *)
Section Any.
Context {F : Type}.
Lemma rect_nth_error {A} (mesh : list (list A)) r c k : rect mesh r c -> (k < r)%nat ->
  exists row, nth_error mesh k = Some row /\ length row = c.
Proof.
  intros [L W] K. destruct (nth_error_ex mesh k) as [row E]; [lia|]. exists row. split; [assumption|].
  apply W. eapply nth_error_In; eauto.
Qed.
Lemma rect_tl {A} (row : list A) mesh r c : rect (row :: mesh) (S r) c -> rect mesh r c /\ length row = c.
Proof.
  intros [L W]. split; [split; [simpl in L; lia | intros; apply W; right; assumption] | apply W; left; reflexivity].
Qed.
Lemma concat_length_rect {A} (mesh : list (list A)) r c : rect mesh r c -> length (List.concat mesh) = (r * c)%nat.
Proof.
  revert r; induction mesh as [|row mesh IH]; intros r [L W].
  - simpl in *. subst. reflexivity.
  - destruct r; [discriminate|]. destruct (rect_tl row mesh r c (conj L W)) as [H E].
    simpl. rewrite app_length, (IH r) by assumption. lia.
Qed.
Lemma concat_nth_rect (mesh : list (list (vec F))) r c k i : rect mesh r c -> (k < r)%nat -> (i < c)%nat ->
  nth_error (List.concat mesh) (k * c + i) = mesh_point mesh k i.
Proof.
  revert r k; induction mesh as [|row mesh IH]; intros r k [L W] K I; [simpl in L; lia|].
  destruct r; [lia|]. destruct (rect_tl row mesh r c (conj L W)) as [H E]. simpl concat.
  destruct k.
  - rewrite nth_error_app1 by (simpl; lia). reflexivity.
  - rewrite nth_error_app2 by (simpl; lia). replace (S k * c + i - length row)%nat with (k * c + i)%nat by (simpl; lia).
    rewrite (IH r) by (assumption || lia). reflexivity.
Qed.
Lemma reshape_spec (l : list (vec F)) r c : length l = (r * c)%nat -> exists rows, reshape r c l = Ok rows /\
  rect rows r c /\ forall k i, (k < r)%nat -> (i < c)%nat -> mesh_point rows k i = nth_error l (k * c + i).
Proof.
  intros L. unfold reshape. rewrite L, Nat.eqb_refl. eexists. split; [reflexivity|]. split; [split|].
  - rewrite chunks_length, repeat_length. reflexivity.
  - intros row I. apply In_nth_error in I. destruct I as [k I]. pose proof (nth_error_Some_lt _ _ _ I) as K.
    rewrite chunks_length, repeat_length in K. rewrite chunks_repeat_nth in I by assumption. injection I as <-.
    rewrite firstn_length, skipn_length, L. nia.
  - intros k i K I. unfold mesh_point. rewrite chunks_repeat_nth by assumption.
    rewrite nth_error_firstn, nth_error_skipn by assumption. reflexivity.
Qed.
Lemma reshape_Ok_length (l : list (vec F)) r c rows : reshape r c l = Ok rows -> length l = (r * c)%nat.
Proof. unfold reshape. destruct (Nat.eqb_spec (length l) (r * c)); [auto | discriminate]. Qed.
Lemma transpose_spec (d : vec F) (rows : list (list (vec F))) r c : rect rows r c ->
  rect (transpose c d rows) c r /\
  forall k i, (k < r)%nat -> (i < c)%nat -> mesh_point (transpose c d rows) i k = mesh_point rows k i.
Proof.
  intros R. split; [split|].
  - unfold transpose. rewrite map_length, seq_length. reflexivity.
  - intros row I. unfold transpose in I. apply in_map_iff in I. destruct I as [j [<- _]]. rewrite map_length. apply R.
  - intros k i K I. unfold mesh_point at 1, transpose. rewrite nth_error_map_seq by assumption.
    rewrite nth_error_map. destruct (rect_nth_error _ _ _ _ R K) as [row [E L]]. unfold mesh_point. rewrite E. simpl.
    destruct (nth_error_ex row i) as [v V]; [lia|]. rewrite V. f_equal. apply nth_of_error; assumption.
Qed.
End Any.

Section Layout.
Context {F : Type} {NF : Num F}.
(** Number of panels and flags of one sail. *)
Record sail_layout (nc ns : nat) (s : sail F) : Prop := {
  lay_above : length (sl_above s) = (nc * ns)%nat;
  lay_under : length (sl_under s) = (nc * ns)%nat;
  lay_te_len : length (sl_te s) = (nc * ns)%nat;
  lay_le_len : length (sl_le s) = (nc * ns)%nat;
  lay_te : forall i j, (i < nc)%nat -> (j < ns)%nat -> nth_error (sl_te s) (i * ns + j) = Some (i =? nc - 1)%nat;
  lay_le : forall i j, (i < nc)%nat -> (j < ns)%nat -> nth_error (sl_le s) (i * ns + j) = Some ((i =? 0) && (2 <=? nc))%nat%bool;
  (* neighbouring panels share their corners: corner (i, j) of the grid *)
  lay_grid_above : exists f, forall i j, (i < nc)%nat -> (j < ns)%nat ->
    nth_error (sl_above s) (i * ns + j) = Some (Panel (f (i + 1) j) (f i j) (f i (j + 1)) (f (i + 1) (j + 1)))%nat;
  lay_grid_under : exists f, forall i j, (i < nc)%nat -> (j < ns)%nat ->
    nth_error (sl_under s) (i * ns + j) = Some (Panel (f (i + 1) j) (f i j) (f i (j + 1)) (f (i + 1) (j + 1)))%nat }.
(** A sail that was built with [nc] chordwise and [ns] spanwise panels *)
Definition built (nc ns : nat) (s : sail F) : Prop := exists head tack c chords twist name mode camber dist,
  SailGeometry head tack c ns nc chords twist name mode camber dist = Ok s.

Lemma linspace_len n : length (@linspace01 F NF n) = n.
Proof. unfold linspace01. rewrite map_length, seq_length. reflexivity. Qed.
Lemma bind_Ok {A B} (m : res A) (f : A -> res B) b : bind m f = Ok b -> exists a, m = Ok a /\ f a = Ok b.
Proof. destruct m; simpl; [eauto | discriminate]. Qed.
Lemma panels_of_reshaped nc ns (l : list (vec F)) rows ps te le :
  reshape (ns + 1) (nc + 1) l = Ok rows ->
  make_panels_from_mesh_spanwise (transpose (nc + 1) v0 rows) = Ok (ps, te, le) ->
  length ps = (nc * ns)%nat /\ length te = (nc * ns)%nat /\ length le = (nc * ns)%nat /\
  forall i j, (i < nc)%nat -> (j < ns)%nat ->
    (exists se sw nw ne,
      nth_error l (j * (nc + 1) + (i + 1)) = Some se /\ nth_error l (j * (nc + 1) + i) = Some sw /\
      nth_error l ((j + 1) * (nc + 1) + i) = Some nw /\ nth_error l ((j + 1) * (nc + 1) + (i + 1)) = Some ne /\
      nth_error ps (i * ns + j) = Some (Panel se sw nw ne)) /\
    nth_error te (i * ns + j) = Some (i =? nc - 1)%nat /\
    nth_error le (i * ns + j) = Some ((i =? 0) && (2 <=? nc))%nat%bool.
Proof.
  intros E P. pose proof (reshape_Ok_length _ _ _ _ E) as L.
  destruct (reshape_spec l (ns + 1) (nc + 1) L) as (rows' & E' & R & Q). rewrite E in E'. injection E' as <-.
  destruct (transpose_spec v0 rows _ _ R) as (RT & QT).
  replace (nc + 1)%nat with (S nc) in * by lia. replace (ns + 1)%nat with (S ns) in * by lia.
  destruct (panels_spec _ nc ns RT) as (ps' & te' & le' & P' & L1 & L2 & L3 & PP).
  rewrite P in P'. injection P' as <- <- <-. repeat split; try assumption; intros.
  - destruct (PP i j H H0) as ((se & sw & nw & ne & H1 & H2 & H3 & H4 & H5) & _).
    rewrite !QT, Q in H1, H2, H3, H4 by lia.
    exists se, sw, nw, ne. rewrite !Nat.add_1_r. auto.
  - apply PP; assumption.
  - apply PP; assumption.
Qed.
Lemma sail_geometry_layout head tack c ns nc chords twist name mode camber dist s :
  SailGeometry head tack c ns nc chords twist name mode camber dist = Ok s -> sail_layout nc ns s.
Proof.
  unfold SailGeometry. cbv zeta. intros H.
  repeat match type of H with
  | bind ?m _ = Ok _ => let x := fresh "x" in let E := fresh "E" in
      apply bind_Ok in H; destruct H as [x [E H]]; try (destruct x as [x ?]); try (destruct x as [x ?]) end.
  injection H as <-.
  destruct (panels_of_reshaped nc ns _ _ _ _ _ E4 E6) as (A1 & A2 & A3 & A4).
  destruct (panels_of_reshaped nc ns _ _ _ _ _ E5 E7) as (B1 & B2 & B3 & B4).
  constructor; cbn [sl_above sl_under sl_te sl_le]; try assumption; try (intros; apply A4; assumption).
  - eexists (fun i j => nth (j * (nc + 1) + i) _ v0). intros i j I J.
    destruct (A4 i j I J) as ((se & sw & nw & ne & H1 & H2 & H3 & H4 & ->) & _).
    rewrite (nth_of_error _ _ v0 _ H1), (nth_of_error _ _ v0 _ H2), (nth_of_error _ _ v0 _ H3), (nth_of_error _ _ v0 _ H4). reflexivity.
  - eexists (fun i j => nth (j * (nc + 1) + i) _ v0). intros i j I J.
    destruct (B4 i j I J) as ((se & sw & nw & ne & H1 & H2 & H3 & H4 & ->) & _).
    rewrite (nth_of_error _ _ v0 _ H1), (nth_of_error _ _ v0 _ H2), (nth_of_error _ _ v0 _ H3), (nth_of_error _ _ v0 _ H4). reflexivity.
Qed.
Lemma concat_const_length {A B} (f : A -> list B) l n : (forall a, In a l -> length (f a) = n) ->
  length (List.concat (map f l)) = (length l * n)%nat.
Proof.
  induction l as [|a l IH]; intros H; simpl; auto. rewrite app_length, IH by (intros; apply H; right; assumption).
  rewrite H by (left; reflexivity). reflexivity.
Qed.
Lemma concat_const_nth {A B} (f : A -> list B) l n s a k : (forall a, In a l -> length (f a) = n) ->
  nth_error l s = Some a -> (k < n)%nat -> nth_error (List.concat (map f l)) (s * n + k) = nth_error (f a) k.
Proof.
  revert s; induction l as [|b l IH]; intros [|s] H E K; simpl in E; try discriminate.
  - injection E as ->. simpl. apply nth_error_app1. rewrite H; [assumption | left; reflexivity].
  - simpl. assert (Lb : length (f b) = n) by (apply H; left; reflexivity).
    rewrite nth_error_app2 by (rewrite Lb; lia). replace (n + s * n + k - length (f b))%nat with (s * n + k)%nat by lia.
    apply IH; try assumption. intros; apply H; right; assumption.
Qed.
End Layout.

(** ** Geometry in exact arithmetic *)
Lemma sheel_spec c p : 0 < vz p -> rotate_point_with_mirror c p = sheel (heel_deg c) (leeway_deg c) p.
Proof.
  intros H. rewrite rotate_above by assumption. rewrite leeway_apply, heel_apply. unfold sheel, heel_a, leeway_a.
  set (a := rad (heel_deg c)). set (b := rad (leeway_deg c)). clearbody a b.
  destruct p; unfold srot; rewrite cos_neg, sin_neg; svec; vec_eq; ring.
Qed.
Lemma sheel_rm h l : rotation_map (sheel h l).
Proof.
  assert (U1 : sdot (V3 0 0 1) (V3 0 0 1) = 1) by (svec; ring).
  assert (U2 : sdot (V3 1 0 0) (V3 1 0 0) = 1) by (svec; ring).
  pose proof (srot_is_rotation _ (rad l) U1) as [A1 S1 D1 C1]. pose proof (srot_is_rotation _ (- rad h) U2) as [A2 S2 D2 C2].
  constructor; intros; unfold sheel; [rewrite A2, A1 | rewrite S2, S1 | rewrite D1, D2 | rewrite C1, C2]; reflexivity.
Qed.
Lemma rm_slerp f a b t : rotation_map f -> f (slerp a b t) = slerp (f a) (f b) t.
Proof. intros R. unfold slerp. rewrite (rm_add _ R), (rm_scale _ R), (rm_sub f _ _ R). reflexivity. Qed.
Lemma srot_line_0 a b p : srot_line a b 0 p = p.
Proof.
  unfold srot_line, srot. rewrite cos_0, sin_0. generalize (sunit (ssub b a)). intros u.
  destruct u, a, p; svec; vec_eq; ring.
Qed.
Lemma srot_line_fix a b th t : a <> b -> srot_line a b th (slerp a b t) = slerp a b t.
Proof.
  intros N. unfold srot_line, slerp. set (e := ssub b a).
  assert (E : e <> szero). { unfold e. intros Z. apply N. destruct a, b; svec. injection Z; intros. vec_eq; lra. }
  replace (ssub (sadd a (sscale t e)) a) with (sscale (t * snorm e) (sunit e)).
  2:{ unfold sunit. pose proof (snorm_pos _ E). set (n := snorm e) in *. clearbody n e. destruct a, e; svec; vec_eq; field; lra. }
  pose proof (sunit_dot _ E) as U. set (k := t * snorm e).
  replace (sscale t e) with (sscale k (sunit e)).
  2:{ unfold sunit, k. pose proof (snorm_pos _ E). set (n := snorm e) in *. clearbody n e. destruct e; svec; vec_eq; field; lra. }
  unfold srot. replace (sdot (sunit e) (sscale k (sunit e))) with k.
  2:{ transitivity (k * sdot (sunit e) (sunit e)); [rewrite U; ring | destruct (sunit e); svec; ring]. }
  set (u := sunit e) in *. clearbody u k. destruct a, u; svec; vec_eq; ring.
Qed.
Lemma srot_line_mirror a b th p : srot_line (smirror b) (smirror a) th (smirror p) = smirror (srot_line b a (- th) p).
Proof.
  unfold srot_line. rewrite !smirror_sub.
  assert (U : sunit (smirror (ssub a b)) = smirror (sunit (ssub a b))) by (unfold sunit; rewrite smirror_norm; apply smirror_scale).
  rewrite U. set (u := sunit _). clearbody u. unfold srot. rewrite cos_neg, sin_neg. destruct u, b, p; svec; vec_eq; ring.
Qed.
Lemma sunit_opp a : sunit (sopp a) = sopp (sunit a).
Proof. unfold sunit. rewrite snorm_opp. generalize (/ snorm a). intros k. destruct a; svec; vec_eq; ring. Qed.
Lemma srot_line_swap a b th p : a <> b -> srot_line b a (- th) p = srot_line a b th p.
Proof.
  intros N. unfold srot_line. set (e := ssub b a).
  assert (E : e <> szero). { unfold e. intros Z. apply N. destruct a, b; svec. injection Z; intros. vec_eq; lra. }
  replace (ssub a b) with (sopp e) by (unfold e; vring). rewrite sunit_opp.
  replace b with (sadd a (sscale (snorm e) (sunit e))).
  2:{ unfold sunit. pose proof (snorm_pos _ E). set (n := snorm e) in *.
      replace b with (sadd a e) by (unfold e; vring). clearbody n e. destruct a, e; svec; vec_eq; field; lra. }
  pose proof (sunit_dot _ E) as U. set (u := sunit e) in *. set (n := snorm e). clearbody u n. clear E e N.
  unfold srot. rewrite cos_neg, sin_neg.
  destruct u as [u1 u2 u3], a as [a1 a2 a3], p as [p1 p2 p3]; svec.
  set (C := cos th). set (S := sin th). clearbody C S.
  assert (Q : u3 * u3 = 1 - u1 * u1 - u2 * u2) by lra.
  vec_eq.
  - transitivity (a1 + (C * (p1 - a1) + S * (u2 * (p3 - a3) - u3 * (p2 - a2)) + (1 - C) * (u1 * (p1 - a1) + u2 * (p2 - a2) + u3 * (p3 - a3)) * u1) + (1 - C) * n * u1 * (1 - (u1*u1+u2*u2+u3*u3))); [ring | rewrite U; ring].
  - transitivity (a2 + (C * (p2 - a2) + S * (u3 * (p1 - a1) - u1 * (p3 - a3)) + (1 - C) * (u1 * (p1 - a1) + u2 * (p2 - a2) + u3 * (p3 - a3)) * u2) + (1 - C) * n * u2 * (1 - (u1*u1+u2*u2+u3*u3))); [ring | rewrite U; ring].
  - transitivity (a3 + (C * (p3 - a3) + S * (u1 * (p2 - a2) - u2 * (p1 - a1)) + (1 - C) * (u1 * (p1 - a1) + u2 * (p2 - a2) + u3 * (p3 - a3)) * u3) + (1 - C) * n * u3 * (1 - (u1*u1+u2*u2+u3*u3))); [ring | rewrite U; ring].
Qed.

(** one unrotated mesh *)
Definition stations (ns : nat) (f : nat -> R) : list R := map f (seq 0 (S ns)).
Arguments stations : simpl never.
Lemma stations_nth ns f k : (k <= ns)%nat -> nth_error (stations ns f) k = Some (f k).
Proof. intros. apply nth_error_map_seq. lia. Qed.
Lemma stations_length ns f : length (stations ns f) = S ns.
Proof. unfold stations. rewrite map_length, seq_length. reflexivity. Qed.
Lemma stations_rev ns f : rev (stations ns f) = stations ns (fun k => f (ns - k)%nat).
Proof.
  apply list_ext; [rewrite rev_length, !stations_length; reflexivity|].
  intros i. rewrite rev_length, stations_length. intros I.
  rewrite nth_error_rev by (rewrite stations_length; assumption). rewrite stations_length.
  rewrite !stations_nth by lia. do 2 f_equal. lia.
Qed.
Lemma zero_mesh_spec tack head nc ns ch m d : (1 <= nc)%nat -> (1 <= ns)%nat ->
  (forall k, (k <= ns)%nat -> accepted (m k) (d k) 0) ->
  exists mesh, zero_mesh tack head nc ns (stations ns ch) (stations ns d) (stations ns m) = Ok mesh /\
    rect mesh (ns + 1) (nc + 1) /\
    forall k i, (k <= ns)%nat -> (i <= nc)%nat ->
      mesh_point mesh k i = Some (ssection tack head (INR k / INR ns) (ch k) (m k) (d k) (INR i / INR nc)).
Proof.
  intros NC NS A. unfold zero_mesh, make_airfoil_mesh.
  set (le := discrete_segment tack head ns).
  assert (LE : length le = S ns) by apply segment_length.
  set (cv := map (fun c => V3 c (nZ 0) (nZ 0)) (stations ns ch)).
  assert (LC : length cv = S ns) by (unfold cv; rewrite map_length; apply stations_length).
  unfold add_chords. rewrite LC, LE, Nat.eqb_refl. simpl bind.
  set (te := zipWith vadd le cv). set (args := combine (seq 0 (S ns)) (combine le te)).
  assert (LT : length te = S ns) by (unfold te; rewrite zipWith_length; lia).
  assert (LA : length args = S ns) by (unfold args; rewrite !combine_length, seq_length; lia).
  set (f := fun a : nat * (vec R * vec R) => airfoil_section (nc + 1) (stations ns d) (stations ns m) (fst a) (fst (snd a)) (snd (snd a))).
  assert (ARG : forall k, (k <= ns)%nat -> nth_error args k =
     Some (k, (slerp tack head (INR k / INR ns), vadd (slerp tack head (INR k / INR ns)) (V3 (ch k) 0 0)))).
  { intros k K. unfold args. apply nth_error_combine; [rewrite nth_error_seq by lia; reflexivity|].
    apply nth_error_combine; [apply segment_nth; assumption|].
    unfold te. apply nth_error_zipWith; [apply segment_nth; assumption|].
    unfold cv. rewrite nth_error_map, stations_nth by assumption. reflexivity. }
  assert (SEC : forall k, (k <= ns)%nat -> exists sec, f (k, (slerp tack head (INR k / INR ns), vadd (slerp tack head (INR k / INR ns)) (V3 (ch k) 0 0))) = Ok sec /\
      length sec = S nc /\ forall i, (i <= nc)%nat -> nth_error sec i = Some (ssection tack head (INR k / INR ns) (ch k) (m k) (d k) (INR i / INR nc))).
  { intros k K. unfold f; cbn [fst snd].
    destruct (airfoil_section_spec nc (stations ns d) (stations ns m) k (slerp tack head (INR k / INR ns))
        (vadd (slerp tack head (INR k / INR ns)) (V3 (ch k) 0 0)) (d k) (m k) NC (stations_nth _ _ _ K) (stations_nth _ _ _ K) (A k K)) as (sec & S1 & S2 & S3).
    exists sec. split; [exact S1|]. split; [exact S2|]. intros i I. rewrite S3 by assumption. f_equal.
    unfold ssection. set (l := slerp tack head (INR k / INR ns)). cbv zeta. vnum. vec_eq; ring. }
  assert (OKM : exists mesh, mapM f args = Ok mesh).
  { assert (OKs : forall a, In a args -> exists s, f a = Ok s).
    { intros a I. apply In_nth_error in I. destruct I as [k I].
      pose proof (nth_error_Some_lt _ _ _ I) as KL. rewrite LA in KL. rewrite ARG in I by lia. injection I as <-.
      destruct (SEC k ltac:(lia)) as (s & S & _). eauto. }
    clear - OKs. induction args as [|a l IH]; simpl; [eauto|].
    destruct (OKs a (or_introl eq_refl)) as [s S]. rewrite S. simpl.
    destruct IH as [t T]; [intros; apply OKs; right; assumption|]. rewrite T. simpl. eauto. }
  destruct OKM as [mesh M]. exists mesh. split; [exact M|].
  assert (ROW : forall k, (k <= ns)%nat -> exists row, nth_error mesh k = Some row /\ length row = S nc /\
      forall i, (i <= nc)%nat -> nth_error row i = Some (ssection tack head (INR k / INR ns) (ch k) (m k) (d k) (INR i / INR nc))).
  { intros k K. destruct (mapM_nth f args mesh k _ M (ARG k K)) as [row [E1 E2]].
    destruct (SEC k K) as (s & S1 & S2 & S3). rewrite S1 in E2. injection E2 as <-. eauto. }
  pose proof (mapM_length _ _ _ M) as LM. rewrite LA in LM.
  split; [split|].
  - lia.
  - intros row I. apply In_nth_error in I. destruct I as [k I]. pose proof (nth_error_Some_lt _ _ _ I).
    destruct (ROW k ltac:(lia)) as (row' & E & L & _). rewrite E in I. injection I as <-. lia.
  - intros k i K I. unfold mesh_point. destruct (ROW k K) as (row & E & _ & P). rewrite E. apply P; assumption.
Qed.

(** twisting a flattened mesh *)
Lemma spread_twist_spec ns nc tw : exists l, spread_twist (ns + 1) (nc + 1) (stations ns tw) = Ok l /\
  length l = ((ns + 1) * (nc + 1))%nat /\
  forall k i, (k <= ns)%nat -> (i <= nc)%nat -> nth_error l (k * (nc + 1) + i) = Some (tw k).
Proof.
  unfold spread_twist.
  pose proof (stations_length ns tw) as SL. pose proof (stations_nth ns tw) as SN.
  set (st := stations ns tw) in *. clearbody st.
  assert (CR : forall n, length (List.concat (repeat st n)) = (n * (ns + 1))%nat).
  { induction n; simpl; auto. rewrite app_length, SL, IHn. lia. }
  unfold reshape. rewrite CR, Nat.eqb_refl. simpl bind.
  assert (CH : forall n, chunks (repeat (ns + 1)%nat n) (List.concat (repeat st n)) = repeat st n).
  { induction n; simpl; auto. f_equal.
    - rewrite firstn_app, SL. replace (ns + 1 - S ns)%nat with 0%nat by lia. simpl. rewrite app_nil_r.
      apply firstn_all2. lia.
    - rewrite skipn_app, SL. replace (ns + 1 - S ns)%nat with 0%nat by lia.
      rewrite skipn_all2 by (lia). simpl. apply IHn. }
  rewrite CH. eexists. split; [reflexivity|].
  assert (T : transpose (ns + 1) (nZ 0) (repeat st (nc + 1)) = map (fun k => repeat (tw k) (nc + 1)) (seq 0 (ns + 1))).
  { unfold transpose. apply map_ext_in. intros k K. apply in_seq in K.
    replace (map (fun row => nth k row (nZ 0)) (repeat st (nc + 1))) with (repeat (nth k st (nZ 0)) (nc + 1)).
    - f_equal. apply nth_of_error. apply SN. lia.
    - generalize (nc + 1)%nat. induction n as [|n IHn]; simpl; [reflexivity | f_equal; exact IHn]. }
  change (nZ 0) with 0 in T. rewrite T. split.
  - rewrite (concat_const_length _ _ (nc + 1)) by (intros; apply repeat_length). rewrite seq_length. reflexivity.
  - intros k i K I. rewrite (concat_const_nth _ _ (nc + 1) k k) by (intros; try apply repeat_length; try lia; rewrite nth_error_seq by lia; reflexivity).
    apply nth_error_repeat. lia.
Qed.
Lemma vclose_refl v : vclose v v = true.
Proof.
  unfold vclose, close. rnum. rewrite !Rminus_diag_eq, Rabs_R0 by reflexivity.
  replace (Rltb 0 (ndec 15 8)) with true; [reflexivity|]. symmetry. apply Rltb_true. rewrite ndec_R. change (10 ^ 8)%Z with 100000000%Z. lra.
Qed.
Lemma all_close_refl l : all_close l l = true.
Proof.
  unfold all_close. apply forallb_forall. intros [a b] I.
  assert (a = b). { clear - I. induction l; simpl in I; [contradiction|]. destruct I as [I|I]; [congruence | auto]. }
  subst. apply vclose_refl.
Qed.
Lemma rotate_le_spec pts p1 p2 tw : length pts = length tw -> tw <> [] -> vy p1 <> vy p2 \/ vz p1 <> vz p2 ->
  rotate_points_around_le pts p1 p2 tw = Ok (zipWith (fun p t => srot_line p1 p2 (rad t) p) pts tw).
Proof.
  intros L N H. destruct tw as [|t0 tw]; [contradiction|].
  unfold rotate_points_around_le. change (py_nth (t0 :: tw) 0) with (py_nth (t0 :: tw) (Z.of_nat 0)).
  rewrite (py_nth_nat (t0 :: tw) 0 t0 eq_refl). unfold bind at 1.
  destruct (forallb _ _) eqn:E.
  - f_equal. rewrite ?rotate_points_map. rewrite forallb_forall in E.
    assert (E' : forall t, In t (t0 :: tw) -> t = t0).
    { intros t I. specialize (E t I). rnum. apply Reqb_true in E. assumption. }
    clear E. remember (t0 :: tw) as l. clear Heql N. revert l L E'. induction pts as [|p pts IH]; intros [|t l] L E'; simpl in *; try discriminate; auto.
    f_equal; [|apply IH; auto]. rewrite rotate_point_spec by assumption. rewrite (E' t) by auto. reflexivity.
  - f_equal. generalize (t0 :: tw). intros l. clear - H. revert l. induction pts as [|p pts IH]; intros [|t l]; simpl; auto.
    f_equal; [apply rotate_point_spec; assumption | apply IH].
Qed.
Lemma every_nth_spec {A} k (d : A) l r : (1 <= k)%nat -> length l = (r * k)%nat ->
  length (every_nth k d l) = r /\ forall i, (i < r)%nat -> nth_error (every_nth k d l) i = nth_error l (i * k).
Proof.
  intros K L. unfold every_nth. rewrite map_length, seq_length, L.
  assert (E : ((r * k + k - 1) / k = r)%nat).
  { replace (r * k + k - 1)%nat with (r * k + (k - 1))%nat by lia.
    rewrite Nat.div_add_l by lia. rewrite Nat.div_small by lia. lia. }
  rewrite E. split; [reflexivity|]. intros i I. rewrite nth_error_map_seq by assumption.
  destruct (nth_error_ex l (i * k)) as [a A']; [rewrite L; nia|]. rewrite A'. f_equal. apply nth_of_error; assumption.
Qed.
Lemma twist_mesh_spec ns nc (flat : list (vec R)) twl tw P a b :
  length flat = ((ns + 1) * (nc + 1))%nat -> length twl = ((ns + 1) * (nc + 1))%nat ->
  (forall k i, (k <= ns)%nat -> (i <= nc)%nat -> nth_error flat (k * (nc + 1) + i) = Some (P k i)) ->
  (forall k i, (k <= ns)%nat -> (i <= nc)%nat -> nth_error twl (k * (nc + 1) + i) = Some (tw k)) ->
  P 0%nat 0%nat = a -> P ns 0%nat = b -> vy a <> vy b \/ vz a <> vz b ->
  (forall k, (k <= ns)%nat -> exists t, P k 0%nat = slerp a b t) ->
  exists flat', twist_mesh (nc + 1) flat twl = Ok flat' /\ length flat' = ((ns + 1) * (nc + 1))%nat /\
    forall k i, (k <= ns)%nat -> (i <= nc)%nat -> nth_error flat' (k * (nc + 1) + i) = Some (srot_line a b (rad (tw k)) (P k i)).
Proof.
  intros LF LT HP HT HA HB NP LU. unfold twist_mesh. set (luff := every_nth (nc + 1) v0 flat).
  destruct (every_nth_spec (nc + 1) v0 flat (ns + 1) ltac:(lia) LF) as [LL LN]. fold luff in LL, LN.
  assert (N0 : nth_error luff 0 = Some a).
  { rewrite LN by lia. rewrite <- HA. specialize (HP 0%nat 0%nat ltac:(lia) ltac:(lia)). exact HP. }
  assert (N1 : nth_error luff ns = Some b).
  { rewrite LN by lia. rewrite <- HB. specialize (HP ns 0%nat ltac:(lia) ltac:(lia)). rewrite <- HP. f_equal. lia. }
  replace (-1)%Z with (- Z.of_nat 1)%Z by reflexivity.
  rewrite (py_nth_neg luff 1 b) by (try lia; rewrite LL; replace (ns + 1 - 1)%nat with ns by lia; assumption).
  simpl bind. change 0%Z with (Z.of_nat 0). rewrite (py_nth_nat luff 0 a N0). simpl bind.
  rewrite rotate_le_spec; [| lia | intros Z; rewrite Z in LT; simpl in LT; lia | assumption]. simpl bind.
  set (tr := zipWith _ flat twl).
  assert (LTR : length tr = ((ns + 1) * (nc + 1))%nat) by (unfold tr; rewrite zipWith_length; lia).
  assert (TR : forall k i, (k <= ns)%nat -> (i <= nc)%nat -> nth_error tr (k * (nc + 1) + i) = Some (srot_line a b (rad (tw k)) (P k i))).
  { intros k i K I. unfold tr. erewrite nth_error_zipWith; [reflexivity | apply HP; assumption | apply HT; assumption]. }
  destruct (every_nth_spec (nc + 1) v0 tr (ns + 1) ltac:(lia) LTR) as [LL' LN'].
  assert (EQ : every_nth (nc + 1) v0 tr = luff).
  { apply list_ext; [lia|]. intros k. rewrite LL'. intros K. rewrite LN', LN by assumption.
    pose proof (TR k 0%nat ltac:(lia) ltac:(lia)) as E1. pose proof (HP k 0%nat ltac:(lia) ltac:(lia)) as E2.
    rewrite Nat.add_0_r in E1, E2. rewrite E1, E2. f_equal. destruct (LU k ltac:(lia)) as [t ->]. apply srot_line_fix.
    intros Z. rewrite Z in NP. destruct NP; auto. }
  rewrite EQ, all_close_refl. exists tr. auto.
Qed.
