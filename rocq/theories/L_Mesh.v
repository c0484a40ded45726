(** Lemmas on segments, meshes and panels. *)

From Coq Require Import ZArith Reals List Bool Lra Psatz Lia.
From Verif Require Import Num PyBase RNum Spec M_Airfoil M_Mesher M_Panels L_List L_Rot L_Airfoil.
Import ListNotations.
Open Scope R_scope.

Lemma segment_length {F} `{Num F} p1 p2 n : length (discrete_segment p1 p2 n) = S n.
Proof. unfold discrete_segment. rewrite app_length, map_length, seq_length. simpl. lia. Qed.
Lemma segment_nth (p1 p2 : vec R) n k : (1 <= n)%nat -> (k <= n)%nat ->
  nth_error (discrete_segment p1 p2 n) k = Some (slerp p1 p2 (INR k / INR n)).
Proof.
  intros N K. assert (NZ : INR n <> 0) by (apply not_0_INR; lia).
  unfold discrete_segment. destruct (Nat.eq_dec k n) as [->|E].
  - rewrite nth_error_app2 by (rewrite map_length, seq_length; lia).
    rewrite map_length, seq_length, Nat.sub_diag. simpl. f_equal.
    unfold slerp. destruct p1, p2; svec; vec_eq; field; assumption.
  - rewrite nth_error_app1 by (rewrite map_length, seq_length; lia).
    rewrite nth_error_map_seq by lia. f_equal. unfold slerp.
    rewrite vdivs_s. unfold vscale, vadd, vsub. rnum. rewrite <- !INR_IZR_INZ.
    destruct p1, p2; svec; vec_eq; field; assumption.
Qed.
Lemma slerp_0 a b : slerp a b 0 = a.
Proof. unfold slerp; vring. Qed.
Lemma slerp_1 a b : slerp a b 1 = b.
Proof. unfold slerp; vring. Qed.
Lemma slerp_rev a b t : slerp b a t = slerp a b (1 - t).
Proof. unfold slerp; vring. Qed.
Lemma nth_error_rev {A} (l : list A) i : (i < length l)%nat -> nth_error (rev l) i = nth_error l (length l - 1 - i).
Proof.
  intros H. destruct l as [|a0 l0] eqn:E; [simpl in H; lia|]. rewrite <- E in *.
  rewrite (nth_error_nth' (rev l) a0) by (rewrite rev_length; assumption).
  rewrite rev_nth by assumption.
  rewrite (nth_error_nth' l a0) by lia. f_equal. f_equal. lia.
Qed.
Lemma segment_rev (p1 p2 : vec R) n : (1 <= n)%nat -> discrete_segment p2 p1 n = rev (discrete_segment p1 p2 n).
Proof.
  intros N. assert (NZ : INR n <> 0) by (apply not_0_INR; lia).
  apply list_ext; [rewrite rev_length, !segment_length; reflexivity|].
  intros i. rewrite segment_length. intros I.
  rewrite nth_error_rev by (rewrite segment_length; lia). rewrite segment_length.
  rewrite !segment_nth by lia. f_equal. rewrite slerp_rev. f_equal.
  replace (S n - 1 - i)%nat with (n - i)%nat by lia. rewrite minus_INR by lia. field; assumption.
Qed.

(** ** Panels *)
Lemma mesh_at_point {F} `{Num F} (mesh : list (list (vec F))) i j v :
  mesh_point mesh i j = Some v -> mesh_at mesh i j = v.
Proof.
  unfold mesh_point, mesh_at. destruct (nth_error mesh i) eqn:E; [|discriminate].
  intros V. rewrite (nth_error_nth _ _ [] E). apply nth_error_nth; assumption.
Qed.
Definition rect {A} (mesh : list (list A)) (r c : nat) : Prop :=
  length mesh = r /\ forall row, In row mesh -> length row = c.
Lemma rect_point {F} (mesh : list (list (vec F))) r c i j : rect mesh r c -> (i < r)%nat -> (j < c)%nat ->
  exists v, mesh_point mesh i j = Some v.
Proof.
  intros [L W] I J. unfold mesh_point. destruct (nth_error_ex mesh i) as [row E]; [lia|]. rewrite E.
  apply nth_error_ex. rewrite (W row); [assumption | eapply nth_error_In; eauto].
Qed.

Section AnyNum.
Context {F : Type} {NF : Num F}.

Lemma panels_spec (mesh : list (list (vec F))) nc ns : rect mesh (S nc) (S ns) ->
  exists ps te le, make_panels_from_mesh_spanwise mesh = Ok (ps, te, le) /\
    length ps = (nc * ns)%nat /\ length te = (nc * ns)%nat /\ length le = (nc * ns)%nat /\
    forall i j, (i < nc)%nat -> (j < ns)%nat ->
      (exists se sw nw ne,
         mesh_point mesh (S i) j = Some se /\ mesh_point mesh i j = Some sw /\
         mesh_point mesh i (S j) = Some nw /\ mesh_point mesh (S i) (S j) = Some ne /\
         nth_error ps (i * ns + j) = Some (Panel se sw nw ne)) /\
      nth_error te (i * ns + j) = Some (i =? nc - 1)%nat /\
      nth_error le (i * ns + j) = Some ((i =? 0) && (2 <=? nc))%nat%bool.
Proof.
  intros R. pose proof R as [L W]. destruct mesh as [|row mesh']; [discriminate|].
  unfold make_panels_from_mesh_spanwise. remember (row :: mesh') as mesh.
  assert (LR : length row = S ns) by (apply W; subst; left; reflexivity).
  rewrite LR, L. replace (S ns - 1)%nat with ns by lia. replace (S nc - 1)%nat with nc by lia.
  rewrite !map_rows. do 3 eexists. split; [reflexivity|]. rewrite !rows_length.
  repeat split; auto.
  - rewrite (nth_error_rows (fun i j => _)) by assumption. simpl fst; simpl snd.
    destruct (rect_point _ _ _ (S i) j R) as [se E1]; try lia.
    destruct (rect_point _ _ _ i j R) as [sw E2]; try lia.
    destruct (rect_point _ _ _ i (S j) R) as [nw E3]; try lia.
    destruct (rect_point _ _ _ (S i) (S j) R) as [ne E4]; try lia.
    exists se, sw, nw, ne. repeat split; auto.
    rewrite !Nat.add_1_r, (mesh_at_point _ _ _ _ E1), (mesh_at_point _ _ _ _ E2),
      (mesh_at_point _ _ _ _ E3), (mesh_at_point _ _ _ _ E4). reflexivity.
  - rewrite (nth_error_rows (fun i j => _)) by assumption. simpl fst. f_equal.
  - rewrite (nth_error_rows (fun i j => _)) by assumption. simpl fst. f_equal.
    destruct (Nat.eqb_spec i (S nc - 2)); destruct (Nat.eqb_spec i 0); destruct (Nat.leb_spec 2 nc); simpl; auto; lia.
Qed.
End AnyNum.

Lemma point_mesh_rect (s1 s2 : list (vec R)) n : length s1 = length s2 ->
  rect (make_point_mesh s1 s2 n) (length s1) (S n).
Proof.
  intros E. split.
  - unfold make_point_mesh. rewrite zipWith_length. lia.
  - unfold make_point_mesh. revert s2 E; induction s1 as [|a s1 IH]; intros [|b s2] E row; simpl; try tauto.
    intros [<-|I]; [apply segment_length | apply (IH s2); [simpl in E; lia | assumption]].
Qed.
Lemma le_te_mesh_point le_s te_s le_n te_n nc ns i j : (1 <= nc)%nat -> (1 <= ns)%nat ->
  (i <= nc)%nat -> (j <= ns)%nat ->
  mesh_point (make_point_mesh (discrete_segment le_s te_s nc) (discrete_segment le_n te_n nc) ns) i j
  = Some (sbilinear le_s te_s le_n te_n (INR i / INR nc) (INR j / INR ns)).
Proof.
  intros. unfold mesh_point, make_point_mesh.
  rewrite (nth_error_zipWith _ _ _ i _ _ (segment_nth _ _ _ _ H H1) (segment_nth _ _ _ _ H H1)).
  rewrite segment_nth by assumption. reflexivity.
Qed.

(** ** Area *)
Lemma panel_area_s (p : panel R) :
  panel_area p = snorm (scross (ssub (pp2 p) (pp1 p)) (ssub (pp3 p) (pp2 p))) / 2
               + snorm (scross (ssub (pp3 p) (pp2 p)) (ssub (pp4 p) (pp3 p))) / 2.
Proof.
  unfold panel_area. tospec. rewrite !ndec_R. rnum. change (10 ^ 1)%Z with 10%Z. field.
Qed.
Lemma striangle_pos a b c : 0 <= striangle a b c.
Proof. unfold striangle. pose proof (snorm_nonneg (scross (ssub b a) (ssub c a))). lra. Qed.
Lemma panel_area_triangles a b c d : panel_area (Panel a b c d) = striangle a b c + striangle b c d.
Proof.
  rewrite panel_area_s; simpl. unfold striangle.
  replace (scross (ssub b a) (ssub c b)) with (scross (ssub b a) (ssub c a)) by vring.
  replace (scross (ssub c b) (ssub d c)) with (scross (ssub c b) (ssub d b)) by vring. reflexivity.
Qed.
Lemma striangle_opp u v : snorm (sopp (scross u v)) = snorm (scross u v).
Proof. apply snorm_opp. Qed.
Lemma panel_area_trapezoid a b c d k : 0 <= k -> ssub d c = sscale k (ssub a b) ->
  panel_area (Panel a b c d) = squad a b c d.
Proof.
  intros K E. rewrite panel_area_triangles. unfold squad. f_equal.
  unfold striangle. f_equal.
  replace (scross (ssub c b) (ssub d b)) with (scross (ssub c b) (sscale k (ssub a b))) by (rewrite <- E; vring).
  replace (scross (ssub c a) (ssub d a)) with (scross (ssub c b) (sscale k (ssub a b))); [reflexivity|].
  replace (scross (ssub c a) (ssub d a)) with (scross (ssub c a) (ssub d c)) by vring.
  rewrite E. vring.
Qed.
Lemma sscale_norm_area k u v : snorm (scross (sscale k u) (sscale k v)) = k ^ 2 * snorm (scross u v).
Proof.
  replace (scross (sscale k u) (sscale k v)) with (sscale (k ^ 2) (scross u v)) by vring.
  rewrite snorm_scale, Rabs_right; [reflexivity | nra].
Qed.
Lemma smirror_cross a b : scross (smirror a) (smirror b) = sopp (smirror (scross a b)).
Proof. vring. Qed.
Lemma smirror_norm a : snorm (smirror a) = snorm a.
Proof. destruct a; unfold snorm; svec; f_equal; ring. Qed.
Lemma smirror_sub a b : ssub (smirror a) (smirror b) = smirror (ssub a b).
Proof. vring. Qed.
Lemma smirror_add a b : sadd (smirror a) (smirror b) = smirror (sadd a b).
Proof. vring. Qed.
Lemma smirror_scale k a : sscale k (smirror a) = smirror (sscale k a).
Proof. vring. Qed.
Lemma smirror_invol a : smirror (smirror a) = a.
Proof. vring. Qed.

(** ** Airfoil mesh *)
Lemma linspace_nth' nc i : (1 <= nc)%nat -> (i <= nc)%nat ->
  nth_error (@linspace01 R RNum (nc + 1)) i = Some (INR i / INR nc).
Proof.
  intros. rewrite linspace_nth by lia. unfold station. do 3 f_equal. lia.
Qed.
Lemma airfoil_section_spec nc dist camb k p1 p2 d m : (1 <= nc)%nat ->
  nth_error dist k = Some d -> nth_error camb k = Some m -> accepted m d 0 ->
  exists sec, airfoil_section (nc + 1) dist camb k p1 p2 = Ok sec /\ length sec = S nc /\
    forall i, (i <= nc)%nat -> nth_error sec i =
      Some (V3 (vx p1 + INR i / INR nc * (vx p2 - vx p1))
               ((vx p2 - vx p1) * scamber m d (INR i / INR nc)) (vz p1)).
Proof.
  intros N D M A. unfold airfoil_section.
  rewrite (py_nth_nat _ _ _ D), (py_nth_nat _ _ _ M). simpl bind.
  change (nZ 0) with 0. rewrite VlmAirfoil_ok by assumption. simpl bind.
  eexists. split; [reflexivity|]. unfold foil_of; cbn [af_xc af_yc].
  rewrite zipWith_length, !map_length, !linspace_length. split; [lia|].
  intros i I. pose proof (linspace_nth' nc i N I) as L.
  erewrite nth_error_zipWith; [apply f_equal, (f_equal3 (@V3 R)); [|reflexivity|reflexivity] | |].
  2:{ rewrite nth_error_map, L. reflexivity. }
  2:{ rewrite !nth_error_map, L. reflexivity. }
  rnum; ring.
Qed.
