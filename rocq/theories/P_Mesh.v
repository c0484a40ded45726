(** Properties C12 - C16: segments, meshes, panels. *)

From Coq Require Import ZArith Reals List Bool Lra Psatz Lia.
From Verif Require Import Num PyBase RNum Spec M_Airfoil M_Mesher M_Panels L_List L_Rot L_Airfoil L_Mesh.
Import ListNotations.
Open Scope R_scope.

(** ** C12 *)
Theorem C12_discrete_segment : forall (p1 p2 : vec R) (n : nat), (1 <= n)%nat ->
  length (discrete_segment p1 p2 n) = S n /\
  nth_error (discrete_segment p1 p2 n) 0 = Some p1 /\
  nth_error (discrete_segment p1 p2 n) n = Some p2 /\
  (forall k, (k < n)%nat -> exists a b,
     nth_error (discrete_segment p1 p2 n) k = Some a /\ nth_error (discrete_segment p1 p2 n) (S k) = Some b /\
     ssub b a = sscale (/ INR n) (ssub p2 p1)) /\
  discrete_segment p2 p1 n = rev (discrete_segment p1 p2 n).
Proof.
  intros p1 p2 n N. assert (NZ : INR n <> 0) by (apply not_0_INR; lia).
  split; [apply segment_length|]. split; [|split; [|split]].
  - rewrite segment_nth by lia. f_equal. simpl INR. replace (0 / INR n) with 0 by (field; assumption). apply slerp_0.
  - rewrite segment_nth by lia. f_equal. replace (INR n / INR n) with 1 by (field; assumption). apply slerp_1.
  - intros k K. do 2 eexists. split; [apply segment_nth; lia|]. split; [apply segment_nth; lia|].
    rewrite S_INR. unfold slerp. destruct p1 as [x1 y1 z1], p2 as [x2 y2 z2]; svec; vec_eq; field; assumption.
  - apply segment_rev; assumption.
Qed.
Example C12_case : discrete_segment (V3 0 0 0) (V3 2 4 6) 2 = [V3 0 0 0; V3 1 2 3; V3 2 4 6].
Proof.
  unfold discrete_segment; simpl. vnum. apply f_equal2; [vec_eq; field|]. apply f_equal2; [vec_eq; field|]. reflexivity.
Qed.
Print Assumptions C12_discrete_segment.

(** ** C13 *)
Theorem C13_airfoil_mesh : forall (luff_foot luff_head : vec R) (nc ns : nat) (chords : list (vec R)) (dist camb : list R),
  (1 <= nc)%nat -> (1 <= ns)%nat -> length chords = S ns ->
  (forall k, (k <= ns)%nat -> exists d m, nth_error dist k = Some d /\ nth_error camb k = Some m /\ accepted m d 0) ->
  exists mesh, make_airfoil_mesh luff_foot luff_head nc ns chords dist camb = Ok mesh /\
    length mesh = S ns /\
    forall k, (k <= ns)%nat ->
      let luff := slerp luff_foot luff_head (INR k / INR ns) in
      exists section chord d m,
        nth_error mesh k = Some section /\ nth_error chords k = Some chord /\
        nth_error dist k = Some d /\ nth_error camb k = Some m /\
        length section = S nc /\
        (forall i, (i <= nc)%nat -> exists pt, nth_error section i = Some pt /\
           vx pt = vx luff + INR i / INR nc * vx chord /\
           vy pt = vx chord * scamber m d (INR i / INR nc) /\
           vz pt = vz luff /\
           (0 < d -> Rabs (vy pt) <= m * Rabs (vx chord))) /\
        (0 < d -> vy luff_foot = 0 -> vy luff_head = 0 ->
           nth_error section 0 = Some luff /\
           (vy chord = 0 -> vz chord = 0 -> nth_error section nc = Some (sadd luff chord))).
Proof.
  intros foot head nc ns chords dist camb NC NS LC HC.
  assert (Nc : INR nc <> 0) by (apply not_0_INR; lia). assert (Ns : INR ns <> 0) by (apply not_0_INR; lia).
  set (le := discrete_segment foot head ns).
  assert (LE : length le = S ns) by apply segment_length.
  unfold make_airfoil_mesh. fold le. unfold add_chords. rewrite LC, LE, Nat.eqb_refl. simpl bind.
  set (te := zipWith vadd le chords).
  assert (LT : length te = S ns) by (unfold te; rewrite zipWith_length; lia).
  set (args := combine (seq 0 (S ns)) (combine le te)).
  assert (LA : length args = S ns) by (unfold args; rewrite !combine_length, seq_length; lia).
  set (f := fun a : nat * (vec R * vec R) => airfoil_section (nc + 1) dist camb (fst a) (fst (snd a)) (snd (snd a))).
  (* the k-th argument *)
  assert (ARG : forall k, (k <= ns)%nat -> exists chord, nth_error chords k = Some chord /\
     nth_error args k = Some (k, (slerp foot head (INR k / INR ns), sadd (slerp foot head (INR k / INR ns)) chord))).
  { intros k K. destruct (nth_error_ex chords k) as [c C]; [lia|]. exists c. split; [assumption|].
    unfold args. apply nth_error_combine; [rewrite nth_error_seq by lia; reflexivity|].
    apply nth_error_combine; [apply segment_nth; assumption|].
    unfold te. apply nth_error_zipWith; [apply segment_nth; assumption | assumption]. }
  assert (OKs : forall a, In a args -> exists s, f a = Ok s).
  { intros a I. apply In_nth_error in I. destruct I as [k I].
    pose proof (nth_error_Some_lt _ _ _ I) as KL. rewrite LA in KL.
    destruct (ARG k ltac:(lia)) as [c [C E]]. rewrite E in I. injection I as <-.
    destruct (HC k ltac:(lia)) as (d & m & D & M & A). unfold f; simpl fst; simpl snd.
    destruct (airfoil_section_spec nc dist camb k (slerp foot head (INR k / INR ns))
                (sadd (slerp foot head (INR k / INR ns)) c) d m NC D M A) as [s [S _]]. eauto. }
  assert (OKM : exists mesh, mapM f args = Ok mesh).
  { clear - OKs. induction args as [|a l IH]; simpl; [eauto|].
    destruct (OKs a (or_introl eq_refl)) as [s S]. rewrite S. simpl.
    destruct IH as [t T]; [intros; apply OKs; right; assumption|]. rewrite T. simpl. eauto. }
  destruct OKM as [mesh ME]. exists mesh. split; [exact ME|].
  split; [rewrite (mapM_length _ _ _ ME); exact LA|].
  intros k K. set (luff := slerp foot head (INR k / INR ns)). destruct (ARG k K) as [c [C E]]. destruct (HC k K) as (d & m & D & M & A).
  destruct (mapM_nth _ _ _ _ _ ME E) as [s [S F]]. unfold f in F; simpl fst in F; simpl snd in F. fold luff in F.
  destruct (airfoil_section_spec nc dist camb k luff (sadd luff c) d m NC D M A) as [s' [S' [L' P']]].
  rewrite S' in F. injection F as ->.
  assert (CX : vx (sadd luff c) - vx luff = vx c) by (destruct luff, c; svec; ring).
  rewrite CX in P'.
  exists s, c, d, m. do 5 (split; [assumption|]).
  destruct A as (A1 & A2 & _).
  split.
  - intros i I. eexists. split; [apply P', I|]. simpl. repeat split.
    intros DP. rewrite Rabs_mult, Rmult_comm. apply Rmult_le_compat_r; [apply Rabs_pos|].
    assert (0 <= INR i / INR nc <= 1).
    { apply div_bounds; [apply lt_0_INR; lia|]. split; [apply pos_INR | apply le_INR; assumption]. }
    pose proof (scamber_range m d ltac:(lra) ltac:(lra) ltac:(lra) _ H). rewrite Rabs_right; lra.
  - intros DP F0 H0.
    assert (LY : vy luff = 0) by (unfold luff, slerp; destruct foot, head; simpl in *; svec; subst; ring).
    split.
    + rewrite P' by lia. simpl INR. replace (0 / INR nc) with 0 by (field; assumption).
      rewrite scamber_0 by lra. f_equal. destruct luff; simpl in *; subst. vec_eq; ring.
    + intros CY CZ. rewrite P' by lia. replace (INR nc / INR nc) with 1 by (field; assumption).
      rewrite scamber_1 by lra. f_equal. destruct luff, c; simpl in *; subst. svec. vec_eq; ring.
Qed.
Example C13_case : (1 <= 2)%nat /\ (1 <= 1)%nat /\ length [V3 4 0 0; V3 2 0 0] = 2%nat /\
  forall k, (k <= 1)%nat -> exists d m, nth_error [1/2; 1/2] k = Some d /\ nth_error [1/10; 1/20] k = Some m /\ accepted m d 0.
Proof.
  do 3 (split; [simpl; lia|]). intros [|[|k]] K; [| |lia]; simpl; do 2 eexists; repeat split; lra.
Qed.
Print Assumptions C13_airfoil_mesh.

(** ** C14, for every number system.  The mesh is the numpy array of shape (nc+1, ns+1, 3). *)
Theorem C14_panels_tile_the_mesh : forall (F : Type) (NF : Num F) (mesh : list (list (vec F))) (nc ns : nat),
  length mesh = S nc -> (forall row, In row mesh -> length row = S ns) ->
  exists ps te le, make_panels_from_mesh_spanwise mesh = Ok (ps, te, le) /\
    length ps = (nc * ns)%nat /\ length te = (nc * ns)%nat /\ length le = (nc * ns)%nat /\
    forall i j, (i < nc)%nat -> (j < ns)%nat ->
      (exists se sw nw ne,
         mesh_point mesh (S i) j = Some se /\ mesh_point mesh i j = Some sw /\
         mesh_point mesh i (S j) = Some nw /\ mesh_point mesh (S i) (S j) = Some ne /\
         nth_error ps (i * ns + j) = Some (Panel se sw nw ne)) /\
      nth_error te (i * ns + j) = Some (i =? nc - 1)%nat /\
      nth_error le (i * ns + j) = Some ((i =? 0) && (2 <=? nc))%nat%bool.
Proof. intros F NF mesh nc ns L W. apply panels_spec. split; assumption. Qed.
Example C14_case : let mesh := map (fun i => map (fun j => V3 (IZR i) (IZR j) 0) [0; 1; 2; 3]%Z) [0; 1; 2]%Z in
  length mesh = 3%nat /\ forall row, In row mesh -> length row = 4%nat.
Proof. split; [reflexivity|]. intros row [<-|[<-|[<-|[]]]]; reflexivity. Qed.
Print Assumptions C14_panels_tile_the_mesh.

(** ** C15 *)
Theorem C15_panel_area : forall (a b c d : vec R),
  let area := fun a b c d => nth 0 (get_panels_area [Panel a b c d]) 0 in
  ((exists k, 0 <= k /\ (ssub d c = sscale k (ssub a b) \/ ssub a b = sscale k (ssub d c))) ->
     area a b c d = squad a b c d) /\
  0 <= area a b c d /\
  (forall t, area (sadd a t) (sadd b t) (sadd c t) (sadd d t) = area a b c d) /\
  (forall f, rotation_map f -> area (f a) (f b) (f c) (f d) = area a b c d) /\
  area (smirror a) (smirror b) (smirror c) (smirror d) = area a b c d /\
  (forall k, area (sscale k a) (sscale k b) (sscale k c) (sscale k d) = k ^ 2 * area a b c d).
Proof.
  intros a b c d area. change area with (fun a b c d : vec R => panel_area (Panel a b c d)); cbv beta; clear area.
  repeat split.
  - intros [k [K [E|E]]].
    + eapply panel_area_trapezoid; eauto.
    + rewrite panel_area_triangles. unfold squad. f_equal. unfold striangle. f_equal.
      replace (scross (ssub c b) (ssub d b)) with (scross (ssub c b) (ssub d c)) by vring.
      replace (scross (ssub c a) (ssub d a)) with (scross (ssub c a) (ssub d c)) by vring.
      replace (ssub c a) with (ssub (ssub c b) (ssub a b)) by vring. rewrite E. f_equal. vring.
  - rewrite panel_area_triangles. pose proof (striangle_pos a b c). pose proof (striangle_pos b c d). lra.
  - intros t. rewrite !panel_area_s; simpl. do 2 f_equal; f_equal; f_equal; vring.
  - intros f R. rewrite !panel_area_s; simpl.
    rewrite <- !(rm_sub f _ _ R), !(rm_cross f R), !(rm_norm f _ R). reflexivity.
  - rewrite !panel_area_s; simpl. rewrite !smirror_sub, !smirror_cross, !snorm_opp, !smirror_norm. reflexivity.
  - intros k. rewrite !panel_area_s; simpl.
    assert (S : forall u v, ssub (sscale k u) (sscale k v) = sscale k (ssub u v)) by vring.
    rewrite !S, !sscale_norm_area. field.
Qed.
(** Not the area of a general plane convex panel: here 2 instead of 3. *)
Theorem C15_panel_area_refuted : exists a b c d : vec R,
  vz a = 0 /\ vz b = 0 /\ vz c = 0 /\ vz d = 0 /\
  (* convex: all four turns are in the same sense *)
  vz (scross (ssub b a) (ssub c b)) < 0 /\ vz (scross (ssub c b) (ssub d c)) < 0 /\
  vz (scross (ssub d c) (ssub a d)) < 0 /\ vz (scross (ssub a d) (ssub b a)) < 0 /\
  get_panels_area [Panel a b c d] = [2] /\ squad a b c d = 3.
Proof.
  exists (V3 1 0 0), (V3 0 0 0), (V3 0 1 0), (V3 3 3 0). svec.
  do 4 (split; [reflexivity|]). do 4 (split; [lra|]).
  assert (N : forall z, snorm (V3 0 0 z) = Rabs z).
  { intros z. unfold snorm; simpl. rewrite <- sqrt_Rsqr_abs. f_equal. unfold Rsqr; ring. }
  split.
  - unfold get_panels_area, map. rewrite panel_area_triangles. apply f_equal2; [|reflexivity]. unfold striangle.
    replace (scross (ssub (V3 0 0 0) (V3 1 0 0)) _) with (V3 0 0 (-1)) by (svec; vec_eq; ring).
    replace (scross (ssub (V3 0 1 0) (V3 0 0 0)) _) with (V3 0 0 (-3)) by (svec; vec_eq; ring).
    rewrite !N. rewrite !Rabs_left by lra. lra.
  - unfold squad, striangle.
    replace (scross (ssub (V3 0 0 0) (V3 1 0 0)) _) with (V3 0 0 (-1)) by (svec; vec_eq; ring).
    replace (scross (ssub (V3 0 1 0) (V3 1 0 0)) _) with (V3 0 0 (-5)) by (svec; vec_eq; ring).
    rewrite !N. rewrite !Rabs_left by lra. lra.
Qed.
Example C15_case : exists k, 0 <= k /\
  (ssub (V3 3 0 2) (V3 1 0 2) = sscale k (ssub (V3 4 0 0) (V3 0 0 0)) \/
   ssub (V3 4 0 0) (V3 0 0 0) = sscale k (ssub (V3 3 0 2) (V3 1 0 2))).
Proof. exists (1/2). split; [lra|]. left. svec. vec_eq; field. Qed.
Print Assumptions C15_panel_area.
Print Assumptions C15_panel_area_refuted.

(** ** C16 *)
Theorem C16_wing_mesh : forall (le_s te_s le_n te_n : vec R) (nc ns : nat), (1 <= nc)%nat -> (1 <= ns)%nat ->
  let corner := fun i j => sbilinear le_s te_s le_n te_n (INR i / INR nc) (INR j / INR ns) in
  exists ps te le, make_panels_from_le_te_points le_s te_s le_n te_n nc ns = Ok (ps, te, le) /\
    length ps = (nc * ns)%nat /\
    (forall i j, (i < nc)%nat -> (j < ns)%nat ->
       nth_error ps (i * ns + j) = Some (Panel (corner (S i) j) (corner i j) (corner i (S j)) (corner (S i) (S j))) /\
       nth_error te (i * ns + j) = Some (i =? nc - 1)%nat /\
       nth_error le (i * ns + j) = Some ((i =? 0) && (2 <=? nc))%nat%bool) /\
    corner 0%nat 0%nat = le_s /\ corner nc 0%nat = te_s /\ corner 0%nat ns = le_n /\ corner nc ns = te_n.
Proof.
  intros le_s te_s le_n te_n nc ns NC NS corner.
  assert (Nc : INR nc <> 0) by (apply not_0_INR; lia). assert (Ns : INR ns <> 0) by (apply not_0_INR; lia).
  unfold make_panels_from_le_te_points.
  set (mesh := make_point_mesh (discrete_segment le_s te_s nc) (discrete_segment le_n te_n nc) ns).
  assert (R : rect mesh (S nc) (S ns)).
  { pose proof (point_mesh_rect (discrete_segment le_s te_s nc) (discrete_segment le_n te_n nc) ns) as Q.
    rewrite !segment_length in Q. apply Q; reflexivity. }
  destruct (panels_spec mesh nc ns R) as (ps & te & le & E & L1 & _ & _ & P).
  exists ps, te, le. split; [exact E|]. split; [exact L1|]. split.
  - intros i j I J. destruct (P i j I J) as [(se & sw & nw & ne & A & B & C & D & N) [T L]].
    split; [|split; assumption]. rewrite N.
    unfold mesh in A, B, C, D. rewrite le_te_mesh_point in A, B, C, D by lia.
    injection A as <-. injection B as <-. injection C as <-. injection D as <-. reflexivity.
  - unfold corner, sbilinear. simpl (INR 0). replace (0 / INR nc) with 0 by (field; assumption).
    replace (0 / INR ns) with 0 by (field; assumption). replace (INR nc / INR nc) with 1 by (field; assumption).
    replace (INR ns / INR ns) with 1 by (field; assumption). rewrite !slerp_0, !slerp_1. auto.
Qed.
Example C16_case : sbilinear (V3 0 0 0) (V3 2 0 0) (V3 1 0 10) (V3 2 0 10) (1/2) (1/2) = V3 (5/4) 0 5.
Proof. unfold sbilinear, slerp; svec; vec_eq; field. Qed.
Print Assumptions C16_wing_mesh.
