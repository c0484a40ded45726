(** C81: undefined operations in the geometry. *)

From Coq Require Import String ZArith Reals List Bool Lra Psatz Lia Arith.
From Verif Require Import Num PyBase RNum CNum Spec M_Rotations M_Csys M_Airfoil M_Mesher M_Panels M_Sail M_Interp M_Hull M_Runner
  L_List L_Rot L_Csys L_Vel L_Airfoil L_Mesh L_Sail L_Sail2 P_Sail P_Tack L_Lift L_Vlm2 L_LiftGeo.
Import ListNotations.
Open Scope R_scope.

(** ** The ends of the luff *)
Lemma luff_ends_at nc ns (flat : list (vec R)) a b p1 p2 : length flat = ((ns + 1) * (nc + 1))%nat ->
  nth_error flat 0 = Some a -> nth_error flat (ns * (nc + 1)) = Some b -> luff_ends (nc + 1) flat p1 p2 -> p1 = a /\ p2 = b.
Proof.
  intros L A B (E1 & E2). destruct (every_nth_spec (nc + 1) v0 flat (ns + 1) ltac:(lia) L) as [LL LN].
  rewrite (py_nth_nat _ 0 a) in E1 by (rewrite LN by lia; exact A). injection E1 as <-.
  replace (-1)%Z with (- Z.of_nat 1)%Z in E2 by reflexivity.
  rewrite (py_nth_neg _ 1 b) in E2 by (try lia; rewrite LL, LN by lia; replace (ns + 1 - 1)%nat with ns by lia; exact B). injection E2 as <-. auto.
Qed.
Lemma luff_ends_ex nc ns (flat : list (vec R)) a b : length flat = ((ns + 1) * (nc + 1))%nat ->
  nth_error flat 0 = Some a -> nth_error flat (ns * (nc + 1)) = Some b -> luff_ends (nc + 1) flat a b.
Proof.
  intros L A B. destruct (every_nth_spec (nc + 1) v0 flat (ns + 1) ltac:(lia) L) as [LL LN]. split.
  - apply (py_nth_nat _ 0 a). rewrite LN by lia. exact A.
  - replace (-1)%Z with (- Z.of_nat 1)%Z by reflexivity.
    apply py_nth_neg; try lia. rewrite LL, LN by lia. replace (ns + 1 - 1)%nat with ns by lia. exact B.
Qed.
(** arguments for which the meshes can be built: [good_sail] without its condition on the twist *)
Definition meshed (head tack : vec R) (ns nc : nat) (chords twist camber dist : list R) : Prop :=
  (1 <= nc)%nat /\ (1 <= ns)%nat /\ 0 < vz head /\ 0 < vz tack /\ length chords = S ns /\ length twist = S ns /\
  length camber = S ns /\ length dist = S ns /\ (forall m, In m camber -> 0 <= m <= 3/10) /\ (forall d, In d dist -> 0 < d <= 9/10).
Lemma mesh_ends head tack c ns nc ch tw ca di : meshed head tack ns nc ch tw ca di ->
  let a := sheel (heel_deg c) (leeway_deg c) (onto_plane tack) in let b := sheel (heel_deg c) (leeway_deg c) (onto_plane head) in
  exists mesh mesh_u, zero_mesh tack head nc ns ch di ca = Ok mesh /\ zero_mesh (mount_mirror head) (mount_mirror tack) nc ns (rev ch) di (rev ca) = Ok mesh_u /\
    rect mesh (ns + 1) (nc + 1) /\ rect mesh_u (ns + 1) (nc + 1) /\
    let m := heel_mesh c (List.concat mesh) in let mu := heel_mesh c (List.concat mesh_u) in
    length m = ((ns + 1) * (nc + 1))%nat /\ length mu = ((ns + 1) * (nc + 1))%nat /\
    nth_error m 0 = Some a /\ nth_error m (ns * (nc + 1)) = Some b /\
    nth_error mu 0 = Some (smirror b) /\ nth_error mu (ns * (nc + 1)) = Some (smirror a).
Proof.
  intros (NC & NS & ZH & ZT & LC & LT & LM & LD & CO & DO) a b.
  assert (NZ : INR ns <> 0) by (apply not_0_INR; lia).
  set (ch' := fun k => nth k ch 0). set (m' := fun k => nth k ca 0). set (d' := fun k => nth k di 0).
  assert (AC : forall k, (k <= ns)%nat -> (0 <= m' k <= 3/10) /\ (0 < d' k <= 9/10)).
  { intros k K. split; [apply CO, nth_In; lia | apply DO, nth_In; lia]. }
  rewrite (as_stations ns ch LC), (as_stations ns ca LM), (as_stations ns di LD). fold ch' m' d'. rewrite !stations_rev.
  destruct (zero_mesh_spec tack head nc ns ch' m' d' NC NS) as (mesh & E1 & R1 & P1).
  { intros k K. destruct (AC k K) as [A B]. unfold accepted. repeat split; lra. }
  destruct (zero_mesh_spec (smirror head) (smirror tack) nc ns (fun k => ch' (ns - k)%nat) (fun k => m' (ns - k)%nat) d' NC NS) as (mesh_u & E2 & R2 & P2).
  { intros k K. destruct (AC k K) as [_ B]. destruct (AC (ns - k)%nat ltac:(lia)) as [A _]. unfold accepted. repeat split; lra. }
  exists mesh, mesh_u. split; [exact E1|]. split; [exact E2|]. split; [exact R1|]. split; [exact R2|]. cbv zeta.
  assert (L1 := concat_length_rect _ _ _ R1). assert (L2 := concat_length_rect _ _ _ R2).
  assert (Q1 : forall k, (k <= ns)%nat -> nth_error (heel_mesh c (List.concat mesh)) (k * (nc + 1)) = Some (sheel (heel_deg c) (leeway_deg c) (slerp (onto_plane tack) (onto_plane head) (INR k / INR ns)))).
  { intros k K. unfold heel_mesh. replace (k * (nc + 1))%nat with (k * (nc + 1) + 0)%nat by lia. rewrite nth_error_map, (concat_nth_rect mesh (ns + 1) (nc + 1)) by (assumption || lia).
    rewrite P1 by lia. cbn [option_map]. simpl INR. unfold Rdiv at 2. rewrite Rmult_0_l, ssection_luff by apply AC, K. f_equal. apply sheel_spec.
    apply slerp_z_pos; [exact ZT | exact ZH | apply frac_bounds; assumption]. }
  assert (Q2 : forall k, (k <= ns)%nat -> nth_error (heel_mesh c (List.concat mesh_u)) (k * (nc + 1)) = Some (smirror (sheel (heel_deg c) (leeway_deg c) (slerp (onto_plane tack) (onto_plane head) (1 - INR k / INR ns))))).
  { intros k K. unfold heel_mesh. replace (k * (nc + 1))%nat with (k * (nc + 1) + 0)%nat by lia. rewrite nth_error_map, (concat_nth_rect mesh_u (ns + 1) (nc + 1)) by (assumption || lia).
    rewrite P2 by lia. cbn [option_map]. simpl INR. unfold Rdiv at 2. rewrite Rmult_0_l, ssection_mirror, ssection_luff by apply AC, K.
    assert (Z : 0 < vz (slerp (onto_plane tack) (onto_plane head) (1 - INR k / INR ns))).
    { apply slerp_z_pos; [exact ZT | exact ZH | pose proof (frac_bounds k ns NS K); lra]. }
    f_equal. rewrite rotate_mirror by lra. f_equal. apply sheel_spec. exact Z. }
  pose proof (Q1 0%nat ltac:(lia)) as A0. pose proof (Q1 ns ltac:(lia)) as A1. pose proof (Q2 0%nat ltac:(lia)) as B0. pose proof (Q2 ns ltac:(lia)) as B1.
  replace (INR 0 / INR ns) with 0 in A0, B0 by (simpl INR; unfold Rdiv; ring). replace (INR ns / INR ns) with 1 in A1, B1 by (field; exact NZ).
  replace (1 - 0) with 1 in B0 by ring. replace (1 - 1) with 0 in B1 by ring. rewrite slerp_0 in A0, B1. rewrite slerp_1 in A1, B0.
  unfold heel_mesh in *. rewrite !map_length. repeat split; assumption.
Qed.

(** ** C81 *)
(** a sail that is returned has only defined coordinates *)
Theorem C81_defined : forall head tack c ns nc chords twist name mode camber dist S,
  SailGeometry (fin head) (fin tack) (finC c) ns nc (map Some chords) (map Some twist) name mode (map Some camber) (map Some dist) = Ok S ->
  exists s, SailGeometry head tack c ns nc chords twist name mode camber dist = Ok s /\ S = finS s.
Proof.
  intros head tack c ns nc ch tw name mode ca di S E. destruct (sail_either head tack c ns nc ch tw name mode ca di) as [Q|Q]; rewrite E in Q; [|discriminate].
  destruct (SailGeometry head tack c ns nc ch tw name mode ca di) as [s|]; [|discriminate]. injection Q as ->. exists s. auto.
Qed.
(** the only thing that undefined operations add to the possible errors is a failed assertion, when there is a twist *)
Theorem C81_errors : forall head tack c ns nc chords twist name mode camber dist e,
  SailGeometry (fin head) (fin tack) (finC c) ns nc (map Some chords) (map Some twist) name mode (map Some camber) (map Some dist) = Raise e ->
  SailGeometry head tack c ns nc chords twist name mode camber dist = Raise e \/ (e = AssertionError /\ mode <> None).
Proof.
  intros head tack c ns nc ch tw name mode ca di e E. destruct mode as [mode|].
  - destruct (sail_either head tack c ns nc ch tw name (Some mode) ca di) as [Q|Q]; rewrite E in Q; [left | right; injection Q as ->; split; [reflexivity | discriminate]].
    destruct (SailGeometry head tack c ns nc ch tw name (Some mode) ca di) as [s|]; [discriminate|]. injection Q as ->. reflexivity.
  - left. destruct (sail_lift head tack c ns nc ch tw name None ca di False) as [Q|[[] _]]; [intros; left; apply twisted_fin; intros X; contradiction X; reflexivity|].
    rewrite E in Q. destruct (SailGeometry head tack c ns nc ch tw name None ca di) as [s|]; [discriminate|]. injection Q as ->. reflexivity.
Qed.
(** a twisted sail is returned or refused according to the direction of its luff *)
Theorem C81_luff : forall head tack c ns nc chords twist name mode camber dist,
  meshed head tack ns nc chords twist camber dist -> In mode ["sheeting_angle_const"; "average_const"; "real_twist"]%string ->
  let a := sheel (heel_deg c) (leeway_deg c) (onto_plane tack) in
  let b := sheel (heel_deg c) (leeway_deg c) (onto_plane head) in
  let run := SailGeometry (fin head) (fin tack) (finC c) ns nc (map Some chords) (map Some twist) name (Some mode) (map Some camber) (map Some dist) in
  (vy a <> vy b \/ vz a <> vz b -> exists s, SailGeometry head tack c ns nc chords twist name (Some mode) camber dist = Ok s /\ run = Ok (finS s)) /\
  (vy a = vy b /\ vz a = vz b -> run = Raise AssertionError).
Proof.
  intros head tack c ns nc ch tw name mode ca di M MO a b run.
  destruct (mesh_ends head tack c ns nc ch tw ca di M) as (mesh & mesh_u & E1 & E2 & R1 & R2 & L1 & L2 & A0 & A1 & B0 & B1). fold a b in A0, A1, B0, B1.
  pose proof M as (NC & NS & ZH & ZT & LC & LT & LM & LD & CO & DO). split.
  - intros T.
    destruct (good_sail_spec head tack c ns nc ch tw ca di (Some mode) name) as (s & E & _).
    { constructor; try assumption. split; assumption. }
    exists s. split; [exact E|]. unfold run.
    destruct (sail_lift head tack c ns nc ch tw name (Some mode) ca di False) as [Q|[[] _]]; [|rewrite Q, E; reflexivity].
    intros mesh' mesh_u' X1 X2 m mu. left. apply twisted_fin. intros _.
    rewrite E1 in X1. injection X1 as <-. rewrite E2 in X2. injection X2 as <-. split; intros p1 p2 P.
    + destruct (luff_ends_at nc ns _ a b p1 p2 L1 A0 A1 P) as [-> ->]. unfold turnable. destruct T as [T|T]; [left | right]; lra.
    + destruct (luff_ends_at nc ns _ (smirror b) (smirror a) p1 p2 L2 B0 B1 P) as [-> ->]. unfold turnable, smirror. cbn [vy vz]. destruct T as [T|T]; [left | right]; lra.
  - intros [Y Z]. unfold run, SailGeometry. cbv zeta. rewrite zero_mesh_fin, E1. cbn [rmap bind]. rewrite transpose_fin, make_panels_fin.
    destruct (make_panels_from_mesh_spanwise (transpose (nc + 1) v0 mesh)) as [[[az ?] ?]|e] eqn:PA; [|exfalso].
    2:{ destruct (transpose_spec v0 mesh _ _ R1) as (RT1 & _). replace (ns + 1)%nat with (S ns) in RT1 by lia. replace (nc + 1)%nat with (S nc) in RT1, PA by lia.
        destruct (panels_spec _ nc ns RT1) as (za & zte & zle & Z1 & _). rewrite Z1 in PA. discriminate. }
    cbn [rmap bind]. change (mount_mirror (fin head)) with (fin (mount_mirror head)). change (mount_mirror (fin tack)) with (fin (mount_mirror tack)). rewrite <- !map_rev, zero_mesh_fin, E2. cbn [rmap bind].
    rewrite transpose_fin, make_panels_fin.
    destruct (make_panels_from_mesh_spanwise (transpose (nc + 1) v0 mesh_u)) as [[[uz ?] ?]|e] eqn:PU; [|exfalso].
    2:{ destruct (transpose_spec v0 mesh_u _ _ R2) as (RT1 & _). replace (ns + 1)%nat with (S ns) in RT1 by lia. replace (nc + 1)%nat with (S nc) in RT1, PU by lia.
        destruct (panels_spec _ nc ns RT1) as (za & zte & zle & Z1 & _). rewrite Z1 in PU. discriminate. }
    cbn [rmap bind]. rewrite <- !concat_map, !heel_mesh_fin, py_min_some.
    assert (MN : exists t, py_min tw = Ok t) by (destruct tw; [discriminate | simpl; eauto]). destruct MN as [t MN]. rewrite MN. cbn [bind].
    assert (ML : lookup_twist_mode mode = Ok tt).
    { unfold lookup_twist_mode. replace (existsb _ _) with true; [reflexivity|]. symmetry. apply existsb_exists. exists mode. split; [exact MO | apply String.eqb_refl]. }
    rewrite ML. cbn [bind]. rewrite spread_some, (as_stations ns tw LT).
    destruct (spread_twist_spec ns nc (fun k => nth k tw 0)) as (twl & S1 & S2 & S3). rewrite S1. cbn [rmap bind].
    rewrite (twist_undef (nc + 1) _ twl a b); [reflexivity | apply (luff_ends_ex nc ns); assumption | | intros N; rewrite N in S2; simpl in S2; lia].
    intros [T|T]; lra.
Qed.
(** the mounting points of the mainsail are always defined; those of the jib exactly when the mast is not horizontal and the
    forestay triangle is not a point *)
Theorem C81_mounting : forall f luff boom base height mast_LOA,
  (exists h t, main_mounting (finF f) (Some luff) (Some boom) = (fin h, fin t)) /\
  ((exists h t, jib_mounting (finF f) (Some luff) (Some base) (Some height) (Some mast_LOA) = (fin h, fin t)) <->
   sin (rad (fa_rake_deg f)) <> 0 /\ (base <> 0 \/ height <> 0)).
Proof.
  intros f luff boom base height loa. split; [rewrite main_fin; eauto|]. split.
  - intros (h & t & E). destruct (Req_dec (sin (rad (fa_rake_deg f))) 0) as [Z|Z].
    + exfalso. pose proof (jib_undef f luff base height loa) as U. cbv zeta in U. rewrite E in U. specialize (U ltac:(intros [X _]; contradiction)). discriminate U.
    + destruct (Req_dec base 0) as [B|B]; [destruct (Req_dec height 0) as [H|H]|]; [|auto|auto].
      exfalso. pose proof (jib_undef f luff base height loa) as U. cbv zeta in U. rewrite E in U. specialize (U ltac:(intros [_ [X|X]]; contradiction)). discriminate U.
  - intros H. rewrite (jib_fin f luff base height loa H). eauto.
Qed.
(* a sail with an upright luff, and one whose luff is horizontal *)
Example C81_case :
  let run head := SailGeometry (fin head) (fin (V3 0 0 1)) (finC (Csys 0 0 szero)) 2 3 (map Some [3; 2; 1]) (map Some [0; 5; 10]) "main_sail" (Some "real_twist"%string)
    (map Some [1/10; 1/20; 0]) (map Some [1/2; 1/2; 1/4]) in
  (exists s, run (V3 (-1) 0 5) = Ok (finS s)) /\ run (V3 4 0 1) = Raise AssertionError /\
  (forall base height, base <> 0 -> rigged (Factory (Csys 0 0 szero) 2 3 90 1) base height).
Proof.
  cbv zeta. assert (M : forall x z, 0 < z -> meshed (V3 x 0 z) (V3 0 0 1) 2 3 [3; 2; 1] [0; 5; 10] [1/10; 1/20; 0] [1/2; 1/2; 1/4]).
  { intros x z Z. unfold meshed. cbn [vz length]. repeat (split; [first [lia | lra | reflexivity]|]). split; intros d [<-|[<-|[<-|[]]]]; lra. }
  assert (I : In "real_twist"%string ["sheeting_angle_const"; "average_const"; "real_twist"]%string) by (simpl; auto).
  split; [|split].
  - destruct (C81_luff (V3 (-1) 0 5) (V3 0 0 1) (Csys 0 0 szero) 2 3 [3; 2; 1] [0; 5; 10] "main_sail" "real_twist" [1/10; 1/20; 0] [1/2; 1/2; 1/4] (M (-1) 5 ltac:(lra)) I) as [A _].
    destruct A as (s & _ & E); [|exists s; exact E]. right. cbn [heel_deg leeway_deg]. unfold sheel, onto_plane, srot. rewrite rad_0, Ropp_0, cos_0, sin_0. svec. lra.
  - apply (C81_luff (V3 4 0 1) (V3 0 0 1) (Csys 0 0 szero) 2 3 [3; 2; 1] [0; 5; 10] "main_sail" "real_twist" [1/10; 1/20; 0] [1/2; 1/2; 1/4] (M 4 1 ltac:(lra)) I).
    cbn [heel_deg leeway_deg]. unfold sheel, onto_plane, srot. rewrite rad_0, Ropp_0, cos_0, sin_0. svec. split; lra.
  - intros base height B. split; [|left; exact B]. cbn [fa_rake_deg]. replace (rad 90) with (PI / 2) by (unfold rad; lra). rewrite sin_PI2. lra.
Qed.
Print Assumptions C81_defined.
Print Assumptions C81_errors.
Print Assumptions C81_luff.
Print Assumptions C81_mounting.
