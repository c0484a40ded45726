(** Properties C17 - C22: sail geometry. *)

From Coq Require Import String ZArith Reals List Bool Lra Psatz Lia.
From Verif Require Import Num PyBase RNum Spec M_Airfoil M_Rotations M_Csys M_Mesher M_Panels M_Sail
  L_List L_Rot L_Csys L_Airfoil L_Mesh L_Sail L_Sail2.
Import ListNotations.
Open Scope R_scope.

(** Arguments for which a sail above the water can be built: one entry per section, camber within the
    documented range and at a positive position; if the sail is twisted, a known mode
    and a luff that is not parallel to the x axis after heel and leeway. *)
Record good_sail (head tack : vec R) (c : csys R) (ns nc : nat) (chords twist camber dist : list R) (mode : option string) : Prop := {
  gs_nc : (1 <= nc)%nat; gs_ns : (1 <= ns)%nat;
  gs_head : 0 < vz head; gs_tack : 0 < vz tack;
  gs_chords : length chords = S ns; gs_twist : length twist = S ns;
  gs_camber : length camber = S ns; gs_dist : length dist = S ns;
  gs_camber_ok : forall m, In m camber -> 0 <= m <= 3/10;
  gs_dist_ok : forall d, In d dist -> 0 < d <= 9/10;
  gs_mode : match mode with
            | None => True
            | Some s => In s ["sheeting_angle_const"; "average_const"; "real_twist"]%string /\
                let a := sheel (heel_deg c) (leeway_deg c) (onto_plane tack) in
                let b := sheel (heel_deg c) (leeway_deg c) (onto_plane head) in
                vy a <> vy b \/ vz a <> vz b
            end }.

(** [q] is the mirror image of [p] in the water plane, corners in mirrored order *)
Definition mirror_panel (p q : panel R) : Prop :=
  pp1 q = smirror (pp4 p) /\ pp2 q = smirror (pp3 p) /\ pp3 q = smirror (pp2 p) /\ pp4 q = smirror (pp1 p).

Lemma as_stations ns (l : list R) : length l = S ns -> l = stations ns (fun k => nth k l 0).
Proof.
  intros L. apply list_ext; [rewrite stations_length; assumption|]. intros i I. rewrite L in I.
  rewrite stations_nth by lia. apply nth_error_nth'. lia.
Qed.
Lemma good_sail_spec head tack c ns nc chords twist camber dist mode name :
  good_sail head tack c ns nc chords twist camber dist mode ->
  let ch k := nth k chords 0 in let tw k := nth k twist 0 in let m k := nth k camber 0 in let d k := nth k dist 0 in
  let sp := spoint head tack c ns nc ch tw m mode in let up := upoint head tack c ns nc ch tw m d mode in
  let zp := zpoint head tack ns nc ch m in
  exists s, SailGeometry head tack c ns nc chords twist name mode camber dist = Ok s /\
  sl_name s = name /\ sl_csys s = c /\ sl_head s = head /\ sl_tack s = tack /\
  length (sl_above_zero s) = (nc * ns)%nat /\ length (sl_under_zero s) = (nc * ns)%nat /\
  forall i j, (i < nc)%nat -> (j < ns)%nat ->
    nth_error (sl_above s) (i * ns + j) =
      Some (Panel (sp j (i + 1)%nat (d j)) (sp j i (d j)) (sp (j + 1)%nat i (d (j + 1)%nat)) (sp (j + 1)%nat (i + 1)%nat (d (j + 1)%nat))) /\
    nth_error (sl_under s) (i * ns + j) =
      Some (Panel (up j (i + 1)%nat) (up j i) (up (j + 1)%nat i) (up (j + 1)%nat (i + 1)%nat)) /\
    nth_error (sl_above_zero s) (i * ns + j) =
      Some (Panel (zp j (i + 1)%nat (d j)) (zp j i (d j)) (zp (j + 1)%nat i (d (j + 1)%nat)) (zp (j + 1)%nat (i + 1)%nat (d (j + 1)%nat))) /\
    let uz := uzpoint head tack ns nc ch m d in
    nth_error (sl_under_zero s) (i * ns + j) = Some (Panel (uz j (i + 1)%nat) (uz j i) (uz (j + 1)%nat i) (uz (j + 1)%nat (i + 1)%nat)).
Proof.
  intros G ch tw m d sp up zp. destruct G as [NC NS ZH ZT LC LT LM LD CO DO MO].
  rewrite (as_stations ns chords LC), (as_stations ns twist LT), (as_stations ns camber LM), (as_stations ns dist LD).
  apply (sail_geometry_spec head tack c ns nc ch tw m d name mode NC NS ZT ZH); [|exact MO].
  intros k K. assert (C1 : 0 <= nth k camber 0 <= 3/10) by (apply CO, nth_In; lia). assert (D1 : 0 < nth k dist 0 <= 9/10) by (apply DO, nth_In; lia).
  unfold accepted, m, d. split; [split; [assumption | split; lra] | lra].
Qed.

(** ** C17 *)
Theorem C17_mirror_image : forall head tack c ns nc chords twist camber dist mode name,
  good_sail head tack c ns nc chords twist camber dist mode ->
  (* the camber position does not vary along the span *)
  (forall d d', In d dist -> In d' dist -> d = d') ->
  exists s, SailGeometry head tack c ns nc chords twist name mode camber dist = Ok s /\
    forall i j, (i < nc)%nat -> (j < ns)%nat -> exists p q,
      nth_error (sl_above s) (i * ns + (ns - 1 - j)) = Some p /\ nth_error (sl_under s) (i * ns + j) = Some q /\
      mirror_panel p q.
Proof.
  intros head tack c ns nc chords twist camber dist mode name G C.
  destruct (good_sail_spec head tack c ns nc chords twist camber dist mode name G) as (s & E & _ & _ & _ & _ & _ & _ & P).
  exists s. split; [exact E|]. intros i j I J.
  destruct (P i j I J) as (_ & PU & _). destruct (P i (ns - 1 - j)%nat I ltac:(lia)) as (PA & _).
  do 2 eexists. split; [exact PA|]. split; [exact PU|].
  assert (DC : forall k l, (k <= ns)%nat -> (l <= ns)%nat -> nth k dist 0 = nth l dist 0).
  { intros k l K L. apply C; apply nth_In; rewrite (gs_dist _ _ _ _ _ _ _ _ _ _ G); lia. }
  unfold mirror_panel, upoint; cbn [pp1 pp2 pp3 pp4].
  replace (ns - 1 - j + 1)%nat with (ns - j)%nat by lia. replace (ns - (j + 1))%nat with (ns - 1 - j)%nat by lia.
  rewrite (DC (ns - j)%nat j), (DC (ns - 1 - j)%nat (j + 1)%nat) by lia. auto.
Qed.
(* with a varying camber position the claim is false *)
Theorem C17_mirror_image_refuted : exists head tack c ns nc chords twist camber dist mode name,
  good_sail head tack c ns nc chords twist camber dist mode /\
  exists s p q, SailGeometry head tack c ns nc chords twist name mode camber dist = Ok s /\
    nth_error (sl_above s) (0 * ns + (ns - 1 - 0)) = Some p /\ nth_error (sl_under s) (0 * ns + 0) = Some q /\
    ~ mirror_panel p q.
Proof.
  set (chords := [1; 1]). set (twist := [0; 0]). set (camber := [1/10; 1/10]). set (dist := [1/2; 1/4]).
  assert (G : good_sail (V3 0 0 2) (V3 0 0 1) (Csys 0 0 szero) 1 2 chords twist camber dist None).
  { constructor; try reflexivity; try lia; simpl; try lra; auto.
    - intros m [<-|[<-|[]]]; lra.
    - intros m [<-|[<-|[]]]; lra. }
  exists (V3 0 0 2), (V3 0 0 1), (Csys 0 0 szero), 1%nat, 2%nat, chords, twist, camber, dist, None, "sail"%string.
  split; [exact G|].
  destruct (good_sail_spec _ _ _ _ _ _ _ _ _ _ "sail"%string G) as (s & E & _ & _ & _ & _ & _ & _ & P).
  destruct (P 0%nat 0%nat ltac:(lia) ltac:(lia)) as (PA & PU & _).
  exists s. do 2 eexists. split; [exact E|]. split; [exact PA|]. split; [exact PU|].
  intros (M & _). cbn [pp1 pp4] in M. apply (f_equal vy) in M. revert M.
  unfold upoint, spoint, angle. rewrite rad_0, !srot_line_0.
  assert (H0 : forall p, hl (Csys 0 0 szero) p = p).
  { intros p. unfold hl, sheel. cbn [heel_deg leeway_deg]. rewrite rad_0, Ropp_0. unfold srot. rewrite cos_0, sin_0. destruct p; svec; vec_eq; ring. }
  rewrite !H0. unfold zpoint, ssection. cbv zeta. unfold smirror. cbn [vy]. simpl Nat.sub. simpl Nat.add.
  unfold chords, camber, dist. cbn [nth]. simpl INR. unfold scamber.
  destruct (Rlt_dec (1 / (1 + 1)) (1 / 2)); [lra|]. destruct (Rlt_dec (1 / (1 + 1)) (1 / 4)); [lra|]. intros M.
  field_simplify in M. lra.
Qed.
Example C17_case : good_sail (V3 0 0 5) (V3 0 0 1) (Csys 0 0 szero) 2 3 [3; 2; 1] [0; 5; 10] [1/10; 1/20; 0] [1/2; 1/2; 1/2] (Some "real_twist"%string)
  /\ (forall d d', In d [1/2; 1/2; 1/2] -> In d' [1/2; 1/2; 1/2] -> d = d').
Proof.
  split.
  - constructor; try reflexivity; try lia; simpl; try lra.
    + intros m [<-|[<-|[<-|[]]]]; lra.
    + intros m [<-|[<-|[<-|[]]]]; lra.
    + split; [auto|]. right. unfold sheel, onto_plane, srot. rewrite rad_0, Ropp_0, cos_0, sin_0. svec. lra.
  - intros d d' [<-|[<-|[<-|[]]]] [<-|[<-|[<-|[]]]]; reflexivity.
Qed.
Print Assumptions C17_mirror_image.

(** ** C18.  The luff corners of the panels of the first row are those of the untwisted sail. *)
Theorem C18_luff_fixed : forall head tack c ns nc chords twist camber dist mode name,
  good_sail head tack c ns nc chords twist camber dist (Some mode) ->
  exists s s0,
    SailGeometry head tack c ns nc chords twist name (Some mode) camber dist = Ok s /\
    SailGeometry head tack c ns nc chords twist name None camber dist = Ok s0 /\
    forall j, (j < ns)%nat ->
      (exists p p0, nth_error (sl_above s) j = Some p /\ nth_error (sl_above s0) j = Some p0 /\ pp2 p = pp2 p0 /\ pp3 p = pp3 p0) /\
      (exists p p0, nth_error (sl_under s) j = Some p /\ nth_error (sl_under s0) j = Some p0 /\ pp2 p = pp2 p0 /\ pp3 p = pp3 p0).
Proof.
  intros head tack c ns nc chords twist camber dist mode name G.
  assert (G0 : good_sail head tack c ns nc chords twist camber dist None) by (destruct G; constructor; auto).
  destruct (good_sail_spec _ _ _ _ _ _ _ _ _ _ name G) as (s & E & _ & _ & _ & _ & _ & _ & P).
  destruct (good_sail_spec _ _ _ _ _ _ _ _ _ _ name G0) as (s0 & E0 & _ & _ & _ & _ & _ & _ & P0).
  exists s, s0. split; [exact E|]. split; [exact E0|]. intros j J.
  pose proof (gs_nc _ _ _ _ _ _ _ _ _ _ G) as NC. pose proof (gs_ns _ _ _ _ _ _ _ _ _ _ G) as NS.
  destruct (P 0%nat j ltac:(lia) J) as (PA & PU & _). destruct (P0 0%nat j ltac:(lia) J) as (PA0 & PU0 & _).
  simpl in PA, PU, PA0, PU0.
  assert (D : forall k, (k <= ns)%nat -> 0 < nth k dist 0).
  { intros k K. apply (gs_dist_ok _ _ _ _ _ _ _ _ _ _ G). apply nth_In. rewrite (gs_dist _ _ _ _ _ _ _ _ _ _ G). lia. }
  assert (AB : luff_a tack c <> luff_b head c).
  { destruct (gs_mode _ _ _ _ _ _ _ _ _ _ G) as [_ M]. intros Z. unfold luff_a, luff_b, hl in Z. rewrite Z in M. destruct M as [M|M]; apply M; reflexivity. }
  assert (F : forall k dk, 0 < dk ->
     spoint head tack c ns nc (fun k => nth k chords 0) (fun k => nth k twist 0) (fun k => nth k camber 0) (Some mode) k 0 dk =
     spoint head tack c ns nc (fun k => nth k chords 0) (fun k => nth k twist 0) (fun k => nth k camber 0) None k 0 dk).
  { intros k dk Dk. unfold spoint, angle. rewrite rad_0, srot_line_0. rewrite zpoint_luff by assumption.
    apply srot_line_fix. exact AB. }
  split; do 2 eexists; (split; [eassumption|]); (split; [eassumption|]); cbn [pp2 pp3]; unfold upoint;
    rewrite !F by (apply D; lia); auto.
Qed.
Example C18_case : good_sail (V3 (-1) 0 5) (V3 0 0 1) (Csys 0 0 szero) 1 1 [3; 2] [0; 30] [1/10; 1/20] [1/2; 1/4] (Some "average_const"%string).
Proof.
  constructor; try reflexivity; try lia; simpl; try lra.
  - intros m [<-|[<-|[]]]; lra.
  - intros m [<-|[<-|[]]]; lra.
  - split; [auto|]. right. unfold sheel, onto_plane, srot. rewrite rad_0, Ropp_0, cos_0, sin_0. svec. lra.
Qed.
Print Assumptions C18_luff_fixed.

(** ** C19 *)
Theorem C19_sections_rotated : forall head tack c ns nc chords twist camber dist mode name,
  good_sail head tack c ns nc chords twist camber dist (Some mode) ->
  let a := sheel (heel_deg c) (leeway_deg c) (onto_plane tack) in
  let b := sheel (heel_deg c) (leeway_deg c) (onto_plane head) in
  let rot k := srot_line a b (rad (nth k twist 0)) in
  exists s s0,
    SailGeometry head tack c ns nc chords twist name (Some mode) camber dist = Ok s /\
    SailGeometry head tack c ns nc chords twist name None camber dist = Ok s0 /\
    forall i j, (i < nc)%nat -> (j < ns)%nat -> exists p,
      nth_error (sl_above s0) (i * ns + j) = Some p /\
      nth_error (sl_above s) (i * ns + j) =
        Some (Panel (rot j (pp1 p)) (rot j (pp2 p)) (rot (j + 1)%nat (pp3 p)) (rot (j + 1)%nat (pp4 p))).
Proof.
  intros head tack c ns nc chords twist camber dist mode name G a b rot.
  assert (G0 : good_sail head tack c ns nc chords twist camber dist None) by (destruct G; constructor; auto).
  destruct (good_sail_spec _ _ _ _ _ _ _ _ _ _ name G) as (s & E & _ & _ & _ & _ & _ & _ & P).
  destruct (good_sail_spec _ _ _ _ _ _ _ _ _ _ name G0) as (s0 & E0 & _ & _ & _ & _ & _ & _ & P0).
  exists s, s0. split; [exact E|]. split; [exact E0|]. intros i j I J.
  destruct (P i j I J) as (PA & _). destruct (P0 i j I J) as (PA0 & _).
  eexists. split; [exact PA0|]. rewrite PA. cbn [pp1 pp2 pp3 pp4].
  unfold spoint at 5 6 7 8. unfold angle. rewrite rad_0, !srot_line_0. reflexivity.
Qed.
(** The accepted modes all give the same sail, on every number system; other modes are rejected. *)
Theorem C19_modes_have_no_effect : forall (F : Type) (NF : Num F) (head tack : vec F) c ns nc chords twist name camber dist m1 m2,
  In m1 ["sheeting_angle_const"; "average_const"; "real_twist"]%string ->
  SailGeometry head tack c ns nc chords twist name (Some m1) camber dist =
    (if existsb (String.eqb m2) ["sheeting_angle_const"; "average_const"; "real_twist"]%string
     then SailGeometry head tack c ns nc chords twist name (Some m2) camber dist
     else SailGeometry head tack c ns nc chords twist name (Some m1) camber dist) /\
  (existsb (String.eqb m2) ["sheeting_angle_const"; "average_const"; "real_twist"]%string = false ->
   forall s, SailGeometry head tack c ns nc chords twist name (Some m2) camber dist <> Ok s).
Proof.
  intros F NF head tack c ns nc chords twist name camber dist m1 m2 I1.
  assert (L : forall m, lookup_twist_mode m = if existsb (String.eqb m) ["sheeting_angle_const"; "average_const"; "real_twist"]%string then Ok tt else Raise KeyError) by reflexivity.
  assert (B1 : existsb (String.eqb m1) ["sheeting_angle_const"; "average_const"; "real_twist"]%string = true).
  { apply existsb_exists. exists m1. split; [assumption | apply String.eqb_refl]. }
  split.
  - destruct (existsb (String.eqb m2) _) eqn:B2; [|reflexivity].
    unfold SailGeometry. rewrite !L, B1, B2. reflexivity.
  - intros B2 s H. unfold SailGeometry in H. rewrite L, B2 in H.
    cbv zeta in H. destruct (zero_mesh tack head _ _ _ _ _); [|discriminate]. unfold bind at 1 in H.
    destruct (make_panels_from_mesh_spanwise _) as [[[? ?] ?]|]; [|discriminate]. unfold bind at 1 in H.
    destruct (zero_mesh _ _ _ _ _ _ _); [|discriminate]. unfold bind at 1 in H.
    destruct (make_panels_from_mesh_spanwise _) as [[[? ?] ?]|]; [|discriminate]. unfold bind at 1 in H.
    destruct (py_min twist); discriminate.
Qed.
(** The documented constant modes are not what happens: witness with twist 0 at the foot and 180 at the head. *)
Theorem C19_documented_modes_refuted : exists head tack c ns nc chords twist camber dist name s smin savg,
  good_sail head tack c ns nc chords twist camber dist (Some "real_twist"%string) /\ twist = [0; 180] /\
  SailGeometry head tack c ns nc chords twist name (Some "sheeting_angle_const"%string) camber dist = Ok s /\
  SailGeometry head tack c ns nc chords twist name (Some "average_const"%string) camber dist = Ok s /\
  SailGeometry head tack c ns nc chords [0; 0] name (Some "real_twist"%string) camber dist = Ok smin /\
  SailGeometry head tack c ns nc chords [90; 90] name (Some "real_twist"%string) camber dist = Ok savg /\
  sl_above s <> sl_above smin /\ sl_above s <> sl_above savg.
Proof.
  set (chords := [1; 1]). set (camber := [0; 0]). set (dist := [1/2; 1/2]).
  assert (G : forall t1 t2 mode, In mode ["sheeting_angle_const"; "average_const"; "real_twist"]%string ->
     good_sail (V3 0 0 2) (V3 0 0 1) (Csys 0 0 szero) 1 1 chords [t1; t2] camber dist (Some mode)).
  { intros. constructor; try reflexivity; try lia; simpl; try lra; auto.
    - intros m [<-|[<-|[]]]; lra.
    - intros m [<-|[<-|[]]]; lra.
    - split; [assumption|]. right. unfold sheel, onto_plane, srot. rewrite rad_0, Ropp_0, cos_0, sin_0. svec. lra. }
  assert (H0 : forall p, hl (Csys 0 0 szero) p = p).
  { intros p. unfold hl, sheel. cbn [heel_deg leeway_deg]. rewrite rad_0, Ropp_0. unfold srot. rewrite cos_0, sin_0. destruct p; svec; vec_eq; ring. }
  assert (X : forall t1 t2 mode, In mode ["sheeting_angle_const"; "average_const"; "real_twist"]%string ->
     exists s p, SailGeometry (V3 0 0 2) (V3 0 0 1) (Csys 0 0 szero) 1 1 chords [t1; t2] "sail" (Some mode) camber dist = Ok s /\
       nth_error (sl_above s) 0 = Some p /\ vx (pp4 p) = cos (rad t2)).
  { intros t1 t2 mode I. destruct (good_sail_spec _ _ _ _ _ _ _ _ _ _ "sail"%string (G t1 t2 mode I)) as (s & E & _ & _ & _ & _ & _ & _ & P).
    destruct (P 0%nat 0%nat ltac:(lia) ltac:(lia)) as (PA & _). exists s. eexists. split; [exact E|]. split; [exact PA|].
    cbn [pp4]. unfold spoint, angle, luff_a, luff_b. rewrite !H0. unfold zpoint, ssection, onto_plane. cbv zeta. simpl Nat.add. simpl INR.
    cbn [nth chords camber dist]. unfold slerp, srot_line. cbn [vx vy vz].
    replace (ssub (V3 0 0 2) (V3 0 0 1)) with (V3 0 0 1) by (svec; vec_eq; ring).
    change (V3 0 0 1) with ez. rewrite sunit_ez. unfold ez, srot. unfold chords. simpl nth. svec. unfold scamber, camber. simpl nth.
    match goal with |- context [if ?b then _ else _] => destruct b end; field. }
  destruct (X 0 180 "sheeting_angle_const"%string ltac:(simpl; auto)) as (s & p & E1 & N1 & V1).
  destruct (X 0 180 "average_const"%string ltac:(simpl; auto)) as (s' & p' & E2 & _).
  destruct (X 0 0 "real_twist"%string ltac:(simpl; auto)) as (s3 & p3 & E3 & N3 & V3').
  destruct (X 90 90 "real_twist"%string ltac:(simpl; auto)) as (s4 & p4 & E4 & N4 & V4).
  assert (s = s').
  { pose proof (proj1 (C19_modes_have_no_effect R RNum (V3 0 0 2) (V3 0 0 1) (Csys 0 0 szero) 1 1 chords [0; 180] "sail"%string camber dist "sheeting_angle_const"%string "average_const"%string ltac:(simpl; auto))) as Q.
    simpl existsb in Q. cbv iota in Q. rewrite E1, E2 in Q. injection Q; auto. }
  subst s'.
  exists (V3 0 0 2), (V3 0 0 1), (Csys 0 0 szero), 1%nat, 1%nat, chords, [0; 180], camber, dist, "sail"%string, s, s3, s4.
  split; [apply G; simpl; auto|]. do 5 (split; [assumption || reflexivity|]).
  replace (rad 180) with PI in V1 by (unfold rad; field). rewrite cos_PI in V1.
  rewrite rad_0, cos_0 in V3'. replace (rad 90) with (PI / 2) in V4 by (unfold rad; field). rewrite cos_PI2 in V4.
  split; intros Z; rewrite Z in N1.
  - rewrite N1 in N3. injection N3 as ->. lra.
  - rewrite N1 in N4. injection N4 as ->. lra.
Qed.
Example C19_case : good_sail (V3 (-1) 0 5) (V3 0 0 1) (Csys 0 0 szero) 1 1 [3; 2] [0; 30] [1/10; 1/20] [1/2; 1/4] (Some "real_twist"%string).
Proof.
  constructor; try reflexivity; try lia; simpl; try lra.
  - intros m [<-|[<-|[]]]; lra.
  - intros m [<-|[<-|[]]]; lra.
  - split; [auto|]. right. unfold sheel, onto_plane, srot. rewrite rad_0, Ropp_0, cos_0, sin_0. svec. lra.
Qed.
Print Assumptions C19_sections_rotated.
Print Assumptions C19_modes_have_no_effect.

(** ** C20.  Panel (i, j) of sail [k] of [n]: row i (chordwise), strip j. *)
Theorem C20_sail_set_layout : forall (F : Type) (NF : Num F) (nc ns : nat) (sails : list (sail F)),
  (forall s, In s sails -> exists head tack c chords twist name mode camber dist,
     SailGeometry head tack c ns nc chords twist name mode camber dist = Ok s) ->
  (sails = [] -> SailSet sails = Raise ValueError) /\
  (sails <> [] -> exists ss, SailSet sails = Ok ss /\ ss_sails ss = sails /\
     length (ss_panels ss) = (2 * length sails * (nc * ns))%nat /\
     length (ss_te ss) = length (ss_panels ss) /\ length (ss_le ss) = length (ss_panels ss) /\
     forall k s i j, nth_error sails k = Some s -> (i < nc)%nat -> (j < ns)%nat ->
       let above := ((k * nc + i) * ns + j)%nat in
       let under := (((length sails + k) * nc + i) * ns + j)%nat in
       (exists p, nth_error (sl_above s) (i * ns + j) = Some p /\ nth_error (ss_panels ss) above = Some p) /\
       (exists p, nth_error (sl_under s) (i * ns + j) = Some p /\ nth_error (ss_panels ss) under = Some p) /\
       nth_error (ss_te ss) above = Some (i =? nc - 1)%nat /\ nth_error (ss_te ss) under = Some (i =? nc - 1)%nat /\
       nth_error (ss_le ss) above = Some ((i =? 0) && (2 <=? nc))%nat%bool /\
       nth_error (ss_le ss) under = Some ((i =? 0) && (2 <=? nc))%nat%bool).
Proof.
  intros F NF nc ns sails H.
  assert (LAY : forall s, In s sails -> sail_layout nc ns s).
  { intros s I. destruct (H s I) as (h & t & c & ch & tw & nm & md & cb & ds & E). eapply sail_geometry_layout; exact E. }
  split; [intros ->; reflexivity|]. intros N.
  assert (E : SailSet sails = Ok (SailSet_ sails (List.concat (map sl_above sails) ++ List.concat (map sl_under sails))
      (List.concat (map sl_te sails) ++ List.concat (map sl_te sails)) (List.concat (map sl_le sails) ++ List.concat (map sl_le sails))
      (List.concat (map sl_above_zero sails) ++ List.concat (map sl_under_zero sails)))).
  { destruct sails; [contradiction | reflexivity]. }
  eexists. split; [exact E|]. cbn [ss_sails ss_panels ss_te ss_le]. clear E.
  assert (L1 := concat_const_length sl_above sails (nc * ns) (fun s I => lay_above _ _ _ (LAY s I))).
  assert (L2 := concat_const_length sl_under sails (nc * ns) (fun s I => lay_under _ _ _ (LAY s I))).
  assert (L3 := concat_const_length sl_te sails (nc * ns) (fun s I => lay_te_len _ _ _ (LAY s I))).
  assert (L4 := concat_const_length sl_le sails (nc * ns) (fun s I => lay_le_len _ _ _ (LAY s I))).
  rewrite !app_length, L1, L2, L3, L4. split; [reflexivity|]. split; [lia|]. split; [lia|]. split; [lia|].
  cbv zeta. intros k s i j K I J. set (above := ((k * nc + i) * ns + j)%nat). set (under := (((length sails + k) * nc + i) * ns + j)%nat). assert (IN : In s sails) by (eapply nth_error_In; eauto).
  pose proof (nth_error_Some_lt _ _ _ K) as KL. pose proof (LAY s IN) as LS.
  assert (IJ : (i * ns + j < nc * ns)%nat) by nia.
  assert (EA : above = (k * (nc * ns) + (i * ns + j))%nat) by (unfold above; nia).
  assert (EU : under = (length sails * (nc * ns) + (k * (nc * ns) + (i * ns + j)))%nat) by (unfold under; nia).
  assert (AL : (k * (nc * ns) + (i * ns + j) < length sails * (nc * ns))%nat) by nia.
  rewrite EA, EU.
  assert (TWO : forall (X : Type) (l l' : list X), length l = (length sails * (nc * ns))%nat ->
    nth_error (l ++ l') (k * (nc * ns) + (i * ns + j)) = nth_error l (k * (nc * ns) + (i * ns + j)) /\
    nth_error (l ++ l') (length sails * (nc * ns) + (k * (nc * ns) + (i * ns + j))) = nth_error l' (k * (nc * ns) + (i * ns + j))).
  { intros X l l' L. rewrite nth_error_app1, nth_error_app2 by lia. split; [reflexivity|]. f_equal. lia. }
  destruct (TWO _ _ (List.concat (map sl_under sails)) L1) as [-> ->].
  destruct (TWO _ _ (List.concat (map sl_te sails)) L3) as [-> ->].
  destruct (TWO _ _ (List.concat (map sl_le sails)) L4) as [-> ->].
  rewrite (concat_const_nth sl_above sails (nc * ns) k s) by (assumption || (intros; apply lay_above, LAY; assumption)).
  rewrite (concat_const_nth sl_under sails (nc * ns) k s) by (assumption || (intros; apply lay_under, LAY; assumption)).
  rewrite (concat_const_nth sl_te sails (nc * ns) k s) by (assumption || (intros; apply (lay_te_len nc ns), LAY; assumption)).
  rewrite (concat_const_nth sl_le sails (nc * ns) k s) by (assumption || (intros; apply (lay_le_len nc ns), LAY; assumption)).
  rewrite (lay_te _ _ _ LS i j I J), (lay_le _ _ _ LS i j I J).
  destruct (nth_error_ex (sl_above s) (i * ns + j)) as [p P]; [rewrite (lay_above _ _ _ LS); assumption|].
  destruct (nth_error_ex (sl_under s) (i * ns + j)) as [q Q]; [rewrite (lay_under _ _ _ LS); assumption|].
  repeat split; eauto.
Qed.
Example C20_case : exists s, SailGeometry (V3 (-1) 0 5) (V3 0 0 1) (Csys 0 0 szero) 1 1 [3; 2] [0; 30] "sail" (Some "real_twist"%string) [1/10; 1/20] [1/2; 1/4] = Ok s.
Proof. destruct (good_sail_spec _ _ _ _ _ _ _ _ _ _ "sail"%string C19_case) as (s & E & _). exists s. exact E. Qed.
Print Assumptions C20_sail_set_layout.

(** ** C21.  The mast foot is the origin; rake is the angle between the mast and the deck, forward of the mast. *)
Lemma sail_mounting head tack c ns nc chords twist name mode camber dist (s : sail R) :
  SailGeometry head tack c ns nc chords twist name mode camber dist = Ok s -> sl_head s = head /\ sl_tack s = tack.
Proof.
  unfold SailGeometry. cbv zeta. intros H.
  repeat match type of H with
  | bind ?m _ = Ok _ => let x := fresh "x" in let E := fresh "E" in
      apply bind_Ok in H; destruct H as [x [E H]]; try (destruct x as [x ?]); try (destruct x as [x ?]) end.
  injection H as <-. auto.
Qed.
Theorem C21_main_mounting : forall (f : factory R) luff boom chords twist mode camber dist s,
  make_main_sail f luff boom chords twist mode camber dist = Ok s ->
  let rake := rad (fa_rake_deg f) in
  let mast := V3 (- cos rake) 0 (sin rake) in       (* unit vector along the mast *)
  sl_tack s = sscale (fa_sheer f + boom) mast /\
  sl_head s = sscale (fa_sheer f + boom + luff) mast /\
  vz (sl_tack s) = (fa_sheer f + boom) * sin rake /\
  sdist (sl_head s) (sl_tack s) = Rabs luff.
Proof.
  intros f luff boom chords twist mode camber dist s E rake mast. unfold make_main_sail in E.
  destruct (main_mounting f luff boom) as [h t] eqn:M. apply sail_mounting in E. destruct E as [-> ->].
  unfold main_mounting, sheer_xyz, fa_rake in M. rewrite deg2rad_s in M. fold rake in M. rnum. injection M as <- <-.
  assert (T : V3 (- fa_sheer f * cos rake + - boom * cos rake) 0 (fa_sheer f * sin rake + boom * sin rake) = sscale (fa_sheer f + boom) mast)
    by (unfold mast; svec; vec_eq; ring).
  assert (H : V3 (- fa_sheer f * cos rake + - boom * cos rake - luff * cos rake) 0 (fa_sheer f * sin rake + boom * sin rake + luff * sin rake) = sscale (fa_sheer f + boom + luff) mast)
    by (unfold mast; svec; vec_eq; ring).
  cbn [vx vy vz] in *. rewrite T, H. split; [reflexivity|]. split; [reflexivity|]. split; [ring|].
  unfold sdist. replace (ssub (sscale (fa_sheer f + boom + luff) mast) (sscale (fa_sheer f + boom) mast)) with (sscale luff mast) by (unfold mast; svec; vec_eq; ring).
  rewrite snorm_scale. replace (snorm mast) with 1; [ring|]. unfold mast, snorm. cbn [vx vy vz].
  replace ((- cos rake) ^ 2 + 0 ^ 2 + sin rake ^ 2) with 1 by (pose proof (sincos1 rake); nra). symmetry; apply sqrt_1.
Qed.
Example C21_case : exists s, make_main_sail (Factory (Csys 0 0 szero) 1 1 90 1) 4 1 [3; 2] [0; 30] (Some "real_twist"%string) [1/10; 1/20] [1/2; 1/4] = Ok s.
Proof.
  unfold make_main_sail. destruct (main_mounting _ _ _) as [h t] eqn:M.
  unfold main_mounting, sheer_xyz, fa_rake in M. cbn [fa_rake_deg fa_sheer] in M. rewrite deg2rad_s in M. replace (rad 90) with (PI / 2) in M by (unfold rad; field).
  rnum. rewrite cos_PI2, sin_PI2 in M. cbn [vx vz] in M. injection M as <- <-. cbn [fa_csys fa_ns fa_nc].
  edestruct good_sail_spec as (s & E & _); [|exists s; exact E].
  constructor; try reflexivity; try lia; simpl; try lra.
  - intros m [<-|[<-|[]]]; lra.
  - intros m [<-|[<-|[]]]; lra.
  - split; [auto|]. right. unfold sheel, onto_plane, srot. rewrite rad_0, Ropp_0, cos_0, sin_0. svec. lra.
Qed.
Print Assumptions C21_main_mounting.

(** ** C22.  Forestay: from (-base, 0) to the mast top; the mast foot is at (0, 0) and the mast is inclined by the rake angle. *)
Lemma forestay_facts base height rake : let len := sqrt (base * base + height * height - 2 * base * height * cos rake) in
  len * len = (base - height * cos rake) ^ 2 + (height * sin rake) ^ 2 /\
  (len <> 0 -> -1 <= height * sin rake / len <= 1 /\ cos (asin (height * sin rake / len)) = Rabs (base - height * cos rake) / len).
Proof.
  intros len. pose proof (sincos1 rake) as S.
  assert (Q : base * base + height * height - 2 * base * height * cos rake = (base - height * cos rake) ^ 2 + (height * sin rake) ^ 2).
  { transitivity ((base - height * cos rake) ^ 2 + height ^ 2 * (1 - cos rake * cos rake)); [ring|].
    replace (1 - cos rake * cos rake) with (sin rake * sin rake) by lra. ring. }
  assert (L : len * len = (base - height * cos rake) ^ 2 + (height * sin rake) ^ 2).
  { unfold len. rewrite sqrt_sqrt; rewrite Q; [reflexivity|]. apply Rplus_le_le_0_compat; apply pow2_ge_0. }
  split; [exact L|]. intros NZ.
  assert (P : 0 < len) by (pose proof (sqrt_pos (base * base + height * height - 2 * base * height * cos rake)); fold len in H; lra).
  set (y := height * sin rake) in *. set (x := base - height * cos rake) in *. clearbody len x y. clear Q S.
  assert (A : -1 <= y / len <= 1).
  { split.
    - apply (Rmult_le_reg_r len); [assumption|]. unfold Rdiv. rewrite Rmult_assoc, Rinv_l by lra. nra.
    - apply (Rmult_le_reg_r len); [assumption|]. unfold Rdiv. rewrite Rmult_assoc, Rinv_l by lra. nra. }
  split; [exact A|]. rewrite cos_asin by exact A.
  replace (1 - (y / len)²) with ((x / len)²).
  - rewrite sqrt_Rsqr_abs. unfold Rdiv. rewrite Rabs_mult, (Rabs_right (/ len)); [reflexivity|]. left. apply Rinv_0_lt_compat. assumption.
  - unfold Rsqr. apply (Rmult_eq_reg_r (len * len)); [|nra]. field_simplify; lra.
Qed.
Theorem C22_jib_mounting : forall (f : factory R) luff base height mast_LOA chords twist mode camber dist s,
  make_jib f luff base height chords twist mast_LOA mode camber dist = Ok s ->
  let rake := rad (fa_rake_deg f) in
  let foot := V3 (- base) 0 0 in
  let top := V3 (- height * cos rake) 0 (height * sin rake) in
  top <> foot ->
  sdist (sl_head s) (sl_tack s) = Rabs luff /\
  -1 <= height * sin rake / sdist top foot <= 1 /\       (* the argument of the arcsine *)
  (* the mast top is not forward of the foot of the forestay *)
  (vx foot <= vx top -> ssub (sl_head s) (sl_tack s) = sscale luff (sunit (ssub top foot))) /\
  (* otherwise the luff leans the other way *)
  (vx top < vx foot -> ssub (sl_head s) (sl_tack s) = sscale luff (sunit (V3 (- vx (ssub top foot)) 0 (vz (ssub top foot))))).
Proof.
  intros f luff base height mast_LOA chords twist mode camber dist s E rake foot top NE. unfold make_jib in E.
  destruct (jib_mounting f luff base height mast_LOA) as [h t] eqn:M. apply sail_mounting in E. destruct E as [-> ->].
  unfold jib_mounting, forestay_angle, forestay_length, sheer_xyz, fa_rake in M. rewrite deg2rad_s in M. fold rake in M. cbv zeta in M.
  rnum. injection M as <- <-. cbn [vx vy vz] in *.
  destruct (forestay_facts base height rake) as [L C]. cbv zeta in L, C.
  set (len := sqrt (base * base + height * height - 2 * base * height * cos rake)) in *.
  set (x := base - height * cos rake) in *. set (y := height * sin rake) in *.
  assert (TF : ssub top foot = V3 x 0 y) by (unfold top, foot, x, y; svec; vec_eq; ring).
  assert (D : sdist top foot = len).
  { unfold sdist. rewrite TF, snorm_sqrt. unfold len. f_equal. fold rake.
    unfold len in L. rewrite sqrt_sqrt in L; [rewrite L; svec; ring|].
    destruct (Rle_lt_dec 0 (base * base + height * height - 2 * base * height * cos rake)); [assumption|]. exfalso.
    pose proof (sincos1 rake). assert (base * base + height * height - 2 * base * height * cos rake = x ^ 2 + y ^ 2).
    { unfold x, y. transitivity ((base - height * cos rake) ^ 2 + height ^ 2 * (1 - cos rake * cos rake)); [ring|].
      replace (1 - cos rake * cos rake) with (sin rake * sin rake) by lra. ring. }
    nra. }
  assert (P0 : 0 <= len) by apply sqrt_pos.
  assert (P : len <> 0).
  { intros Z. apply NE. rewrite Z in L. assert (x = 0) by nra. assert (y = 0) by nra. unfold top, foot, x, y in *. vec_eq; lra. }
  destruct (C P) as [AR CA]. clear C.
  set (ang := asin (y / len)) in *.
  assert (SA : sin ang = y / len) by (unfold ang; apply sin_asin; exact AR).
  match goal with |- context [ssub ?h ?t] => set (hd_ := h); set (tk := t) end.
  assert (HT : ssub hd_ tk = sscale luff (V3 (cos ang) 0 (sin ang))) by (unfold hd_, tk; svec; vec_eq; ring).
  split; [|split; [|split]].
  - unfold sdist. rewrite HT, snorm_scale. replace (snorm (V3 (cos ang) 0 (sin ang))) with 1; [ring|].
    unfold snorm; cbn [vx vy vz]. replace (cos ang ^ 2 + 0 ^ 2 + sin ang ^ 2) with 1 by (pose proof (sincos1 ang); nra). symmetry; apply sqrt_1.
  - rewrite D. exact AR.
  - intros FW. rewrite HT. f_equal. unfold sunit. fold (sdist top foot). rewrite D, TF, CA, SA.
    rewrite Rabs_right by (unfold x; unfold foot, top in FW; cbn [vx] in FW; lra). svec; vec_eq; field; assumption.
  - intros FW. rewrite HT. f_equal. unfold sunit. rewrite TF. cbn [vx vz].
    replace (snorm (V3 (- x) 0 y)) with len.
    + rewrite CA, SA. rewrite Rabs_left by (unfold x; unfold foot, top in FW; cbn [vx] in FW; lra). svec; vec_eq; field; assumption.
    + rewrite <- D. unfold sdist. rewrite TF. unfold snorm; cbn [vx vy vz]. f_equal. ring.
Qed.
(* a jib whose mast top is forward of the forestay's foot: the luff is not parallel to the forestay *)
Theorem C22_parallel_refuted : exists (f : factory R) luff base height,
  let rake := rad (fa_rake_deg f) in
  let foot := V3 (- base) 0 0 in
  let top := V3 (- height * cos rake) 0 (height * sin rake) in
  top <> foot /\ forall mast_LOA chords twist mode camber dist s,
    make_jib f luff base height chords twist mast_LOA mode camber dist = Ok s ->
    ~ exists k, ssub (sl_head s) (sl_tack s) = sscale k (ssub top foot).
Proof.
  exists (Factory (Csys 0 0 szero) 1 1 60 1), 1, 1, 4. cbn [fa_rake_deg]. cbv zeta.
  replace (rad 60) with (PI / 3) by (unfold rad; field).
  assert (NE : V3 (- (4) * cos (PI / 3)) 0 (4 * sin (PI / 3)) <> V3 (- (1)) 0 0).
  { rewrite cos_PI3. intros Z; injection Z; intros. lra. }
  split; [exact NE|]. intros mast_LOA chords twist mode camber dist s E [k K].
  destruct (C22_jib_mounting _ _ _ _ _ _ _ _ _ _ _ E) as (_ & _ & _ & B); cbn [fa_rake_deg] in *;
    replace (rad 60) with (PI / 3) in * by (unfold rad; field); [exact NE|].
  rewrite B in K by (cbn [vx]; rewrite cos_PI3; lra). clear B E NE.
  rewrite cos_PI3 in K. pose proof (sqrt_lt_R0 3 ltac:(lra)) as S3.
  replace (sin (PI / 3)) with (sqrt 3 / 2) in K by (symmetry; apply sin_PI3).
  assert (TF : ssub (V3 (- (4) * (1 / 2)) 0 (4 * (sqrt 3 / 2))) (V3 (- (1)) 0 0) = V3 (-1) 0 (2 * sqrt 3)) by (svec; vec_eq; field).
  rewrite TF in K. cbn [vx vz] in K. unfold sunit in K.
  assert (N : 0 < snorm (V3 (- (-1)) 0 (2 * sqrt 3))).
  { apply snorm_pos. intros Z; injection Z; intros; lra. }
  set (n := snorm _) in *. apply Rinv_0_lt_compat in N. set (q := / n) in *. clearbody q.
  svec. injection K as K1 K2 K3. nra.
Qed.
Example C22_case : exists s, make_jib (Factory (Csys 0 0 szero) 1 1 90 1) 4 3 4 [3; 2] [0; 30] 0 (Some "real_twist"%string) [1/10; 1/20] [1/2; 1/4] = Ok s /\
  let rake := rad 90 in V3 (- 4 * cos rake) 0 (4 * sin rake) <> V3 (- 3) 0 0.
Proof.
  replace (rad 90) with (PI / 2) by (unfold rad; field). cbv zeta. rewrite cos_PI2, sin_PI2.
  unfold make_jib. destruct (jib_mounting _ _ _ _ _) as [h t] eqn:M.
  destruct (forestay_facts 3 4 (PI / 2)) as [L C]. cbv zeta in L, C. rewrite cos_PI2, sin_PI2 in L, C.
  unfold jib_mounting, forestay_angle, forestay_length, sheer_xyz, fa_rake in M. cbn [fa_rake_deg fa_sheer] in M. rewrite deg2rad_s in M. replace (rad 90) with (PI / 2) in M by (unfold rad; field).
  cbv zeta in M. rnum. rewrite cos_PI2, sin_PI2 in M. set (len := sqrt _) in *. cbn [vx vz] in M.
  assert (LP : 0 <= len) by apply sqrt_pos. assert (L5 : len = 5) by nra. rewrite L5 in *.
  destruct (C ltac:(lra)) as [AR _]. assert (SA : sin (asin (4 * 1 / 5)) = 4 * 1 / 5) by (apply sin_asin; exact AR). rewrite SA in M.
  injection M as <- <-. cbn [fa_csys fa_ns fa_nc].
  edestruct good_sail_spec as (s & E & _); [|exists s; split; [exact E|]].
  - constructor; try reflexivity; try lia; simpl; try lra.
    + intros m [<-|[<-|[]]]; lra.
    + intros m [<-|[<-|[]]]; lra.
    + split; [auto|]. right. unfold sheel, onto_plane, srot. rewrite rad_0, Ropp_0, cos_0, sin_0. svec. lra.
  - intros Z; injection Z; intros; lra.
Qed.
(* The tack is as high as the sheer.  Measured square to the mast it is [mast_LOA] further forward than the foot of the forestay of a mast that
   stands at the sheer point of the mast line. *)
Theorem C22_jib_tack : forall (f : factory R) luff base height mast_LOA chords twist mode camber dist s,
  make_jib f luff base height chords twist mast_LOA mode camber dist = Ok s -> sin (rad (fa_rake_deg f)) <> 0 ->
  let mast := V3 (- cos (rad (fa_rake_deg f))) 0 (sin (rad (fa_rake_deg f))) in
  let foot := sadd (sscale (fa_sheer f) mast) (V3 (- base) 0 0) in
  vz (sl_tack s) = fa_sheer f * sin (rad (fa_rake_deg f)) /\ vy (sl_tack s) = 0 /\
  scross (ssub (sl_tack s) foot) mast = V3 0 mast_LOA 0 /\
  (sin (rad (fa_rake_deg f)) > 0 -> mast_LOA > 0 -> vx (sl_tack s) < vx foot).
Proof.
  intros f luff base height mast_LOA chords twist mode camber dist s E NZ mast foot. unfold make_jib in E.
  destruct (jib_mounting f luff base height mast_LOA) as [h t] eqn:M. apply sail_mounting in E. destruct E as [_ ->].
  unfold jib_mounting, sheer_xyz, fa_rake in M. rewrite deg2rad_s in M. cbv zeta in M. set (r := rad (fa_rake_deg f)) in *.
  rnum. injection M as <- <-. cbn [vx vy vz]. split; [ring|]. split; [reflexivity|]. split.
  - unfold foot, mast. svec. vec_eq; field; assumption.
  - intros SP LP. unfold foot, mast. svec. assert (0 < mast_LOA / sin r) by (apply Rdiv_lt_0_compat; assumption). lra.
Qed.
Example C22_tack_case : exists s, make_jib (Factory (Csys 0 0 szero) 1 1 30 1) 4 3 4 [3; 2] [0; 30] 2 (Some "real_twist"%string) [1/10; 1/20] [1/2; 1/4] = Ok s /\
  sin (rad 30) = 1/2.
Proof.
  assert (R30 : rad 30 = PI / 6) by (unfold rad; field). rewrite R30, sin_PI6.
  unfold make_jib. destruct (jib_mounting _ _ _ _ _) as [h t] eqn:M.
  destruct (forestay_facts 3 4 (PI / 6)) as [L C]. cbv zeta in L, C. rewrite sin_PI6 in L, C.
  unfold jib_mounting, forestay_angle, forestay_length, sheer_xyz, fa_rake in M. cbn [fa_rake_deg fa_sheer] in M. rewrite deg2rad_s, R30 in M.
  cbv zeta in M. rnum. rewrite sin_PI6 in M. set (len := sqrt _) in *. cbn [vx vz] in M.
  assert (LP : 0 <= len) by apply sqrt_pos. assert (LN : len <> 0) by (intros Z; rewrite Z in L; pose proof (pow2_ge_0 (3 - 4 * cos (PI / 6))); lra).
  destruct (C LN) as [AR _]. assert (SA : sin (asin (4 * (1/2) / len)) = 4 * (1/2) / len) by (apply sin_asin; exact AR). rewrite SA in M.
  assert (SP : 0 < 4 * (1/2) / len) by (apply Rdiv_lt_0_compat; lra). set (q := 4 * (1/2) / len) in *. set (c := cos (asin q)) in *. clearbody c. clear C L SA. clearbody q.
  injection M as <- <-. cbn [fa_csys fa_ns fa_nc].
  edestruct good_sail_spec as (s & E & _); [|exists s; split; [exact E|reflexivity]].
  constructor; try reflexivity; try lia; simpl; try lra.
  + intros m [<-|[<-|[]]]; lra.
  + intros m [<-|[<-|[]]]; lra.
  + split; [auto|]. right. unfold sheel, onto_plane, srot. rewrite rad_0, Ropp_0, cos_0, sin_0. svec. lra.
Qed.
Print Assumptions C22_jib_mounting.
Print Assumptions C22_jib_tack.
