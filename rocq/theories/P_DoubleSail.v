(** C92: whole sails in double arithmetic. *)

From Coq Require Import String ZArith Reals List Bool Lra Psatz Lia.
From Flocq Require Import Core BinarySingleNaN.
From Verif Require Import Num PyBase RNum Spec M_Airfoil M_Rotations M_Csys M_Mesher M_Panels M_Sail L_List L_Rot L_Csys L_Airfoil L_Mesh L_Sail L_Sail2 P_Double P_DoubleRun Double L_Double L_Near L_NearRot P_DoubleRot L_NearLine L_NearMesh L_NearSail L_NearSail2 L_NearSail3.
Import ListNotations.
Open Scope R_scope.

(** ** Specification *)
(** a finite double between two bounds *)
Definition between (a b : R) (x : double) : Prop := fin x /\ a <= val x <= b.
(** every coordinate of the computed point is finite, and the point is at most [g] away from the exact one *)
Definition off (g : R) (p : vec double) (q : vec R) : Prop :=
  vfin p /\ sqrt ((val (vx p) - vx q) ^ 2 + (val (vy p) - vy q) ^ 2 + (val (vz p) - vz q) ^ 2) <= g.
Definition panel_off (g : R) (p : panel double) (q : panel R) : Prop :=
  off g (pp1 p) (pp1 q) /\ off g (pp2 p) (pp2 q) /\ off g (pp3 p) (pp3 q) /\ off g (pp4 p) (pp4 q).
(** the exact positions of the ends of the luff of the turned sail, seen along the x axis, are at least [l] apart *)
Definition luff_seen (l : R) (head tack : vec double) (c : csys double) : Prop :=
  let turned p := sheel (val (heel_deg c)) (val (leeway_deg c)) (V3 (val (vx p)) 0 (val (vz p))) in
  l <= sqrt ((vy (turned head) - vy (turned tack)) ^ 2 + (vz (turned head) - vz (turned tack)) ^ 2).
(** a sail of at most [L] metres above the water, with the numbers of panels [ns] and [nc] *)
Record usual (L l : R) (head tack : vec double) (c : csys double) (ns nc : nat) (chords twist : list double) (mode : option string) (camber dist : list double) : Prop := {
  us_size : 1 / 100 <= L <= 1000;
  us_seen : L / 1000 <= l <= L;
  us_ns : (1 <= Z.of_nat ns <= 10000)%Z;
  us_nc : (1 <= Z.of_nat nc <= 10000)%Z;
  us_head : between (- L) L (vx head) /\ between (- L) L (vy head) /\ between (L / 1000000) L (vz head);
  us_tack : between (- L) L (vx tack) /\ between (- L) L (vy tack) /\ between (L / 1000000) L (vz tack);
  us_heel : between (-360) 360 (heel_deg c);
  us_leeway : between (-360) 360 (leeway_deg c);
  us_chords : length chords = S ns /\ Forall (between (- L) L) chords;
  us_twist : length twist = S ns /\ Forall (between (-360) 360) twist;
  us_camber : length camber = S ns /\ Forall (between 0 (3 / 10)) camber;
  us_dist : length dist = S ns /\ Forall (between (1 / 100) (9 / 10)) dist;
  us_mode : match mode with
    | None => True
    | Some s => (s = "sheeting_angle_const" \/ s = "average_const" \/ s = "real_twist")%string /\ luff_seen l head tack c end }.

(** ** Proofs *)
(** turning a point about a line *)
Theorem C92_line : forall (e : elementary) (L : R) (p1 p2 p : vec double) (th : double),
  accurate e -> 1 / 100000 <= L <= 100000 -> fin th -> Rabs (val th) <= 8 ->
  vfin p1 -> vfin p2 -> vfin p -> snorm (vvals p1) <= L -> snorm (vvals p) <= L ->
  bpow radix2 (-150) <= snorm (ssub (vvals p2) (vvals p1)) <= bpow radix2 150 ->
  bpow radix2 (-150) <= sqrt ((val (vy p2) - val (vy p1)) ^ 2 + (val (vz p2) - val (vz p1)) ^ 2) <= bpow radix2 150 ->
  within (2 / 1000000000000 * L) (@rotate_point_around_arbitrary_axis _ (Double e) p1 p2 th p) (srot_line (vvals p1) (vvals p2) (val th) (vvals p)).
Proof.
  intros e L p1 p2 p th A HL FT BT F1 F2 FP S1 SP Z1 Z2.
  apply (vnear_within (3 * L) _ _ 4000); [|pose proof u_pos; replace (4000 * (3 * L * u)) with (12000 * u * L) by ring; apply Rmult_le_compat_r; [lra|rewrite u_val; lra]].
  replace (_ ^ 2 + _ ^ 2) with ((val (vy p2) - val (vy p1)) * (val (vy p2) - val (vy p1)) + (val (vz p2) - val (vz p1)) * (val (vz p2) - val (vz p1))) in Z2 by ring.
  apply near_line; try assumption. apply (near_up _ _ _ 0); [apply near_exact; try assumption; lra|lra|lra].
Qed.
(** turning any number of points: numpy applies the seven matrices to four
    points or fewer one after the other and multiplies them with each other first
    for more *)
Theorem C92_points : forall (e : elementary) (L : R) (p1 p2 : vec double) (ps : list (vec double)) (th : double),
  accurate e -> 1 / 100000 <= L <= 100000 -> fin th -> Rabs (val th) <= 8 ->
  vfin p1 -> vfin p2 -> Forall vfin ps -> snorm (vvals p1) <= L -> Forall (fun p => snorm (vvals p) <= L) ps ->
  bpow radix2 (-150) <= snorm (ssub (vvals p2) (vvals p1)) <= bpow radix2 150 ->
  bpow radix2 (-150) <= sqrt ((val (vy p2) - val (vy p1)) ^ 2 + (val (vz p2) - val (vz p1)) ^ 2) <= bpow radix2 150 ->
  Forall2 (fun p r => within (3 / 1000000000000 * L) r (srot_line (vvals p1) (vvals p2) (val th) (vvals p))) ps (@rotate_points_around_arbitrary_axis _ (Double e) ps p1 p2 th).
Proof.
  intros e L p1 p2 ps th A HL FT BT F1 F2 FP S1 SP Z1 Z2. rewrite Forall_forall in FP, SP.
  replace (_ ^ 2 + _ ^ 2) with ((val (vy p2) - val (vy p1)) * (val (vy p2) - val (vy p1)) + (val (vz p2) - val (vz p1)) * (val (vz p2) - val (vz p1))) in Z2 by ring.
  assert (K : forall p r, In p ps -> turned e p1 p2 th p r -> within (3 / 1000000000000 * L) r (srot_line (vvals p1) (vvals p2) (val th) (vvals p))).
  { intros p r I T. apply (vnear_within (3 * L) _ _ 6700); [|pose proof u_pos; replace (6700 * (3 * L * u)) with (20100 * u * L) by ring; apply Rmult_le_compat_r; [lra|rewrite u_val; lra]].
    apply (near_turned e A p1 p2 th); try assumption; [|apply FP, I|apply SP, I]. apply (near_up _ _ _ 0); [apply near_exact; try assumption; lra|lra|lra]. }
  clear FP SP. assert (G : forall qs f, incl qs ps -> (forall p, turned e p1 p2 th p (f p)) -> Forall2 (fun p r => within (3 / 1000000000000 * L) r (srot_line (vvals p1) (vvals p2) (val th) (vvals p))) qs (map f qs)).
  { intros qs f I Hf. induction qs as [|q qs IH]; [constructor|]. cbn [map]. constructor; [apply K; [apply I; left; reflexivity|apply Hf]|apply IH; intros x X; apply I; right; exact X]. }
  unfold rotate_points_around_arbitrary_axis. destruct (_ <=? _)%nat; apply G; try apply incl_refl; intros p; [left|right]; reflexivity.
Qed.
Lemma forall_nth {A} (P : A -> Prop) l d k n : Forall P l -> length l = S n -> (k <= n)%nat -> P (nth k l d).
Proof. intros F E K. rewrite Forall_forall in F. apply F, nth_In. lia. Qed.
Lemma gap_off g q Q : gap g q Q -> off g q Q.
Proof. intros [F G]. split; [exact F|]. destruct Q as [x y z]. exact G. Qed.
Lemma pgap_off g q Q : pgap g q Q -> panel_off g q Q.
Proof. intros (A & B & C & D). unfold panel_off. auto using gap_off. Qed.
Lemma corners_2 nc ns g ps (P : nat -> nat -> vec R) (qs : list (panel R)) : cornered ns nc g ps P -> length qs = (nc * ns)%nat ->
  (forall i j, (i < nc)%nat -> (j < ns)%nat -> nth_error qs (i * ns + j) = Some (Panel (P j (i + 1)%nat) (P j i) (P (j + 1)%nat i) (P (j + 1)%nat (i + 1)%nat))) ->
  Forall2 (panel_off g) ps qs.
Proof.
  intros [LP HP] LQ HQ. assert (LE : length ps = length qs) by congruence.
  assert (K : forall k p q, nth_error ps k = Some p -> nth_error qs k = Some q -> panel_off g p q).
  { intros k p q A B. pose proof (nth_error_Some_lt _ _ _ A) as KL. rewrite LP in KL. destruct (divmod_lt k nc ns KL) as (D1 & D2 & E). rewrite E in A, B. destruct (HP _ _ D1 D2) as (p' & A' & G). rewrite A in A'. injection A' as <-. rewrite HQ in B by assumption. injection B as <-. apply pgap_off, G. }
  clear - LE K. revert qs LE K. induction ps as [|p ps IH]; intros [|q qs] LE K; try discriminate; constructor.
  - apply (K 0%nat); reflexivity.
  - apply IH; [simpl in LE; lia|]. intros k p' q' A B. apply (K (S k)); assumption.
Qed.
Lemma between_abs a x : between (- a) a x -> fin x /\ Rabs (val x) <= a.
Proof. intros [F B]. split; [exact F|]. apply Rabs_le. exact B. Qed.
Lemma vals_along ns (f : nat -> double) : map (fun x => val x) (along ns f) = stations ns (fun k => val (f k)).
Proof. unfold along, stations. rewrite map_map. replace (ns + 1)%nat with (S ns) by lia. reflexivity. Qed.
(** the sail built in double arithmetic is the sail built exactly, up to the stated distance *)
Theorem C92_sail : forall (e : elementary) (L l : R) head tack c ns nc chords twist name mode camber dist,
  accurate e -> usual L l head tack c ns nc chords twist mode camber dist ->
  exists s s',
    @SailGeometry _ (Double e) head tack c ns nc chords twist name mode camber dist = Ok s /\
    SailGeometry (vvals head) (vvals tack) (Csys (val (heel_deg c)) (val (leeway_deg c)) (vvals (ref_vec c))) ns nc (vals chords) (vals twist) name mode (vals camber) (vals dist) = Ok s' /\
    Forall2 (panel_off (1 / 1000000000 * (L * (L / l)))) (sl_above s) (sl_above s') /\
    Forall2 (panel_off (1 / 1000000000 * (L * (L / l)))) (sl_under s) (sl_under s') /\
    Forall2 (panel_off (1 / 1000000000000 * L)) (sl_above_zero s) (sl_above_zero s') /\
    Forall2 (panel_off (1 / 1000000000000 * L)) (sl_under_zero s) (sl_under_zero s') /\
    sl_te s = sl_te s' /\ sl_le s = sl_le s' /\ length (sl_above s) = (nc * ns)%nat /\ length (sl_under s) = (nc * ns)%nat.
Proof.
  intros e L l head tack c ns nc chords twist name mode camber dist A [SZ SN NS NC (H1 & H2 & H3) (T1 & T2 & T3) HE LE [LC C] [LT T] [LM M] [LD D] MO].
  assert (HL : 0 < L) by lra. pose (z := dZ 0).
  rewrite (along_list ns chords z LC), (along_list ns twist z LT), (along_list ns camber z LM), (along_list ns dist z LD).
  pose (ch := fun k => nth k chords z). pose (tw := fun k => nth k twist z). pose (m := fun k => nth k camber z). pose (d := fun k => nth k dist z).
  fold ch tw m d. unfold vals. rewrite !vals_along. change (Csys (val (heel_deg c)) (val (leeway_deg c)) (vvals (ref_vec c))) with (cvals c).
  assert (FO : forall k, (k <= ns)%nat -> foil_ok (m k) (d k)).
  { intros k K. destruct (forall_nth _ _ z k ns M LM K) as [M1 M2], (forall_nth _ _ z k ns D LD K) as [D1 D2]. split; [exact M1|]. split; [exact D1|]. split; assumption. }
  assert (BT : box L tack). { apply between_abs in T1. apply between_abs in T2. destruct T1, T2, T3. split; [split; [|split]; assumption|]. split; [assumption|]. split; [assumption|]. apply Rabs_le. lra. }
  assert (BH : box L head). { apply between_abs in H1. apply between_abs in H2. destruct H1, H2, H3. split; [split; [|split]; assumption|]. split; [assumption|]. split; [assumption|]. apply Rabs_le. lra. }
  assert (LS : luff_seen l head tack c -> l <= snorm (across (ssub (luff_b (vvals head) (cvals c)) (luff_a (vvals tack) (cvals c))))).
  { intros S. unfold luff_seen in S. cbv zeta in S. refine (Rle_trans _ _ _ S _). right. unfold snorm, across, ssub. cbn [vx vy vz]. f_equal. unfold luff_a, luff_b, hl, onto_plane, cvals, vvals. cbn [vx vy vz heel_deg leeway_deg]. ring. }
  assert (MD : forall s : string, (s = "sheeting_angle_const" \/ s = "average_const" \/ s = "real_twist")%string -> In s twist_modes) by (intros s [->|[->| ->]]; unfold twist_modes; simpl; auto).
  assert (MODE : match mode with None => True | Some s => In s twist_modes /\ l <= snorm (across (ssub (luff_b (vvals head) (cvals c)) (luff_a (vvals tack) (cvals c)))) end) by (destruct mode; [|exact I]; destruct MO; auto).
  assert (ANG : forall x, between (-360) 360 x -> angle_ok x) by (intros x B; apply (between_abs 360); exact B).
  destruct (sail_near e A L l SZ SN head tack c ns nc ch tw m d name mode NC NS BT BH ltac:(apply T3) ltac:(apply H3) (ANG _ HE) (ANG _ LE)) as (s & E & _ & _ & _ & _ & PA & PU & PZ & PV).
  { intros k K. apply ANG, (forall_nth _ _ z k ns T LT K). }
  { intros k K. apply between_abs, (forall_nth _ _ z k ns C LC K). }
  { exact FO. }
  { exact MODE. }
  destruct (sail_geometry_spec (vvals head) (vvals tack) (cvals c) ns nc (fun k => val (ch k)) (fun k => val (tw k)) (fun k => val (m k)) (fun k => val (d k)) name mode) as (s' & E' & _ & _ & _ & _ & LZ & LV & P').
  { destruct NC. lia. }
  { destruct NS. lia. }
  { destruct T3. cbn [vvals vz]. lra. }
  { destruct H3. cbn [vvals vz]. lra. }
  { intros k K. destruct (FO k K) as (_ & _ & F1 & F2). split; [|lra]. unfold accepted. lra. }
  { destruct mode as [q|]; [|exact I]. destruct MODE as [M1 M2]. split; [exact M1|].
    destruct (Req_dec (vy (luff_a (vvals tack) (cvals c))) (vy (luff_b (vvals head) (cvals c)))) as [Q1|Q1]; [|left; exact Q1]. right. intros Q2.
    unfold snorm, across, ssub in M2. cbn [vx vy vz] in M2. rewrite Q1, Q2 in M2. match type of M2 with _ <= sqrt ?x => replace x with 0 in M2 by ring end. rewrite sqrt_0 in M2. lra. }
  exists s, s'. split; [exact E|]. split; [exact E'|].
  destruct (@sail_geometry_layout _ (Double e) _ _ _ _ _ _ _ _ _ _ _ _ E) as [A1 A2 A3 A4 A5 A6 _ _].
  destruct (sail_geometry_layout _ _ _ _ _ _ _ _ _ _ _ _ E') as [B1 B2 B3 B4 B5 B6 _ _].
  split; [|split; [|split; [|split; [|split; [|split; [|split]]]]]].
  - apply (corners_2 _ _ _ _ _ _ PA B1). intros i j I J. apply (P' i j I J).
  - apply (corners_2 _ _ _ _ _ _ PU B2). intros i j I J. apply (P' i j I J).
  - apply (corners_2 _ _ _ _ _ _ PZ LZ). intros i j I J. apply (P' i j I J).
  - apply (corners_2 _ _ _ _ _ _ PV LV). intros i j I J. apply (P' i j I J).
  - apply list_ext; [congruence|]. intros k K. rewrite A3 in K. destruct (divmod_lt k nc ns K) as (D1 & D2 & ->). rewrite A5, B5 by assumption. reflexivity.
  - apply list_ext; [congruence|]. intros k K. rewrite A4 in K. destruct (divmod_lt k nc ns K) as (D1 & D2 & ->). rewrite A6, B6 by assumption. reflexivity.
  - exact A1.
  - exact A2.
Qed.

(** ** A case: a luff of seven metres, heeled by 30 degrees, twisted by up to 10 degrees *)
Definition case_tack : vec double := dv 0 0 1.
Definition case_head : vec double := dv 0 0 8.
Definition case_chords : list double := [dZ 3; dZ 2; dZ 1].
Definition case_twist : list double := [dZ 0; dZ 4; dZ 10].
Definition case_camber : list double := [dec 1 1; dec 1 1; dZ 0].
Definition case_dist : list double := [dec 5 1; dec 5 1; dec 5 1].
Lemma between_Z a b z : (Z.abs z <= 1000)%Z -> a <= IZR z <= b -> between a b (dZ z).
Proof. intros Z B. destruct (dint ideal z ltac:(lia)) as [F V]. cbn [nZ Double] in *. split; [exact F|]. rewrite V. exact B. Qed.
Lemma case_usual : usual 8 1 case_head case_tack case_csys 2 3 case_chords case_twist (Some "real_twist"%string) case_camber case_dist.
Proof.
  assert (V1 : val (dec 1 1) = 7205759403792794 * / 2 ^ 56) by (rewrite (dec_val 1 1 7205759403792794 (-56)) by (vm_compute; reflexivity); change (bpow radix2 (-56)) with (/ 72057594037927936); lra).
  assert (V5 : val (dec 5 1) = / 2) by (rewrite (dec_val 5 1 4503599627370496 (-53)) by (vm_compute; reflexivity); change (bpow radix2 (-53)) with (/ 9007199254740992); lra).
  assert (F1 : fin (dec 1 1)) by (vm_compute; reflexivity). assert (F5 : fin (dec 5 1)) by (vm_compute; reflexivity).
  assert (W1 : between 0 (3 / 10) (dec 1 1)) by (split; [exact F1|rewrite V1; lra]). assert (W5 : between (1 / 100) (9 / 10) (dec 5 1)) by (split; [exact F5|rewrite V5; lra]).
  clear V1 V5 F1 F5.
  split; [lra|lra|lia|lia|..].
  - split; [|split]; apply between_Z; lia || lra.
  - split; [|split]; apply between_Z; lia || lra.
  - apply between_Z; lia || lra.
  - apply between_Z; lia || lra.
  - split; [reflexivity|]. do 3 (constructor; [apply between_Z; lia || lra|]). constructor.
  - split; [reflexivity|]. do 3 (constructor; [apply between_Z; lia || lra|]). constructor.
  - split; [reflexivity|]. constructor; [exact W1|]. constructor; [exact W1|]. constructor; [|constructor]. apply between_Z; lia || lra.
  - split; [reflexivity|]. constructor; [exact W5|]. constructor; [exact W5|]. constructor; [exact W5|constructor].
  - split; [auto|]. unfold luff_seen. cbv zeta.
    assert (Z8 : val (vz case_head) = 8) by (apply (dint ideal 8); lia). assert (Z1 : val (vz case_tack) = 1) by (apply (dint ideal 1); lia).
    assert (X8 : val (vx case_head) = 0) by (apply (dint ideal 0); lia). assert (X1 : val (vx case_tack) = 0) by (apply (dint ideal 0); lia).
    assert (H30 : val (heel_deg case_csys) = 30) by (apply (dint ideal 30); lia). rewrite Z8, Z1, X8, X1, H30. generalize (val (leeway_deg case_csys)). intros w.
    assert (CV : cos (rad 30) = sqrt 3 / 2) by (unfold rad; replace (30 * (PI / 180)) with (PI / 6) by field; apply cos_PI6).
    assert (S3 : 1 <= sqrt 3) by (rewrite <- sqrt_1 at 1; apply sqrt_le_1_alt; lra).
    assert (ZZ : forall z, vz (sheel 30 w (V3 0 0 z)) = z * cos (rad 30)) by (intros z; unfold sheel, srot; rewrite cos_neg, sin_neg; svec; ring).
    rewrite !ZZ, CV. rewrite <- sqrt_1 at 1. apply sqrt_le_1_alt. set (y := vy _ - vy _). pose proof (pow2_ge_0 y). nra.
Qed.
(** five points, so that the matrices are multiplied first *)
Example C92_points_case : Forall2 (fun p r => within (24 / 1000000000000) r (srot_line (V3 0 0 1) (V3 0 0 7) 1 (vvals p))) (repeat (dv 3 1 2) 5)
    (@rotate_points_around_arbitrary_axis _ (Double ideal) (repeat (dv 3 1 2) 5) (dv 0 0 1) (dv 0 0 7) (dZ 1)).
Proof.
  destruct (dv_val 3 1 2 ltac:(lia) ltac:(lia) ltac:(lia)) as [F V]. destruct (dv_val 0 0 1 ltac:(lia) ltac:(lia) ltac:(lia)) as [F1 V1]. destruct (dv_val 0 0 7 ltac:(lia) ltac:(lia) ltac:(lia)) as [F2 V2].
  assert (N : forall x y z, x * x + y * y + z * z <= 64 -> snorm (V3 x y z) <= 8) by (intros x y z Q; unfold snorm; cbn [vx vy vz]; rewrite <- (sqrt_square 8) by lra; apply sqrt_le_1_alt; lra).
  assert (X : forall r, r = 36 -> bpow radix2 (-150) <= sqrt r <= bpow radix2 150).
  { intros r ->. replace 36 with (6 * 6) by ring. rewrite sqrt_square by lra. split; [apply Rle_trans with (bpow radix2 0); [apply bpow_le; lia|change (bpow radix2 0) with 1; lra]|apply Rle_trans with (bpow radix2 3); [change (bpow radix2 3) with 8; lra|apply bpow_le; lia]]. }
  assert (Y1 : val (vy (dv 0 0 1)) = 0 /\ val (vz (dv 0 0 1)) = 1) by (split; [exact (f_equal vy V1)|exact (f_equal vz V1)]). assert (Y2 : val (vy (dv 0 0 7)) = 0 /\ val (vz (dv 0 0 7)) = 7) by (split; [exact (f_equal vy V2)|exact (f_equal vz V2)]).
  pose proof (C92_points ideal 8 (dv 0 0 1) (dv 0 0 7) (repeat (dv 3 1 2) 5) (dZ 1) ideal_accurate) as K. rewrite V1, V2, (proj1 Y1), (proj2 Y1), (proj1 Y2), (proj2 Y2) in K. rewrite (dZ_val 1) in K by lia.
  replace (24 / 1000000000000) with (3 / 1000000000000 * 8) by lra. apply K; clear K; try assumption.
  - lra.
  - apply (dint ideal 1); lia.
  - rewrite Rabs_R1; lra.
  - cbn [repeat]. repeat (constructor; [exact F|]). constructor.
  - apply N. lra.
  - cbn [repeat]. repeat (constructor; [rewrite V; apply N; lra|]). constructor.
  - apply X. unfold ssub. cbn [vx vy vz]. ring.
  - apply X. ring.
Qed.
Example C92_case : accurate ideal /\ exists s s',
    @SailGeometry _ (Double ideal) case_head case_tack case_csys 2 3 case_chords case_twist "main" (Some "real_twist"%string) case_camber case_dist = Ok s /\
    SailGeometry (V3 0 0 8) (V3 0 0 1) (Csys 30 5 (V3 0 0 0)) 2 3 [3; 2; 1] [0; 4; 10] "main" (Some "real_twist"%string) [val (dec 1 1); val (dec 1 1); 0] [1 / 2; 1 / 2; 1 / 2] = Ok s' /\
    length (sl_above s) = 6%nat /\ Forall2 (panel_off (64 / 1000000000)) (sl_above s) (sl_above s') /\ Forall2 (panel_off (8 / 1000000000000)) (sl_above_zero s) (sl_above_zero s').
Proof.
  split; [exact ideal_accurate|]. destruct (C92_sail ideal 8 1 _ _ _ _ _ _ _ "main" _ _ _ ideal_accurate case_usual) as (s & s' & E & E' & P1 & _ & P3 & _ & _ & _ & LA & _).
  exists s, s'. split; [exact E|]. split; [|split; [exact LA|split]].
  - rewrite <- E'. unfold vals, case_head, case_tack. destruct (dv_val 0 0 8 ltac:(lia) ltac:(lia) ltac:(lia)) as [_ ->]. destruct (dv_val 0 0 1 ltac:(lia) ltac:(lia) ltac:(lia)) as [_ ->].
    assert (V5 : val (dec 5 1) = 1 / 2) by (rewrite (dec_val 5 1 4503599627370496 (-53)) by (vm_compute; reflexivity); change (bpow radix2 (-53)) with (/ 9007199254740992); lra).
    unfold case_chords, case_twist, case_camber, case_dist, case_csys. cbn [map heel_deg leeway_deg ref_vec]. destruct (dv_val 0 0 0 ltac:(lia) ltac:(lia) ltac:(lia)) as [_ ->]. rewrite !dZ_val, V5 by lia. reflexivity.
  - replace (64 / 1000000000) with (1 / 1000000000 * (8 * (8 / 1))) by lra. exact P1.
  - replace (8 / 1000000000000) with (1 / 1000000000000 * 8) by lra. exact P3.
Qed.

Print Assumptions C92_line.
Print Assumptions C92_points.
Print Assumptions C92_sail.
