(** C102: the lattice on the panels in double arithmetic: collocation points, rings, spans, normals and areas. *)

From Coq Require Import String ZArith Reals List Bool Lra Psatz Lia.
From Flocq Require Import Core BinarySingleNaN.
From Verif Require Import Num PyBase RNum Spec M_Csys M_Rotations M_Panels M_Velocity M_Solve M_Coefs M_Forces M_Winds M_Sail M_Vlm L_List L_Rot L_Csys L_Airfoil L_Mesh L_Vel L_Lattice L_Sail L_Sail2 P_Double P_DoubleRun Double L_Double L_Near L_NearRot P_DoubleRot L_NearLine L_NearMesh L_NearSail L_NearSail2 L_NearSail3 L_NearVel P_DoubleVel P_DoubleFlux L_Accept L_Accept2 P_DoubleAccept P_DoubleForce P_DoubleSail.
Import ListNotations.
Open Scope R_scope.

(** ** Specification: the exact lattice of a panel *)
(** the point at the fraction [t] of the left edge, of the right edge and of the line between the middles of the leading and the trailing edge *)
Definition left_edge (q : panel R) (t : R) : vec R := slerp (pp2 q) (pp1 q) t.
Definition right_edge (q : panel R) (t : R) : vec R := slerp (pp3 q) (pp4 q) t.
Definition middle (q : panel R) (t : R) : vec R := slerp (slerp (pp2 q) (pp3 q) (1 / 2)) (slerp (pp1 q) (pp4 q) (1 / 2)) t.
Definition diagonals (q : panel R) : vec R := scross (ssub (pp3 q) (pp1 q)) (ssub (pp4 q) (pp2 q)).
Definition two_triangles (q : panel R) : R :=
  snorm (scross (ssub (pp2 q) (pp1 q)) (ssub (pp3 q) (pp2 q))) / 2 + snorm (scross (ssub (pp3 q) (pp2 q)) (ssub (pp4 q) (pp3 q))) / 2.
(** the corners are at most [L] away from the origin *)
Definition panel_size (L : R) (q : panel R) : Prop := snorm (pp1 q) <= L /\ snorm (pp2 q) <= L /\ snorm (pp3 q) <= L /\ snorm (pp4 q) <= L.
(** the aft corners of a ring: a quarter chord behind the panel at the trailing edge, and otherwise on the bound vortex of the panel behind *)
Definition aft_corners (g : R) (r : ring double) (t : bool) (q : panel R) (behind : option (panel R)) : Prop :=
  if t then off g (rA r) (left_edge q (5 / 4)) /\ off g (rD r) (right_edge q (5 / 4))
  else exists q', behind = Some q' /\ off g (rA r) (left_edge q' (1 / 4)) /\ off g (rD r) (right_edge q' (1 / 4)).
(** the lattice of a panel, [d] being the distance of its corners from the exact ones and [L] their size *)
Definition lattice_at (L d : R) (v : pvars double) (q : panel R) (t : bool) (behind : option (panel R)) : Prop :=
  off (d + 4 / 1000000000000000 * L) (pv_ctr v) (middle q (3 / 4)) /\ off (d + 4 / 1000000000000000 * L) (pv_cp v) (middle q (1 / 4)) /\
  off (d + 3 / 1000000000000000 * L) (rB (pv_ring v)) (left_edge q (1 / 4)) /\ off (d + 3 / 1000000000000000 * L) (rC (pv_ring v)) (right_edge q (1 / 4)) /\
  aft_corners (3 / 2 * d + 3 / 1000000000000000 * L) (pv_ring v) t q behind /\
  off (2 * d + 5 / 1000000000000000 * L) (pv_span v) (ssub (left_edge q (1 / 4)) (right_edge q (1 / 4))) /\
  forall h, h <= snorm (diagonals q) -> 20 * (d * L) + 3 / 1000000000 * (L * L) <= h ->
    off (15 / 1000000000000000 + (17 * (d * L) + 5 / 100000000000000 * (L * L)) / h) (pv_n v) (sunit (diagonals q)).
(** a sail computed in doubles, and the exact one *)
Definition near_sail (L d : R) (s : sail double) (s' : sail R) : Prop :=
  Forall2 (panel_off d) (sl_above s) (sl_above s') /\ Forall2 (panel_off d) (sl_under s) (sl_under s') /\ Forall (panel_size L) (sl_above s') /\ Forall (panel_size L) (sl_under s').

(** ** Proofs *)
Lemma off_norm g p q : off g p q <-> vfin p /\ snorm (ssub (vvals p) q) <= g.
Proof. unfold off, snorm, ssub, vvals. cbn [vx vy vz]. reflexivity. Qed.
Definition pvals (p : panel double) : panel R := Panel (vvals (pp1 p)) (vvals (pp2 p)) (vvals (pp3 p)) (vvals (pp4 p)).

Section Points.
Context (e : elementary) (L : R) (HL : 1 / 1000 <= L <= 2000).
Local Notation D := (Double e).
Definition lies (x : double) : Prop := fin x /\ Rabs (val x) <= L.
Lemma lies_near x : lies x -> near L x (val x) 0.
Proof. intros [F B]. apply near_exact; [exact F|exact B|lra]. Qed.
Lemma c_mid x y : lies x -> lies y -> near L (@ndiv _ D (@nadd _ D x y) (@nZ _ D 2)) ((val x + val y) / 2) (203 / 100).
Proof.
  intros X Y. apply lies_near in X, Y. pose proof (near_add e L L _ _ _ _ 0 0 ltac:(ml) ltac:(lra) ltac:(lra) ltac:(fw) ltac:(fw) X Y) as S. rewrite Rmax_left in S by lra.
  pose proof (near_div e (L + L) _ _ (0 + 101 / 100) _ 2 0 2 ltac:(ml) ltac:(lra) ltac:(replace ((L + L) / 2) with L by field; ml) ltac:(fw) ltac:(fw) S (close_Z e 2 ltac:(lia)) ltac:(lra)) as Q.
  replace ((L + L) / 2) with L in Q by field. apply (near_up _ _ _ _ _ Q); lra.
Qed.
Lemma c_quarter x y z : lies x -> lies y -> lies z -> near (3 / 2 * L) (@nadd _ D x (@ndiv _ D (@nsub _ D y z) (@nZ _ D 4))) (val x + (val y - val z) / 4) (304 / 100).
Proof.
  intros X Y Z. apply lies_near in X, Y, Z. pose proof (near_sub e L L _ _ _ _ 0 0 ltac:(ml) ltac:(lra) ltac:(lra) ltac:(fw) ltac:(fw) Y Z) as S. rewrite Rmax_left in S by lra.
  pose proof (near_div e (L + L) _ _ (0 + 101 / 100) _ 4 0 4 ltac:(ml) ltac:(lra) ltac:(ml) ltac:(fw) ltac:(fw) S (close_Z e 4 ltac:(lia)) ltac:(lra)) as Q.
  pose proof (near_add e L ((L + L) / 4) _ _ _ _ 0 (0 + 101 / 100 + 0 + 102 / 100) ltac:(ml) ltac:(lra) ltac:(lra) ltac:(fw) ltac:(fw) X Q) as T. rewrite Rmax_right in T by lra.
  replace (L + (L + L) / 4) with (3 / 2 * L) in T by field. apply (near_up _ _ _ _ _ T); lra.
Qed.
Lemma c_mean a b A B w W : 1 / 4 <= W <= 3 / 4 -> fin w -> val w = W -> near L a A (203 / 100) -> near L b B (203 / 100) -> near (5 / 2 * L) (@nadd _ D a (@nmul _ D w (@nsub _ D b a))) (A + W * (B - A)) (506 / 100).
Proof.
  intros HW FW VW NA NB. pose proof (near_sub e L L _ _ _ _ (203 / 100) (203 / 100) ltac:(ml) ltac:(lra) ltac:(lra) ltac:(fw) ltac:(fw) NB NA) as S. rewrite Rmax_left in S by lra.
  pose proof (near_exact (3 / 4) w FW ltac:(rewrite VW, Rabs_pos_eq; lra) ltac:(lra)) as NW. rewrite VW in NW.
  pose proof (near_mul e (3 / 4) (L + L) _ _ _ _ 0 (203 / 100 + 101 / 100) ltac:(ml) ltac:(ml) ltac:(fw) ltac:(fw) NW S) as P.
  pose proof (near_add e L (3 / 4 * (L + L)) _ _ _ _ (203 / 100) (0 + (203 / 100 + 101 / 100) + 101 / 100) ltac:(ml) ltac:(lra) ltac:(lra) ltac:(fw) ltac:(fw) NA P) as T. rewrite Rmax_right in T by lra.
  replace (L + 3 / 4 * (L + L)) with (5 / 2 * L) in T by field. apply (near_up _ _ _ _ _ T); lra.
Qed.
Lemma w75 : fin (@ndec _ D 75 2) /\ val (@ndec _ D 75 2) = 3 / 4.
Proof. change (@ndec _ D 75 2) with (dec 75 2). split; [vm_compute; reflexivity|]. rewrite (dec_val 75 2 6755399441055744 (-53)) by (vm_compute; reflexivity). change (bpow radix2 (-53)) with (/ 9007199254740992). lra. Qed.
Lemma w25 : fin (@ndec _ D 25 2) /\ val (@ndec _ D 25 2) = 1 / 4.
Proof. change (@ndec _ D 25 2) with (dec 25 2). split; [vm_compute; reflexivity|]. rewrite (dec_val 25 2 4503599627370496 (-54)) by (vm_compute; reflexivity). change (bpow radix2 (-54)) with (/ 18014398509481984). lra. Qed.
Lemma w5 : fin (@ndec _ D 5 1) /\ val (@ndec _ D 5 1) = 1 / 2.
Proof. change (@ndec _ D 5 1) with (dec 5 1). split; [vm_compute; reflexivity|]. rewrite (dec_val 5 1 4503599627370496 (-53)) by (vm_compute; reflexivity). change (bpow radix2 (-53)) with (/ 9007199254740992). lra. Qed.

Definition vlies (p : vec double) : Prop := vfin p /\ snorm (vvals p) <= L.
Lemma vlies_lies p : vlies p -> lies (vx p) /\ lies (vy p) /\ lies (vz p).
Proof. intros [(F1 & F2 & F3) B]. destruct (comp_norm (vvals p)) as (C1 & C2 & C3). unfold lies. change (val (vx p)) with (vx (vvals p)). change (val (vy p)) with (vy (vvals p)). change (val (vz p)) with (vz (vvals p)). repeat (split; try assumption); lra. Qed.
Lemma Lu : 0 <= L * u <= 112 / 1000000000000000000 * L.
Proof. pose proof u_pos. split; [nra|]. rewrite Rmult_comm. apply Rmult_le_compat_r; [lra|]. rewrite u_val. lra. Qed.

Lemma mid_near a b : vlies a -> vlies b -> vnear L (@vdivs _ D (@vadd _ D a b) (@nZ _ D 2)) (slerp (vvals a) (vvals b) (1 / 2)) (203 / 100).
Proof.
  intros A B. destruct (vlies_lies _ A) as (A1 & A2 & A3), (vlies_lies _ B) as (B1 & B2 & B3). unfold vdivs, vadd, slerp, sadd, sscale, ssub, vvals. split; [|split]; cbn [vx vy vz]; (eapply near_at; [apply c_mid; assumption|field]).
Qed.
Lemma quarter_near a b c t X : vlies a -> vlies b -> vlies c -> X = sadd (vvals a) (sscale t (ssub (vvals b) (vvals c))) -> t = / 4 -> vnear (3 / 2 * L) (@vadd _ D a (@vdivs _ D (@vsub _ D b c) (@nZ _ D 4))) X (304 / 100).
Proof.
  intros A B C -> ->. destruct (vlies_lies _ A) as (A1 & A2 & A3), (vlies_lies _ B) as (B1 & B2 & B3), (vlies_lies _ C) as (C1 & C2 & C3). unfold vdivs, vadd, vsub, sadd, sscale, ssub, vvals. split; [|split]; cbn [vx vy vz]; (eapply near_at; [apply c_quarter; assumption|field]).
Qed.
Lemma mean_near a b A B w W : 1 / 4 <= W <= 3 / 4 -> fin w -> val w = W -> vnear L a A (203 / 100) -> vnear L b B (203 / 100) -> vnear (5 / 2 * L) (@vadd _ D a (@vscale _ D w (@vsub _ D b a))) (slerp A B W) (506 / 100).
Proof.
  intros HW FW VW (A1 & A2 & A3) (B1 & B2 & B3). unfold vadd, vscale, vsub, slerp, sadd, sscale, ssub. split; [|split]; cbn [vx vy vz]; apply c_mean; assumption.
Qed.
Lemma near_off B p P k g : vnear B p P k -> 2 * (k * (B * u)) <= g -> off g p P.
Proof. intros N G. apply off_norm. destruct (near_dist _ _ _ _ N) as [F E]. split; [exact F|lra]. Qed.

Context (p : panel double) (P1 : vlies (pp1 p)) (P2 : vlies (pp2 p)) (P3 : vlies (pp3 p)) (P4 : vlies (pp4 p)).
Lemma points_off A0 D0 : let v := @panel_vars _ D (@vlm_gor _ D) p A0 D0 in
  off (1 / 1000000000000000 * L) (pv_lead v) (slerp (pp2 (pvals p)) (pp3 (pvals p)) (1 / 2)) /\ off (1 / 1000000000000000 * L) (pv_trail v) (slerp (pp1 (pvals p)) (pp4 (pvals p)) (1 / 2)) /\
  off (3 / 1000000000000000 * L) (pv_ctr v) (middle (pvals p) (3 / 4)) /\ off (3 / 1000000000000000 * L) (pv_cp v) (middle (pvals p) (1 / 4)) /\
  off (2 / 1000000000000000 * L) (rB (pv_ring v)) (left_edge (pvals p) (1 / 4)) /\ off (2 / 1000000000000000 * L) (rC (pv_ring v)) (right_edge (pvals p) (1 / 4)) /\
  off (4 / 1000000000000000 * L) (pv_span v) (ssub (left_edge (pvals p) (1 / 4)) (right_edge (pvals p) (1 / 4))) /\
  off (2 / 1000000000000000 * L) (@aft_A _ D p) (left_edge (pvals p) (5 / 4)) /\ off (2 / 1000000000000000 * L) (@aft_D _ D p) (right_edge (pvals p) (5 / 4)) /\
  off (2 / 1000000000000000 * L) (@quarter_B _ D p) (left_edge (pvals p) (1 / 4)) /\ off (2 / 1000000000000000 * L) (@quarter_C _ D p) (right_edge (pvals p) (1 / 4)).
Proof.
  cbv zeta. unfold panel_vars. cbv zeta. cbn [pv_lead pv_trail pv_ctr pv_cp pv_ring pv_span rB rC]. unfold middle, left_edge, right_edge, pvals. cbn [pp1 pp2 pp3 pp4]. pose proof Lu as U.
  pose proof (mid_near _ _ P2 P3) as ML. pose proof (mid_near _ _ P1 P4) as MT. destruct w75 as [F75 V75]. destruct w25 as [F25 V25].
  assert (S1 : forall a b : vec R, slerp a b (1 / 4) = sadd a (sscale (1 / 4) (ssub b a))) by reflexivity.
  assert (S5 : forall a b : vec R, slerp a b (5 / 4) = sadd b (sscale (1 / 4) (ssub b a))) by (intros [a1 a2 a3] [b1 b2 b3]; unfold slerp, sadd, sscale, ssub; cbn [vx vy vz]; f_equal; field).
  assert (QB : vnear (3 / 2 * L) (@quarter_B _ D p) (slerp (vvals (pp2 p)) (vvals (pp1 p)) (1 / 4)) (304 / 100)) by (unfold quarter_B; apply (quarter_near _ _ _ (1 / 4)); try assumption; [apply S1|lra]).
  assert (QC : vnear (3 / 2 * L) (@quarter_C _ D p) (slerp (vvals (pp3 p)) (vvals (pp4 p)) (1 / 4)) (304 / 100)) by (unfold quarter_C; apply (quarter_near _ _ _ (1 / 4)); try assumption; [apply S1|lra]).
  assert (QA : vnear (3 / 2 * L) (@aft_A _ D p) (slerp (vvals (pp2 p)) (vvals (pp1 p)) (5 / 4)) (304 / 100)) by (unfold aft_A; apply (quarter_near _ _ _ (1 / 4)); try assumption; [apply S5|lra]).
  assert (QD : vnear (3 / 2 * L) (@aft_D _ D p) (slerp (vvals (pp3 p)) (vvals (pp4 p)) (5 / 4)) (304 / 100)) by (unfold aft_D; apply (quarter_near _ _ _ (1 / 4)); try assumption; [apply S5|lra]).
  assert (SP : vnear (3 * L) (@vscale _ D (@vlm_gor _ D) (@vsub _ D (@quarter_C _ D p) (@quarter_B _ D p))) (ssub (slerp (vvals (pp2 p)) (vvals (pp1 p)) (1 / 4)) (slerp (vvals (pp3 p)) (vvals (pp4 p)) (1 / 4))) (507 / 100)).
  { assert (G : near 1 (@vlm_gor _ D) (-1) 0). { destruct (dint e 1 ltac:(lia)) as [F1 V1]. unfold vlm_gor. replace (-1) with (- 1) by lra. apply near_opp. pose proof (near_Z e 1 ltac:(lia) ltac:(lia)) as N. rewrite Rabs_R1 in N. exact N. }
    destruct QB as (B1 & B2 & B3), QC as (C1 & C2 & C3). set (b := @quarter_B _ D p) in *. set (c := @quarter_C _ D p) in *. clearbody b c.
    assert (K : forall x y X Y, near (3 / 2 * L) x X (304 / 100) -> near (3 / 2 * L) y Y (304 / 100) -> near (3 * L) (@nmul _ D (@vlm_gor _ D) (@nsub _ D y x)) (X - Y) (507 / 100)).
    { intros x y X Y NX NY. pose proof (near_sub e (3 / 2 * L) (3 / 2 * L) _ _ _ _ (304 / 100) (304 / 100) ltac:(ml) ltac:(lra) ltac:(lra) ltac:(fw) ltac:(fw) NY NX) as S. rewrite Rmax_left in S by lra.
      pose proof (near_mul e 1 (3 / 2 * L + 3 / 2 * L) _ _ _ _ 0 (304 / 100 + 101 / 100) ltac:(ml) ltac:(ml) ltac:(fw) ltac:(fw) G S) as Q. replace (1 * (3 / 2 * L + 3 / 2 * L)) with (3 * L) in Q by field.
      apply (near_up _ _ _ _ (507 / 100)) in Q; [|lra|lra]. apply (near_at _ _ _ _ _ Q). ring. }
    unfold vscale, vsub, ssub. split; [|split]; cbn [vx vy vz]; apply K; assumption. }
  split; [apply (near_off _ _ _ _ _ ML); lra|]. split; [apply (near_off _ _ _ _ _ MT); lra|].
  split; [apply (near_off _ _ _ _ _ (mean_near _ _ _ _ _ (3 / 4) ltac:(lra) F75 V75 ML MT)); lra|]. split; [apply (near_off _ _ _ _ _ (mean_near _ _ _ _ _ (1 / 4) ltac:(lra) F25 V25 ML MT)); lra|].
  split; [apply (near_off _ _ _ _ _ QB); lra|]. split; [apply (near_off _ _ _ _ _ QC); lra|]. split; [apply (near_off _ _ _ _ _ SP); lra|].
  split; [apply (near_off _ _ _ _ _ QA); lra|]. split; [apply (near_off _ _ _ _ _ QD); lra|]. split; [apply (near_off _ _ _ _ _ QB); lra|apply (near_off _ _ _ _ _ QC); lra].
Qed.

Lemma diff_near a b : vlies a -> vlies b -> vnear (2 * L) (@vsub _ D a b) (ssub (vvals a) (vvals b)) 1 /\ snorm (ssub (vvals a) (vvals b)) <= 2 * L.
Proof.
  intros [FA A] [FB B]. pose proof (norm_sub (vvals a) (vvals b)) as N. assert (N2 : snorm (ssub (vvals a) (vvals b)) <= 2 * L) by lra. split; [|exact N2]. apply near_vsub; try assumption. apply sized_lit. lra.
Qed.
Lemma LL : 1 / 1000000 <= L * L <= 4000000. Proof. split; nra. Qed.
Lemma cross_near a b c d : vlies a -> vlies b -> vlies c -> vlies d -> let C := scross (ssub (vvals a) (vvals b)) (ssub (vvals c) (vvals d)) in
  let r := @vcross _ D (@vsub _ D a b) (@vsub _ D c d) in vfin r /\ snorm (ssub (vvals r) C) <= 65 * (L * L * u) /\ snorm C <= 4 * (L * L).
Proof.
  intros A B C0 D0. cbv zeta. destruct (diff_near a b A B) as [N1 S1], (diff_near c d C0 D0) as [N2 S2]. pose proof LL.
  pose proof (near_cross e (2 * L) (2 * L) _ _ _ _ 1 1 ltac:(ml) ltac:(ml) ltac:(ml) ltac:(fw) ltac:(fw) ltac:(fw) N1 N2) as N. destruct (near_dist _ _ _ _ N) as [F E]. split; [exact F|]. split.
  - pose proof u_pos. replace (2 * ((1 + 1 + 101 / 100 + 101 / 100) * ((2 * L * (2 * L) + 2 * L * (2 * L)) * u))) with (6432 / 100 * (L * L * u)) in E by field. nra.
  - eapply Rle_trans; [apply norm_cross|]. replace (4 * (L * L)) with (2 * L * (2 * L)) by ring. apply Rmult_le_compat; try assumption; apply snorm_nonneg.
Qed.
(** the length of a vector, also of one that is almost nothing *)
Lemma norm_any r : vfin r -> snorm (vvals r) <= 401 / 100 * (L * L) -> fin (@vnorm _ D r) /\ Rabs (val (@vnorm _ D r) - snorm (vvals r)) <= 117 * (L * L * u).
Proof.
  intros F N. pose proof LL as LL. pose proof u_pos as U. destruct (Rle_lt_dec (bpow radix2 (-150)) (snorm (vvals r))) as [Z|Z].
  - assert (SZ : sized (snorm (vvals r))). { split; [exact Z|]. apply (Rle_trans _ (bpow radix2 30)); [change (bpow radix2 30) with 1073741824; lra|apply bpow_le; lia]. }
    destruct (close_norm e r (vvals r) 0 ltac:(fw) ltac:(lra) (vnear_exact _ r F (Rle_refl _)) SZ) as [FN (d & Hd & E)]. split; [exact FN|]. unfold vnorm. rewrite E. replace (snorm (vvals r) * (1 + d) - snorm (vvals r)) with (snorm (vvals r) * d) by ring.
    rewrite Rabs_mult, (Rabs_pos_eq (snorm _)) by apply snorm_nonneg. pose proof (snorm_nonneg (vvals r)) as P. apply (Rle_trans _ (401 / 100 * (L * L) * (29 * u))); [apply Rmult_le_compat; try assumption; [apply Rabs_pos|lra]|nra].
  - assert (V : vlim (-100) r).
    { destruct (comp_norm (vvals r)) as (C1 & C2 & C3). change (vx (vvals r)) with (val (vx r)) in C1. change (vy (vvals r)) with (val (vy r)) in C2. change (vz (vvals r)) with (val (vz r)) in C3. destruct F as (F1 & F2 & F3).
      assert (Q : bpow radix2 (-150) <= bpow radix2 (-100)) by (apply bpow_le; lia). unfold vlim, lim. repeat (split; try assumption); lra. }
    destruct (lim_norm e (-100) r ltac:(lia) V) as [[FN BN] PN]. split; [exact FN|]. pose proof (snorm_nonneg (vvals r)) as P. rewrite Rabs_pos_eq in BN by exact PN.
    assert (Q : bpow radix2 (-150) <= bpow radix2 (-99)) by (apply bpow_le; lia). assert (T : bpow radix2 (-100 + 1) <= L * L * u).
    { change (bpow radix2 (-100 + 1)) with (/ 633825300114114700748351602688). rewrite u_val. apply (Rle_trans _ (1 / 1000000 * / 2 ^ 53)); [lra|]. apply Rmult_le_compat_r; lra. }
    change (-100 + 1)%Z with (-99)%Z in T, BN. apply Rabs_le. lra.
Qed.
Lemma half_near a b c d : vlies a -> vlies b -> vlies c -> vlies d ->
  near (2 * (L * L)) (@nmul _ D (@ndec _ D 5 1) (@vnorm _ D (@vcross _ D (@vsub _ D a b) (@vsub _ D c d)))) (snorm (scross (ssub (vvals a) (vvals b)) (ssub (vvals c) (vvals d))) / 2) (47 + 101 / 100).
Proof.
  intros A B C0 D0. destruct (cross_near a b c d A B C0 D0) as (F & E & N). set (r := @vcross _ D _ _) in *. set (C := scross _ _) in *. clearbody r C. pose proof LL as LL. pose proof u_pos as U. pose proof u_small as US.
  pose proof (norm_rev (vvals r) C) as RV. apply Rle_trans with (1 := RV) in E. apply abs_2 in E. assert (LU : 65 * (L * L * u) <= 1 / 100 * (L * L)) by nra. destruct (norm_any r F ltac:(lra)) as [FN EN]. apply abs_2 in EN.
  assert (NR : near (4 * (L * L)) (@vnorm _ D r) (snorm C) 47). { split; [exact FN|]. split; [rewrite Rabs_pos_eq by apply snorm_nonneg; exact N|]. apply Rabs_le. lra. }
  destruct w5 as [F5 V5]. pose proof (near_exact (1 / 2) _ F5 ltac:(rewrite V5, Rabs_pos_eq; lra) ltac:(lra)) as NW. rewrite V5 in NW.
  pose proof (near_mul e (1 / 2) (4 * (L * L)) _ _ _ _ 0 47 ltac:(ml) ltac:(ml) ltac:(fw) ltac:(fw) NW NR) as Q. replace (1 / 2 * (4 * (L * L))) with (2 * (L * L)) in Q by field.
  apply (near_up _ _ _ _ (47 + 101 / 100)) in Q; [|lra|lra]. apply (near_at _ _ _ _ _ Q). field.
Qed.
Lemma area_near : near (4 * (L * L)) (@panel_area _ D p) (two_triangles (pvals p)) (501 / 10).
Proof.
  unfold panel_area, two_triangles, pvals. cbv zeta. cbn [pp1 pp2 pp3 pp4]. pose proof (half_near _ _ _ _ P2 P1 P3 P2) as H1. pose proof (half_near _ _ _ _ P3 P2 P4 P3) as H2.
  set (a := @nmul _ D _ _) in H1 |- *. set (b := @nmul _ D _ _) in H2 |- *. set (X := snorm _ / 2) in H1 |- *. set (Y := snorm _ / 2) in H2 |- *. clearbody a b X Y. pose proof LL as LL.
  assert (Z : near 0 (@nZ _ D 0) 0 0) by (destruct (dint e 0 ltac:(lia)) as [F V]; split; [exact F|]; split; [rewrite Rabs_R0; lra|rewrite V; unfold Rminus; rewrite Ropp_0, Rplus_0_r, Rabs_R0; lra]).
  pose proof (near_add e 0 (2 * (L * L)) _ _ _ _ 0 (47 + 101 / 100) ltac:(ml) ltac:(lra) ltac:(lra) ltac:(fw) ltac:(fw) Z H1) as S. rewrite Rmax_right in S by lra.
  pose proof (near_add e (0 + 2 * (L * L)) (2 * (L * L)) _ _ _ _ (47 + 101 / 100 + 101 / 100) (47 + 101 / 100) ltac:(ml) ltac:(lra) ltac:(lra) ltac:(fw) ltac:(fw) S H2) as T. rewrite Rmax_left in T by lra.
  replace (0 + 2 * (L * L) + 2 * (L * L)) with (4 * (L * L)) in T by ring. apply (near_up _ _ _ _ (501 / 10)) in T; [|lra|lra]. apply (near_at _ _ _ _ _ T). ring.
Qed.
Lemma normal_near A0 D0 : 1 / 1000000000 * (L * L) <= snorm (diagonals (pvals p)) ->
  off (15 / 1000000000000000 + 2 * (1 / 100000000000000 * (L * L)) / snorm (diagonals (pvals p))) (pv_n (@panel_vars _ D (@vlm_gor _ D) p A0 D0)) (sunit (diagonals (pvals p))).
Proof.
  unfold diagonals, pvals, panel_vars. cbv zeta. cbn [pp1 pp2 pp3 pp4 pv_n]. intros H. destruct (cross_near _ _ _ _ P3 P1 P4 P2) as (F & E & N). set (r := @vcross _ D _ _) in *. set (C := scross _ _) in *. clearbody r C. pose proof LL as LL. pose proof u_pos as U. pose proof u_small as US.
  assert (E' : snorm (ssub (vvals r) C) <= 1 / 100000000000000 * (L * L)). { eapply Rle_trans; [exact E|]. assert (u <= 112 / 1000000000000000000) by (rewrite u_val; lra). nra. }
  pose proof (norm_rev (vvals r) C) as RV. apply Rle_trans with (2 := E') in RV. apply abs_2 in RV.
  assert (NP : 0 < snorm C) by nra. assert (NR : 1 / 2000000000 * (L * L) <= snorm (vvals r)) by lra.
  assert (SZ : sized (snorm (vvals r))) by (apply sized_wide; split; lra).
  destruct (near_unit e r (vvals r)) as [_ NU]; [|exact SZ|].
  { destruct (vnear_exact _ r F (Rle_refl (snorm (vvals r)))) as (X1 & X2 & X3). pose proof (snorm_nonneg (vvals r)). split; [|split]; eapply near_up; try eassumption; lra. }
  destruct (near_dist _ _ _ _ NU) as [FN EN]. apply off_norm. split; [exact FN|]. eapply Rle_trans; [apply (norm_tri _ (sunit (vvals r)))|]. apply Rplus_le_compat.
  - eapply Rle_trans; [exact EN|]. rewrite u_val. lra.
  - rewrite norm_swap. eapply Rle_trans; [apply unit_diff; [exact NP|lra]|]. unfold Rdiv. apply Rmult_le_compat_r; [left; apply Rinv_0_lt_compat, NP|]. rewrite norm_swap. lra.
Qed.
End Points.

(** the lattice of any accepted list of panels, in any arithmetic *)
Lemma vars_at {F} {NF : Num F} gor nc ns (panels : list (panel F)) te vars : length te = length panels -> calculate_vlm_variables panels te gor nc ns = Ok vars ->
  length vars = length panels /\ forall i v, nth_error vars i = Some v -> exists p A D t, nth_error panels i = Some p /\ nth_error te i = Some t /\ v = panel_vars gor p A D /\
    (if (t : bool) then A = aft_A p /\ D = aft_D p else exists q, nth_error panels (i + ns) = Some q /\ A = quarter_B q /\ D = quarter_C q).
Proof.
  intros LT E. unfold calculate_vlm_variables in E. cbv zeta in E. destruct (Nat.eqb_spec (nc * ns) 0) as [Z|Z]; [discriminate|]. set (G := (length panels / (nc * ns))%nat) in *. set (m := (nc * ns)%nat) in *.
  apply bind_Ok in E. destruct E as (pss & E1 & E). apply bind_Ok in E. destruct E as (tss & E2 & E). apply bind_Ok in E. destruct E as (vss & E3 & E). destruct (Nat.eqb_spec (length panels) (G * m)) as [LP|LP]; [|discriminate]. injection E as <-.
  assert (G0 : (0 < G)%nat) by (destruct G; [discriminate E1|lia]).
  destruct (array_split_groups panels G m G0 LP) as (pss' & E1' & L1 & C1 & W1 & N1). rewrite E1 in E1'. injection E1' as <-.
  destruct (array_split_groups te G m G0 ltac:(lia)) as (tss' & E2' & L2 & C2 & W2 & N2). rewrite E2 in E2'. injection E2' as <-.
  assert (L3 : length vss = G) by (rewrite (mapM_length _ _ _ E3), combine_length; lia).
  assert (GS : forall g vs, nth_error vss g = Some vs -> exists ps ts, nth_error pss g = Some ps /\ nth_error tss g = Some ts /\ group_vlm_variables gor ns ps ts = Ok vs).
  { intros g vs K. pose proof (nth_error_Some_lt _ _ _ K) as Hk. destruct (nth_error_ex pss g) as [ps P]; [lia|]. destruct (nth_error_ex tss g) as [ts Q]; [lia|].
    destruct (mapM_nth _ _ _ _ _ E3 (nth_error_combine _ _ _ _ _ P Q)) as (b & B1 & B2). cbn [fst snd] in B1, B2. exists ps, ts. split; [exact P|]. split; [exact Q|]. congruence. }
  assert (W3 : forall v, In v vss -> length v = m).
  { intros v I. apply In_nth_error in I. destruct I as [g I]. destruct (GS g v I) as (ps & ts & P & _ & Q). unfold group_vlm_variables in Q. rewrite (mapM_length _ _ _ Q), combine_length, seq_length. rewrite (W1 ps) by (eapply nth_error_In; eauto). lia. }
  split; [rewrite (concat_groups_length _ _ W3); lia|].
  intros i v I. assert (IL : (i < G * m)%nat). { rewrite <- L3, <- (concat_groups_length _ _ W3). eapply nth_error_Some_lt; eauto. }
  set (g := (i / m)%nat). set (k := (i mod m)%nat). assert (EI : i = (g * m + k)%nat) by (unfold g, k; rewrite (Nat.div_mod i m) at 1 by exact Z; lia). assert (KL : (k < m)%nat) by (apply Nat.mod_upper_bound, Z). assert (GL : (g < G)%nat) by (apply Nat.div_lt_upper_bound; [exact Z|lia]).
  clearbody g k. subst i. destruct (nth_error_ex vss g) as [vs V]; [lia|]. rewrite (concat_groups_nth vss m g vs k W3 V KL) in I. destruct (GS g vs V) as (ps & ts & P & T & Q).
  unfold group_vlm_variables in Q. pose proof (mapM_Forall2 _ _ _ Q) as F2. pose proof (nth_error_Some_lt _ _ _ I) as Hj. rewrite (mapM_length _ _ _ Q) in Hj. destruct (nth_error_ex _ _ Hj) as [[k' p] D].
  pose proof (Forall2_nth_error _ _ _ _ _ _ F2 D I) as Y. cbn [fst snd] in Y. apply nth_error_combine_inv in D. destruct D as [D1 D2]. pose proof (nth_error_Some_lt _ _ _ D2) as KP. rewrite nth_error_seq in D1 by exact KP. injection D1 as <-. cbn [plus] in Y.
  apply bind_Ok in Y. destruct Y as (t & T1 & Y). apply py_nth_Ok_nat in T1. rewrite (N2 g ts k T KL) in T1. pose proof D2 as D3. rewrite (N1 g ps k P KL) in D3.
  destruct t.
  - injection Y as <-. exists p, (aft_A p), (aft_D p), true. repeat (split; [assumption || reflexivity|]). split; reflexivity.
  - apply bind_Ok in Y. destruct Y as (q & Q1 & Y). injection Y as <-. rewrite <- Nat2Z.inj_add in Q1. apply py_nth_Ok_nat in Q1. pose proof (nth_error_Some_lt _ _ _ Q1) as KQ. rewrite (W1 ps) in KQ by (eapply nth_error_In; eauto). rewrite (N1 g ps (k + ns)%nat P KQ) in Q1.
    exists p, (quarter_B q), (quarter_C q), false. repeat (split; [assumption || reflexivity|]). exists q. split; [rewrite <- Nat.add_assoc; exact Q1|split; reflexivity].
Qed.

(** ** Panels near exact ones *)
Lemma slerp_lip (a b a' b' : vec R) t d : snorm (ssub a a') <= d -> snorm (ssub b b') <= d -> snorm (ssub (slerp a b t) (slerp a' b' t)) <= (Rabs (1 - t) + Rabs t) * d.
Proof.
  intros A B. replace (ssub (slerp a b t) (slerp a' b' t)) with (sadd (sscale (1 - t) (ssub a a')) (sscale t (ssub b b'))) by (unfold slerp, sadd, sscale, ssub; cbn [vx vy vz]; f_equal; ring).
  eapply Rle_trans; [apply norm_add|]. rewrite !norm_scale, Rmult_plus_distr_r. pose proof (Rabs_pos (1 - t)). pose proof (Rabs_pos t). apply Rplus_le_compat; apply Rmult_le_compat_l; assumption.
Qed.
Lemma slerp_in (a b a' b' : vec R) t d : 0 <= t <= 1 -> snorm (ssub a a') <= d -> snorm (ssub b b') <= d -> snorm (ssub (slerp a b t) (slerp a' b' t)) <= d.
Proof. intros T A B. pose proof (slerp_lip a b a' b' t d A B) as K. rewrite !Rabs_pos_eq in K by lra. lra. Qed.
Lemma cross_lip (a b a' b' : vec R) d M : snorm (ssub a a') <= d -> snorm (ssub b b') <= d -> snorm a <= M -> snorm b' <= M -> snorm (ssub (scross a b) (scross a' b')) <= 2 * (d * M).
Proof.
  intros A B MA MB. replace (ssub (scross a b) (scross a' b')) with (sadd (scross a (ssub b b')) (scross (ssub a a') b')) by (unfold scross, sadd, ssub; cbn [vx vy vz]; f_equal; ring).
  eapply Rle_trans; [apply norm_add|]. pose proof (norm_cross a (ssub b b')). pose proof (norm_cross (ssub a a') b').
  pose proof (Rmult_le_compat _ _ _ _ (snorm_nonneg a) (snorm_nonneg (ssub b b')) MA B). pose proof (Rmult_le_compat _ _ _ _ (snorm_nonneg (ssub a a')) (snorm_nonneg b') A MB). lra.
Qed.
Lemma off_tri g d h p X Y : off g p X -> snorm (ssub X Y) <= d -> g + d <= h -> off h p Y.
Proof. intros O E S. destruct (proj1 (off_norm _ _ _) O) as [F N]. apply off_norm. split; [exact F|]. eapply Rle_trans; [apply (norm_tri _ X)|]. lra. Qed.

Section Panel.
Context (e : elementary) (L d : R) (HL : 1 / 100 <= L <= 1000) (Hd : 0 <= d <= L / 100) (p : panel double) (q : panel R) (SQ : panel_size L q) (OP : panel_off d p q).
Local Notation D := (Double e).
Lemma corner_lies a b : off d a b -> snorm b <= L -> vlies (L + d) a.
Proof. intros O N. destruct (proj1 (off_norm _ _ _) O) as [F E]. split; [exact F|]. pose proof (norm_tri (vvals a) b szero) as T. assert (Z : forall v : vec R, ssub v szero = v) by (intros [x y z]; unfold ssub, szero; cbn [vx vy vz]; f_equal; ring). rewrite !Z in T. lra. Qed.
Lemma four : (vlies (L + d) (pp1 p) /\ vlies (L + d) (pp2 p) /\ vlies (L + d) (pp3 p) /\ vlies (L + d) (pp4 p)) /\
  (snorm (ssub (vvals (pp1 p)) (pp1 q)) <= d /\ snorm (ssub (vvals (pp2 p)) (pp2 q)) <= d /\ snorm (ssub (vvals (pp3 p)) (pp3 q)) <= d /\ snorm (ssub (vvals (pp4 p)) (pp4 q)) <= d).
Proof.
  destruct SQ as (S1 & S2 & S3 & S4), OP as (O1 & O2 & O3 & O4). split; [repeat split; try (apply (corner_lies _ _ O1 S1) || apply (corner_lies _ _ O2 S2) || apply (corner_lies _ _ O3 S3) || apply (corner_lies _ _ O4 S4))|].
  apply off_norm in O1. apply off_norm in O2. apply off_norm in O3. apply off_norm in O4. split; [apply O1|]. split; [apply O2|]. split; [apply O3|apply O4].
Qed.
Lemma size' : 1 / 1000 <= L + d <= 2000. Proof. lra. Qed.
Theorem C102_points A0 D0 : let v := @panel_vars _ D (@vlm_gor _ D) p A0 D0 in
  off (d + 4 / 1000000000000000 * L) (pv_ctr v) (middle q (3 / 4)) /\ off (d + 4 / 1000000000000000 * L) (pv_cp v) (middle q (1 / 4)) /\
  off (d + 3 / 1000000000000000 * L) (rB (pv_ring v)) (left_edge q (1 / 4)) /\ off (d + 3 / 1000000000000000 * L) (rC (pv_ring v)) (right_edge q (1 / 4)) /\
  off (2 * d + 5 / 1000000000000000 * L) (pv_span v) (ssub (left_edge q (1 / 4)) (right_edge q (1 / 4))) /\
  off (d + 2 / 1000000000000000 * L) (pv_lead v) (slerp (pp2 q) (pp3 q) (1 / 2)) /\ off (d + 2 / 1000000000000000 * L) (pv_trail v) (slerp (pp1 q) (pp4 q) (1 / 2)).
Proof.
  cbv zeta. destruct four as [(P1 & P2 & P3 & P4) (Q1 & Q2 & Q3 & Q4)]. destruct (points_off e (L + d) size' p P1 P2 P3 P4 A0 D0) as (O1 & O2 & O3 & O4 & O5 & O6 & O7 & _). set (v := @panel_vars _ D _ p A0 D0) in *. clearbody v.
  assert (M1 : snorm (ssub (slerp (pp2 (pvals p)) (pp3 (pvals p)) (1 / 2)) (slerp (pp2 q) (pp3 q) (1 / 2))) <= d) by (apply slerp_in; [lra|assumption|assumption]).
  assert (M2 : snorm (ssub (slerp (pp1 (pvals p)) (pp4 (pvals p)) (1 / 2)) (slerp (pp1 q) (pp4 q) (1 / 2))) <= d) by (apply slerp_in; [lra|assumption|assumption]).
  assert (B : snorm (ssub (left_edge (pvals p) (1 / 4)) (left_edge q (1 / 4))) <= d) by (apply slerp_in; [lra|assumption|assumption]).
  assert (C : snorm (ssub (right_edge (pvals p) (1 / 4)) (right_edge q (1 / 4))) <= d) by (apply slerp_in; [lra|assumption|assumption]).
  split; [apply (off_tri _ d _ _ _ _ O3); [apply slerp_in; [lra|exact M1|exact M2]|lra]|]. split; [apply (off_tri _ d _ _ _ _ O4); [apply slerp_in; [lra|exact M1|exact M2]|lra]|].
  split; [apply (off_tri _ d _ _ _ _ O5 B); lra|]. split; [apply (off_tri _ d _ _ _ _ O6 C); lra|]. split.
  - apply (off_tri _ (2 * d) _ _ _ _ O7); [|lra]. set (a := left_edge (pvals p) _) in *. set (b := right_edge (pvals p) _) in *. set (a' := left_edge q _) in *. set (b' := right_edge q _) in *.
    replace (ssub (ssub a b) (ssub a' b')) with (ssub (ssub a a') (ssub b b')) by (unfold ssub; cbn [vx vy vz]; f_equal; ring). eapply Rle_trans; [apply norm_sub|]. lra.
  - split; [apply (off_tri _ d _ _ _ _ O1 M1); lra|apply (off_tri _ d _ _ _ _ O2 M2); lra].
Qed.
Lemma edges_off : off (3 / 2 * d + 3 / 1000000000000000 * L) (@aft_A _ D p) (left_edge q (5 / 4)) /\ off (3 / 2 * d + 3 / 1000000000000000 * L) (@aft_D _ D p) (right_edge q (5 / 4)) /\
  off (3 / 2 * d + 3 / 1000000000000000 * L) (@quarter_B _ D p) (left_edge q (1 / 4)) /\ off (3 / 2 * d + 3 / 1000000000000000 * L) (@quarter_C _ D p) (right_edge q (1 / 4)).
Proof.
  destruct four as [(P1 & P2 & P3 & P4) (Q1 & Q2 & Q3 & Q4)]. destruct (points_off e (L + d) size' p P1 P2 P3 P4 (pp1 p) (pp1 p)) as (_ & _ & _ & _ & _ & _ & _ & O1 & O2 & O3 & O4).
  assert (K : forall a b a' b' : vec R, snorm (ssub a a') <= d -> snorm (ssub b b') <= d -> snorm (ssub (slerp a b (5 / 4)) (slerp a' b' (5 / 4))) <= 3 / 2 * d).
  { intros a b a' b' A B. pose proof (slerp_lip a b a' b' (5 / 4) d A B) as S. rewrite (Rabs_left (1 - 5 / 4)), (Rabs_pos_eq (5 / 4)) in S by lra. lra. }
  assert (K' : forall a b a' b' : vec R, snorm (ssub a a') <= d -> snorm (ssub b b') <= d -> snorm (ssub (slerp a b (1 / 4)) (slerp a' b' (1 / 4))) <= d) by (intros; apply slerp_in; [lra|assumption|assumption]).
  split; [apply (off_tri _ (3 / 2 * d) _ _ _ _ O1); [apply K; assumption|lra]|]. split; [apply (off_tri _ (3 / 2 * d) _ _ _ _ O2); [apply K; assumption|lra]|].
  split; [apply (off_tri _ d _ _ _ _ O3); [apply K'; assumption|lra]|apply (off_tri _ d _ _ _ _ O4); [apply K'; assumption|lra]].
Qed.
Lemma diffs a b a' b' : vlies (L + d) a -> vlies (L + d) b -> snorm a' <= L -> snorm b' <= L -> snorm (ssub (vvals a) a') <= d -> snorm (ssub (vvals b) b') <= d ->
  snorm (ssub (ssub (vvals a) (vvals b)) (ssub a' b')) <= 2 * d /\ snorm (ssub (vvals a) (vvals b)) <= 2 * (L + d) /\ snorm (ssub a' b') <= 2 * (L + d).
Proof.
  intros [_ A] [_ B] A' B' DA DB. split; [|split].
  - replace (ssub (ssub (vvals a) (vvals b)) (ssub a' b')) with (ssub (ssub (vvals a) a') (ssub (vvals b) b')) by (unfold ssub; cbn [vx vy vz]; f_equal; ring). eapply Rle_trans; [apply norm_sub|]. lra.
  - eapply Rle_trans; [apply norm_sub|]. lra.
  - eapply Rle_trans; [apply norm_sub|]. lra.
Qed.
Lemma crosses a b c f a' b' c' f' : vlies (L + d) a -> vlies (L + d) b -> vlies (L + d) c -> vlies (L + d) f -> snorm a' <= L -> snorm b' <= L -> snorm c' <= L -> snorm f' <= L ->
  snorm (ssub (vvals a) a') <= d -> snorm (ssub (vvals b) b') <= d -> snorm (ssub (vvals c) c') <= d -> snorm (ssub (vvals f) f') <= d ->
  snorm (ssub (scross (ssub (vvals a) (vvals b)) (ssub (vvals c) (vvals f))) (scross (ssub a' b') (ssub c' f'))) <= 809 / 100 * (d * L).
Proof.
  intros A B C G A' B' C' G' DA DB DC DG. destruct (diffs a b a' b' A B A' B' DA DB) as (X1 & X2 & _). destruct (diffs c f c' f' C G C' G' DC DG) as (Y1 & _ & Y3).
  eapply Rle_trans; [apply (cross_lip _ _ _ _ (2 * d) (2 * (L + d)) X1 Y1 X2 Y3)|]. nra.
Qed.
Theorem C102_area : fin (@panel_area _ D p) /\ Rabs (val (@panel_area _ D p) - two_triangles q) <= 9 * (d * L) + 3 / 100000000000000 * (L * L).
Proof.
  destruct four as [(P1 & P2 & P3 & P4) (Q1 & Q2 & Q3 & Q4)]. destruct SQ as (S1 & S2 & S3 & S4). destruct (area_near e (L + d) size' p P1 P2 P3 P4) as (F & _ & E). split; [exact F|].
  pose proof (norm_rev (scross (ssub (vvals (pp2 p)) (vvals (pp1 p))) (ssub (vvals (pp3 p)) (vvals (pp2 p)))) (scross (ssub (pp2 q) (pp1 q)) (ssub (pp3 q) (pp2 q)))) as N1.
  pose proof (norm_rev (scross (ssub (vvals (pp3 p)) (vvals (pp2 p))) (ssub (vvals (pp4 p)) (vvals (pp3 p)))) (scross (ssub (pp3 q) (pp2 q)) (ssub (pp4 q) (pp3 q)))) as N2.
  pose proof (Rle_trans _ _ _ N1 (crosses _ _ _ _ _ _ _ _ P2 P1 P3 P2 S2 S1 S3 S2 Q2 Q1 Q3 Q2)) as M1. pose proof (Rle_trans _ _ _ N2 (crosses _ _ _ _ _ _ _ _ P3 P2 P4 P3 S3 S2 S4 S3 Q3 Q2 Q4 Q3)) as M2. clear N1 N2.
  apply abs_2 in M1, M2, E. unfold two_triangles, pvals in *. cbn [pp1 pp2 pp3 pp4] in *. set (x := snorm (scross (ssub (vvals (pp2 p)) _) _)) in *. set (y := snorm (scross (ssub (vvals (pp3 p)) _) _)) in *. set (x' := snorm (scross (ssub (pp2 q) _) _)) in *. set (y' := snorm (scross (ssub (pp3 q) _) _)) in *. clearbody x y x' y'.
  assert (U : 501 / 10 * (4 * ((L + d) * (L + d)) * u) <= 3 / 100000000000000 * (L * L)).
  { assert (U1 : u <= 112 / 1000000000000000000) by (rewrite u_val; lra). pose proof u_pos. assert (LD : (L + d) * (L + d) <= 102 / 100 * 102 / 100 * (L * L)) by nra. assert (0 <= L * L) by nra.
    replace (501 / 10 * (4 * ((L + d) * (L + d)) * u)) with (501 / 10 * 4 * u * ((L + d) * (L + d))) by ring. apply (Rle_trans _ (501 / 10 * 4 * u * (102 / 100 * 102 / 100 * (L * L)))); [apply Rmult_le_compat_l; lra|]. nra. }
  assert (0 <= d * L) by nra. apply Rabs_le. lra.
Qed.
Theorem C102_normal A0 D0 h : h <= snorm (diagonals q) -> 20 * (d * L) + 3 / 1000000000 * (L * L) <= h ->
  off (15 / 1000000000000000 + (17 * (d * L) + 5 / 100000000000000 * (L * L)) / h) (pv_n (@panel_vars _ D (@vlm_gor _ D) p A0 D0)) (sunit (diagonals q)).
Proof.
  intros H K. destruct four as [(P1 & P2 & P3 & P4) (Q1 & Q2 & Q3 & Q4)]. destruct SQ as (S1 & S2 & S3 & S4).
  pose proof (crosses _ _ _ _ _ _ _ _ P3 P1 P4 P2 S3 S1 S4 S2 Q3 Q1 Q4 Q2) as M. change (snorm (ssub (diagonals (pvals p)) (diagonals q)) <= 809 / 100 * (d * L)) in M.
  pose proof (norm_rev (diagonals (pvals p)) (diagonals q)) as R. apply Rle_trans with (2 := M) in R. apply abs_2 in R.
  assert (DL : 0 <= d * L) by nra. assert (L2 : 1 / 10000 <= L * L) by nra. assert (LD : (L + d) * (L + d) <= 103 / 100 * (L * L)) by nra.
  assert (HP : 0 < h) by lra. assert (HH : h / 2 <= snorm (diagonals (pvals p))) by lra.
  pose proof (normal_near e (L + d) size' p P1 P2 P3 P4 A0 D0 ltac:(lra)) as N. set (v := pv_n _) in *. clearbody v.
  apply (off_tri _ (809 / 50 * (d * L) / h) _ _ _ _ N).
  - eapply Rle_trans; [rewrite norm_swap; apply unit_diff; lra|]. rewrite norm_swap. unfold Rdiv. pose proof (snorm_nonneg (ssub (diagonals (pvals p)) (diagonals q))). apply Rmult_le_compat; [lra|left; apply Rinv_0_lt_compat; lra|lra|apply Rinv_le_contravar; lra].
  - assert (T : 2 * (1 / 100000000000000 * ((L + d) * (L + d))) / snorm (diagonals (pvals p)) <= 5 / 100000000000000 * (L * L) / h).
    { apply (Rle_trans _ (2 * (1 / 100000000000000 * ((L + d) * (L + d))) / (h / 2))).
      - apply Rmult_le_compat_l; [nra|]. apply Rinv_le_contravar; lra.
      - replace (2 * (1 / 100000000000000 * ((L + d) * (L + d))) / (h / 2)) with (4 / 100000000000000 * ((L + d) * (L + d)) / h) by (field; lra). apply Rmult_le_compat_r; [left; apply Rinv_0_lt_compat; lra|lra]. }
    unfold Rdiv in T |- *. rewrite Rmult_plus_distr_r. assert (0 < / h) by (apply Rinv_0_lt_compat; lra). assert (809 * / 50 * (d * L) * / h <= 17 * (d * L) * / h) by (apply Rmult_le_compat_r; lra). lra.
Qed.
End Panel.

Lemma Forall2_nth2 {A B} (P : A -> B -> Prop) l m i b : Forall2 P l m -> nth_error m i = Some b -> exists a, nth_error l i = Some a /\ P a b.
Proof. intros F. revert i. induction F as [|x y l m X F IH]; intros [|i] E; try discriminate E; cbn [nth_error] in *; [injection E as <-; eauto | apply IH, E]. Qed.
Lemma Forall2_nth1 {A B} (P : A -> B -> Prop) l m i a : Forall2 P l m -> nth_error l i = Some a -> exists b, nth_error m i = Some b /\ P a b.
Proof. intros F. revert i. induction F as [|x y l m X F IH]; intros [|i] E; try discriminate E; cbn [nth_error] in *; [injection E as <-; eauto | apply IH, E]. Qed.

(** ** Every accepted list of panels *)
Theorem C102_lattice e L d panels qs te nc ns vars : 1 / 100 <= L <= 1000 -> 0 <= d <= L / 100 -> length te = length panels ->
  @calculate_vlm_variables _ (Double e) panels te (@vlm_gor _ (Double e)) nc ns = Ok vars -> Forall2 (panel_off d) panels qs -> Forall (panel_size L) qs ->
  length vars = length qs /\ forall i v q t, nth_error vars i = Some v -> nth_error qs i = Some q -> nth_error te i = Some t -> lattice_at L d v q t (nth_error qs (i + ns)).
Proof.
  intros HL Hd LT E OF SZ. destruct (@vars_at _ (Double e) _ _ _ _ _ _ LT E) as [LV AT]. split; [rewrite LV; exact (Forall2_len _ _ _ OF)|]. rewrite Forall_forall in SZ.
  intros i v q t IV IQ IT. destruct (AT i v IV) as (p & A & D & t' & IP & IT' & -> & AD). rewrite IT in IT'. injection IT' as <-. destruct (Forall2_nth2 _ _ _ _ _ OF IQ) as (p' & IP' & O). rewrite IP in IP'. injection IP' as <-.
  pose proof (SZ q (nth_error_In _ _ IQ)) as S. destruct (C102_points e L d HL Hd p q S O A D) as (P1 & P2 & P3 & P4 & P5 & _). unfold lattice_at.
  split; [exact P1|]. split; [exact P2|]. split; [exact P3|]. split; [exact P4|]. split; [|split; [exact P5|intros h; apply (C102_normal e L d HL Hd p q S O)]].
  unfold aft_corners. cbn [panel_vars pv_ring rA rD]. destruct t.
  - destruct AD as [-> ->]. destruct (edges_off e L d HL Hd p q S O) as (X & Y & _). auto.
  - destruct AD as (n & IN & -> & ->). destruct (Forall2_nth1 _ _ _ _ _ OF IN) as (n' & IN' & O'). exists n'. split; [exact IN'|]. destruct (edges_off e L d HL Hd n n' (SZ n' (nth_error_In _ _ IN')) O') as (_ & _ & X & Y). auto.
Qed.

(** ** An accepted run *)
Theorem C102_run e L d panels qs nc ns rho w te le o : 1 / 100 <= L <= 1000 -> 0 <= d <= L / 100 -> length te = length panels ->
  @Vlm _ (Double e) panels nc ns rho w te le = Ok o -> Forall2 (panel_off d) panels qs -> Forall (panel_size L) qs ->
  length (vl_vars o) = length qs /\
  (forall i v q t, nth_error (vl_vars o) i = Some v -> nth_error qs i = Some q -> nth_error te i = Some t -> lattice_at L d v q t (nth_error qs (i + ns))) /\
  length (vl_areas o) = length qs /\
  forall i a q, nth_error (vl_areas o) i = Some a -> nth_error qs i = Some q -> fin a /\ Rabs (val a - two_triangles q) <= 9 * (d * L) + 3 / 100000000000000 * (L * L).
Proof.
  intros HL Hd LT E OF SZ. assert (K : exists vars, @calculate_vlm_variables _ (Double e) panels te (@vlm_gor _ (Double e)) nc ns = Ok vars /\ vl_vars o = vars /\ vl_areas o = @get_panels_area _ (Double e) panels).
  { unfold Vlm in E. apply bind_Ok in E. destruct E as (vars & EV & E). apply bind_Ok in E. destruct E as (ic & _ & E). exists vars. split; [exact EV|]. unfold vlm_solve in E. cbv zeta in E.
    destruct (calc_velocity_coefs _ _ _ _ _ _) as [coeff vind]. apply bind_Ok in E. destruct E as (gamma & _ & E). destruct (calculate_app_fs _ _ _) as [va vb]. apply bind_Ok in E. destruct E as (ok & _ & E). apply bind_Ok in E. destruct E as (gd & _ & E).
    apply bind_Ok in E. destruct E as (fo & _ & E). destruct fo as [[f1 f2] f3]. apply bind_Ok in E. destruct E as (li & _ & E). destruct li as [[l1 l2] l3]. apply bind_Ok in E. destruct E as (dr & _ & E). destruct dr as [[d1 d2] d3].
    assert (HO : forall A (x y : A), Ok x = Ok y -> x = y) by (intros A x y [= Q]; exact Q). apply HO in E. subst o. split; reflexivity. }
  destruct K as (vars & EV & -> & ->). destruct (C102_lattice e L d panels qs te nc ns vars HL Hd LT EV OF SZ) as [LV LA]. split; [exact LV|]. split; [exact LA|].
  unfold get_panels_area. split; [rewrite map_length; exact (Forall2_len _ _ _ OF)|]. intros i a q IA IQ. destruct (Forall2_nth2 _ _ _ _ _ OF IQ) as (p & IP & O). rewrite (map_nth_error _ _ _ IP) in IA. assert (HS : forall A (x y : A), Some x = Some y -> x = y) by (intros A x y [= Q]; exact Q). apply HS in IA. subst a.
  rewrite Forall_forall in SZ. apply (C102_area e L d HL Hd p q (SZ q (nth_error_In _ _ IQ)) O).
Qed.

(** ** From the sails *)
Lemma Forall2_concat2 {A B C D} (P : C -> D -> Prop) (R : A -> B -> Prop) (f : A -> list C) (g : B -> list D) l m : Forall2 R l m -> (forall a b, R a b -> Forall2 P (f a) (g b)) -> Forall2 P (List.concat (map f l)) (List.concat (map g m)).
Proof. intros F H. induction F as [|a b l m X F IH]; [constructor|]. cbn [map List.concat]. apply Forall2_app; [apply H, X|exact IH]. Qed.
Lemma Forall_concat2 {A B D} (P : D -> Prop) (R : A -> B -> Prop) (g : B -> list D) l m : Forall2 R l m -> (forall a b, R a b -> Forall P (g b)) -> Forall P (List.concat (map g m)).
Proof. intros F H. induction F as [|a b l m X F IH]; [constructor|]. cbn [map List.concat]. apply Forall_app. split; [eapply H, X|exact IH]. Qed.
Theorem C102_sails e L d nc ns sails sails' ss ss' : 1 / 100 <= L <= 1000 -> 0 <= d <= L / 100 -> (0 < nc)%nat -> (0 < ns)%nat ->
  (forall s, In s sails -> @built _ (Double e) nc ns s) -> Forall2 (near_sail L d) sails sails' -> SailSet sails = Ok ss -> SailSet sails' = Ok ss' ->
  exists vars, @calculate_vlm_variables _ (Double e) (ss_panels ss) (ss_te ss) (@vlm_gor _ (Double e)) nc ns = Ok vars /\ length vars = length (ss_panels ss') /\
  forall i v q t, nth_error vars i = Some v -> nth_error (ss_panels ss') i = Some q -> nth_error (ss_te ss) i = Some t -> lattice_at L d v q t (nth_error (ss_panels ss') (i + ns)).
Proof.
  intros HL Hd NC NS BU FF E E'. destruct (@sail_set_flags _ (Double e) nc ns sails ss BU E) as [LP FL]. destruct (@sail_set_groups _ (Double e) nc ns sails ss BU E) as [NN _].
  destruct (@vlm_vars_spec _ (Double e) (@vlm_gor _ (Double e)) nc ns (2 * length sails) (ss_panels ss) (ss_te ss)) as (vars & EV & LV & _); try assumption; try lia; [apply FL|apply FL|].
  exists vars. split; [exact EV|].
  assert (LT : length (ss_te ss) = length (ss_panels ss)) by (rewrite LP; apply FL).
  assert (QQ : Forall2 (panel_off d) (ss_panels ss) (ss_panels ss') /\ Forall (panel_size L) (ss_panels ss')).
  { destruct FF as [|s s' sails sails' X FF]; [discriminate E|]. injection E as <-. injection E' as <-. cbn [ss_panels]. assert (FG : Forall2 (near_sail L d) (s :: sails) (s' :: sails')) by (constructor; assumption). split.
    - apply Forall2_app; apply (Forall2_concat2 _ _ _ _ _ _ FG); intros a b N; apply N.
    - apply Forall_app; split; apply (Forall_concat2 _ _ _ _ _ FG); intros a b N; apply N. }
  destruct QQ as [OF SZ]. apply (C102_lattice e L d _ _ _ _ _ _ HL Hd LT EV OF SZ).
Qed.

(** the exact sail is at most seven times as large as its measures *)
Lemma srot_len (w : vec R) th p : sdot w w = 1 \/ w = szero -> snorm (srot w th p) <= snorm p.
Proof.
  intros [U| ->].
  - right. apply (rm_norm _ _ (srot_is_rotation w th U)).
  - replace (srot szero th p) with (sscale (cos th) p) by (unfold srot, szero, sadd, sscale, scross, sdot; cbn [vx vy vz]; f_equal; ring).
    rewrite norm_scale. pose proof (snorm_nonneg p). assert (Rabs (cos th) <= 1) by (apply Rabs_le; pose proof (COS_bound th); lra). nra.
Qed.
Lemma line_len (a b p : vec R) th : snorm (srot_line a b th p) <= 2 * snorm a + snorm p.
Proof.
  unfold srot_line. eapply Rle_trans; [apply norm_add|]. assert (W : sdot (sunit (ssub b a)) (sunit (ssub b a)) = 1 \/ sunit (ssub b a) = szero).
  { destruct (Req_dec (vx (ssub b a)) 0) as [X|X]; [destruct (Req_dec (vy (ssub b a)) 0) as [Y|Y]; [destruct (Req_dec (vz (ssub b a)) 0) as [Z|Z]|]|]; try (left; apply sunit_dot; intros Q; rewrite Q in *; unfold szero in *; cbn [vx vy vz] in *; lra).
    right. unfold sunit, sscale, szero. rewrite X, Y, Z, !Rmult_0_r. reflexivity. }
  pose proof (srot_len _ th (ssub p a) W) as S. pose proof (norm_sub p a). lra.
Qed.
Lemma usual_size : forall L l head tack c ns nc chords twist name mode camber dist s', usual L l head tack c ns nc chords twist mode camber dist ->
  SailGeometry (vvals head) (vvals tack) (Csys (val (heel_deg c)) (val (leeway_deg c)) (vvals (ref_vec c))) ns nc (vals chords) (vals twist) name mode (vals camber) (vals dist) = Ok s' ->
  Forall (panel_size (7 * L)) (sl_above s') /\ Forall (panel_size (7 * L)) (sl_under s').
Proof.
  intros L l head tack c ns nc chords twist name mode camber dist s' [SZ SN NS NC (H1 & H2 & H3) (T1 & T2 & T3) HE LE [LC C] [LT T] [LM M] [LD D] MO] E.
  assert (HL : 0 < L) by lra. pose (z := dZ 0).
  rewrite (along_list ns chords z LC), (along_list ns twist z LT), (along_list ns camber z LM), (along_list ns dist z LD) in E.
  pose (ch := fun k => nth k chords z). pose (tw := fun k => nth k twist z). pose (m := fun k => nth k camber z). pose (d := fun k => nth k dist z).
  fold ch tw m d in E. unfold vals in E. rewrite !vals_along in E. change (Csys (val (heel_deg c)) (val (leeway_deg c)) (vvals (ref_vec c))) with (cvals c) in E.
  assert (FO : forall k, (k <= ns)%nat -> foil_ok (m k) (d k)).
  { intros k K. destruct (forall_nth _ _ z k ns M LM K) as [M1 M2], (forall_nth _ _ z k ns D LD K) as [D1 D2]. split; [exact M1|]. split; [exact D1|]. split; assumption. }
  assert (BT : box L tack). { apply between_abs in T1. apply between_abs in T2. destruct T1, T2, T3. split; [split; [|split]; assumption|]. split; [assumption|]. split; [assumption|]. apply Rabs_le. lra. }
  assert (BH : box L head). { apply between_abs in H1. apply between_abs in H2. destruct H1, H2, H3. split; [split; [|split]; assumption|]. split; [assumption|]. split; [assumption|]. apply Rabs_le. lra. }
  assert (LS : luff_seen l head tack c -> l <= snorm (across (ssub (luff_b (vvals head) (cvals c)) (luff_a (vvals tack) (cvals c))))).
  { intros S. unfold luff_seen in S. cbv zeta in S. refine (Rle_trans _ _ _ S _). right. unfold snorm, across, ssub. cbn [vx vy vz]. f_equal. unfold luff_a, luff_b, hl, onto_plane, cvals, vvals. cbn [vx vy vz heel_deg leeway_deg]. ring. }
  assert (MD : forall s : string, (s = "sheeting_angle_const" \/ s = "average_const" \/ s = "real_twist")%string -> In s twist_modes) by (intros s [->|[->| ->]]; unfold twist_modes; simpl; auto).
  assert (MODE : match mode with None => True | Some s => In s twist_modes /\ l <= snorm (across (ssub (luff_b (vvals head) (cvals c)) (luff_a (vvals tack) (cvals c)))) end) by (destruct mode; [|exact I]; destruct MO; auto).
  assert (ANG : forall x, between (-360) 360 x -> angle_ok x) by (intros x B; apply (between_abs 360); exact B).
  destruct (sail_geometry_spec (vvals head) (vvals tack) (cvals c) ns nc (fun k => val (ch k)) (fun k => val (tw k)) (fun k => val (m k)) (fun k => val (d k)) name mode) as (s2 & E' & _ & _ & _ & _ & LZ & LV & P').
  { destruct NC. lia. }
  { destruct NS. lia. }
  { destruct T3. cbn [vvals vz]. lra. }
  { destruct H3. cbn [vvals vz]. lra. }
  { intros k K. destruct (FO k K) as (_ & _ & F1 & F2). split; [|lra]. unfold accepted. lra. }
  { destruct mode as [q|]; [|exact I]. destruct MODE as [M1 M2]. split; [exact M1|].
    destruct (Req_dec (vy (luff_a (vvals tack) (cvals c))) (vy (luff_b (vvals head) (cvals c)))) as [Q1|Q1]; [|left; exact Q1]. right. intros Q2.
    unfold snorm, across, ssub in M2. cbn [vx vy vz] in M2. rewrite Q1, Q2 in M2. match type of M2 with _ <= sqrt ?x => replace x with 0 in M2 by ring end. rewrite sqrt_0 in M2. lra. }
  rewrite E in E'. assert (HO : forall A (x y : A), Ok x = Ok y -> x = y) by (intros A x y [= Q]; exact Q). apply HO in E'. subst s2.
  destruct (sail_geometry_layout _ _ _ _ _ _ _ _ _ _ _ _ E) as [B1 B2 _ _ _ _ _ _].
  assert (CH : forall k, (k <= ns)%nat -> fin (ch k) /\ Rabs (val (ch k)) <= L) by (intros k K; apply between_abs, (forall_nth _ _ z k ns C LC K)).
  assert (HN : forall p, snorm (hl (cvals c) p) = snorm p) by (intros p; apply rm_norm, sheel_rm).
  assert (SP : forall k k' i, (k <= ns)%nat -> (k' <= ns)%nat -> (i <= nc)%nat -> snorm (spoint (vvals head) (vvals tack) (cvals c) ns nc (fun k => val (ch k)) (fun k => val (tw k)) (fun k => val (m k)) mode k i (val (d k'))) <= 7 * L).
  { intros k k' i K K' I. unfold spoint. eapply Rle_trans; [apply line_len|]. rewrite HN.
    rewrite (luff_a_zp head tack c ns nc ch m d FO), HN.
    pose proof (zp_size L SZ head tack ns nc ch m d NC NS BT BH CH FO k k' i K K' I). pose proof (zp_luff L SZ head tack ns nc ch m d NS BT BH FO 0%nat 0%nat ltac:(lia) ltac:(lia)). cbv beta in *. lra. }
  split; apply Forall_forall; intros p IP; apply In_nth_error in IP; destruct IP as [k IP]; pose proof (nth_error_Some_lt _ _ _ IP) as KL; [rewrite B1 in KL|rewrite B2 in KL]; destruct (divmod_lt k nc ns KL) as (D1 & D2 & EK); rewrite EK in IP; destruct (P' _ _ D1 D2) as (Q1 & Q2 & _).
  - rewrite Q1 in IP. injection IP as <-. unfold panel_size. cbn [pp1 pp2 pp3 pp4]. repeat split; apply SP; lia.
  - rewrite Q2 in IP. injection IP as <-. unfold panel_size. cbn [pp1 pp2 pp3 pp4]. unfold upoint. rewrite !norm_mirror. repeat split; apply SP; lia.
Qed.
(** a sail of the usual measures *)
Theorem C102_usual : forall (e : elementary) (L l : R) head tack c ns nc chords twist name mode camber dist,
  accurate e -> usual L l head tack c ns nc chords twist mode camber dist ->
  exists s s',
    @SailGeometry _ (Double e) head tack c ns nc chords twist name mode camber dist = Ok s /\
    SailGeometry (vvals head) (vvals tack) (Csys (val (heel_deg c)) (val (leeway_deg c)) (vvals (ref_vec c))) ns nc (vals chords) (vals twist) name mode (vals camber) (vals dist) = Ok s' /\
    near_sail (7 * L) (1 / 1000000000 * (L * (L / l))) s s'.
Proof.
  intros e L l head tack c ns nc chords twist name mode camber dist A U. destruct (C92_sail e L l head tack c ns nc chords twist name mode camber dist A U) as (s & s' & E & E' & O1 & O2 & _). exists s, s'. split; [exact E|]. split; [exact E'|].
  destruct (usual_size L l head tack c ns nc chords twist name mode camber dist s' U E'). split; [exact O1|]. auto.
Qed.

(** ** Cases *)
(** the panels of C97 in doubles, the exact ones being half a millimetre further aft *)
Definition aft_by (x0 y0 y1 z0 : Z) : panel R :=
  Panel (V3 (IZR x0 + 2 + 1 / 2000) (IZR y1) (IZR z0)) (V3 (IZR x0 + 1 / 2000) (IZR y0) (IZR z0)) (V3 (IZR x0 + 1 / 2000) (IZR y0) (IZR z0 + 2)) (V3 (IZR x0 + 2 + 1 / 2000) (IZR y1) (IZR z0 + 2)).
Definition moved : list (panel R) := [aft_by 0 (-5) (-1) 1; aft_by 0 (-5) (-1) (-3)].
Lemma corner_off a b c : (Z.abs a <= 1000)%Z -> (Z.abs b <= 1000)%Z -> (Z.abs c <= 1000)%Z -> off (1 / 1000) (V3 (dZ a) (dZ b) (dZ c)) (V3 (IZR a + 1 / 2000) (IZR b) (IZR c)).
Proof.
  intros A B C. destruct (dv_val a b c ltac:(lia) ltac:(lia) ltac:(lia)) as [F V]. apply off_norm. split; [exact F|]. change (V3 (dZ a) (dZ b) (dZ c)) with (dv a b c). rewrite V. unfold snorm, ssub. cbn [vx vy vz].
  rewrite <- (sqrt_square (1 / 1000)) by lra. apply sqrt_le_1_alt. lra.
Qed.
Lemma size_10 a b c : a * a + b * b + c * c <= 100 -> snorm (V3 a b c) <= 10.
Proof. intros H. unfold snorm. cbn [vx vy vz]. rewrite <- (sqrt_square 10) by lra. apply sqrt_le_1_alt. lra. Qed.
Example C102_case : forall e, exact_at_0 e -> exists o, @Vlm _ (Double e) mirrored 1 1 (dZ 1) (from_ahead 4) [true; true] [false; false] = Ok o /\
  Forall2 (panel_off (1 / 1000)) mirrored moved /\ Forall (panel_size 10) moved /\ Forall (fun q => 16 <= snorm (diagonals q)) moved /\
  length (vl_vars o) = 2%nat /\ forall i v q, nth_error (vl_vars o) i = Some v -> nth_error moved i = Some q -> off (1 / 50) (pv_n v) (sunit (diagonals q)).
Proof.
  intros e E. destruct (C97_case e E) as (o & _ & EO & _). exists o. split; [exact EO|].
  assert (P1 : Forall2 (panel_off (1 / 1000)) mirrored moved).
  { assert (K : forall x0 y0 y1 z0, (Z.abs x0 <= 900)%Z -> (Z.abs y0 <= 900)%Z -> (Z.abs y1 <= 900)%Z -> (Z.abs z0 <= 900)%Z -> panel_off (1 / 1000) (tilted x0 y0 y1 z0) (aft_by x0 y0 y1 z0)).
    { intros x0 y0 y1 z0 A B C D. unfold panel_off, tilted, aft_by. cbn [pp1 pp2 pp3 pp4]. rewrite <- !plus_IZR. split; [|split; [|split]]; apply corner_off; lia. }
    constructor; [apply K; lia|]. constructor; [apply K; lia|constructor]. }
  assert (P2 : Forall (panel_size 10) moved).
  { do 2 (constructor; [unfold panel_size, aft_by; cbn [pp1 pp2 pp3 pp4]; split; [|split; [|split]]; apply size_10; lra|]). constructor. }
  assert (P3 : Forall (fun q => 16 <= snorm (diagonals q)) moved).
  { do 2 (constructor; [unfold diagonals, aft_by, snorm; cbn [pp1 pp2 pp3 pp4 vx vy vz ssub scross]; rewrite <- (sqrt_square 16) by lra; apply sqrt_le_1_alt; lra|]). constructor. }
  split; [exact P1|]. split; [exact P2|]. split; [exact P3|].
  destruct (C102_run e 10 (1 / 1000) mirrored moved 1 1 (dZ 1) (from_ahead 4) [true; true] [false; false] o ltac:(lra) ltac:(lra) eq_refl EO P1 P2) as (LV & LA & _). split; [exact LV|].
  intros i v q IV IQ. assert (IT : nth_error [true; true] i = Some true) by (destruct i as [|[|i]]; [reflexivity|reflexivity|destruct i; discriminate IQ]).
  destruct (LA i v q true IV IQ IT) as (_ & _ & _ & _ & _ & _ & N). rewrite Forall_forall in P3. pose proof (N 16 (P3 q (nth_error_In _ _ IQ)) ltac:(lra)) as O. destruct (proj1 (off_norm _ _ _) O) as [F B]. apply off_norm. split; [exact F|]. lra.
Qed.
(** the sail of C92 *)
Example C102_sail_case : accurate ideal /\ exists s s' ss vars, near_sail 56 (64 / 1000000000) s s' /\ SailSet [s] = Ok ss /\
  @calculate_vlm_variables _ (Double ideal) (ss_panels ss) (ss_te ss) (@vlm_gor _ (Double ideal)) 3 2 = Ok vars /\ length vars = 12%nat /\
  forall v q, nth_error vars 0 = Some v -> nth_error (sl_above s') 0 = Some q -> off (1 / 10000000) (pv_ctr v) (middle q (3 / 4)).
Proof.
  split; [exact ideal_accurate|]. destruct (C102_usual ideal 8 1 _ _ _ _ _ _ _ "main" _ _ _ ideal_accurate case_usual) as (s & s' & E & E' & N).
  replace (7 * 8) with 56 in N by lra. replace (1 / 1000000000 * (8 * (8 / 1))) with (64 / 1000000000) in N by lra.
  assert (B : @built _ (Double ideal) 3 2 s) by (do 9 eexists; exact E).
  destruct (sail_geometry_layout _ _ _ _ _ _ _ _ _ _ _ _ E') as [B1 B2 _ _ _ _ _ _].
  destruct (SailSet [s]) as [ss|] eqn:ES; [|discriminate ES]. destruct (SailSet [s']) as [ss'|] eqn:ES'; [|discriminate ES'].
  destruct (C102_sails ideal 56 (64 / 1000000000) 3 2 [s] [s'] ss ss' ltac:(lra) ltac:(lra) ltac:(lia) ltac:(lia) ltac:(intros x [<-|[]]; exact B) ltac:(constructor; [exact N|constructor]) ES ES') as (vars & EV & LV & LA).
  exists s, s', ss, vars. split; [exact N|]. split; [exact ES|]. split; [exact EV|].
  injection ES' as <-. cbn [ss_panels map List.concat] in LV, LA. rewrite !app_nil_r in LV, LA. split; [rewrite LV, app_length, B1, B2; reflexivity|].
  intros v q IV IQ. destruct (@sail_set_flags _ (Double ideal) 3 2 [s] ss ltac:(intros x [<-|[]]; exact B) ES) as [_ FL]. destruct (nth_error_ex (ss_te ss) 0) as [t IT]; [destruct FL as [FL _ _ _]; rewrite FL; cbn; lia|].
  destruct (LA 0%nat v q t IV ltac:(rewrite nth_error_app1; [exact IQ|rewrite B1; lia]) IT) as (O & _). destruct (proj1 (off_norm _ _ _) O) as [F G]. apply off_norm. split; [exact F|]. lra.
Qed.

Print Assumptions C102_points.
Print Assumptions C102_area.
Print Assumptions C102_normal.
Print Assumptions C102_lattice.
Print Assumptions C102_run.
Print Assumptions C102_sails.
Print Assumptions C102_usual.
