(** Rounding of whole sails: the two sides together. *)

From Coq Require Import String ZArith Reals List Bool Lra Psatz Lia.
From Flocq Require Import Core BinarySingleNaN.
From Verif Require Import Num PyBase RNum Spec M_Airfoil M_Rotations M_Csys M_Mesher M_Panels M_Sail L_List L_Rot L_Csys L_Airfoil L_Mesh L_Sail L_Sail2 P_Double Double L_Double L_Near L_NearRot L_NearLine L_NearMesh L_NearSail L_NearSail2.
Import ListNotations.
Open Scope R_scope.

(** a computed point at most [g] away from a point *)
Definition gap (g : R) (q : vec double) (Q : vec R) : Prop := vfin q /\ snorm (ssub (vvals q) Q) <= g.
Definition pgap (g : R) (p : panel double) (P : panel R) : Prop :=
  gap g (pp1 p) (pp1 P) /\ gap g (pp2 p) (pp2 P) /\ gap g (pp3 p) (pp3 P) /\ gap g (pp4 p) (pp4 P).

Section Whole.
Context (e : elementary) (AC : accurate e).
Local Notation D := (Double e).
Context (L l : R) (HL : size L) (Hl : L / 1000 <= l <= L) (head tack : vec double) (c : csys double) (ns nc : nat) (ch tw m d : nat -> double) (name : string) (mode : option string).
Context (NC : count nc) (NS : count ns) (BT : box L tack) (BH : box L head) (ZT : L / 1000000 <= val (vz tack)) (ZH : L / 1000000 <= val (vz head))
  (HH : angle_ok (heel_deg c)) (HW : angle_ok (leeway_deg c)) (TW : forall k, (k <= ns)%nat -> angle_ok (tw k))
  (CH : forall k, (k <= ns)%nat -> fin (ch k) /\ Rabs (val (ch k)) <= L) (FO : forall k, (k <= ns)%nat -> foil_ok (m k) (d k)).
Let H := vvals head.
Let T := vvals tack.
Let C := cvals c.
Let vch k := val (ch k).
Let vtw k := val (tw k).
Let vm k := val (m k).
Let vd k := val (d k).
Context (MODE : match mode with None => True | Some s => In s twist_modes /\ l <= snorm (across (ssub (luff_b H C) (luff_a T C))) end).
Lemma L_big : 0 < L.
Proof. unfold size in HL. lra. Qed.
Lemma one_ns : (1 <= ns)%nat. Proof. destruct NS. lia. Qed.
Lemma one_nc : (1 <= nc)%nat. Proof. destruct NC. lia. Qed.
Lemma zT : 0 < vz T. Proof. pose proof L_big. unfold T. cbn [vvals vz]. lra. Qed.
Lemma zH : 0 < vz H. Proof. pose proof L_big. unfold H. cbn [vvals vz]. lra. Qed.
Lemma foil_pair k k' : (k <= ns)%nat -> (k' <= ns)%nat -> foil_ok (m k) (d k').
Proof. intros K K'. destruct (FO k K) as (A1 & _ & A3 & _), (FO k' K') as (_ & B2 & _ & B4). split; [exact A1|]. auto. Qed.
Lemma box_mirror p : box L p -> box L (@mount_mirror _ D p).
Proof.
  intros ((A1 & A2 & A3) & B1 & B2 & B3). unfold mount_mirror. cbn [vx vy vz nopp Double].
  split; [split; [|split]|split; [|split]]; cbn [vx vy vz]; try assumption.
  - rewrite is_finite_Bopp. exact A3.
  - rewrite B2R_Bopp, Rabs_Ropp. exact B3.
Qed.
Lemma vals_mirror p : vvals (@mount_mirror _ D p) = smirror (vvals p).
Proof. unfold mount_mirror, vvals, smirror. cbn [vx vy vz nopp Double]. rewrite B2R_Bopp. reflexivity. Qed.
(** the height and the size of the points before heeling *)
Lemma zp_low k i dk : (k <= ns)%nat -> L / 1000000 <= vz (zpoint H T ns nc vch vm k i dk).
Proof.
  intros K. unfold zpoint, ssection. cbv zeta. cbn [vz]. pose proof (frac_bounds k ns one_ns K) as FB. unfold slerp. cbn [vz sadd sscale ssub]. change (vz T) with (val (vz tack)). change (vz H) with (val (vz head)). nra.
Qed.
Lemma zp_size k k' i : (k <= ns)%nat -> (k' <= ns)%nat -> (i <= nc)%nat -> snorm (zpoint H T ns nc vch vm k i (vd k')) <= 3 * L.
Proof.
  intros K K' I. pose proof L_big. destruct BT as (_ & T1 & T2 & T3), BH as (_ & H1 & H2 & H3). destruct (foil_pair k k' K K') as (_ & _ & F1 & F2). destruct (CH k K) as [_ C1].
  apply (ssection_size L T H (INR k / INR ns) (vch k) (vm k) (vd k') (INR i / INR nc)); try assumption; try lra; apply frac_bounds; try assumption; [apply one_ns|apply one_nc].
Qed.
Lemma zp_luff k k' : (k <= ns)%nat -> (k' <= ns)%nat -> snorm (zpoint H T ns nc vch vm k 0 (vd k')) <= 2 * L.
Proof.
  intros K K'. pose proof L_big. destruct BT as (_ & T1 & T2 & T3), BH as (_ & H1 & H2 & H3). destruct (foil_pair k k' K K') as (_ & _ & F1 & F2).
  unfold zpoint. cbn [INR]. replace (0 / INR nc) with 0 by (unfold Rdiv; ring). rewrite ssection_luff by (unfold vd; lra). pose proof (frac_bounds k ns one_ns K) as FB.
  change (val (vx tack)) with (vx T) in *. change (val (vz tack)) with (vz T) in *. change (val (vx head)) with (vx H) in *. change (val (vz head)) with (vz H) in *.
  generalize dependent (INR k / INR ns). intros t FB. clear - T1 T3 H1 H3 FB H0. destruct T as [t1 t2 t3], H as [h1 h2 h3]. cbn [vx vz] in *. apply abs_2 in T1. apply abs_2 in T3. apply abs_2 in H1. apply abs_2 in H3.
  rewrite <- (Rabs_pos_eq (snorm _)) by apply snorm_nonneg. rewrite <- (Rabs_pos_eq (2 * L)) by lra. apply Rsqr_le_abs_0. unfold Rsqr. rewrite snorm_sq. unfold slerp, onto_plane. cbn [vx vy vz sadd sscale ssub].
  assert (SQ : forall v, Rabs v <= L -> v * v <= L * L) by (intros v B; pose proof (Rabs_pos v); rewrite <- (Rabs_pos_eq (v * v)) by nra; rewrite Rabs_mult; nra).
  pose proof (SQ (t1 + t * (h1 - t1)) ltac:(apply Rabs_le; nra)). pose proof (SQ (t3 + t * (h3 - t3)) ltac:(apply Rabs_le; nra)). nra.
Qed.
Lemma luff_a_zp : luff_a T C = hl C (zpoint H T ns nc vch vm 0 0 (vd 0%nat)).
Proof. destruct (FO 0%nat ltac:(lia)) as (_ & _ & _ & F). rewrite zpoint_luff by (unfold vd; lra). cbn [INR]. unfold Rdiv. rewrite Rmult_0_l. symmetry. apply slerp_0. Qed.
Lemma luff_b_zp : luff_b H C = hl C (zpoint H T ns nc vch vm ns 0 (vd ns)).
Proof. destruct (FO ns ltac:(lia)) as (_ & _ & _ & F). rewrite zpoint_luff by (unfold vd; lra). pose proof (count_INR _ NS). unfold Rdiv. rewrite Rinv_r by lra. symmetry. apply slerp_1. Qed.
(** heeling a point and its mirror image *)
Lemma heel_z Z : 0 < vz Z -> rotate_point_with_mirror C Z = hl C Z.
Proof. intros P. apply sheel_spec. exact P. Qed.
Lemma heel_mz Z : 0 < vz Z -> rotate_point_with_mirror C (smirror Z) = smirror (hl C Z).
Proof. intros P. rewrite rotate_mirror by lra. f_equal. apply heel_z. exact P. Qed.
Lemma norm_mirror Z : snorm (smirror Z) = snorm Z.
Proof. unfold snorm, smirror. destruct Z as [x y z]. cbn [vx vy vz]. f_equal. ring. Qed.
Lemma heel_near q Z k : (Z = k \/ Z = smirror k) -> L / 1000000 <= vz k -> snorm k <= 3 * L -> vnear (3 * L) q Z 1000 ->
  let W := rotate_point_with_mirror C Z in
  vnear (3 * L) (@rotate_point_with_mirror _ D c q) W 15280 /\ snorm W <= 3 * L /\
  (vnear (2 * L) q Z 13 -> snorm k <= 2 * L -> vnear (2 * L) (@rotate_point_with_mirror _ D c q) W 6397 /\ snorm W <= 2 * L).
Proof.
  intros EZ LZ SZ NQ W. pose proof L_big. assert (HL' := HL). unfold size in HL'.
  assert (AZ : Rabs (vz Z) = vz k). { destruct EZ as [->| ->]; [apply Rabs_pos_eq; lra|]. unfold smirror. cbn [vz]. rewrite Rabs_Ropp. apply Rabs_pos_eq. lra. }
  assert (SN : snorm Z = snorm k) by (destruct EZ as [->| ->]; [reflexivity|apply norm_mirror]).
  assert (UL : 4000 * (L * u) < vz k). { rewrite u_val. nra. }
  destruct (near_mirror e AC c HH HW (3 * L) q Z 1000 ltac:(lra) ltac:(lra) NQ ltac:(lra) ltac:(pose proof u_pos; nra)) as [N1 S1].
  replace (6280 + 9 * 1000) with 15280 in N1 by ring. split; [exact N1|]. split; [exact S1|]. intros NQ2 SZ2.
  destruct (near_mirror e AC c HH HW (2 * L) q Z 13 ltac:(lra) ltac:(lra) NQ2 ltac:(lra) ltac:(pose proof u_pos; nra)) as [N2 S2].
  replace (6280 + 9 * 13) with 6397 in N2 by ring. auto.
Qed.
Lemma gap_of B q Q k g : 0 <= B -> 0 <= k -> vnear B q Q k -> 2 * k * (B * u) <= g -> gap g q Q.
Proof.
  intros HB HK (A1 & A2 & A3) G. split; [split; [apply A1|split; [apply A2|apply A3]]|].
  destruct A1 as (_ & _ & E1), A2 as (_ & _ & E2), A3 as (_ & _ & E3). pose proof u_pos. assert (0 <= k * (B * u)) by (apply Rmult_le_pos; [lra|apply Rmult_le_pos; lra]).
  refine (Rle_trans _ _ _ _ G). replace (2 * k * (B * u)) with (2 * (k * (B * u))) by ring. set (t := k * (B * u)) in *. clearbody t. clear - E1 E2 E3 H1.
  rewrite <- (Rabs_pos_eq (snorm _)) by apply snorm_nonneg. rewrite <- (Rabs_pos_eq (2 * t)) by lra. apply Rsqr_le_abs_0. unfold Rsqr. rewrite snorm_sq. destruct Q as [x y z], q as [x' y' z']. unfold vvals, ssub. cbn [vx vy vz] in *.
  assert (SQ : forall v, Rabs v <= t -> v * v <= t * t) by (intros v B; pose proof (Rabs_pos v); rewrite <- (Rabs_pos_eq (v * v)) by nra; rewrite Rabs_mult; nra).
  pose proof (SQ _ E1). pose proof (SQ _ E2). pose proof (SQ _ E3). nra.
Qed.
Let g0 := 1 / 1000000000000 * L.
Let g1 := 1 / 1000000000 * (L * (L / l)).
Lemma g1_big : 1 / 1000000000 * L <= g1.
Proof.
  unfold g1. pose proof L_big. assert (0 < l) by lra. assert (1 <= L / l). { apply (Rmult_le_reg_r l); [lra|]. unfold Rdiv. rewrite Rmult_assoc, Rinv_l by lra. lra. } nra.
Qed.
Local Notation ZP := (zpoint H T ns nc vch vm).
Local Notation SP := (spoint H T C ns nc vch vtw vm mode).
Local Notation UZ := (uzpoint H T ns nc vch vm vd).
Local Notation UP := (upoint H T C ns nc vch vtw vm vd mode).
Definition cornered (g : R) (ps : list (panel double)) (P : nat -> nat -> vec R) : Prop :=
  length ps = (nc * ns)%nat /\ forall i j, (i < nc)%nat -> (j < ns)%nat -> exists p, nth_error ps (i * ns + j) = Some p /\ pgap g p (Panel (P j (i + 1)%nat) (P j i) (P (j + 1)%nat i) (P (j + 1)%nat (i + 1)%nat)).
Lemma sail_near : exists s, @SailGeometry _ D head tack c ns nc (along ns ch) (along ns tw) name mode (along ns m) (along ns d) = Ok s /\
  sl_name s = name /\ sl_csys s = c /\ sl_head s = head /\ sl_tack s = tack /\
  cornered g1 (sl_above s) (fun k i => SP k i (vd k)) /\ cornered g1 (sl_under s) UP /\
  cornered g0 (sl_above_zero s) (fun k i => ZP k i (vd k)) /\ cornered g0 (sl_under_zero s) UZ.
Proof.
  pose proof L_big as LP. pose proof one_ns as N1. pose proof one_nc as N2. assert (HL' := HL). unfold size in HL'.
  assert (NZ : INR ns <> 0) by (apply not_0_INR; lia).
  assert (DP : forall k, (k <= ns)%nat -> 0 < vd k) by (intros k K; destruct (FO k K) as (_ & _ & _ & F); unfold vd; lra).
  unfold SailGeometry. cbv zeta.
  destruct (zero_mesh_near e L tack head nc ns ch m d HL NC NS BT BH) as (mesh & E1 & R1 & P1).
  { intros k K. split; [apply FO; exact K|apply CH; exact K]. }
  rewrite E1. unfold bind at 1.
  destruct (transpose_spec (@v0 _ D) mesh _ _ R1) as (RT1 & QT1).
  assert (RT1' : rect (transpose (nc + 1) (@v0 _ D) mesh) (S nc) (S ns)) by (replace (S nc) with (nc + 1)%nat by lia; replace (S ns) with (ns + 1)%nat by lia; exact RT1).
  destruct (@panels_spec _ D _ nc ns RT1') as (za & zte & zle & Z1 & Z2 & _ & _ & Z3).
  rewrite Z1. unfold bind at 1.
  rewrite !along_rev.
  destruct (zero_mesh_near e L (@mount_mirror _ D head) (@mount_mirror _ D tack) nc ns (fun k => ch (ns - k)%nat) (fun k => m (ns - k)%nat) d HL NC NS (box_mirror _ BH) (box_mirror _ BT)) as (meshu & E2 & R2 & P2).
  { intros k K. split; [apply foil_pair; lia|apply CH; lia]. }
  rewrite E2. unfold bind at 1.
  destruct (transpose_spec (@v0 _ D) meshu _ _ R2) as (RT2 & QT2).
  assert (RT2' : rect (transpose (nc + 1) (@v0 _ D) meshu) (S nc) (S ns)) by (replace (S nc) with (nc + 1)%nat by lia; replace (S ns) with (ns + 1)%nat by lia; exact RT2).
  destruct (@panels_spec _ D _ nc ns RT2') as (zu & zte2 & zle2 & Y1 & Y2 & _ & _ & Y3).
  rewrite Y1. unfold bind at 1.
  assert (P1' : forall k i, (k <= ns)%nat -> (i <= nc)%nat -> exists q, mesh_point mesh k i = Some q /\ vnear (3 * L) q (ZP k i (vd k)) 1000 /\ (i = 0%nat -> vnear (2 * L) q (ZP k i (vd k)) 13)) by (intros k i K I; exact (P1 k i K I)).
  assert (P2' : forall k i, (k <= ns)%nat -> (i <= nc)%nat -> exists q, mesh_point meshu k i = Some q /\ vnear (3 * L) q (UZ k i) 1000 /\ (i = 0%nat -> vnear (2 * L) q (UZ k i) 13)).
  { intros k i K I. destruct (P2 k i K I) as (q & EQ & NQ). exists q. split; [exact EQ|]. cbv zeta in NQ. rewrite !vals_mirror, ssection_mirror, frac_rev in NQ by assumption. exact NQ. }
  clear P1 P2.
  (* heeled meshes *)
  set (fm := @heel_mesh _ D c (List.concat mesh)). set (fu := @heel_mesh _ D c (List.concat meshu)).
  assert (LM : length fm = ((ns + 1) * (nc + 1))%nat) by (unfold fm, heel_mesh; rewrite map_length; apply concat_length_rect; assumption).
  assert (LU : length fu = ((ns + 1) * (nc + 1))%nat) by (unfold fu, heel_mesh; rewrite map_length; apply concat_length_rect; assumption).
  assert (FM : forall k i, (k <= ns)%nat -> (i <= nc)%nat -> exists q, nth_error fm (k * (nc + 1) + i) = Some q /\ vnear (3 * L) q (hl C (ZP k i (vd k))) 15280 /\ snorm (hl C (ZP k i (vd k))) <= 3 * L /\ (i = 0%nat -> vnear (2 * L) q (hl C (ZP k i (vd k))) 6397 /\ snorm (hl C (ZP k i (vd k))) <= 2 * L)).
  { intros k i K I. destruct (P1' k i K I) as (q & EQ & NQ & NQ0). exists (@rotate_point_with_mirror _ D c q). split.
    - unfold fm, heel_mesh. rewrite nth_error_map, (concat_nth_rect mesh (ns + 1) (nc + 1)) by (assumption || lia). rewrite EQ. reflexivity.
    - pose proof (zp_low k i (vd k) K) as ZL. destruct (heel_near q _ _ (or_introl eq_refl) ZL (zp_size k k i K K I) NQ) as (A1 & A2 & A3). rewrite heel_z in A1, A2, A3 by lra. split; [exact A1|]. split; [exact A2|]. intros I0. apply A3; [apply NQ0; exact I0|]. subst i. apply zp_luff; assumption. }
  assert (FU : forall k i, (k <= ns)%nat -> (i <= nc)%nat -> let W := smirror (hl C (ZP (ns - k)%nat i (vd k))) in exists q, nth_error fu (k * (nc + 1) + i) = Some q /\ vnear (3 * L) q W 15280 /\ snorm W <= 3 * L /\ (i = 0%nat -> vnear (2 * L) q W 6397 /\ snorm W <= 2 * L)).
  { intros k i K I W. unfold W. destruct (P2' k i K I) as (q & EQ & NQ & NQ0). exists (@rotate_point_with_mirror _ D c q). split.
    - unfold fu, heel_mesh. rewrite nth_error_map, (concat_nth_rect meshu (ns + 1) (nc + 1)) by (assumption || lia). rewrite EQ. reflexivity.
    - pose proof (zp_low (ns - k)%nat i (vd k) ltac:(lia)) as ZL. destruct (heel_near q _ _ (or_intror eq_refl) ZL (zp_size (ns - k)%nat k i ltac:(lia) K I) NQ) as (A1 & A2 & A3). rewrite heel_mz in A1, A2, A3 by lra. split; [exact A1|]. split; [exact A2|]. intros I0. apply A3; [apply NQ0; exact I0|]. subst i. apply zp_luff; [lia|assumption]. }
  assert (SA : snorm (luff_a T C) <= 2 * L). { rewrite luff_a_zp. destruct (FM 0%nat 0%nat ltac:(lia) ltac:(lia)) as (q & _ & _ & _ & A). apply A. reflexivity. }
  assert (SB : snorm (luff_b H C) <= 2 * L). { rewrite luff_b_zp. destruct (FM ns 0%nat ltac:(lia) ltac:(lia)) as (q & _ & _ & _ & A). apply A. reflexivity. }
  (* twisted meshes *)
  match goal with |- context [bind ?x _] => set (tws := x) end.
  assert (TWS : exists gm gu, tws = Ok (gm, gu) /\
     length gm = ((ns + 1) * (nc + 1))%nat /\ length gu = ((ns + 1) * (nc + 1))%nat /\
     (forall k i, (k <= ns)%nat -> (i <= nc)%nat -> exists q, nth_error gm (k * (nc + 1) + i) = Some q /\ gap g1 q (SP k i (vd k))) /\
     (forall k i, (k <= ns)%nat -> (i <= nc)%nat -> exists q, nth_error gu (k * (nc + 1) + i) = Some q /\ gap g1 q (UP k i))).
  { unfold tws, upoint, spoint, angle. clear tws. destruct mode as [s|].
    - destruct MODE as [M1 M2].
      assert (LD : luff_a T C <> luff_b H C). { intros Q. rewrite Q in M2. pose proof (across_le (ssub (luff_b H C) (luff_b H C))). rewrite norm_0 in *. lra. }
      assert (MN : exists t, @py_min _ D (along ns tw) = Ok t) by (unfold along, py_min; simpl; eauto).
      destruct MN as [t MN]. rewrite MN. unfold bind at 1.
      assert (ML : lookup_twist_mode s = Ok tt).
      { unfold lookup_twist_mode. replace (existsb _ _) with true; [reflexivity|]. symmetry. apply existsb_exists.
        exists s. split; [exact M1 | apply String.eqb_refl]. }
      rewrite ML. unfold bind at 1.
      destruct (@spread_along _ D ns nc tw) as (twl & S1 & S2 & S3). rewrite S1. unfold bind at 1.
      destruct (twist_mesh_near e AC L l ns nc fm twl tw (fun k i => hl C (ZP k i (vd k))) (luff_a T C) (luff_b H C) HL (proj1 Hl) M2 SA SB LM S2) as (gm & G1 & G2 & G3).
      + intros k i K I. destruct (FM k i K I) as (q & A1 & A2 & A3 & A4). exists q. split; [exact A1|]. split; [exact A2|]. split; [exact A3|]. intros I0. apply A4. exact I0.
      + intros k i K I. exists (tw k). split; [apply S3; assumption|]. split; [apply TW; exact K|reflexivity].
      + symmetry. apply luff_a_zp.
      + symmetry. apply luff_b_zp.
      + intros k K. exists (INR k / INR ns). split; [apply frac_bounds; assumption|]. apply zpoint_luff, DP. exact K.
      + destruct (twist_mesh_near e AC L l ns nc fu (rev twl) (fun k => tw (ns - k)%nat) (fun k i => smirror (hl C (ZP (ns - k)%nat i (vd k)))) (smirror (luff_b H C)) (smirror (luff_a T C)) HL (proj1 Hl)) as (gu & U1 & U2 & U3).
        * replace (snorm (across (ssub (smirror (luff_a T C)) (smirror (luff_b H C))))) with (snorm (across (ssub (luff_b H C) (luff_a T C)))); [exact M2|]. unfold snorm, across, ssub, smirror. cbn [vx vy vz]. f_equal. ring.
        * rewrite norm_mirror. exact SB.
        * rewrite norm_mirror. exact SA.
        * exact LU.
        * rewrite rev_length. exact S2.
        * intros k i K I. destruct (FU k i K I) as (q & A1 & A2 & A3 & A4). exists q. split; [exact A1|]. split; [exact A2|]. split; [exact A3|]. intros I0. apply A4. exact I0.
        * intros k i K I. exists (tw (ns - k)%nat). split; [|split; [apply TW; lia|reflexivity]]. rewrite nth_error_rev by (rewrite S2; nia). rewrite S2.
          replace ((ns + 1) * (nc + 1) - 1 - (k * (nc + 1) + i))%nat with ((ns - k) * (nc + 1) + (nc - i))%nat by nia.
          apply S3; lia.
        * rewrite zpoint_luff by (apply DP; lia). rewrite Nat.sub_0_r. unfold Rdiv. rewrite Rinv_r by assumption. rewrite slerp_1. reflexivity.
        * rewrite zpoint_luff by (apply DP; lia). rewrite Nat.sub_diag. simpl INR. unfold Rdiv. rewrite Rmult_0_l, slerp_0. reflexivity.
        * intros k K. exists (INR k / INR ns). split; [apply frac_bounds; assumption|]. rewrite zpoint_luff by (apply DP; lia).
          rewrite <- frac_rev by assumption. rewrite <- slerp_rev. apply slerp_mirror.
        * exists gm, gu. rewrite G1. unfold bind at 1. rewrite U1. unfold bind at 1. split; [reflexivity|]. split; [assumption|]. split; [assumption|]. split.
          -- intros k i K I. destruct (G3 k i K I) as (r & A1 & A2 & A3). exists r. split; [exact A1|]. split; [exact A2|exact A3].
          -- intros k i K I. destruct (U3 k i K I) as (r & A1 & A2 & A3). exists r. split; [exact A1|]. split; [exact A2|]. rewrite srot_line_mirror, srot_line_swap in A3 by assumption. exact A3.
    - pose proof g1_big as GB. assert (GG : 2 * 15280 * (3 * L * u) <= g1) by (refine (Rle_trans _ _ _ _ GB); rewrite u_val; lra).
      exists fm, fu. split; [reflexivity|]. split; [assumption|]. split; [assumption|]. split; intros k i K I; rewrite rad_0, srot_line_0.
      + destruct (FM k i K I) as (q & A1 & A2 & _). exists q. split; [exact A1|]. apply (gap_of (3 * L) _ _ 15280); try assumption; lra.
      + destruct (FU k i K I) as (q & A1 & A2 & _). exists q. split; [exact A1|]. apply (gap_of (3 * L) _ _ 15280); try assumption; lra. }
  destruct TWS as (gm & gu & -> & GL1 & GL2 & G1 & G2). unfold bind at 1.
  destruct (reshape_spec gm (ns + 1) (nc + 1) GL1) as (rm & RM1 & RM2 & _). rewrite RM1. unfold bind at 1.
  destruct (reshape_spec gu (ns + 1) (nc + 1) GL2) as (ru & RU1 & RU2 & _). rewrite RU1. unfold bind at 1.
  destruct (transpose_spec (@v0 _ D) rm _ _ RM2) as (RT3 & _). destruct (transpose_spec (@v0 _ D) ru _ _ RU2) as (RT4 & _).
  assert (RT3' : rect (transpose (nc + 1) (@v0 _ D) rm) (S nc) (S ns)) by (replace (S nc) with (nc + 1)%nat by lia; replace (S ns) with (ns + 1)%nat by lia; exact RT3).
  assert (RT4' : rect (transpose (nc + 1) (@v0 _ D) ru) (S nc) (S ns)) by (replace (S nc) with (nc + 1)%nat by lia; replace (S ns) with (ns + 1)%nat by lia; exact RT4).
  destruct (@panels_spec _ D _ nc ns RT3') as (pa & te & le & A1 & _). destruct (@panels_spec _ D _ nc ns RT4') as (pu & teu & leu & B1 & _).
  destruct (@panels_of_reshaped _ D nc ns gm rm pa te le RM1 A1) as (A2 & A3 & A4 & A5).
  destruct (@panels_of_reshaped _ D nc ns gu ru pu teu leu RU1 B1) as (B2 & B3 & B4 & B5).
  rewrite A1. unfold bind at 1. rewrite B1. unfold bind at 1.
  assert (BE : forall x y : list bool, length x = (nc * ns)%nat -> length y = (nc * ns)%nat ->
     (forall i j, (i < nc)%nat -> (j < ns)%nat -> nth_error x (i * ns + j) = nth_error y (i * ns + j)) -> bools_eqb x y = true).
  { intros x y LX LY EQ. assert (x = y).
    { apply list_ext; [lia|]. intros k K. rewrite LX in K. destruct (divmod_lt k nc ns K) as (D1 & D2 & ->). apply EQ; assumption. }
    subst y. unfold bools_eqb. rewrite Nat.eqb_refl. simpl. apply forallb_forall. intros [v w] I.
    assert (v = w). { clear - I. induction x; simpl in I; [contradiction|]. destruct I as [I|I]; [congruence | auto]. }
    subst. simpl. apply eqb_reflx. }
  rewrite (BE te teu A3 B3), (BE le leu A4 B4).
  2,3: intros i j I J; destruct (A5 i j I J) as (_ & X1 & X2); destruct (B5 i j I J) as (_ & Y4 & Y5); congruence.
  unfold guard, bind. eexists. split; [reflexivity|]. cbn [sl_name sl_csys sl_head sl_tack sl_above sl_under sl_above_zero sl_under_zero].
  do 4 (split; [reflexivity|]).
  assert (G0 : 2 * 1000 * (3 * L * u) <= g0) by (unfold g0; rewrite u_val; lra).
  split; [|split; [|split]]; (split; [assumption|]); intros i j I J.
  - destruct (A5 i j I J) as ((se & sw & nw & ne & H1 & H2 & H3 & H4 & EP) & _). eexists. split; [exact EP|].
    destruct (G1 j (i + 1)%nat ltac:(lia) ltac:(lia)) as (q1 & Q1 & W1), (G1 j i ltac:(lia) ltac:(lia)) as (q2 & Q2 & W2), (G1 (j + 1)%nat i ltac:(lia) ltac:(lia)) as (q3 & Q3 & W3), (G1 (j + 1)%nat (i + 1)%nat ltac:(lia) ltac:(lia)) as (q4 & Q4 & W4).
    unfold pgap. cbn [pp1 pp2 pp3 pp4]. replace se with q1 by congruence. replace sw with q2 by congruence. replace nw with q3 by congruence. replace ne with q4 by congruence. auto.
  - destruct (B5 i j I J) as ((se & sw & nw & ne & H1 & H2 & H3 & H4 & EP) & _). eexists. split; [exact EP|].
    destruct (G2 j (i + 1)%nat ltac:(lia) ltac:(lia)) as (q1 & Q1 & W1), (G2 j i ltac:(lia) ltac:(lia)) as (q2 & Q2 & W2), (G2 (j + 1)%nat i ltac:(lia) ltac:(lia)) as (q3 & Q3 & W3), (G2 (j + 1)%nat (i + 1)%nat ltac:(lia) ltac:(lia)) as (q4 & Q4 & W4).
    unfold pgap. cbn [pp1 pp2 pp3 pp4]. replace se with q1 by congruence. replace sw with q2 by congruence. replace nw with q3 by congruence. replace ne with q4 by congruence. auto.
  - destruct (Z3 i j I J) as ((se & sw & nw & ne & H1 & H2 & H3 & H4 & EP) & _). eexists. split; [exact EP|].
    rewrite !QT1 in H1, H2, H3, H4 by lia. replace (S i) with (i + 1)%nat in * by lia. replace (S j) with (j + 1)%nat in * by lia.
    destruct (P1' j (i + 1)%nat ltac:(lia) ltac:(lia)) as (q1 & Q1 & W1 & _), (P1' j i ltac:(lia) ltac:(lia)) as (q2 & Q2 & W2 & _), (P1' (j + 1)%nat i ltac:(lia) ltac:(lia)) as (q3 & Q3 & W3 & _), (P1' (j + 1)%nat (i + 1)%nat ltac:(lia) ltac:(lia)) as (q4 & Q4 & W4 & _).
    unfold pgap. cbn [pp1 pp2 pp3 pp4]. replace se with q1 by congruence. replace sw with q2 by congruence. replace nw with q3 by congruence. replace ne with q4 by congruence.
    split; [|split; [|split]]; apply (gap_of (3 * L) _ _ 1000); try assumption; lra.
  - destruct (Y3 i j I J) as ((se & sw & nw & ne & H1 & H2 & H3 & H4 & EP) & _). eexists. split; [exact EP|].
    rewrite !QT2 in H1, H2, H3, H4 by lia. replace (S i) with (i + 1)%nat in * by lia. replace (S j) with (j + 1)%nat in * by lia.
    destruct (P2' j (i + 1)%nat ltac:(lia) ltac:(lia)) as (q1 & Q1 & W1 & _), (P2' j i ltac:(lia) ltac:(lia)) as (q2 & Q2 & W2 & _), (P2' (j + 1)%nat i ltac:(lia) ltac:(lia)) as (q3 & Q3 & W3 & _), (P2' (j + 1)%nat (i + 1)%nat ltac:(lia) ltac:(lia)) as (q4 & Q4 & W4 & _).
    unfold pgap. cbn [pp1 pp2 pp3 pp4]. replace se with q1 by congruence. replace sw with q2 by congruence. replace nw with q3 by congruence. replace ne with q4 by congruence.
    split; [|split; [|split]]; apply (gap_of (3 * L) _ _ 1000); try assumption; lra.
Qed.
End Whole.
