(** C99: the velocities of an accepted run in double arithmetic against the exact velocities of the same vortices. *)

From Coq Require Import String ZArith Reals List Bool Lra Psatz Lia.
From Flocq Require Import Core BinarySingleNaN.
From Verif Require Import Num PyBase RNum Spec M_Csys M_Rotations M_Panels M_Velocity M_Solve M_Coefs M_Forces M_Winds M_Sail M_Vlm M_Results L_List L_Rot L_Vel L_Lift2 L_Vlm2 P_Double P_DoubleRun Double L_Double L_Near L_NearRot P_DoubleRot L_NearLine L_NearSail L_NearVel P_DoubleVel P_DoubleFlux L_Accept L_Accept2 P_DoubleAccept P_DoubleForce.
Import ListNotations.
Open Scope R_scope.

(** ** Specification *)
(** the point lies (nearly) on the line of the segment, and does not feel it *)
Definition through (M : R) (p a b : vec R) : Prop :=
  snorm (ssub p a) <= M /\ snorm (ssub p b) <= M /\ snorm (scross (ssub p a) (ssub p b)) <= 3 / 100000.
(** the velocity [W] at [p] of a segment with the circulation -1 *)
Definition piece (M h : R) (p a b W : vec R) : Prop :=
  beside M h p a b /\ W = biot_savart p a b (-1) \/ through M p a b /\ W = szero.
(** the velocity [W] of a ring with the circulation -1, or at the trailing edge of a horseshoe whose legs follow the wind [V] *)
Definition induced (M h k : R) (p : vec double) (r : ring double) (te : bool) (V : vec double) (W : vec R) : Prop :=
  vfin p /\ vfin (rA r) /\ vfin (rB r) /\ vfin (rC r) /\ vfin (rD r) /\
  exists w1 w2 w3, piece M h (vvals p) (vvals (rA r)) (vvals (rB r)) w1 /\ piece M h (vvals p) (vvals (rB r)) (vvals (rC r)) w2 /\ piece M h (vvals p) (vvals (rC r)) (vvals (rD r)) w3 /\
  if te then vfin V /\ / 10 ^ 30 <= snorm (vvals V) <= 10 ^ 30 /\ off_wake M k (vvals p) (vvals (rD r)) (vvals V) /\ off_wake M k (vvals p) (vvals (rA r)) (vvals V) /\
    W = sadd (sadd (sadd (sadd w1 w2) w3) (half_line (vvals p) (vvals (rD r)) (vvals V) (-1))) (half_line (vvals p) (vvals (rA r)) (vvals V) 1)
  else exists w4, piece M h (vvals p) (vvals (rD r)) (vvals (rA r)) w4 /\ W = sadd (sadd (sadd w1 w2) w3) w4.
(** [Ws]: the velocities at [p] of all rings of a solution *)
Definition induced_by (o : vlm double) (M h k : R) (p : vec double) (Ws : list (vec R)) : Prop :=
  length Ws = length (vl_rings o) /\
  forall j r t V W, nth_error (vl_rings o) j = Some r -> nth_error (vl_te o) j = Some t -> nth_error (in_V (vl_inlet o)) j = Some V -> nth_error Ws j = Some W -> induced M h k p r t V W.
(** distances of at most [M], parallelograms of at least [h], detours of at least [k] *)
Definition distances (M h k : R) : Prop := 1 / 100 <= M <= 1000 /\ 2 / 10000 <= h <= M * M /\ 0 < k /\ M <= 1000000000 * k.
(** the error of one coefficient *)
Definition coef_error (M h k : R) : R := 2 / 100000000000000 * (4 * (M * M * M / (h * h)) + 2 * (M / (k * k))).
(** the sum of the absolute values of the circulations *)
Definition strengths (g : list double) : R := fold_right (fun x s => Rabs (val x) + s) 0 g.
(** bounds on the absolute values of the terms of a velocity and of a flux, when every coefficient is within [d] of the exact one *)
Definition most (C : vec R -> R) (d : R) (V : vec double) (Ws : list (vec R)) (g : list double) : R :=
  Rabs (C (vvals V)) + fold_right (fun ag s => Rabs (val (snd ag)) * (Rabs (C (fst ag)) + d) + bpow radix2 (-1000) + s) 0 (combine Ws g).
Definition most_flux (d : R) (V : vec double) (Ws : list (vec R)) (g : list double) (n : vec double) : R :=
  (most vx d V Ws g * Rabs (val (vx n)) + bpow radix2 (-1000)) + (most vy d V Ws g * Rabs (val (vy n)) + bpow radix2 (-1000)) + (most vz d V Ws g * Rabs (val (vz n)) + bpow radix2 (-1000)).

(** ** A segment in line with the point *)
Lemma through_zero e p a b g M : vfin p -> vfin a -> vfin b -> 1 / 100 <= M <= 1000 -> through M (vvals p) (vvals a) (vvals b) -> @vortex_line _ (Double e) p a b g = @v0 _ (Double e).
Proof.
  intros FP FA FB HM (BA & BB & BC). destruct (seg_cross e p a b FP FA FB M HM BA BB) as [NX DX].
  unfold vortex_line. cbv zeta. set (r1 := @vsub _ (Double e) p a) in *. set (r2 := @vsub _ (Double e) p b) in *. clearbody r1 r2. set (c := @vcross _ (Double e) r1 r2) in *. clearbody c.
  destruct (near_dist _ _ _ _ NX) as [FC _]. pose proof (norm_rev (vvals c) (scross (ssub (vvals p) (vvals a)) (ssub (vvals p) (vvals b)))) as RV. apply abs_2 in RV.
  assert (UM : 20 * (M * M * u) <= 1 / 10000000). { pose proof u_small. pose proof u_pos. assert (M * M <= 1000000) by nra. assert (M * M * u <= 1000000 * (1 / 1000000000000000)) by (apply Rmult_le_compat; nra). lra. }
  assert (NC : snorm (vvals c) <= bpow radix2 (-15)) by (change (bpow radix2 (-15)) with (/ 32768); lra).
  destruct (comp_norm (vvals c)) as (C1 & C2 & C3). destruct FC as (G1 & G2 & G3).
  assert (LC : vlim (-15) c) by (unfold vvals in C1, C2, C3; cbn [vx vy vz] in C1, C2, C3; split; [|split]; (split; [assumption|]); eapply Rle_trans; eassumption).
  destruct (lim_norm e (-15) c ltac:(lia) LC) as [LN _]. change (-15 + 1)%Z with (-14)%Z in LN. set (n := @vnorm _ (Double e) c) in *. clearbody n.
  pose proof (lim_mul e (-14) (-14) n n ltac:(lia) LN LN) as [FS LS]. change (-14 + -14)%Z with (-28)%Z in LS. set (sq := @nmul _ (Double e) n n) in *. clearbody sq.
  assert (T : @nltb _ (Double e) (@nabs _ (Double e) sq) (@core_eps _ (Double e)) = true).
  { destruct (@nltb _ (Double e) (@nabs _ (Double e) sq) (@core_eps _ (Double e))) eqn:B; [reflexivity|]. exfalso. apply not_below in B; [|cbn [nabs Double]; rewrite is_finite_Babs; exact FS].
    revert B. cbn [nabs Double]. rewrite B2R_Babs. intros B. apply (Rlt_irrefl (bpow radix2 (-27))). apply (Rle_lt_trans _ _ _ (Rle_trans _ _ _ B LS)). apply bpow_lt. lia. }
  unfold is_in_vortex_core. rewrite T, orb_true_r. reflexivity.
Qed.

(** ** One coefficient *)
Lemma abs_m1 : Rabs (-1) = 1. Proof. rewrite Rabs_left; lra. Qed.
Lemma opp_m1 : - -1 = 1. Proof. lra. Qed.
Lemma gor_val e : fin (@vlm_gor _ (Double e)) /\ val (@vlm_gor _ (Double e)) = -1.
Proof. unfold vlm_gor. destruct (dint e 1 ltac:(lia)) as [F V]. cbn [nopp Double]. rewrite is_finite_Bopp, B2R_Bopp. split; [exact F|]. rewrite V. lra. Qed.
Lemma scale_ok M h k : distances M h k -> / 10 ^ 9 <= 1 * (M * M * M / (h * h)) <= 10 ^ 23.
Proof.
  intros (HM & (Hh & H) & _). assert (M3 : 0 < M * M * M <= 1000000000) by (split; nra).
  assert (L : / 1000 <= M * M * M / (h * h)). { apply (Rle_trans _ (/ M)); [apply Rinv_le_contravar; lra|]. apply (Rmult_le_reg_r (h * h)); [nra|]. unfold Rdiv. rewrite Rmult_assoc, Rinv_l, Rmult_1_r by nra. apply (Rmult_le_reg_l M); [lra|]. replace (M * (/ M * (h * h))) with (h * h) by (field; lra). assert (h * h <= M * M * (M * M)) by nra. nra. }
  assert (U : M * M * M / (h * h) <= 25000000 * 1000000000). { unfold Rdiv. rewrite (Rmult_comm (M * M * M)). apply Rmult_le_compat; [left; apply Rinv_0_lt_compat; nra|lra| |lra]. replace 25000000 with (/ (4 / 100000000)) by lra. apply Rinv_le_contravar; nra. }
  lra.
Qed.
Lemma piece_near e M h k p a b W : distances M h k -> vfin p -> vfin a -> vfin b -> piece M h (vvals p) (vvals a) (vvals b) W ->
  vnear (1 * (M * M * M / (h * h))) (@vortex_line _ (Double e) p a b (@vlm_gor _ (Double e))) W 150.
Proof.
  intros DD FP FA FB PP. destruct (gor_val e) as [FG VG]. pose proof (scale_ok _ _ _ DD) as SO. destruct DD as (HM & (Hh & _) & _). destruct PP as [[BS ->] | [TH ->]].
  - rewrite <- VG. apply seg; try assumption; try lra. rewrite VG, abs_m1. lra.
  - rewrite (through_zero e p a b _ M FP FA FB HM TH). destruct (dint e 0 ltac:(lia)) as [F0 V0].
    assert (Z : near (1 * (M * M * M / (h * h))) (@nZ _ (Double e) 0) 0 150). { split; [exact F0|]. rewrite V0, Rminus_0_r, Rabs_R0. split; [lra|]. apply Rmult_le_pos; [lra|]. apply Rmult_le_pos; [lra|]. pose proof u_pos. lra. }
    split; [|split]; exact Z.
Qed.
(** every coefficient is finite and close to the exact velocity *)
Theorem C99_coefficient e M h k p r te V W : distances M h k -> induced M h k p r te V W ->
  within (coef_error M h k) (@influence _ (Double e) (@vlm_gor _ (Double e)) p r te V) W.
Proof.
  intros DD (FP & FA & FB & FC & FD & w1 & w2 & w3 & P1 & P2 & P3 & T). pose proof (scale_ok _ _ _ DD) as Z. destruct (gor_val e) as [FG VG].
  pose proof (piece_near e M h k p _ _ _ DD FP FA FB P1) as N1. pose proof (piece_near e M h k p _ _ _ DD FP FB FC P2) as N2. pose proof (piece_near e M h k p _ _ _ DD FP FC FD P3) as N3.
  assert (KP : 0 <= M / (k * k)). { destruct DD as (HM & _ & K & _). unfold Rdiv. apply Rmult_le_pos; [lra|]. left. apply Rinv_0_lt_compat. nra. }
  unfold influence, coef_error. destruct te.
  - destruct T as (FV & ZV & O1 & O2 & ->). destruct DD as (HM & _ & K & MK).
    destruct (half e p (rD r) V _ M k 1 FP FD FV FG ZV ltac:(lra) K MK ltac:(lra) ltac:(rewrite VG, abs_m1; lra) O1) as [N4 Z2]. rewrite VG in N4. destruct (minus_one e _ FG) as [FM VM].
    destruct (half e p (rA r) V _ M k 1 FP FA FV FM ZV ltac:(lra) K MK ltac:(lra) ltac:(rewrite VM, VG, opp_m1, Rabs_R1; lra) O2) as [N5 _]. rewrite VM, VG, opp_m1 in N5.
    unfold vortex_horseshoe_v2. cbv zeta. set (B := 1 * (M * M * M / (h * h))) in *. replace (M * M * M / (h * h)) with B by (unfold B; ring). clearbody B. set (C := 1 * (M / (k * k))) in *. replace (M / (k * k)) with C by (unfold C; ring). clearbody C.
    pose proof (vnear_add e B B _ _ _ _ 150 150 ltac:(apply mild_wide; lra) ltac:(lra) ltac:(lra) ltac:(fw) ltac:(fw) ltac:(lra) N1 N2) as T2.
    pose proof (vnear_add e (B + B) B _ _ _ _ (150 + 101 / 100) 150 ltac:(apply mild_wide; lra) ltac:(lra) ltac:(lra) ltac:(fw) ltac:(fw) ltac:(lra) T2 N3) as T3.
    pose proof (vnear_add e (B + B + B) C _ _ _ _ (150 + 101 / 100 + 101 / 100) 47 ltac:(apply mild_wide; lra) ltac:(lra) ltac:(lra) ltac:(fw) ltac:(fw) ltac:(lra) T3 N4) as T4.
    pose proof (vnear_add e (B + B + B + C) C _ _ _ _ (150 + 101 / 100 + 101 / 100 + 101 / 100) 47 ltac:(apply mild_wide; lra) ltac:(lra) ltac:(lra) ltac:(fw) ltac:(fw) ltac:(lra) T4 N5) as T5.
    apply (vnear_within _ _ _ _ _ T5). apply (Rle_trans _ (2 / 100000000000000 * (B + B + B + C + C))); [apply u_14; lra|]. apply Rmult_le_compat_l; lra.
  - destruct T as (w4 & P4 & ->). pose proof (piece_near e M h k p _ _ _ DD FP FD FA P4) as N4.
    unfold vortex_ring. cbv zeta. set (B := 1 * (M * M * M / (h * h))) in *. replace (M * M * M / (h * h)) with B by (unfold B; ring). clearbody B.
    pose proof (vnear_add e B B _ _ _ _ 150 150 ltac:(apply mild_wide; lra) ltac:(lra) ltac:(lra) ltac:(fw) ltac:(fw) ltac:(lra) N1 N2) as T2.
    pose proof (vnear_add e (B + B) B _ _ _ _ (150 + 101 / 100) 150 ltac:(apply mild_wide; lra) ltac:(lra) ltac:(lra) ltac:(fw) ltac:(fw) ltac:(lra) T2 N3) as T3.
    pose proof (vnear_add e (B + B + B) B _ _ _ _ (150 + 101 / 100 + 101 / 100) 150 ltac:(apply mild_wide; lra) ltac:(lra) ltac:(lra) ltac:(fw) ltac:(fw) ltac:(lra) T3 N4) as T4.
    apply (vnear_within _ _ _ _ _ T4). apply (Rle_trans _ (2 / 100000000000000 * (B + B + B + B))); [apply u_14; lra|]. apply Rmult_le_compat_l; lra.
Qed.

(** ** A row of coefficients *)
Lemma coef_error_pos M h k : distances M h k -> 0 <= coef_error M h k.
Proof.
  intros DD. pose proof (scale_ok _ _ _ DD) as Z. assert (KP : 0 <= M / (k * k)). { destruct DD as (HM & _ & K & _). unfold Rdiv. apply Rmult_le_pos; [lra|]. left. apply Rinv_0_lt_compat. nra. }
  unfold coef_error. assert (0 <= M * M * M / (h * h)) by lra. lra.
Qed.
Lemma row_within e M h k p rings te V Ws : distances M h k -> length te = length rings -> length V = length rings -> length Ws = length rings ->
  (forall j r t v W, nth_error rings j = Some r -> nth_error te j = Some t -> nth_error V j = Some v -> nth_error Ws j = Some W -> induced M h k p r t v W) ->
  Forall2 (fun a W => within (coef_error M h k) a W) (@influence_row _ (Double e) (@vlm_gor _ (Double e)) rings te V p) Ws.
Proof.
  intros DD. unfold influence_row. revert te V Ws. induction rings as [|r rings IH]; intros [|t te] [|v V] [|W Ws] L1 L2 L3 I; cbn [length] in L1, L2, L3; try discriminate; cbn [combine map]; [constructor|]. constructor.
  - cbn [fst snd]. apply C99_coefficient; [exact DD|]. exact (I 0%nat r t v W eq_refl eq_refl eq_refl eq_refl).
  - apply IH; try lia. intros j r' t' v' W' H1 H2 H3 H4. exact (I (S j) r' t' v' W' H1 H2 H3 H4).
Qed.
Lemma velocity_shift d (C : vec R -> R) v row Ws g : (C = vx \/ C = vy \/ C = vz) -> Forall2 (fun a W => within d a W) row Ws ->
  Rabs (C (exact_velocity v (map vvals row) (map (fun x => val x) g)) - C (exact_velocity v Ws (map (fun x => val x) g))) <= d * strengths (firstn (length row) g).
Proof.
  intros HC F. revert g. unfold exact_velocity. induction F as [|a W row Ws (_ & X1 & X2 & X3) F IH]; intros g.
  - cbn [map combine fold_right length firstn]. unfold strengths. cbn [fold_right]. rewrite Rminus_diag_eq by reflexivity. rewrite Rabs_R0. lra.
  - destruct g as [|x g]; cbn [map combine fold_right length firstn]; [unfold strengths; cbn [fold_right]; rewrite Rminus_diag_eq by reflexivity; rewrite Rabs_R0; lra|].
    change (strengths (x :: firstn (length row) g)) with (Rabs (val x) + strengths (firstn (length row) g)). specialize (IH g). cbn [fst snd].
    set (U1 := fold_right _ _ _) in IH |- *. set (U2 := fold_right _ _ (combine Ws _)) in IH |- *.
    assert (CA : forall p q, C (sadd p q) = C p + C q) by (intros p q; destruct HC as [-> | [-> | ->]]; reflexivity). assert (CS : forall c p, C (sscale c p) = c * C p) by (intros c p; destruct HC as [-> | [-> | ->]]; reflexivity).
    assert (CX : Rabs (C (vvals a) - C W) <= d) by (destruct HC as [-> | [-> | ->]]; assumption).
    rewrite !CA, !CS. replace (val x * C (vvals a) + C U1 - (val x * C W + C U2)) with (val x * (C (vvals a) - C W) + (C U1 - C U2)) by ring.
    eapply Rle_trans; [apply Rabs_triang|]. rewrite Rabs_mult. pose proof (Rmult_le_compat_l (Rabs (val x)) _ _ (Rabs_pos _) CX). lra.
Qed.
Lemma terms_most d (c : vec double -> double) (C : vec R -> R) V row Ws g : 0 <= d -> (forall a, C (vvals a) = val (c a)) -> (C = vx \/ C = vy \/ C = vz) -> Forall2 (fun a W => within d a W) row Ws -> terms c V row g <= most C d V Ws g.
Proof.
  intros D0 CV HC F. unfold terms, most. rewrite CV. apply Rplus_le_compat_l. revert g. induction F as [|a W row Ws (_ & X1 & X2 & X3) F IH]; intros [|x g]; cbn [combine fold_right]; try lra. cbn [fst snd].
  specialize (IH g). apply Rplus_le_compat; [|exact IH]. apply Rplus_le_compat_r. apply Rmult_le_compat_l; [apply Rabs_pos|].
  assert (CX : Rabs (C (vvals a) - C W) <= d) by (destruct HC as [-> | [-> | ->]]; assumption). rewrite <- CV. replace (C (vvals a)) with (C W + (C (vvals a) - C W)) by ring. eapply Rle_trans; [apply Rabs_triang|]. lra.
Qed.

(** ** The run *)
Lemma solve_rows e panels nc ns rho te le vars ic o : @vlm_solve _ (Double e) panels nc ns rho te le vars ic = Ok o ->
  vl_te o = te /\ vl_vars o = vars /\ vl_inlet o = ic /\
  vl_vind o = map (@influence_row _ (Double e) (@vlm_gor _ (Double e)) (vl_rings o) te (in_V ic)) (vl_ctr o) /\
  vl_V_cp o = zipWith (@vadd _ (Double e)) (in_V ic) (map (fun row => @induced_at _ (Double e) row (vl_gamma o)) (map (@influence_row _ (Double e) (@vlm_gor _ (Double e)) (vl_rings o) te (in_V ic)) (vl_cp o))).
Proof.
  intros H. unfold vlm_solve in H. cbv zeta in H. destruct (calc_velocity_coefs _ _ _ _ _ _) as [coeff vind] eqn:CC. destruct (solve_eq _ _) as [gamma|] eqn:SO; [|discriminate H]. cbn [bind] in H.
  destruct (calculate_app_fs _ _ _) as [ind ctrl] eqn:AP. destruct (is_no_flux_BC_satisfied _ _ _) as [b|] eqn:NF; [|discriminate H]. cbn [bind] in H. destruct (guard b AssertionError); [|discriminate H]. cbn [bind] in H.
  destruct (calc_force_wrapper _ _ _ _ _ _ _ _ _ _ "force_xyz"%string _) as [[[f vc] vi]|] eqn:CF; [|discriminate H]. cbn [bind] in H.
  destruct (calc_force_wrapper _ _ _ _ _ _ _ _ _ _ "lift"%string _) as [[[f1 vc1] vi1]|]; [|discriminate H]. cbn [bind] in H.
  destruct (calc_force_wrapper _ _ _ _ _ _ _ _ _ _ "drag"%string _) as [[[f2 vc2] vi2]|]; [|discriminate H]. cbn [bind] in H.
  assert (HO : forall A (p q : A), Ok p = Ok q -> p = q) by (intros A p q [= Q]; exact Q). apply HO in H. subst o. unfold vl_rings, vl_ctr, vl_cp. cbn [vl_te vl_vars vl_inlet vl_vind vl_V_cp vl_gamma].
  split; [reflexivity|]. split; [reflexivity|]. split; [reflexivity|]. apply (f_equal snd) in CC. cbn [snd] in CC. unfold calc_velocity_coefs in CC. cbv zeta in CC. cbn [snd] in CC. split; [symmetry; exact CC|].
  clear CC AP SO NF. unfold calc_force_wrapper in CF. change (negb (existsb (String.eqb "force_xyz") ["lift"; "drag"; "force_xyz"]%string)) with false in CF. change ("force_xyz" =? "lift")%string with false in CF. change ("force_xyz" =? "drag")%string with false in CF. cbv iota beta zeta in CF. destruct (calc_velocity_coefs _ _ _ _ _ _) as [co vi'] eqn:CC. destruct (calculate_app_fs _ _ _) as [vi2' va] eqn:AP. 
  destruct (panel_forces _ _ _ _ _ _) as [ff|] eqn:PF; [|discriminate CF]. cbn [bind] in CF. apply HO in CF. apply pair_equal_spec in CF. destruct CF as [CF _]. apply pair_equal_spec in CF. destruct CF as [_ <-].
  apply (f_equal snd) in AP. apply (f_equal snd) in CC. cbn [snd] in AP, CC. rewrite <- AP, <- CC. unfold calculate_app_fs, calc_velocity_coefs, calc_induced_velocity. cbn [snd]. reflexivity.
Qed.
Lemma run_rows e panels nc ns rho w te le o : length te = length panels -> @Vlm _ (Double e) panels nc ns rho w te le = Ok o ->
  vl_te o = te /\ length (in_V (vl_inlet o)) = length panels /\ length (vl_rings o) = length panels /\ length (vl_gamma o) = length panels /\
  vl_vind o = map (@influence_row _ (Double e) (@vlm_gor _ (Double e)) (vl_rings o) te (in_V (vl_inlet o))) (vl_ctr o) /\
  vl_V_cp o = zipWith (@vadd _ (Double e)) (in_V (vl_inlet o)) (map (fun row => @induced_at _ (Double e) row (vl_gamma o)) (map (@influence_row _ (Double e) (@vlm_gor _ (Double e)) (vl_rings o) te (in_V (vl_inlet o))) (vl_cp o))).
Proof.
  intros LT E. unfold Vlm in E. destruct (calculate_vlm_variables _ _ _ _ _) as [vars|] eqn:CV; [|discriminate]. cbn [bind] in E. destruct (InletConditions _ _) as [ic|] eqn:IC; [|discriminate]. cbn [bind] in E.
  pose proof (vlm_vars_length _ _ _ _ _ _ LT CV) as LV. pose proof (inlet_length _ _ _ IC) as LI. rewrite map_length, LV in LI. clear CV IC.
  destruct (solve_accepts e panels nc ns rho te le vars ic o LT LV LI E) as (_ & _ & _ & _ & _ & _ & LG & _). destruct (solve_rows _ _ _ _ _ _ _ _ _ _ E) as (E1 & E2 & E3 & E4 & E5). clear E.
  rewrite E3. split; [exact E1|]. split; [exact LI|]. split; [unfold vl_rings; rewrite E2, map_length; exact LV|]. split; [exact LG|]. split; [exact E4|exact E5].
Qed.

(** the exact velocities at a control point, made from Biot-Savart's law and the computed circulations, do not pass through the panel but for the error stated *)
Theorem C99_no_flux e panels nc ns rho w te le o i p v n Ws M h k : length te = length panels -> @Vlm _ (Double e) panels nc ns rho w te le = Ok o ->
  nth_error (vl_ctr o) i = Some p -> nth_error (in_V (vl_inlet o)) i = Some v -> nth_error (vl_normals o) i = Some n -> distances M h k -> induced_by o M h k p Ws ->
  Rabs (sdot (exact_velocity (vvals v) Ws (map (fun x => val x) (vl_gamma o))) (vvals n)) <=
    1001 / 1000000000000000 + ((1 + / 2 ^ 53) ^ (length panels + 5) - 1) * most_flux (coef_error M h k) v Ws (vl_gamma o) n
    + coef_error M h k * strengths (vl_gamma o) * (Rabs (val (vx n)) + Rabs (val (vy n)) + Rabs (val (vz n))).
Proof.
  intros LT E NP NV NN DD (LW & IN). destruct (run_rows e panels nc ns rho w te le o LT E) as (ET & LV & LR & LG & EV & _). destruct (C96_run e panels nc ns rho w te le o LT E) as (_ & _ & _ & _ & _ & _ & _ & FX). clear E.
  set (row := @influence_row _ (Double e) (@vlm_gor _ (Double e)) (vl_rings o) te (in_V (vl_inlet o)) p).
  assert (NR : nth_error (vl_vind o) i = Some row) by (rewrite EV; apply map_nth_error; exact NP).
  specialize (FX i v row n (conj NV (conj NR NN))). rewrite ET in IN.
  assert (RW : Forall2 (fun a W => within (coef_error M h k) a W) row Ws) by (apply row_within; [exact DD|lia|lia|exact LW|exact IN]). clearbody row. pose proof (coef_error_pos _ _ _ DD) as CE. set (d := coef_error M h k) in *. clearbody d.
  assert (LROW : length row = length (vl_gamma o)) by (assert (LL : length row = length Ws) by (eapply Forall2_len; exact RW); lia).
  pose proof (velocity_shift d vx (vvals v) row Ws (vl_gamma o) (or_introl eq_refl) RW) as S1. pose proof (velocity_shift d vy (vvals v) row Ws (vl_gamma o) (or_intror (or_introl eq_refl)) RW) as S2. pose proof (velocity_shift d vz (vvals v) row Ws (vl_gamma o) (or_intror (or_intror eq_refl)) RW) as S3.
  rewrite LROW, firstn_all in S1, S2, S3. unfold exact_flux in FX. set (X := exact_velocity _ (map vvals row) _) in *. set (Y := exact_velocity _ Ws _) in *. clearbody X Y.
  assert (RE : running_error (length panels) v row (vl_gamma o) n <= ((1 + / 2 ^ 53) ^ (length panels + 5) - 1) * most_flux d v Ws (vl_gamma o) n).
  { unfold running_error. apply Rmult_le_compat_l; [pose proof (pow_1 (length panels + 5)) as P1; rewrite <- u_pow; lra|]. unfold flux_terms, most_flux.
    pose proof (terms_most d vx vx v row Ws (vl_gamma o) CE (fun a => eq_refl) (or_introl eq_refl) RW) as T1. pose proof (terms_most d vy vy v row Ws (vl_gamma o) CE (fun a => eq_refl) (or_intror (or_introl eq_refl)) RW) as T2. pose proof (terms_most d vz vz v row Ws (vl_gamma o) CE (fun a => eq_refl) (or_intror (or_intror eq_refl)) RW) as T3.
    apply (Rmult_le_compat_r _ _ _ (Rabs_pos (val (vx n)))) in T1. apply (Rmult_le_compat_r _ _ _ (Rabs_pos (val (vy n)))) in T2. apply (Rmult_le_compat_r _ _ _ (Rabs_pos (val (vz n)))) in T3. lra. }
  set (T := strengths _) in *. clearbody T.
  replace (sdot Y (vvals n)) with (sdot X (vvals n) - ((vx X - vx Y) * val (vx n) + (vy X - vy Y) * val (vy n) + (vz X - vz Y) * val (vz n))) by (unfold sdot, vvals; cbn [vx vy vz]; ring).
  assert (G : Rabs ((vx X - vx Y) * val (vx n) + (vy X - vy Y) * val (vy n) + (vz X - vz Y) * val (vz n)) <= d * T * (Rabs (val (vx n)) + Rabs (val (vy n)) + Rabs (val (vz n)))).
  { eapply Rle_trans; [apply Rabs_triang|]. pose proof (Rabs_triang ((vx X - vx Y) * val (vx n)) ((vy X - vy Y) * val (vy n))) as Q. rewrite !Rabs_mult in *.
    apply (Rmult_le_compat_r _ _ _ (Rabs_pos (val (vx n)))) in S1. apply (Rmult_le_compat_r _ _ _ (Rabs_pos (val (vy n)))) in S2. apply (Rmult_le_compat_r _ _ _ (Rabs_pos (val (vz n)))) in S3. lra. }
  unfold Rminus at 1. eapply Rle_trans; [apply Rabs_triang|]. rewrite Rabs_Ropp. lra.
Qed.
(** the velocity at a centre of pressure, from which the force follows *)
Theorem C99_velocity e panels nc ns rho w te le o i p v vc Ws M h k C : length te = length panels -> @Vlm _ (Double e) panels nc ns rho w te le = Ok o ->
  nth_error (vl_cp o) i = Some p -> nth_error (in_V (vl_inlet o)) i = Some v -> nth_error (vl_V_cp o) i = Some vc -> vfin vc -> distances M h k -> induced_by o M h k p Ws -> (C = vx \/ C = vy \/ C = vz) ->
  Rabs (C (vvals vc) - C (exact_velocity (vvals v) Ws (map (fun x => val x) (vl_gamma o)))) <=
    ((1 + / 2 ^ 53) ^ (length panels + 2) - 1) * most C (coef_error M h k) v Ws (vl_gamma o) + coef_error M h k * strengths (vl_gamma o).
Proof.
  intros LT E NP NV NC FC DD (LW & IN) HC. destruct (run_rows e panels nc ns rho w te le o LT E) as (ET & LV & LR & LG & _ & EC). clear E.
  set (row := @influence_row _ (Double e) (@vlm_gor _ (Double e)) (vl_rings o) te (in_V (vl_inlet o)) p) in *.
  assert (EVC : vc = @vadd _ (Double e) v (@induced_at _ (Double e) row (vl_gamma o))).
  { rewrite EC in NC. assert (Q : nth_error (map (fun row => @induced_at _ (Double e) row (vl_gamma o)) (map (@influence_row _ (Double e) (@vlm_gor _ (Double e)) (vl_rings o) te (in_V (vl_inlet o))) (vl_cp o))) i = Some (@induced_at _ (Double e) row (vl_gamma o))) by (apply (map_nth_error (fun row => @induced_at _ (Double e) row (vl_gamma o))); unfold row; apply map_nth_error; exact NP).
    rewrite (nth_error_zipWith _ _ _ _ _ _ NV Q) in NC. assert (HS : forall A (x y : A), Some x = Some y -> x = y) by (intros A x y [= R]; exact R). symmetry. exact (HS _ _ _ NC). }
  clear EC NC. rewrite ET in IN. assert (RW : Forall2 (fun a W => within (coef_error M h k) a W) row Ws) by (apply row_within; [exact DD|lia|lia|exact LW|exact IN]). clearbody row. pose proof (coef_error_pos _ _ _ DD) as CE. set (d := coef_error M h k) in *. clearbody d.
  assert (LROW : length row = length (vl_gamma o)) by (assert (LL : length row = length Ws) by (eapply Forall2_len; exact RW); lia).
  pose proof (velocity_shift d C (vvals v) row Ws (vl_gamma o) HC RW) as S. rewrite LROW, firstn_all in S. subst vc.
  assert (K : exists c, (forall a, C (vvals a) = val (c a)) /\ near_of (length (vl_gamma o) + 2) (c (@vadd _ (Double e) v (@induced_at _ (Double e) row (vl_gamma o)))) (C (exact_velocity (vvals v) (map vvals row) (map (fun x => val x) (vl_gamma o)))) (terms c v row (vl_gamma o))).
  { destruct HC as [-> | [-> | ->]]; [exists vx|exists vy|exists vz]; (split; [reflexivity|]); apply comp_velocity; try reflexivity; try assumption; intros a (A1 & A2 & A3); assumption. }
  destruct K as (c & CV & N). rewrite CV. destruct N as [_ _ N]. rewrite LG in N. rewrite <- u_pow.
  assert (P1 : 0 <= (1 + u) ^ (length panels + 2) - 1) by (pose proof (pow_1 (length panels + 2)); lra). pose proof (terms_most d c C v row Ws (vl_gamma o) CE CV HC RW) as T. apply (Rmult_le_compat_l _ _ _ P1) in T.
  set (X := C _) in N, S. set (Y := C _) in S |- *. set (z := val _) in N |- *. replace (z - Y) with ((z - X) + (X - Y)) by ring. eapply Rle_trans; [apply Rabs_triang|]. lra.
Qed.

(** ** Case: the sail and its mirror image of C97, at the first control point and the first centre of pressure *)
(** [x] is [a] quarters *)
Definition quarters (x : double) (a : Z) : bool :=
  match x with B754_zero _ => (a =? 0)%Z | B754_finite s m ex _ => ((ex <=? 0) && (cond_Zopp s (Zpos m) * 4 =? a * 2 ^ (- ex)))%Z%bool | _ => false end.
Lemma quarters_val x a : quarters x a = true -> fin x /\ val x = IZR a / 4.
Proof.
  destruct x as [s|s| |s m ex B]; cbn [quarters]; intros H; try discriminate.
  - apply Z.eqb_eq in H. subst a. split; [reflexivity|]. cbn [B2R]. lra.
  - apply andb_true_iff in H. destruct H as [L H]. apply Z.leb_le in L. apply Z.eqb_eq in H. split; [reflexivity|]. cbn [B2R]. unfold F2R. cbn [Fnum Fexp].
    apply (f_equal IZR) in H. rewrite !mult_IZR in H. change (2 ^ (- ex))%Z with (Zpower radix2 (- ex)) in H. rewrite IZR_Zpower in H by lia. rewrite bpow_opp in H. pose proof (bpow_gt_0 radix2 ex) as P.
    apply (Rmult_eq_reg_r (4 * / bpow radix2 ex)); [|apply Rmult_integral_contrapositive_currified; [lra|apply Rinv_neq_0_compat; lra]]. replace (IZR (cond_Zopp s (Z.pos m)) * bpow radix2 ex * (4 * / bpow radix2 ex)) with (IZR (cond_Zopp s (Z.pos m)) * 4) by (field; lra). rewrite H. field. lra.
Qed.
Definition at_quarters (v : vec double) (a b c : Z) : bool := (quarters (vx v) a && quarters (vy v) b && quarters (vz v) c)%bool.
Lemma at_quarters_val v a b c : at_quarters v a b c = true -> vfin v /\ vvals v = V3 (IZR a / 4) (IZR b / 4) (IZR c / 4).
Proof.
  unfold at_quarters. intros H. apply andb_true_iff in H. destruct H as [H H3]. apply andb_true_iff in H. destruct H as [H1 H2]. apply quarters_val in H1, H2, H3. split; [split; [apply H1|split; [apply H2|apply H3]]|]. unfold vvals. f_equal; [apply H1|apply H2|apply H3].
Qed.
Definition ring_quarters (r : ring double) (z0 z1 : Z) : bool := (at_quarters (rA r) 10 0 z0 && at_quarters (rB r) 2 (-16) z0 && at_quarters (rC r) 2 (-16) z1 && at_quarters (rD r) 10 0 z1)%bool.
Lemma norm_between (v : vec R) a b : 0 <= a -> 0 <= b -> a * a <= sdot v v <= b * b -> a <= snorm v <= b.
Proof.
  intros A B [L U]. unfold sdot in L, U. unfold snorm. replace (vx v ^ 2 + vy v ^ 2 + vz v ^ 2) with (vx v * vx v + vy v * vy v + vz v * vz v) by ring. split.
  - rewrite <- (sqrt_square a A). apply sqrt_le_1_alt. exact L.
  - rewrite <- (sqrt_square b B). apply sqrt_le_1_alt. exact U.
Qed.
Lemma ahead (p a : vec R) : 1 / 10000 <= snorm (ssub p a) <= 10 -> vx p - vx a <= -1 -> off_wake 10 1 p a (V3 (16 / 4) (0 / 4) (0 / 4)).
Proof.
  intros H X. split; [exact H|]. unfold detour. assert (N : snorm (V3 (16 / 4) (0 / 4) (0 / 4)) = 4). { apply Rle_antisym; apply (norm_between _ 4 4); try lra; unfold sdot; cbn [vx vy vz]; lra. }
  unfold sunit. rewrite N. unfold sdot, sscale, ssub in *. cbn [vx vy vz]. lra.
Qed.

(** the control point and the centre of pressure of the upper panel; the latter lies in line with both bound vortices *)
Lemma case_induced (p : vec double) (x y : Z) r z0 z1 V : at_quarters p x y 8 = true -> ring_quarters r z0 z1 = true -> at_quarters V 16 0 0 = true ->
  ((x, y) = (6, -8)%Z \/ (x, y) = (2, -16)%Z) -> ((z0, z1) = (4, 12)%Z \/ (z0, z1) = (-12, -4)%Z) -> exists W, induced 10 1 1 p r true V W.
Proof.
  intros HP HR HV HX HZ. apply at_quarters_val in HP, HV. destruct HP as [FP VP], HV as [FV VV]. unfold ring_quarters in HR. apply andb_true_iff in HR. destruct HR as [HR RD]. apply andb_true_iff in HR. destruct HR as [HR RC]. apply andb_true_iff in HR. destruct HR as [RA RB].
  apply at_quarters_val in RA, RB, RC, RD. destruct RA as [FA VA], RB as [FB VB], RC as [FC VC], RD as [FD VD].
  unfold induced. rewrite VP, VA, VB, VC, VD, VV.
  assert (K : exists w2, piece 10 1 (V3 (IZR x / 4) (IZR y / 4) (8 / 4)) (V3 (2 / 4) (-16 / 4) (IZR z0 / 4)) (V3 (2 / 4) (-16 / 4) (IZR z1 / 4)) w2).
  { destruct HX as [HX | HX]; injection HX as -> ->; [exists (biot_savart (V3 (6 / 4) (-8 / 4) (8 / 4)) (V3 (2 / 4) (-16 / 4) (IZR z0 / 4)) (V3 (2 / 4) (-16 / 4) (IZR z1 / 4)) (-1)); left|exists szero; right];
    (split; [|reflexivity]); destruct HZ as [HZ | HZ]; injection HZ as -> ->; split.
    all: try (apply (norm_between _ 0 10); [lra|lra|unfold sdot, ssub; cbn [vx vy vz]; lra]); split; try (apply (norm_between _ 0 10); [lra|lra|unfold sdot, ssub; cbn [vx vy vz]; lra]).
    all: try (apply (norm_between _ 1 100); [lra|lra|unfold sdot, ssub, scross; cbn [vx vy vz]; lra]).
    all: apply (norm_between _ 0 (3 / 100000)); [lra|lra|unfold sdot, ssub, scross; cbn [vx vy vz]; lra]. }
  assert (KS : forall z, (z = z0 \/ z = z1) -> beside 10 1 (V3 (IZR x / 4) (IZR y / 4) (8 / 4)) (V3 (10 / 4) (0 / 4) (IZR z / 4)) (V3 (2 / 4) (-16 / 4) (IZR z / 4)) /\ beside 10 1 (V3 (IZR x / 4) (IZR y / 4) (8 / 4)) (V3 (2 / 4) (-16 / 4) (IZR z / 4)) (V3 (10 / 4) (0 / 4) (IZR z / 4))
    /\ off_wake 10 1 (V3 (IZR x / 4) (IZR y / 4) (8 / 4)) (V3 (10 / 4) (0 / 4) (IZR z / 4)) (V3 (16 / 4) (0 / 4) (0 / 4))).
  { intros z Hz. destruct HX as [HX | HX]; injection HX as -> ->; destruct HZ as [HZ | HZ]; injection HZ as -> ->; destruct Hz as [-> | ->];
    (split; [split; [|split]|split; [split; [|split]|]]);
    try (apply (norm_between _ 0 10); [lra|lra|unfold sdot, ssub; cbn [vx vy vz]; lra]); try (apply (norm_between _ 1 100); [lra|lra|unfold sdot, ssub, scross; cbn [vx vy vz]; lra]);
    (apply ahead; [apply (norm_between _ (1 / 10000) 10); [lra|lra|unfold sdot, ssub; cbn [vx vy vz]; lra]|cbn [vx]; lra]). }
  destruct K as [w2 K]. destruct (KS z0 (or_introl eq_refl)) as (K1 & _ & K2). destruct (KS z1 (or_intror eq_refl)) as (_ & K3 & K4).
  eexists. split; [exact FP|]. split; [exact FA|]. split; [exact FB|]. split; [exact FC|]. split; [exact FD|].
  eexists. exists w2. eexists. split; [left; split; [exact K1|reflexivity]|]. split; [exact K|]. split; [left; split; [exact K3|reflexivity]|]. split; [exact FV|].
  split; [apply (norm_between _ (/ 10 ^ 30) (10 ^ 30)); [lra|lra|unfold sdot; cbn [vx vy vz]; split; lra]|]. split; [exact K4|]. split; [exact K2|reflexivity].
Qed.
Example C99_case : forall e, exact_at_0 e -> exists o p q vc Ws Us, @Vlm _ (Double e) mirrored 1 1 (dZ 1) (from_ahead 4) [true; true] [false; false] = Ok o /\ distances 10 1 1 /\
  nth_error (vl_ctr o) 0 = Some p /\ nth_error (vl_cp o) 0 = Some q /\ nth_error (vl_V_cp o) 0 = Some vc /\ vfin vc /\ induced_by o 10 1 1 p Ws /\ induced_by o 10 1 1 q Us.
Proof.
  intros e E.
  pose (ck := fun vars : list (pvars double) => match vars with [a; b] => (at_quarters (pv_ctr a) 6 (-8) 8 && at_quarters (pv_cp a) 2 (-16) 8 && ring_quarters (pv_ring a) 4 12 && ring_quarters (pv_ring b) (-12) (-4))%bool | _ => false end).
  pose (vf := fun l : list (vec double) => match l with v :: _ => (is_finite (vx v) && is_finite (vy v) && is_finite (vz v))%bool | [] => false end).
  assert (HC : forall vars, ck vars = true -> exists a b, vars = [a; b] /\ at_quarters (pv_ctr a) 6 (-8) 8 = true /\ at_quarters (pv_cp a) 2 (-16) 8 = true /\ ring_quarters (pv_ring a) 4 12 = true /\ ring_quarters (pv_ring b) (-12) (-4) = true).
  { unfold ck. intros [|a [|b [|c l]]] H; try discriminate H. apply andb_true_iff in H. destruct H as [H H4]. apply andb_true_iff in H. destruct H as [H H3]. apply andb_true_iff in H. destruct H as [H1 H2]. exists a, b. auto. }
  assert (HV : forall l, vf l = true -> exists v, nth_error l 0 = Some v /\ vfin v).
  { unfold vf. intros [|v l] H; [discriminate H|]. apply andb_true_iff in H. destruct H as [H H3]. apply andb_true_iff in H. destruct H as [H1 H2]. exists v. split; [reflexivity|]. split; [exact H1|split; [exact H2|exact H3]]. }
  assert (K : forall cp tws awa, (do vars <- @calculate_vlm_variables _ (Double e) mirrored [true; true] (@vlm_gor _ (Double e)) 1 1; do o <- @vlm_solve _ (Double e) mirrored 1 1 (dZ 1) [true; true] [false; false] vars (Inlet cp tws (map (fun _ => inflow 4) (map pv_cp vars)) awa);
     Ok (ck vars && vf (vl_V_cp o))%bool) = Ok true) by (intros; vm_compute; reflexivity).
  clearbody ck vf. unfold Vlm. destruct (calculate_vlm_variables _ _ _ _ _) as [vars|]; [|specialize (K [] [] []); discriminate K]. cbn [bind] in K |- *. destruct (flat_inlet e 4 (map pv_cp vars) E) as (tws & awa & ->). cbn [bind]. specialize (K (map pv_cp vars) tws awa).
  destruct (vlm_solve _ _ _ _ _ _ _ _) as [o|] eqn:EO; [|discriminate K]. cbn [bind] in K.
  assert (HO : forall A (p q : A), Ok p = Ok q -> p = q) by (intros A p q [= Q]; exact Q). apply HO in K. apply andb_true_iff in K. destruct K as [K1 K2]. destruct (HC _ K1) as (a & b & -> & C1 & C2 & C3 & C4). destruct (HV _ K2) as (vc & V1 & V2).
  destruct (solve_rows _ _ _ _ _ _ _ _ _ _ EO) as (E1 & E2 & E3 & _). clear EO K1 K2 HC HV.
  assert (Q : at_quarters (inflow 4) 16 0 0 = true) by (vm_compute; reflexivity).
  assert (W : forall p x y, at_quarters p x y 8 = true -> ((x, y) = (6, -8)%Z \/ (x, y) = (2, -16)%Z) -> exists Ws, induced_by o 10 1 1 p Ws).
  { intros p x y HP HX. destruct (case_induced p x y _ _ _ _ HP C3 Q HX (or_introl eq_refl)) as [W1 I1]. destruct (case_induced p x y _ _ _ _ HP C4 Q HX (or_intror eq_refl)) as [W2 I2].
    exists [W1; W2]. unfold induced_by, vl_rings. rewrite E1, E2, E3. cbn [map in_V]. split; [reflexivity|]. intros [|[|j]] r t V W'; cbn [nth_error]; intros H1 H2 H3 H4.
    - injection H1 as <-. injection H2 as <-. injection H4 as <-. replace V with (inflow 4); [exact I1|]. assert (HS : forall A (x y : A), Some x = Some y -> x = y) by (intros A x' y' [= R]; exact R). exact (HS _ _ _ H3).
    - injection H1 as <-. injection H2 as <-. injection H4 as <-. replace V with (inflow 4); [exact I2|]. assert (HS : forall A (x y : A), Some x = Some y -> x = y) by (intros A x' y' [= R]; exact R). exact (HS _ _ _ H3).
    - destruct j; discriminate. }
  destruct (W _ _ _ C1 (or_introl eq_refl)) as [Ws I1]. destruct (W _ _ _ C2 (or_intror eq_refl)) as [Us I2].
  exists o, (pv_ctr a), (pv_cp a), vc, Ws, Us. split; [reflexivity|]. split; [unfold distances; lra|]. unfold vl_ctr, vl_cp. rewrite E2. split; [reflexivity|]. split; [reflexivity|]. split; [exact V1|]. split; [exact V2|]. split; [exact I1|exact I2].
Qed.

Print Assumptions C99_coefficient.
Print Assumptions C99_no_flux.
Print Assumptions C99_velocity.
