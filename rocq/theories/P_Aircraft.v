(** A wing on its own (runner/aircraft.py): C56. *)

From Coq Require Import String ZArith Reals List Bool Lra Psatz Lia Arith.
From Verif Require Import Num PyBase RNum Spec M_Rotations M_Mesher M_Panels M_Velocity M_Solve M_Coefs M_Forces M_Winds M_Vlm M_Runner
  L_List L_Rot L_Csys L_Vel L_Vel2 L_Solve L_Mesh L_Lattice L_Vlm L_Vlm2 L_Demo P_Rot P_Mesh P_Lattice P_Vlm.
Import ListNotations.
Open Scope R_scope.

(** ** One run, index by index; as in L_Vlm but with one inflow and any sense of the circulation *)
Section Wing.
Context (K ns : nat) (rho gor : R) (le : list bool) (t : nat -> bool) (v : nat -> pvars R) (V : vec R).
Definition winfl (p : vec R) (l : nat) : vec R := influence gor p (pv_ring (v l)) (t l) V.
Definition wwash (g : nat -> R) (p : vec R) : vec R := vsumn K (fun l => sscale (g l) (winfl p l)).
Definition wcoef (k l : nat) : R := sdot (winfl (pv_ctr (v k)) l) (pv_n (v k)).
Definition wforce (g net : nat -> R) (k : nat) : vec R :=
  sscale rho (scross (sadd V (wwash g (pv_cp (v k)))) (sscale (net k) (pv_span (v k)))).
Lemma wcoefs_tab (c : nat -> vec R) :
  calc_velocity_coefs (tab K (fun _ => V)) (tab K c) (tab K (fun l => pv_ring (v l))) (tab K (fun l => pv_n (v l))) (tab K t) gor
  = (matrix K (fun k l => sdot (winfl (c k) l) (pv_n (v k))), tab K (fun k => tab K (winfl (c k)))).
Proof.
  unfold calc_velocity_coefs. cbv zeta.
  assert (E : map (influence_row gor (tab K (fun l => pv_ring (v l))) (tab K t) (tab K (fun _ => V))) (tab K c) = tab K (fun k => tab K (winfl (c k)))).
  { rewrite map_tab. apply tab_ext. intros k _. unfold influence_row. rewrite !combine_tab, map_tab. reflexivity. }
  rewrite E, zipWith_tab. f_equal. unfold matrix. apply tab_ext. intros k _. rewrite map_tab. reflexivity.
Qed.
Lemma wapp_fs_tab (c : nat -> vec R) g : calculate_app_fs (tab K (fun _ => V)) (tab K (fun k => tab K (winfl (c k)))) (tab K g)
  = (tab K (fun k => wwash g (c k)), tab K (fun k => sadd V (wwash g (c k)))).
Proof.
  unfold calculate_app_fs, calc_induced_velocity. cbv zeta. rewrite map_tab.
  assert (E : tab K (fun k => induced_at (tab K (winfl (c k))) (tab K g)) = tab K (fun k => wwash g (c k))).
  { apply tab_ext. intros k _. apply induced_tab. }
  rewrite E, zipWith_tab. reflexivity.
Qed.
Lemma wwash_dot g k : sdot (wwash g (pv_ctr (v k))) (pv_n (v k)) = sumn K (fun l => wcoef k l * g l).
Proof. unfold wwash. rewrite vsumn_dot. apply sumn_ext. intros l L. unfold wcoef. destruct (winfl _ l), (pv_n (v k)); svec; ring. Qed.
End Wing.

Definition wvars (gor : R) (ps : list (panel R)) (k : nat) : pvars R :=
  let p := nth k ps (Panel szero szero szero szero) in panel_vars gor p (aft_A p) (aft_D p).
(** corners of the wing *)
Definition wing_at (chord half AoA : R) (x z : R) : vec R := srot (V3 0 0 1) (rad (- AoA)) (V3 (x * chord) 0 (z * half)).

Lemma wing_corner chord half AoA x z : mapply (rotation_matrix (V3 (nZ 0) (nZ 0) (nZ 1)) (deg2rad (nopp AoA))) (V3 (x * chord) 0 (z * half)) = wing_at chord half AoA x z.
Proof.
  assert (N : V3 0 0 1 <> szero) by (intros Z; injection Z; lra). change (V3 (nZ 0) (nZ 0) (nZ 1)) with (V3 0 0 1).
  rewrite (proj1 (C01_rotation_matrix (V3 0 0 1) (deg2rad (nopp AoA)) N)). rewrite deg2rad_s. unfold wing_at.
  replace (sunit (V3 0 0 1)) with (V3 0 0 1); [reflexivity|]. unfold sunit. rewrite (snorm_val 0 0 1 1) by lra. svec. vec_eq; field.
Qed.

Lemma aircraft_inv chord half AoA ns nc V rho gor a : (1 <= nc)%nat -> (1 <= ns)%nat -> Aircraft chord half AoA ns nc V rho gor = Ok a ->
  exists te le g net,
    make_panels_from_le_te_points (wing_at chord half AoA 0 (-1)) (wing_at chord half AoA 1 (-1)) (wing_at chord half AoA 0 1) (wing_at chord half AoA 1 1) nc ns = Ok (ac_panels a, te, le) /\
    let K := length (ac_panels a) in let t := fun k => nth k te false in
    let v := wvars gor (ac_panels a) in
    ac_vars a = tab K v /\ ac_gamma a = tab K g /\
    (forall k, (k < K)%nat -> sumn K (fun l => wcoef gor t v V k l * g l) = - sdot V (pv_n (v k))) /\ regular K (wcoef gor t v V) /\
    (forall k, (k < K)%nat -> net_circulation (tab K g) le ns k = Ok (net k)) /\
    ac_V_ctrl a = tab K (fun k => sadd V (wwash K gor t v V g (pv_ctr (v k)))) /\
    ac_force a = tab K (wforce K rho gor t v V g net) /\
    ac_CL a = vz (ssum (ac_force a)) / (1/2 * rho * sdot V V * (2 * half * chord)) /\ ac_CD a = vx (ssum (ac_force a)) / (1/2 * rho * sdot V V * (2 * half * chord)) /\
    ac_Cxyz a = sscale (/ (1/2 * rho * sdot V V * (2 * half * chord))) (ssum (ac_force a)).
Proof.
  intros NC NS E. unfold Aircraft in E. cbv zeta in E.
  replace (V3 (nZ 0) (nZ 0) half) with (V3 (0 * chord) 0 (1 * half)) in E by (rnum; vec_eq; ring).
  replace (V3 (nZ 0) (nZ 0) (nopp half)) with (V3 (0 * chord) 0 (-1 * half)) in E by (rnum; vec_eq; ring).
  replace (V3 chord (nZ 0) half) with (V3 (1 * chord) 0 (1 * half)) in E by (rnum; vec_eq; ring).
  replace (V3 chord (nZ 0) (nopp half)) with (V3 (1 * chord) 0 (-1 * half)) in E by (rnum; vec_eq; ring).
  rewrite !wing_corner in E.
  destruct (get_CL_CD_free_wing _ _) as [CLt CDt]. destruct (C16_wing_mesh (wing_at chord half AoA 0 (-1)) (wing_at chord half AoA 1 (-1)) (wing_at chord half AoA 0 1) (wing_at chord half AoA 1 1) nc ns NC NS)
    as (ps & te & le & MP & LP & P & _). cbv zeta in P. rewrite MP in E. unfold bind at 1 in E.
  set (K := length ps). set (t := fun k => nth k te false). set (v := wvars gor ps).
  assert (LT : length te = K).
  { pose proof (point_mesh_rect (discrete_segment (wing_at chord half AoA 0 (-1)) (wing_at chord half AoA 1 (-1)) nc) (discrete_segment (wing_at chord half AoA 0 1) (wing_at chord half AoA 1 1) nc) ns) as Q.
    rewrite !segment_length in Q. destruct (panels_spec _ nc ns (Q eq_refl)) as (ps' & te' & le' & E' & L1' & L2' & _).
    unfold make_panels_from_le_te_points in MP. rewrite MP in E'. injection E' as _ ET _. rewrite ET, L2'. symmetry. exact LP. }
  assert (EV : map (fun _ : panel R => V) ps = tab K (fun _ => V)) by (rewrite (list_tab ps K (Panel szero szero szero szero) eq_refl), map_tab; reflexivity).
  assert (EP : simple_vlm_variables ps gor = tab K v) by (unfold simple_vlm_variables; rewrite (list_tab ps K (Panel szero szero szero szero) eq_refl) at 1; rewrite map_tab; reflexivity).
  assert (ET : te = tab K t) by (apply list_tab; assumption).
  rewrite EV, EP, ET, !map_tab, wcoefs_tab in E. unfold calculate_RHS in E. rewrite zipWith_tab in E.
  assert (RH : tab K (fun k => vdot (vopp V) (pv_n (v k))) = tab K (fun k => - sdot V (pv_n (v k)))).
  { apply tab_ext. intros k _. destruct V as [x y z], (pv_n (v k)) as [x' y' z']. vnum. svec. ring. }
  rewrite RH in E. change (fun k l => sdot (winfl gor t v V (pv_ctr (v k)) l) (pv_n (v k))) with (wcoef gor t v V) in E.
  destruct (solve_eq (matrix K (wcoef gor t v V)) _) as [gamma|] eqn:SE; [|discriminate]. unfold bind at 1 in E.
  destruct (solve_tab _ _ _ _ SE) as (g & -> & EQ & RG). rewrite wapp_fs_tab in E.
  destruct (is_no_flux_BC_satisfied _ _ _) as [b|]; [|discriminate]. unfold bind at 1 in E. destruct (guard b AssertionError) as [u|]; [|discriminate]. unfold bind at 1 in E.
  unfold calc_force_wrapper at 1 in E. rewrite wcoefs_tab, wapp_fs_tab in E.
  change (negb (existsb (String.eqb "force_xyz") ["lift"; "drag"; "force_xyz"]%string)) with false in E.
  cbv iota in E. change (String.eqb "force_xyz" "lift") with false in E. change (String.eqb "force_xyz" "drag") with false in E. cbv iota in E.
  destruct (panel_forces rho _ _ (tab K g) le ns) as [f|] eqn:PF; [|discriminate]. unfold bind at 1 2 in E.
  destruct (panel_forces_inv K ns rho le v _ _ _ PF) as [net N]. rewrite (panel_forces_tab K ns rho le v _ _ net N) in PF. injection PF as <-.
  match type of E with context [calc_pressure ?f _ _] => change f with (tab K (wforce K rho gor t v V g net)) in E end.
  unfold get_vlm_CL_CD_free_wing, get_vlm_Cxyz in E. cbv zeta in E. rewrite !vsum_ssum in E. apply (f_equal (fun r => match r with Ok x => x | Raise _ => a end)) in E. cbv beta iota in E. subst a.
  exists te, le, g, net. cbn [ac_panels ac_vars ac_gamma ac_V_ctrl ac_force ac_CL ac_CD ac_Cxyz]. fold K t v.
  split; [exact MP|]. cbv zeta. split; [reflexivity|]. split; [reflexivity|]. split; [exact EQ|]. split; [exact RG|]. split; [exact N|]. split; [reflexivity|]. split; [reflexivity|].
  assert (Q : nmul (nmul (nmul (ndec 5 1) rho) (nmul (vnorm V) (vnorm V))) (nmul (nmul (nZ 2) half) chord) = 1/2 * rho * sdot V V * (2 * half * chord)).
  { rewrite vnorm_s, ndec_R. rnum. rewrite <- snorm_sq. change (10 ^ 1)%Z with 10%Z. field. }
  rewrite Q. split; [reflexivity|]. split; [reflexivity|]. assert (X : forall (f : vec R) q, vdivs f q = sscale (/ q) f) by (intros [x y z] q; vnum; svec; unfold Rdiv; vec_eq; ring). rewrite X. reflexivity.
Qed.

(** ** Symmetry of the wing about the plane z = 0 *)
Definition across (ns k : nat) : nat := (k / ns * ns + (ns - 1 - k mod ns))%nat.
Lemma across_at ns i j : (j < ns)%nat -> across ns (i * ns + j) = (i * ns + (ns - 1 - j))%nat.
Proof. intros J. unfold across. rewrite (Nat.add_comm (i * ns) j), Nat.div_add, Nat.div_small, Nat.mod_add, Nat.mod_small by lia. reflexivity. Qed.
Lemma across_ex nc ns k : (k < nc * ns)%nat -> exists i j, (i < nc)%nat /\ (j < ns)%nat /\ k = (i * ns + j)%nat.
Proof.
  intros H. assert (ns <> 0)%nat by nia. exists (k / ns)%nat, (k mod ns)%nat. pose proof (Nat.div_mod k ns ltac:(assumption)). pose proof (Nat.mod_upper_bound k ns ltac:(assumption)).
  split; [apply Nat.div_lt_upper_bound; nia|]. split; [assumption|]. lia.
Qed.
Lemma wing_mirror chord half AoA x z : wing_at chord half AoA x (- z) = smirror (wing_at chord half AoA x z).
Proof. unfold wing_at, srot. svec. vec_eq; ring. Qed.
Lemma wing_corners chord half AoA nc ns i j : (1 <= ns)%nat -> (j <= ns)%nat ->
  let corner i j := sbilinear (wing_at chord half AoA 0 (-1)) (wing_at chord half AoA 1 (-1)) (wing_at chord half AoA 0 1) (wing_at chord half AoA 1 1) (INR i / INR nc) (INR j / INR ns) in
  corner i (ns - j)%nat = smirror (corner i j).
Proof.
  intros NS J corner. unfold corner. rewrite minus_INR by assumption. assert (N : INR ns <> 0) by (apply not_0_INR; lia).
  replace (-1) with (- (1)) by ring. rewrite !wing_mirror. generalize (wing_at chord half AoA 0 1) (wing_at chord half AoA 1 1) (INR i / INR nc). intros [a b c] [a' b' c'] s.
  unfold sbilinear, slerp. svec. vec_eq; field; assumption.
Qed.
Theorem C56_symmetry : forall chord half AoA ns nc V rho gor a, (1 <= nc)%nat -> (1 <= ns)%nat -> vz V = 0 -> Aircraft chord half AoA ns nc V rho gor = Ok a ->
  length (ac_panels a) = (nc * ns)%nat /\ length (ac_force a) = (nc * ns)%nat /\
  forall i j, (i < nc)%nat -> (j < ns)%nat -> exists p g f,
    nth_error (ac_panels a) (i * ns + j) = Some p /\ nth_error (ac_panels a) (i * ns + (ns - 1 - j)) = Some (mirrored p) /\
    nth_error (ac_gamma a) (i * ns + j) = Some g /\ nth_error (ac_gamma a) (i * ns + (ns - 1 - j)) = Some g /\
    nth_error (ac_force a) (i * ns + j) = Some f /\ nth_error (ac_force a) (i * ns + (ns - 1 - j)) = Some (smirror f).
Proof.
  intros chord half AoA ns nc V rho gor a NC NS HV E.
  destruct (aircraft_inv _ _ _ _ _ _ _ _ _ NC NS E) as (te & le & g & net & MP & EVS & EG & EQ & RG & NT & _ & EF & _).
  set (K := length (ac_panels a)) in *. set (t := fun k => nth k te false) in *. set (v := wvars gor (ac_panels a)) in *.
  destruct (C16_wing_mesh (wing_at chord half AoA 0 (-1)) (wing_at chord half AoA 1 (-1)) (wing_at chord half AoA 0 1) (wing_at chord half AoA 1 1) nc ns NC NS)
    as (ps & te' & le' & MP' & LP & P & _). cbv zeta in P. rewrite MP in MP'. injection MP' as EP ET EL. rewrite <- EP in LP, P. rewrite <- ET, <- EL in P. clear EP ET EL ps te' le'.
  assert (FG : flags nc ns 1 te le).
  { pose proof (point_mesh_rect (discrete_segment (wing_at chord half AoA 0 (-1)) (wing_at chord half AoA 1 (-1)) nc) (discrete_segment (wing_at chord half AoA 0 1) (wing_at chord half AoA 1 1) nc) ns) as Q.
    rewrite !segment_length in Q. destruct (panels_spec _ nc ns (Q eq_refl)) as (ps' & te' & le' & E' & L1' & L2' & L3' & _).
    unfold make_panels_from_le_te_points in MP. rewrite MP in E'. injection E' as _ ET EL.
    constructor; [rewrite ET, L2'; lia | rewrite EL, L3'; lia | |]; intros g0 i j G I J; replace (cell nc ns g0 i j) with (i * ns + j)%nat by (unfold cell; nia); apply P; assumption. }
  set (s := across ns).
  assert (SL : forall k, (k < K)%nat -> (s k < K)%nat).
  { intros k Hk. unfold K in *. rewrite LP in *. destruct (across_ex _ _ _ Hk) as (i & j & I & J & ->). unfold s. rewrite across_at by assumption. nia. }
  assert (SS : forall k, (k < K)%nat -> s (s k) = k).
  { intros k Hk. unfold K in *. rewrite LP in *. destruct (across_ex _ _ _ Hk) as (i & j & I & J & ->). unfold s. rewrite !across_at by lia. lia. }
  assert (PM : forall k p, nth_error (ac_panels a) k = Some p -> nth_error (ac_panels a) (s k) = Some (mirrored p)).
  { intros k p HP. pose proof (nth_error_Some_lt _ _ _ HP) as Hk. rewrite LP in Hk. destruct (across_ex _ _ _ Hk) as (i & j & I & J & ->). unfold s. rewrite across_at by assumption.
    destruct (P i j I J) as [P1 _]. destruct (P i (ns - 1 - j)%nat I ltac:(lia)) as [P2 _]. match type of P1 with _ = Some ?x => assert (EP : p = x) by congruence end. subst p. rewrite P2. unfold mirrored. cbn [pp1 pp2 pp3 pp4].
    replace (S (ns - 1 - j)) with (ns - j)%nat by lia. replace (ns - 1 - j)%nat with (ns - S j)%nat by lia.
    rewrite <- !(wing_corners chord half AoA nc ns) by lia. cbv beta. reflexivity. }
  assert (MV : forall k, (k < K)%nat -> mirror_vars (v k) (v (s k))).
  { intros k Hk. destruct (nth_error_ex (ac_panels a) k Hk) as [p HP]. unfold v, wvars. cbv zeta. rewrite (nth_of_error _ _ _ _ HP), (nth_of_error _ _ _ _ (PM _ _ HP)), aft_A_mirrored, aft_D_mirrored. apply panel_vars_mirror. }
  assert (VM : smirror V = V) by (destruct V as [x y z]; cbn [vz] in HV; subst z; svec; vec_eq; ring).
  assert (TS : forall k, (k < K)%nat -> t (s k) = t k).
  { intros k Hk. unfold K in Hk. rewrite LP in Hk. destruct (across_ex _ _ _ Hk) as (i & j & I & J & ->). unfold s. rewrite across_at by assumption. unfold t.
    destruct (P i j I J) as (_ & T1 & _). destruct (P i (ns - 1 - j)%nat I ltac:(lia)) as (_ & T2 & _). rewrite (nth_of_error _ _ _ _ T1), (nth_of_error _ _ _ _ T2). reflexivity. }
  assert (IN : forall p l, (l < K)%nat -> winfl gor t v V (smirror p) (s l) = smirror (winfl gor t v V p l)).
  { intros p l L. unfold winfl. rewrite (mv_ring _ _ (MV l L)), TS by assumption. rewrite <- VM at 1. apply influence_mirror. }
  assert (AC : forall x y, (x < K)%nat -> (y < K)%nat -> wcoef gor t v V (s x) (s y) = wcoef gor t v V x y).
  { intros x y A B. unfold wcoef. rewrite (mv_ctr _ _ (MV x A)), (mv_n _ _ (MV x A)), IN by assumption. apply smirror_dot. }
  assert (GS : forall k, (k < K)%nat -> g (s k) = g k).
  { intros k Hk. enough (X : g (s k) - g k = 0) by lra. revert k Hk. apply RG. intros x A.
    transitivity (sumn K (fun l => wcoef gor t v V x l * g (s l)) + -1 * sumn K (fun l => wcoef gor t v V x l * g l)).
    { rewrite <- sumn_scale, <- sumn_add. apply sumn_ext. intros; ring. }
    rewrite (EQ x A). transitivity (sumn K (fun l => wcoef gor t v V (s x) (s l) * g (s l)) + -1 * - sdot V (pv_n (v x))).
    { f_equal. apply sumn_ext. intros l L. rewrite AC by assumption. reflexivity. }
    rewrite (sumn_sigma K s (fun l => wcoef gor t v V (s x) l * g l) SL SS), (EQ (s x) (SL x A)), (mv_n _ _ (MV x A)). rewrite <- VM at 1. rewrite smirror_dot. ring. }
  assert (WA : forall p, wwash K gor t v V g (smirror p) = smirror (wwash K gor t v V g p)).
  { intros p. unfold wwash. rewrite (vsumn_map smirror) by (try apply smirror_add; svec; vec_eq; ring).
    rewrite <- (vsumn_sigma K s) by assumption. apply vsumn_ext. intros l L. rewrite IN, GS by assumption. symmetry. apply smirror_scale. }
  assert (NS' : forall k, (k < K)%nat -> net (s k) = net k).
  { intros k Hk. pose proof (NT k Hk) as N1. pose proof (NT (s k) (SL k Hk)) as N2.
    assert (Hk' := Hk). unfold K in Hk'. rewrite LP in Hk'. destruct (across_ex _ _ _ Hk') as (i & j & I0 & J0 & ->).
    unfold s in N2 |- *. rewrite across_at in N2 |- * by assumption.
    assert (J1 : (ns - 1 - j < ns)%nat) by lia. assert (LG : length (tab K g) = (1 * (nc * ns))%nat) by (rewrite tab_length; unfold K; lia).
    assert (CE : forall i j, cell nc ns 0 i j = (i * ns + j)%nat) by reflexivity.
    destruct (net_circulation_spec nc ns 1 te le (tab K g) 0 i j FG LG Nat.lt_0_1 I0 J0) as (x & X1 & X2 & X3).
    destruct (net_circulation_spec nc ns 1 te le (tab K g) 0 i (ns - 1 - j) FG LG Nat.lt_0_1 I0 J1) as (y & Y1 & Y2 & Y3). rewrite !CE in *.
    destruct (tab_some _ _ _ _ X1) as [BX ->]. destruct (tab_some _ _ _ _ Y1) as [BY ->].
    assert (C0 : g (i * ns + (ns - 1 - j))%nat = g (i * ns + j)%nat). { rewrite <- (GS _ BX). unfold s. rewrite across_at by assumption. reflexivity. }
    destruct i as [|i].
    - specialize (X2 eq_refl). specialize (Y2 eq_refl). congruence.
    - destruct (X3 i eq_refl) as (x' & X4 & X5). destruct (Y3 i eq_refl) as (y' & Y4 & Y5). rewrite CE in *.
      destruct (tab_some _ _ _ _ X4) as [BX' ->]. destruct (tab_some _ _ _ _ Y4) as [BY' ->].
      assert (C1 : g (i * ns + (ns - 1 - j))%nat = g (i * ns + j)%nat). { rewrite <- (GS _ BX'). unfold s. rewrite across_at by lia. reflexivity. }
      congruence. }
  assert (CR : forall u c x, scross (smirror u) (sscale c (sopp (smirror x))) = smirror (scross u (sscale c x))).
  { intros [? ? ?] c [? ? ?]. svec. vec_eq; ring. }
  assert (FO : forall k, (k < K)%nat -> wforce K rho gor t v V g net (s k) = smirror (wforce K rho gor t v V g net k)).
  { intros k A. unfold wforce. rewrite (mv_cp _ _ (MV k A)), (mv_span _ _ (MV k A)), WA, NS' by assumption. rewrite <- VM at 1. rewrite <- smirror_add, CR, smirror_scale. reflexivity. }
  split; [exact LP|]. split; [rewrite EF, tab_length; exact LP|]. intros i j I J.
  assert (KK : (i * ns + j < K)%nat) by (unfold K; rewrite LP; nia). rewrite <- (across_at ns i j J). fold s. set (k := (i * ns + j)%nat) in *. pose proof (SL k KK) as KK'.
  destruct (nth_error_ex (ac_panels a) k KK) as [p HP]. exists p, (g k), (wforce K rho gor t v V g net k).
  split; [exact HP|]. split; [apply PM; exact HP|]. rewrite EG, EF, !tab_nth_error, GS, FO by assumption. auto.
Qed.
Lemma rsum_opp_self x : x = - x -> x = 0.
Proof. lra. Qed.
Theorem C56_no_lift : forall chord half AoA ns nc V rho gor a, (1 <= nc)%nat -> (1 <= ns)%nat -> vz V = 0 -> Aircraft chord half AoA ns nc V rho gor = Ok a ->
  vz (ssum (ac_force a)) = 0 /\ ac_CL a = 0 /\
  let q := 1/2 * rho * sdot V V * (2 * half * chord) in
  ac_CD a = vx (ssum (ac_force a)) / q /\ (q <> 0 -> sscale q (ac_Cxyz a) = ssum (ac_force a)) /\ vz (ac_Cxyz a) = 0.
Proof.
  intros chord half AoA ns nc V rho gor a NC NS HV E.
  destruct (C56_symmetry _ _ _ _ _ _ _ _ _ NC NS HV E) as (LP & LF & SY).
  destruct (aircraft_inv _ _ _ _ _ _ _ _ _ NC NS E) as (te & le & g & net & _ & _ & _ & _ & _ & _ & _ & _ & CL & CD & CX).
  assert (Z : vz (ssum (ac_force a)) = 0).
  { rewrite (list_tab (ac_force a) (nc * ns) szero LF). fold (vsumn (nc * ns) (fun k => nth k (ac_force a) szero)). set (f := fun k => nth k (ac_force a) szero).
    apply rsum_opp_self. rewrite <- (vsumn_sigma (nc * ns) (across ns) f) at 1.
    - replace (- vz (vsumn (nc * ns) f)) with (vz (smirror (vsumn (nc * ns) f))) by (destruct (vsumn _ f); reflexivity).
      rewrite (vsumn_map smirror) by (try apply smirror_add; svec; vec_eq; ring). f_equal. apply vsumn_ext. intros k Hk.
      destruct (across_ex _ _ _ Hk) as (i & j & I & J & ->). rewrite across_at by assumption. destruct (SY i j I J) as (p & g0 & f0 & _ & _ & _ & _ & F1 & F2).
      unfold f. rewrite (nth_of_error _ _ _ _ F1), (nth_of_error _ _ _ _ F2). reflexivity.
    - intros k Hk. destruct (across_ex _ _ _ Hk) as (i & j & I & J & ->). rewrite across_at by assumption. nia.
    - intros k Hk. destruct (across_ex _ _ _ Hk) as (i & j & I & J & ->). rewrite !across_at by lia. lia. }
  split; [exact Z|]. split; [rewrite CL, Z; unfold Rdiv; ring|]. cbv zeta. split; [exact CD|]. rewrite CX. split.
  - intros Q. set (q := 1/2 * rho * sdot V V * (2 * half * chord)) in *. clearbody q. destruct (ssum (ac_force a)). svec. vec_eq; field; assumption.
  - revert Z. generalize (ssum (ac_force a)). intros [x y z] Z. cbn [vz] in Z. subst z. svec. ring.
Qed.

(** the run succeeds when the system is regular and no panel is degenerate *)
Lemma aircraft_make chord half AoA V rho gor ps te le ns nc g net :
  make_panels_from_le_te_points (wing_at chord half AoA 0 (-1)) (wing_at chord half AoA 1 (-1)) (wing_at chord half AoA 0 1) (wing_at chord half AoA 1 1) nc ns = Ok (ps, te, le) ->
  let K := length ps in let t := fun k => nth k te false in let v := wvars gor ps in length te = K ->
  (forall k, (k < K)%nat -> sumn K (fun l => wcoef gor t v V k l * g l) = - sdot V (pv_n (v k))) -> regular K (wcoef gor t v V) ->
  (forall a, In a (get_panels_area ps) -> ndec 1 14 <= a) -> (forall k, (k < K)%nat -> net_circulation (tab K g) le ns k = Ok (net k)) ->
  exists a, Aircraft chord half AoA ns nc V rho gor = Ok a /\ ac_panels a = ps.
Proof.
  intros MP K t v LT EQ RG AR NT. unfold Aircraft. cbv zeta.
  replace (V3 (nZ 0) (nZ 0) half) with (V3 (0 * chord) 0 (1 * half)) by (rnum; vec_eq; ring).
  replace (V3 (nZ 0) (nZ 0) (nopp half)) with (V3 (0 * chord) 0 (-1 * half)) by (rnum; vec_eq; ring).
  replace (V3 chord (nZ 0) half) with (V3 (1 * chord) 0 (1 * half)) by (rnum; vec_eq; ring).
  replace (V3 chord (nZ 0) (nopp half)) with (V3 (1 * chord) 0 (-1 * half)) by (rnum; vec_eq; ring).
  rewrite !wing_corner. destruct (get_CL_CD_free_wing _ _) as [CLt CDt]. rewrite MP. unfold bind at 1.
  assert (EV : map (fun _ : panel R => V) ps = tab K (fun _ => V)) by (rewrite (list_tab ps K (Panel szero szero szero szero) eq_refl), map_tab; reflexivity).
  assert (EP : simple_vlm_variables ps gor = tab K v) by (unfold simple_vlm_variables; rewrite (list_tab ps K (Panel szero szero szero szero) eq_refl) at 1; rewrite map_tab; reflexivity).
  assert (ET : te = tab K t) by (apply list_tab; assumption).
  rewrite EV, EP, ET, !map_tab, wcoefs_tab. unfold calculate_RHS. rewrite zipWith_tab.
  assert (RH : tab K (fun k => vdot (vopp V) (pv_n (v k))) = tab K (fun k => - sdot V (pv_n (v k)))).
  { apply tab_ext. intros k _. destruct V as [x y z], (pv_n (v k)) as [x' y' z']. vnum. svec. ring. }
  rewrite RH. change (fun k l => sdot (winfl gor t v V (pv_ctr (v k)) l) (pv_n (v k))) with (wcoef gor t v V).
  rewrite (solve_tab_make K (wcoef gor t v V) _ g EQ RG). unfold bind at 1. rewrite wapp_fs_tab.
  assert (NF : is_no_flux_BC_satisfied (tab K (fun k => sadd V (wwash K gor t v V g (pv_ctr (v k))))) (get_panels_area ps) (tab K (fun k => pv_n (v k))) = Ok true).
  { unfold is_no_flux_BC_satisfied. rewrite zipWith_tab. cbv zeta.
    replace (existsb _ (get_panels_area ps)) with false.
    2:{ symmetry. apply not_true_is_false. intros X. apply existsb_exists in X. destruct X as (a & I & X).
        change (Rltb a (ndec 1 14) = true) in X. apply Rltb_true in X. pose proof (AR a I). lra. }
    replace (existsb _ (tab K _)) with false; [reflexivity|].
    symmetry. apply not_true_is_false. intros X. apply existsb_exists in X. destruct X as (a & I & X).
    apply in_tab in I. destruct I as (k & Hk & ->).
    assert (Z : vdot (vopp (sadd V (wwash K gor t v V g (pv_ctr (v k))))) (pv_n (v k)) = 0).
    { pose proof (EQ k Hk) as Q. rewrite <- wwash_dot in Q. revert Q.
      generalize (wwash K gor t v V g (pv_ctr (v k))). intros [a b c]. destruct V as [d e f], (pv_n (v k)) as [x y z]. vnum. svec. lra. }
    rewrite Z in X. change (Rltb (ndec 1 12) (Rabs 0) || false = true)%bool in X. rewrite orb_false_r, Rabs_R0 in X. apply Rltb_true in X.
    rewrite ndec_R in X. change (10 ^ 12)%Z with 1000000000000%Z in X. lra. }
  rewrite NF. unfold bind at 1. unfold guard at 1. unfold bind at 1.
  unfold calc_force_wrapper. rewrite wcoefs_tab, wapp_fs_tab.
  change (negb (existsb (String.eqb "force_xyz") ["lift"; "drag"; "force_xyz"]%string)) with false. cbv iota.
  change (String.eqb "force_xyz" "lift") with false. change (String.eqb "force_xyz" "drag") with false. cbv iota.
  rewrite (panel_forces_tab K ns rho le v _ _ net NT). unfold bind. destruct (get_vlm_CL_CD_free_wing _ _ _ _) as [CL CD]. eexists. split; reflexivity.
Qed.

(** ** A concrete wing: chord 48, half span 7, angle of attack arctan(3/4), wind 5 along x *)
Definition demo_aoa : R := atan (3/4) * 180 / PI.
Lemma demo_aoa_cs : cos (rad (- demo_aoa)) = 4/5 /\ sin (rad (- demo_aoa)) = - (3/5).
Proof.
  assert (E : rad (- demo_aoa) = - atan (3/4)) by (unfold rad, demo_aoa; field; apply PI_neq0). rewrite E, cos_neg, sin_neg, cos_atan, sin_atan.
  replace (1 + (3/4)²) with ((5/4) * (5/4)) by (unfold Rsqr; field). rewrite sqrt_square by lra. split; field.
Qed.
Definition wing_panel : panel R := Panel (V3 (192/5) (-144/5) (-7)) (V3 0 0 (-7)) (V3 0 0 7) (V3 (192/5) (-144/5) 7).
Lemma wing_points x z : wing_at 48 7 demo_aoa x z = V3 (x * (192/5)) (x * (-144/5)) (z * 7).
Proof. destruct demo_aoa_cs as [C S]. unfold wing_at, srot. rewrite C, S. svec. vec_eq; field. Qed.
Lemma wing_one : make_panels_from_le_te_points (wing_at 48 7 demo_aoa 0 (-1)) (wing_at 48 7 demo_aoa 1 (-1)) (wing_at 48 7 demo_aoa 0 1) (wing_at 48 7 demo_aoa 1 1) 1 1 = Ok ([wing_panel], [true], [false]).
Proof.
  rewrite !wing_points.
  destruct (C16_wing_mesh (V3 (0 * (192/5)) (0 * (-144/5)) (-1 * 7)) (V3 (1 * (192/5)) (1 * (-144/5)) (-1 * 7)) (V3 (0 * (192/5)) (0 * (-144/5)) (1 * 7)) (V3 (1 * (192/5)) (1 * (-144/5)) (1 * 7)) 1 1) as (ps & te & le & E & L & P & C1 & C2 & C3 & C4); [lia..|].
  pose proof (point_mesh_rect (discrete_segment (V3 (0 * (192/5)) (0 * (-144/5)) (-1 * 7)) (V3 (1 * (192/5)) (1 * (-144/5)) (-1 * 7)) 1) (discrete_segment (V3 (0 * (192/5)) (0 * (-144/5)) (1 * 7)) (V3 (1 * (192/5)) (1 * (-144/5)) (1 * 7)) 1) 1) as Q.
  rewrite !segment_length in Q. destruct (panels_spec _ 1 1 (Q eq_refl)) as (ps' & te' & le' & E' & _ & L2 & L3 & _). unfold make_panels_from_le_te_points in E. rewrite E in E'. injection E' as _ <- <-.
  unfold make_panels_from_le_te_points. rewrite E. destruct (P 0%nat 0%nat ltac:(lia) ltac:(lia)) as (P1 & P2 & P3). cbv zeta in P1. rewrite C1, C2, C3, C4 in P1. cbv in L, L2, L3.
  destruct ps as [|p [|]]; try discriminate. destruct te as [|b [|]]; try discriminate. destruct le as [|b' [|]]; try discriminate. simpl in P1, P2, P3. injection P1 as ->. injection P2 as ->. injection P3 as ->.
  f_equal. f_equal. f_equal. f_equal. unfold wing_panel. f_equal; vec_eq; field.
Qed.
Lemma wing_vars_at : let v := wvars 1 [wing_panel] 0%nat in
  pv_n v = V3 (3/5) (4/5) 0 /\ pv_ctr v = V3 (144/5) (-108/5) 0 /\ pv_cp v = V3 (48/5) (-36/5) 0 /\
  pv_ring v = Ring (V3 48 (-36) (-7)) (V3 (48/5) (-36/5) (-7)) (V3 (48/5) (-36/5) 7) (V3 48 (-36) 7) /\ pv_span v = V3 0 0 14.
Proof.
  unfold wvars, panel_vars, wing_panel, quarter_B, quarter_C, aft_A, aft_D. cbn [nth]. cbv zeta. cbn [pv_n pv_ctr pv_cp pv_ring pv_span pp1 pp2 pp3 pp4]. tospec.
  rewrite !ndec_R. change (10 ^ 2)%Z with 100%Z. rnum.
  split; [|split; [|split; [|split]]].
  - replace (scross _ _) with (V3 (3/5*(2*14*48)) (4/5*(2*14*48)) 0) by (svec; vec_eq; field). rewrite (snorm_val _ _ 0 (2*14*48)) by lra. svec. vec_eq; field.
  - svec. vec_eq; field.
  - svec. vec_eq; field.
  - f_equal; svec; vec_eq; field.
  - svec. vec_eq; field.
Qed.
Definition wing_t (k : nat) : bool := nth k [true] false.
Definition wing_v : nat -> pvars R := wvars 1 [wing_panel].
Definition wing_V : vec R := V3 5 0 0.
Definition wing_a : R := 10805/18564/(4*PI).
Lemma wing_coef : wcoef 1 wing_t wing_v wing_V 0 0 = wing_a.
Proof.
  destruct wing_vars_at as (N & C & _ & R0 & _). fold wing_v in N, C, R0. unfold wcoef, winfl, influence. rewrite N, C, R0. cbn [wing_t nth rA rB rC rD]. unfold vortex_horseshoe_v2, wing_V. cbv zeta.
  rewrite (line_val (V3 (144/5) (-108/5) 0) (V3 48 (-36) (-7)) (V3 (48/5) (-36/5) (-7)) 25 25) by (first [unfold ssub; cbn [vx vy vz]; apply snorm_val; lra | svec; lra]).
  rewrite (line_val (V3 (144/5) (-108/5) 0) (V3 (48/5) (-36/5) (-7)) (V3 (48/5) (-36/5) 7) 25 25) by (first [unfold ssub; cbn [vx vy vz]; apply snorm_val; lra | svec; lra]).
  rewrite (line_val (V3 (144/5) (-108/5) 0) (V3 (48/5) (-36/5) 7) (V3 48 (-36) 7) 25 25) by (first [unfold ssub; cbn [vx vy vz]; apply snorm_val; lra | svec; lra]).
  rewrite !(inf_val (V3 (144/5) (-108/5) 0) _ (V3 5 0 0) _ 5 25) by (first [unfold ssub; cbn [vx vy vz]; apply snorm_val; lra]).
  tospec. rnum. svec. unfold wing_a. pose proof PI_RGT_0. field. lra.
Qed.
(** velocity along the wind at the centre of pressure: only the two chordwise legs contribute *)
Lemma wing_x : exists n, 48 <= n /\ vx (winfl 1 wing_t wing_v wing_V (pv_cp (wing_v 0)) 0) = 288 / 35 / n / (4 * PI).
Proof.
  destruct wing_vars_at as (_ & _ & C & R0 & _). fold wing_v in C, R0. unfold winfl, influence. rewrite C, R0. cbn [wing_t nth rA rB rC rD]. unfold vortex_horseshoe_v2, wing_V. cbv zeta.
  set (n := sqrt 2353). assert (NN : n * n = 2353) by (apply sqrt_sqrt; lra). assert (N0 : 0 <= n) by apply sqrt_pos. exists n. split; [nra|].
  rewrite (line_val (V3 (48/5) (-36/5) 0) (V3 48 (-36) (-7)) (V3 (48/5) (-36/5) (-7)) n 7) by (first [unfold ssub; cbn [vx vy vz]; apply snorm_val; lra | svec; lra | nra]).
  rewrite (line_val (V3 (48/5) (-36/5) 0) (V3 (48/5) (-36/5) 7) (V3 48 (-36) 7) 7 n) by (first [unfold ssub; cbn [vx vy vz]; apply snorm_val; lra | svec; lra | nra]).
  rewrite (vortex_line_core (V3 (48/5) (-36/5) 0) (V3 (48/5) (-36/5) (-7)) (V3 (48/5) (-36/5) 7)).
  2:{ right. right. replace (scross _ _) with szero by (svec; vec_eq; ring). replace (snorm szero) with 0 by (symmetry; apply snorm_zero; reflexivity). lra. }
  rewrite !(inf_val (V3 (48/5) (-36/5) 0) _ (V3 5 0 0) _ 5 n) by (first [unfold ssub; cbn [vx vy vz]; apply snorm_val; lra]).
  tospec. rnum. svec. pose proof PI_RGT_0. assert (n <> 0) by nra. field. repeat split; nra.
Qed.

Lemma wing_run rho : exists a, Aircraft 48 7 demo_aoa 1 1 wing_V rho 1 = Ok a /\ ac_panels a = [wing_panel].
Proof.
  assert (A0 : 0 < wing_a) by (unfold wing_a; pose proof PI_RGT_0; apply Rdiv_lt_0_compat; lra).
  destruct wing_vars_at as (N & _). fold wing_v in N. cbv zeta in N.
  apply (aircraft_make 48 7 demo_aoa wing_V rho 1 [wing_panel] [true] [false] 1 1 (fun _ => - 3 / wing_a) (fun _ => - 3 / wing_a) wing_one); cbn [length].
  - reflexivity.
  - intros k Hk. assert (k = 0%nat) by lia. subst k. unfold sumn. cbn [tab map seq]. rewrite rsum_cons. change (rsum []) with 0. fold wing_t wing_v. change (fun k => nth k [true] false) with wing_t. rewrite wing_coef, N. unfold wing_V. svec. field. lra.
  - intros z Z l Hl. assert (l = 0%nat) by lia. subst l. specialize (Z 0%nat Nat.lt_0_1). unfold sumn in Z. cbn [tab map seq] in Z. rewrite rsum_cons in Z. change (rsum []) with 0 in Z. fold wing_v in Z. change (fun k => nth k [true] false) with wing_t in Z. rewrite wing_coef in Z. nra.
  - intros x [<-|[]]. unfold panel_area, wing_panel. cbv zeta. cbn [pp1 pp2 pp3 pp4]. tospec. rewrite !ndec_R. change (10 ^ 1)%Z with 10%Z. change (10 ^ 14)%Z with 100000000000000%Z. rnum.
    replace (scross _ _) with (V3 (2016/5) (2688/5) 0) by (svec; vec_eq; field). rewrite (snorm_val _ _ 0 672) by lra. pose proof (snorm_nonneg (scross (ssub (V3 0 0 7) (V3 0 0 (-7))) (ssub (V3 (192 / 5) (-144 / 5) 7) (V3 0 0 7)))). lra.
  - intros k Hk. assert (k = 0%nat) by lia. subst k. reflexivity.
Qed.
Lemma aircraft_theory chord half AoA ns nc V rho gor (a : aircraft (F := R)) : Aircraft chord half AoA ns nc V rho gor = Ok a ->
  ac_CL_theory a = fst (get_CL_CD_free_wing (2 * half / chord) AoA).
Proof.
  unfold Aircraft. cbv zeta. change (ndiv (nmul (nZ 2) half) chord) with (2 * half / chord). destruct (get_CL_CD_free_wing (2 * half / chord) AoA) as [c d]. intros E.
  destruct (make_panels_from_le_te_points _ _ _ _ _ _) as [[[ps te] le]|]; [|discriminate]. unfold bind at 1 in E. destruct (calc_velocity_coefs _ _ _ _ _ _) as [co vi].
  destruct (solve_eq _ _) as [gamma|]; [|discriminate]. unfold bind at 1 in E. destruct (calculate_app_fs _ _ _) as [vi' vc].
  destruct (is_no_flux_BC_satisfied _ _ _) as [b|]; [|discriminate]. unfold bind at 1 in E. destruct (guard _ _); [|discriminate]. unfold bind at 1 in E.
  destruct (calc_force_wrapper _ _ _ _ _ _ _ _ _ _ _ _) as [[[f ?] ?]|]; [|discriminate]. unfold bind in E. destruct (get_vlm_CL_CD_free_wing _ _ _ _) as [CL CD].
  injection E as <-. reflexivity.
Qed.
(** the force on this wing is not zero across the wind, the theoretical coefficient is positive, and yet CL = 0 *)
Theorem C56_refuted : exists chord half AoA ns nc V rho gor a, Aircraft chord half AoA ns nc V rho gor = Ok a /\
  vy V = 0 /\ vz V = 0 /\ 0 < vx V /\ 0 < ac_CL_theory a /\ 0 < vy (ac_Cxyz a) /\ ac_CL a = 0.
Proof.
  pose proof PI_RGT_0 as PI0.
  destruct (wing_run 1) as (a & E & EP). exists 48, 7, demo_aoa, 1%nat, 1%nat, wing_V, 1, 1, a. split; [exact E|]. split; [reflexivity|]. split; [reflexivity|]. split; [simpl; lra|]. 
  destruct (C56_no_lift _ _ _ _ _ wing_V _ _ _ (le_n 1) (le_n 1) eq_refl E) as (_ & CL & _). split; [|split; [|exact CL]].
  - rewrite (aircraft_theory _ _ _ _ _ _ _ _ _ E). unfold get_CL_CD_free_wing. cbv zeta. cbn [fst]. rewrite deg2rad_s, !ndec_R. change (10 ^ 1)%Z with 10%Z. rnum.
    assert (0 < rad demo_aoa). { unfold rad, demo_aoa. replace (atan (3 / 4) * 180 / PI * (PI / 180)) with (atan (3/4)) by (field; lra). rewrite <- atan_0. apply atan_increasing. lra. }
    apply Rmult_lt_0_compat; [|assumption]. apply Rdiv_lt_0_compat; [lra|]. assert (0 < 2 * PI / (PI * (2 * 7 / 48) * (8 / 10))) by (apply Rdiv_lt_0_compat; lra). lra.
  - destruct (aircraft_inv _ _ _ _ _ _ _ _ _ (le_n 1) (le_n 1) E) as (te & le & g & net & MP & _ & EG & EQ & _ & NT & _ & EF & _ & _ & CX).
    rewrite EP in MP, EG, EQ, NT, EF. rewrite wing_one in MP. injection MP as <- <-. cbn [length] in *. fold wing_v in *. change (fun k => nth k [true] false) with wing_t in *.
    specialize (EQ 0%nat Nat.lt_0_1). specialize (NT 0%nat Nat.lt_0_1). assert (NE : net 0%nat = g 0%nat) by (injection NT; auto). clear NT.
    unfold sumn in EQ. cbn [tab map seq] in EQ. rewrite rsum_cons in EQ. change (rsum []) with 0 in EQ. rewrite wing_coef in EQ.
    destruct wing_vars_at as (N & _ & _ & _ & SP). fold wing_v in N, SP. rewrite N in EQ. unfold wing_V in EQ at 1. unfold sdot in EQ. cbn [vx vy vz] in EQ.
    rewrite CX, EF. cbn [tab map seq]. unfold ssum. cbn [fold_right]. unfold wforce. rewrite SP, NE. destruct wing_x as (n & N48 & WX).
    unfold wwash, vsumn. cbn [tab map seq]. unfold ssum. cbn [fold_right].
    revert WX. generalize (winfl 1 wing_t wing_v wing_V (pv_cp (wing_v 0)) 0). intros [x y z] WX. cbn [vx] in WX. unfold wing_V. svec.
    set (g0 := g 0%nat) in *. clearbody g0. unfold wing_a in EQ.
    assert (GE : g0 = - (3 * (18564/10805) * (4 * PI))) by (apply (Rmult_eq_reg_l (10805 / 18564 / (4 * PI))); [rewrite <- (Rplus_0_r (_ * g0)), EQ; field; lra | apply Rgt_not_eq, Rdiv_lt_0_compat; lra]).
    assert (GX : g0 * x = - (3 * (18564/10805) * (288/35) * / n)) by (rewrite GE, WX; field; split; lra).
    assert (NI : 0 < / n <= / 48) by (split; [apply Rinv_0_lt_compat; lra | apply Rinv_le_contravar; lra]).
    apply Rmult_lt_0_compat; [apply Rinv_0_lt_compat; lra|]. rewrite GX. replace (g0 * 14) with (- (14 * (3 * (18564/10805) * (4 * PI)))) by (rewrite GE; ring).
    assert (0 < 14 * (3 * (18564 / 10805) * (4 * PI))) by lra. set (G := 14 * (3 * (18564 / 10805) * (4 * PI))) in *. clearbody G.
    assert (0 < 5 + (- (3 * (18564 / 10805) * (288 / 35) * / n) + 0)) by lra. nra.
Qed.
(** the concrete wing meets the hypotheses of the theorems above *)
Example C56_case : exists a, Aircraft 48 7 demo_aoa 1 1 wing_V 1 1 = Ok a /\ vz wing_V = 0.
Proof. destruct (wing_run 1) as (a & E & _). eauto. Qed.

Print Assumptions C56_symmetry.
Print Assumptions C56_no_lift.
Print Assumptions C56_refuted.
