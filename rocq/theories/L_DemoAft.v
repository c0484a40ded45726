(** The sail of L_Demo with the apparent wind from astern: the x component of the velocity is negative. *)

From Coq Require Import String ZArith Reals List Bool Lra Psatz Lia.
From Verif Require Import Num PyBase RNum Spec M_Panels M_Velocity M_Solve M_Coefs M_Forces M_Winds M_Csys M_Sail M_Vlm
  L_List L_Rot L_Vel L_Vel2 L_Csys L_Sail L_Sail2 L_Solve L_Lattice L_Vlm L_Vlm2 L_Demo L_DemoForce P_Vlm.
Import ListNotations.
Open Scope R_scope.

(* wind of 5 m/s, yacht at rest *)
Definition aft_wind : wind R := Wind_ (180 - demo_angle) 5 0 Flat.
Definition aft_V (k : nat) : vec R := V3 (-4) 3 0.
Definition aft_a : R := -1205/2436/(4*PI).
Definition aft_b : R := 55/1872/(4*PI).
Lemma aft_00 : vy (infl demo_t demo_vars aft_V (V3 36 0 (25/2)) 0) = aft_a.
Proof.
  destruct demo_v0 as (_ & _ & _ & R0 & _). unfold infl, influence, demo_t. rewrite R0. cbn [rA rB rC rD]. unfold vortex_horseshoe_v2, aft_V. cbv zeta.
  rewrite (line_val (V3 36 0 (25/2)) (V3 60 0 (11/2)) (V3 12 0 (11/2)) 25 25) by (first [unfold ssub; cbn [vx vy vz]; apply snorm_val; lra | svec; lra]).
  rewrite (line_val (V3 36 0 (25/2)) (V3 12 0 (11/2)) (V3 12 0 (39/2)) 25 25) by (first [unfold ssub; cbn [vx vy vz]; apply snorm_val; lra | svec; lra]).
  rewrite (line_val (V3 36 0 (25/2)) (V3 12 0 (39/2)) (V3 60 0 (39/2)) 25 25) by (first [unfold ssub; cbn [vx vy vz]; apply snorm_val; lra | svec; lra]).
  rewrite !(inf_val (V3 36 0 (25/2)) _ (V3 (-4) 3 0) _ 5 25) by (first [unfold ssub; cbn [vx vy vz]; apply snorm_val; lra]).
  tospec. rnum. svec. unfold aft_a. pose proof PI_RGT_0. field. lra.
Qed.
Lemma aft_01 : vy (infl demo_t demo_vars aft_V (V3 36 0 (25/2)) 1) = aft_b.
Proof.
  destruct demo_v0 as (_ & _ & _ & R0 & _). unfold infl, influence, demo_t. rewrite (mv_ring _ _ demo_v1), R0. cbn [rA rB rC rD]. unfold vortex_horseshoe_v2, aft_V. cbv zeta.
  unfold smirror. cbn [vx vy vz].
  rewrite (line_val (V3 36 0 (25/2)) (V3 60 0 (-(39/2))) (V3 12 0 (-(39/2))) 40 40) by (first [unfold ssub; cbn [vx vy vz]; apply snorm_val; lra | svec; lra]).
  rewrite (line_val (V3 36 0 (25/2)) (V3 12 0 (-(39/2))) (V3 12 0 (-(11/2))) 40 30) by (first [unfold ssub; cbn [vx vy vz]; apply snorm_val; lra | svec; lra]).
  rewrite (line_val (V3 36 0 (25/2)) (V3 12 0 (-(11/2))) (V3 60 0 (-(11/2))) 30 30) by (first [unfold ssub; cbn [vx vy vz]; apply snorm_val; lra | svec; lra]).
  rewrite (inf_val (V3 36 0 (25/2)) (V3 60 0 (-(11/2))) (V3 (-4) 3 0) _ 5 30) by (first [unfold ssub; cbn [vx vy vz]; apply snorm_val; lra]).
  rewrite (inf_val (V3 36 0 (25/2)) (V3 60 0 (-(39/2))) (V3 (-4) 3 0) _ 5 40) by (first [unfold ssub; cbn [vx vy vz]; apply snorm_val; lra]).
  tospec. rnum. svec. unfold aft_b. pose proof PI_RGT_0. field. lra.
Qed.
Definition aft_m (k l : nat) : R := if Nat.eqb k l then aft_a else aft_b.
Lemma aft_acoef k l : (k < 2)%nat -> (l < 2)%nat -> acoef demo_t demo_vars aft_V k l = aft_m k l.
Proof.
  destruct demo_v0 as (N0 & C0 & P0 & R0 & S0). pose proof demo_v1 as M.
  assert (N1 : pv_n (demo_vars 1) = V3 0 1 0) by (rewrite (mv_n _ _ M), N0; svec; vec_eq; ring).
  assert (VV : forall k, aft_V k = smirror (aft_V k)) by (intros; unfold aft_V; svec; vec_eq; ring).
  assert (R1 : Ring (smirror (rD (pv_ring (demo_vars 1)))) (smirror (rC (pv_ring (demo_vars 1)))) (smirror (rB (pv_ring (demo_vars 1)))) (smirror (rA (pv_ring (demo_vars 1)))) = pv_ring (demo_vars 0)).
  { rewrite (mv_ring _ _ M), R0. cbn [rA rB rC rD]. f_equal; svec; vec_eq; ring. }
  assert (I11 : infl demo_t demo_vars aft_V (smirror (V3 36 0 (25/2))) 1 = smirror (infl demo_t demo_vars aft_V (V3 36 0 (25/2)) 0)).
  { unfold infl. rewrite (mv_ring _ _ M), (VV 1%nat). apply influence_mirror. }
  assert (I10 : infl demo_t demo_vars aft_V (smirror (V3 36 0 (25/2))) 0 = smirror (infl demo_t demo_vars aft_V (V3 36 0 (25/2)) 1)).
  { unfold infl. rewrite <- R1, (VV 0%nat). apply influence_mirror. }
  intros Hk Hl. assert (KL : (k = 0 \/ k = 1)%nat) by lia. assert (LL : (l = 0 \/ l = 1)%nat) by lia.
  unfold acoef, aft_m. destruct KL as [-> | ->], LL as [-> | ->]; cbn [Nat.eqb]; rewrite ?(mv_ctr _ _ M), ?N0, ?N1, C0, infl_dot_y, ?I11, ?I10;
    unfold smirror; cbn [vx vy vz]; first [apply aft_00 | apply aft_01].
Qed.
Lemma aft_ab : aft_a + aft_b < 0 /\ aft_a - aft_b < 0.
Proof.
  unfold aft_a, aft_b. pose proof PI_RGT_0 as P. assert (Q : 0 < / (4 * PI)) by (apply Rinv_0_lt_compat; lra). unfold Rdiv. split; nra.
Qed.
Lemma aft_solved : solved 2 1 demo_panels [false; false] demo_t demo_vars aft_V (fun _ => - 3 / (aft_a + aft_b)) (fun _ => - 3 / (aft_a + aft_b)).
Proof.
  destruct aft_ab as [AB AB']. constructor.
  - assert (N : forall k, (k < 2)%nat -> sdot (aft_V k) (pv_n (demo_vars k)) = 3).
    { intros k Hk. assert (KL : (k = 0 \/ k = 1)%nat) by lia. destruct KL as [-> | ->]; rewrite ?(mv_n _ _ demo_v1), (proj1 demo_v0); unfold aft_V; svec; ring. }
    intros k Hk. rewrite sumn2, !aft_acoef, N by lia. assert (KL : (k = 0 \/ k = 1)%nat) by lia. destruct KL as [-> | ->]; unfold aft_m; cbn [Nat.eqb]; field; lra.
  - intros z Z. pose proof (Z 0%nat ltac:(lia)) as Z0. pose proof (Z 1%nat ltac:(lia)) as Z1. rewrite sumn2, !aft_acoef in Z0, Z1 by lia.
    unfold aft_m in *. cbn [Nat.eqb] in *.
    assert (P : z 0%nat + z 1%nat = 0) by nra. assert (M : z 0%nat - z 1%nat = 0) by nra.
    intros l L. assert (LL : (l = 0 \/ l = 1)%nat) by lia. destruct LL as [-> | ->]; lra.
  - rewrite demo_areas. intros a [<-|[<-|[]]]; rewrite ndec_R; change (10 ^ 14)%Z with 100000000000000%Z; lra.
  - intros k Hk. assert (KL : (k = 0 \/ k = 1)%nat) by lia. destruct KL as [-> | ->]; reflexivity.
Qed.
Lemma aft_inlet : exists ic, InletConditions aft_wind (map pv_cp [demo_vars 0; demo_vars 1]) = Ok ic /\ in_V ic = [V3 (-4) 3 0; V3 (-4) 3 0].
Proof.
  eexists. split; [reflexivity|]. cbn [in_V map].
  assert (W : get_app_infs_at_h aft_wind (length_to_xyz_vector aft_wind 5) = V3 (-4) 3 0).
  { unfold get_app_infs_at_h, length_to_xyz_vector, w_alpha, aft_wind. cbn [w_alpha_deg w_sog vx vy vz]. rewrite !deg2rad_s.
    replace (rad (180 - demo_angle)) with (PI - rad demo_angle) by (unfold rad; pose proof PI_RGT_0; field). rewrite demo_rad. rnum.
    destruct demo_cos_sin as [C S]. rewrite cos_minus, sin_minus, cos_PI, sin_PI, C, S. vec_eq; field. }
  change (w_tws aft_wind) with 5. rewrite W. reflexivity.
Qed.
Lemma aft_wake_x p a dz g : ssub p a = V3 (-48) 0 dz -> exists X, vx (vortex_infinite_line p a (V3 (-4) 3 0) g) = g * (/ (4 * PI) * X) /\ Rabs X <= / 700 * Rabs dz.
Proof.
  intros E. set (n := snorm (ssub p a)). rewrite (inf_val p a (V3 (-4) 3 0) g 5 n) by (first [reflexivity | apply snorm_val; lra]). rewrite E.
  assert (N : 48 <= n). { unfold n. rewrite E. unfold snorm. cbn [vx vy vz]. apply Rsqr_incr_0_var; [|apply sqrt_pos]. rewrite Rsqr_sqrt by nra. unfold Rsqr. nra. }
  exists (dz * (3/5) / (n * (n - 192/5))). split.
  - svec. pose proof PI_RGT_0. field. repeat split; nra.
  - assert (B : / (n * (n - 192/5)) <= / 460) by (apply Rinv_le_contravar; nra). pose proof (Rabs_pos dz).
    assert (0 < / (n * (n - 192/5))) by (apply Rinv_0_lt_compat; nra).
    replace (dz * (3/5) / (n * (n - 192/5))) with (dz * (3/5 * / (n * (n - 192/5)))) by (unfold Rdiv; ring). rewrite Rabs_mult, (Rabs_pos_eq (3/5 * _)) by nra. nra.
Qed.
Lemma aft_wash : vx (wash 2 demo_t demo_vars aft_V (fun _ => - 3 / (aft_a + aft_b)) (V3 12 0 (25/2))) < 1.
Proof.
  unfold wash. rewrite vsumn_comp. cbn [vx]. rewrite sumn2. unfold sscale. cbn [vx].
  destruct demo_v0 as (_ & _ & _ & R0 & _).
  assert (I0 : exists X, vx (infl demo_t demo_vars aft_V (V3 12 0 (25/2)) 0) = / (4 * PI) * X /\ Rabs X <= / 700 * 14).
  { unfold infl, influence, demo_t. rewrite R0. cbn [rA rB rC rD]. unfold vortex_horseshoe_v2, aft_V. cbv zeta. tospec. unfold sadd. cbn [vx].
    rewrite !line_in_plane by reflexivity. change (- nZ 1 * -1)%N_ with (-1 * -1).
    destruct (aft_wake_x (V3 12 0 (25/2)) (V3 60 0 (39/2)) (-7) (-1)) as (X & EX & BX); [svec; vec_eq; lra|].
    destruct (aft_wake_x (V3 12 0 (25/2)) (V3 60 0 (11/2)) 7 (-1 * -1)) as (Y & EY & BY); [svec; vec_eq; lra|].
    rewrite EX, EY. exists (- X + Y). split; [ring|]. replace 14 with (7 + 7) by ring. rewrite Rmult_plus_distr_l. apply abs2.
    - rewrite (Rabs_left (-7)) in BX by lra. lra. - rewrite (Rabs_pos_eq 7) in BY by lra. lra. }
  assert (I1 : exists X, vx (infl demo_t demo_vars aft_V (V3 12 0 (25/2)) 1) = / (4 * PI) * X /\ Rabs X <= / 700 * 50).
  { unfold infl, influence, demo_t. rewrite (mv_ring _ _ demo_v1), R0. cbn [rA rB rC rD]. unfold smirror; cbn [vx vy vz]. unfold vortex_horseshoe_v2, aft_V. cbv zeta. tospec. unfold sadd. cbn [vx].
    rewrite !line_in_plane by reflexivity. change (- nZ 1 * -1)%N_ with (-1 * -1).
    destruct (aft_wake_x (V3 12 0 (25/2)) (V3 60 0 (-(11/2))) 18 (-1)) as (X & EX & BX); [svec; vec_eq; lra|].
    destruct (aft_wake_x (V3 12 0 (25/2)) (V3 60 0 (-(39/2))) 32 (-1 * -1)) as (Y & EY & BY); [svec; vec_eq; lra|].
    rewrite EX, EY. exists (- X + Y). split; [ring|]. replace 50 with (18 + 32) by ring. rewrite Rmult_plus_distr_l. apply abs2.
    - rewrite (Rabs_pos_eq 18) in BX by lra. lra. - rewrite (Rabs_pos_eq 32) in BY by lra. lra. }
  destruct I0 as (X & -> & BX), I1 as (Y & -> & BY). pose proof PI_RGT_0.
  replace (-3 / (aft_a + aft_b) * (/ (4 * PI) * X) + -3 / (aft_a + aft_b) * (/ (4 * PI) * Y)) with (3 / (1205/2436 - 55/1872) * (X + Y)).
  2: { unfold aft_a, aft_b. field. lra. }
  pose proof (Rle_abs X). pose proof (Rle_abs Y). lra.
Qed.
Lemma aft_run rho : exists o u0 u1, Vlm demo_panels 1 1 rho aft_wind [true; true] [false; false] = Ok o /\ vl_V_cp o = [u0; u1] /\ vx u0 < 0.
Proof.
  destruct aft_inlet as (ic & IC & EI).
  destruct (vlm_solve_make 2 1 rho demo_panels [false; false] demo_t demo_vars aft_V 1 [true; true] [demo_vars 0; demo_vars 1] ic _ _ eq_refl eq_refl eq_refl EI aft_solved) as (o & E & FL).
  exists o. do 2 eexists. split; [unfold Vlm; rewrite gor_R, demo_vars_ok; unfold bind at 1; rewrite IC; exact E|].
  rewrite (f_V_cp _ _ _ _ _ _ _ _ _ _ _ _ _ _ FL). split; [reflexivity|]. cbn [tab map seq]. destruct demo_v0 as (_ & _ & P0 & _). rewrite P0. pose proof aft_wash as W.
  unfold sadd, aft_V in *. cbn [vx]. lra.
Qed.
