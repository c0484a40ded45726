(** The force on the panel of L_Demo: its lateral component is not zero. *)

From Coq Require Import String ZArith Reals List Bool Lra Psatz Lia.
From Verif Require Import Num PyBase RNum Spec M_Panels M_Velocity M_Solve M_Coefs M_Forces M_Winds M_Csys M_Sail M_Vlm
  L_List L_Rot L_Vel L_Vel2 L_Csys L_Sail L_Sail2 L_Solve L_Lattice L_Vlm L_Vlm2 L_Demo.
Import ListNotations.
Open Scope R_scope.

Lemma line_in_plane p p1 p2 g : vy p = 0 -> vy p1 = 0 -> vy p2 = 0 -> vx (vortex_line p p1 p2 g) = 0.
Proof.
  intros E E1 E2. destruct (core_dec p p1 p2) as [C|C].
  - rewrite vortex_line_core by assumption. reflexivity.
  - rewrite vortex_line_out by assumption. unfold biot_savart. cbv zeta. set (k := g / _ * _). destruct p as [x y z], p1 as [x1 y1 z1], p2 as [x2 y2 z2].
    cbn [vy] in *. subst. svec. ring.
Qed.
Lemma wake_x p a dz g : ssub p a = V3 (-48) 0 dz -> exists X, vx (vortex_infinite_line p a (V3 4 3 0) g) = g * (/ (4 * PI) * X) /\ Rabs X <= / 4000 * Rabs dz.
Proof.
  intros E. set (n := snorm (ssub p a)). rewrite (inf_val p a (V3 4 3 0) g 5 n) by (first [reflexivity | apply snorm_val; lra]). rewrite E.
  assert (N : 48 <= n). { unfold n. rewrite E. unfold snorm. cbn [vx vy vz]. apply Rsqr_incr_0_var; [|apply sqrt_pos]. rewrite Rsqr_sqrt by nra. unfold Rsqr. nra. }
  exists (dz * (3/5) / (n * (n + 192/5))). split.
  - svec. pose proof PI_RGT_0. field. repeat split; nra.
  - assert (B : / (n * (n + 192/5)) <= / 4000) by (apply Rinv_le_contravar; nra). pose proof (Rabs_pos dz).
    assert (0 < / (n * (n + 192/5))) by (apply Rinv_0_lt_compat; nra).
    replace (dz * (3/5) / (n * (n + 192/5))) with (dz * (3/5 * / (n * (n + 192/5)))) by (unfold Rdiv; ring). rewrite Rabs_mult, (Rabs_pos_eq (3/5 * _)) by nra. nra.
Qed.
Definition demo_c : R := 10805/18564 - 9175/218448.
Lemma abs2 a b x y : Rabs a <= x -> Rabs b <= y -> Rabs (- a + b) <= x + y.
Proof. intros. eapply Rle_trans; [apply Rabs_triang|]. rewrite Rabs_Ropp. lra. Qed.
Lemma demo_wash : -1 < vx (wash 2 demo_t demo_vars demo_V (fun _ => - 3 / (demo_a + demo_b)) (V3 12 0 (25/2))).
Proof.
  unfold wash. rewrite vsumn_comp. cbn [vx]. rewrite sumn2. unfold sscale. cbn [vx].
  destruct demo_v0 as (_ & _ & _ & R0 & _).
  assert (I0 : exists X, vx (infl demo_t demo_vars demo_V (V3 12 0 (25/2)) 0) = / (4 * PI) * X /\ Rabs X <= / 4000 * 14).
  { unfold infl, influence, demo_t. rewrite R0. cbn [rA rB rC rD]. unfold vortex_horseshoe_v2, demo_V. cbv zeta. tospec. unfold sadd. cbn [vx].
    rewrite !line_in_plane by reflexivity. change (- nZ 1 * -1)%N_ with (-1 * -1).
    destruct (wake_x (V3 12 0 (25/2)) (V3 60 0 (39/2)) (-7) (-1)) as (X & EX & BX); [svec; vec_eq; lra|].
    destruct (wake_x (V3 12 0 (25/2)) (V3 60 0 (11/2)) 7 (-1 * -1)) as (Y & EY & BY); [svec; vec_eq; lra|].
    rewrite EX, EY. exists (- X + Y). split; [ring|]. replace 14 with (7 + 7) by ring. rewrite Rmult_plus_distr_l. apply abs2.
    - rewrite (Rabs_left (-7)) in BX by lra. lra. - rewrite (Rabs_pos_eq 7) in BY by lra. lra. }
  assert (I1 : exists X, vx (infl demo_t demo_vars demo_V (V3 12 0 (25/2)) 1) = / (4 * PI) * X /\ Rabs X <= / 4000 * 50).
  { unfold infl, influence, demo_t. rewrite (mv_ring _ _ demo_v1), R0. cbn [rA rB rC rD]. unfold smirror; cbn [vx vy vz]. unfold vortex_horseshoe_v2, demo_V. cbv zeta. tospec. unfold sadd. cbn [vx].
    rewrite !line_in_plane by reflexivity. change (- nZ 1 * -1)%N_ with (-1 * -1).
    destruct (wake_x (V3 12 0 (25/2)) (V3 60 0 (-(11/2))) 18 (-1)) as (X & EX & BX); [svec; vec_eq; lra|].
    destruct (wake_x (V3 12 0 (25/2)) (V3 60 0 (-(39/2))) 32 (-1 * -1)) as (Y & EY & BY); [svec; vec_eq; lra|].
    rewrite EX, EY. exists (- X + Y). split; [ring|]. replace 50 with (18 + 32) by ring. rewrite Rmult_plus_distr_l. apply abs2.
    - rewrite (Rabs_pos_eq 18) in BX by lra. lra. - rewrite (Rabs_pos_eq 32) in BY by lra. lra. }
  destruct I0 as (X & -> & BX), I1 as (Y & -> & BY). pose proof PI_RGT_0.
  replace (-3 / (demo_a + demo_b) * (/ (4 * PI) * X) + -3 / (demo_a + demo_b) * (/ (4 * PI) * Y)) with (3 / demo_c * (X + Y)).
  2: { unfold demo_a, demo_b, demo_c. field. lra. }
  unfold demo_c. pose proof (Rle_abs (- X)). pose proof (Rle_abs (- Y)). rewrite Rabs_Ropp in *. lra.
Qed.
(* forces, points and velocities of the run *)
Lemma demo_force rho o : Vlm demo_panels 1 1 rho demo_wind [true; true] [false; false] = Ok o -> 0 < rho ->
  exists f0 f1 u0 u1, vl_force o = [f0; f1] /\ 0 < vy f0 /\ vz f0 = 0 /\ vl_cp o = [V3 12 0 (25/2); V3 12 0 (-(25/2))] /\
    vl_V_cp o = [u0; u1] /\ 3 < vx u0 /\ in_V (vl_inlet o) = [V3 4 3 0; V3 4 3 0].
Proof.
  intros E RP. destruct demo_inlet as (ic & IC & EI).
  destruct (vlm_solve_make 2 1 rho demo_panels [false; false] demo_t demo_vars demo_V 1 [true; true] [demo_vars 0; demo_vars 1] ic _ _ eq_refl eq_refl eq_refl EI demo_solved) as (o' & E' & FL).
  assert (o' = o). { unfold Vlm in E. rewrite gor_R, demo_vars_ok in E. unfold bind at 1 in E. rewrite IC in E. unfold bind in E. congruence. } subst o'.
  destruct FL as [_ _ _ _ _ _ _ FV FI _ _ _ _ FU FF _ _ _ _]. unfold vl_cp. rewrite FV, FU, FF, FI, EI. do 4 eexists. split; [reflexivity|].
  destruct demo_v0 as (_ & _ & P0 & _ & S0). pose proof demo_wash as W. set (u := wash _ _ _ _ _ _) in W.
  assert (G : 0 < -3 / (demo_a + demo_b)).
  { destruct demo_ab as [AB _]. unfold Rdiv. replace (-3 * / (demo_a + demo_b)) with (3 * / (- (demo_a + demo_b))) by (field; lra).
    apply Rmult_lt_0_compat; [lra|]. apply Rinv_0_lt_compat. lra. }
  split; [|split; [|split; [|split; [reflexivity|split; [|reflexivity]]]]].
  - unfold pforce. rewrite P0, S0. fold u. unfold demo_V. destruct u as [a b c]. cbn [vx] in W. svec.
    replace (rho * ((0 + c) * (-3 / (demo_a + demo_b) * 0) - (4 + a) * (-3 / (demo_a + demo_b) * -14))) with (rho * ((4 + a) * (-3 / (demo_a + demo_b) * 14))) by ring.
    apply Rmult_lt_0_compat; [assumption|]. apply Rmult_lt_0_compat; [lra|]. lra.
  - unfold pforce. rewrite P0, S0. fold u. unfold demo_V. destruct u as [a b c]. svec. ring.
  - cbn [tab map seq]. rewrite (mv_cp _ _ demo_v1), P0. reflexivity.
  - cbn [tab map seq]. rewrite P0. fold u. unfold demo_V, sadd. cbn [vx]. lra.
Qed.
