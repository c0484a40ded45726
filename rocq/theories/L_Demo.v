(** A sail with one panel above and one under the water for which the solver is computed exactly:
    the concrete case for the theorems about the solver. *)

From Coq Require Import String ZArith Reals List Bool Lra Psatz Lia.
From Verif Require Import Num PyBase RNum Spec M_Panels M_Velocity M_Solve M_Coefs M_Forces M_Winds M_Csys M_Sail M_Vlm
  L_List L_Rot L_Vel L_Vel2 L_Csys L_Sail L_Sail2 L_Solve L_Lattice L_Vlm L_Vlm2 P_Sail P_Lattice.
Import ListNotations.
Open Scope R_scope.

Lemma snorm_val x y z r : 0 <= r -> x ^ 2 + y ^ 2 + z ^ 2 = r * r -> snorm (V3 x y z) = r.
Proof. intros P E. unfold snorm. cbn [vx vy vz]. rewrite E. apply sqrt_square. assumption. Qed.
Lemma line_val p p1 p2 n1 n2 g : snorm (ssub p p1) = n1 -> snorm (ssub p p2) = n2 -> 1 <= n1 -> 1 <= n2 ->
  1 <= sdot (scross (ssub p p1) (ssub p p2)) (scross (ssub p p1) (ssub p p2)) ->
  vortex_line p p1 p2 g = sscale (g / (4 * PI) * (sdot (ssub p2 p1) (ssub (sscale (/ n1) (ssub p p1)) (sscale (/ n2) (ssub p p2))) /
    sdot (scross (ssub p p1) (ssub p p2)) (scross (ssub p p1) (ssub p p2)))) (scross (ssub p p1) (ssub p p2)).
Proof.
  intros E1 E2 H1 H2 H3. rewrite vortex_line_out.
  - unfold biot_savart, sunit. cbv zeta. rewrite E1, E2. rewrite <- snorm_sq. replace (snorm (scross (ssub p p1) (ssub p p2)) ^ 2) with
      (snorm (scross (ssub p p1) (ssub p p2)) * snorm (scross (ssub p p1) (ssub p p2))) by ring. reflexivity.
  - assert (S : / 10 ^ 8 < 1) by lra. intros [C|[C|C]]; rewrite ?E1, ?E2 in C; try lra.
    rewrite <- snorm_sq in H3. replace (snorm (scross (ssub p p1) (ssub p p2)) ^ 2) with
      (snorm (scross (ssub p p1) (ssub p p2)) * snorm (scross (ssub p p1) (ssub p p2))) in C by ring. lra.
Qed.
Lemma inf_val p a r g nr n : snorm r = nr -> snorm (ssub p a) = n ->
  vortex_infinite_line p a r g = sscale (g / (4 * PI) / (n * (n - sdot (sscale (/ nr) r) (ssub p a)))) (scross (sscale (/ nr) r) (ssub p a)).
Proof.
  intros E1 E2. unfold vortex_infinite_line. cbv zeta. tospec. rewrite E1, E2. rnum.
  set (x := scross _ _). destruct x as [x y z]. svec. unfold Rdiv. vec_eq; ring.
Qed.

Definition demo_panel : panel R := Panel (V3 48 0 (11/2)) (V3 0 0 (11/2)) (V3 0 0 (39/2)) (V3 48 0 (39/2)).
Definition demo_panels : list (panel R) := [demo_panel; mirrored demo_panel].
(* wind at 90 degrees, 3 m/s, yacht speed 4 m/s *)
Definition demo_wind : wind R := Wind_ 90 3 4 Flat.
Definition demo_vars (k : nat) : pvars R := match k with O => panel_vars (-1) demo_panel (aft_A demo_panel) (aft_D demo_panel)
  | _ => panel_vars (-1) (mirrored demo_panel) (aft_A (mirrored demo_panel)) (aft_D (mirrored demo_panel)) end.
Definition demo_V (k : nat) : vec R := V3 4 3 0.
Definition demo_t (k : nat) : bool := true.

Lemma demo_v0 : pv_n (demo_vars 0) = V3 0 1 0 /\ pv_ctr (demo_vars 0) = V3 36 0 (25/2) /\ pv_cp (demo_vars 0) = V3 12 0 (25/2) /\
  pv_ring (demo_vars 0) = Ring (V3 60 0 (11/2)) (V3 12 0 (11/2)) (V3 12 0 (39/2)) (V3 60 0 (39/2)) /\ pv_span (demo_vars 0) = V3 0 0 (-14).
Proof.
  unfold demo_vars, panel_vars, demo_panel, quarter_B, quarter_C, aft_A, aft_D. cbv zeta. cbn [pv_n pv_ctr pv_cp pv_ring pv_span pp1 pp2 pp3 pp4]. tospec.
  rewrite !ndec_R. change (10 ^ 2)%Z with 100%Z. rnum.
  split; [|split; [|split; [|split]]].
  - replace (scross _ _) with (V3 0 (2*14*48) 0) by (svec; vec_eq; field). rewrite (snorm_val 0 (2*14*48) 0 (2*14*48)) by lra. svec. vec_eq; field.
  - svec. vec_eq; field.
  - svec. vec_eq; field.
  - f_equal; svec; vec_eq; field.
  - svec. vec_eq; field.
Qed.
Lemma demo_v1 : mirror_vars (demo_vars 0) (demo_vars 1).
Proof.
  unfold demo_vars. rewrite aft_A_mirrored, aft_D_mirrored. apply panel_vars_mirror.
Qed.
Definition demo_a : R := -10805/18564/(4*PI).
Definition demo_b : R := 9175/218448/(4*PI).
Lemma demo_00 : vy (infl demo_t demo_vars demo_V (V3 36 0 (25/2)) 0) = demo_a.
Proof.
  destruct demo_v0 as (_ & _ & _ & R0 & _). unfold infl, influence, demo_t. rewrite R0. cbn [rA rB rC rD]. unfold vortex_horseshoe_v2, demo_V. cbv zeta.
  rewrite (line_val (V3 36 0 (25/2)) (V3 60 0 (11/2)) (V3 12 0 (11/2)) 25 25) by (first [unfold ssub; cbn [vx vy vz]; apply snorm_val; lra | svec; lra]).
  rewrite (line_val (V3 36 0 (25/2)) (V3 12 0 (11/2)) (V3 12 0 (39/2)) 25 25) by (first [unfold ssub; cbn [vx vy vz]; apply snorm_val; lra | svec; lra]).
  rewrite (line_val (V3 36 0 (25/2)) (V3 12 0 (39/2)) (V3 60 0 (39/2)) 25 25) by (first [unfold ssub; cbn [vx vy vz]; apply snorm_val; lra | svec; lra]).
  rewrite !(inf_val (V3 36 0 (25/2)) _ (V3 4 3 0) _ 5 25) by (first [unfold ssub; cbn [vx vy vz]; apply snorm_val; lra]).
  tospec. rnum. svec. unfold demo_a. pose proof PI_RGT_0. field. lra.
Qed.
Lemma demo_01 : vy (infl demo_t demo_vars demo_V (V3 36 0 (25/2)) 1) = demo_b.
Proof.
  destruct demo_v0 as (_ & _ & _ & R0 & _). unfold infl, influence, demo_t. rewrite (mv_ring _ _ demo_v1), R0. cbn [rA rB rC rD]. unfold vortex_horseshoe_v2, demo_V. cbv zeta.
  unfold smirror. cbn [vx vy vz].
  rewrite (line_val (V3 36 0 (25/2)) (V3 60 0 (-(39/2))) (V3 12 0 (-(39/2))) 40 40) by (first [unfold ssub; cbn [vx vy vz]; apply snorm_val; lra | svec; lra]).
  rewrite (line_val (V3 36 0 (25/2)) (V3 12 0 (-(39/2))) (V3 12 0 (-(11/2))) 40 30) by (first [unfold ssub; cbn [vx vy vz]; apply snorm_val; lra | svec; lra]).
  rewrite (line_val (V3 36 0 (25/2)) (V3 12 0 (-(11/2))) (V3 60 0 (-(11/2))) 30 30) by (first [unfold ssub; cbn [vx vy vz]; apply snorm_val; lra | svec; lra]).
  rewrite (inf_val (V3 36 0 (25/2)) (V3 60 0 (-(11/2))) (V3 4 3 0) _ 5 30) by (first [unfold ssub; cbn [vx vy vz]; apply snorm_val; lra]).
  rewrite (inf_val (V3 36 0 (25/2)) (V3 60 0 (-(39/2))) (V3 4 3 0) _ 5 40) by (first [unfold ssub; cbn [vx vy vz]; apply snorm_val; lra]).
  tospec. rnum. svec. unfold demo_b. pose proof PI_RGT_0. field. lra.
Qed.

Definition demo_m (k l : nat) : R := if Nat.eqb k l then demo_a else demo_b.
Lemma infl_dot_y x : sdot x (V3 0 1 0) = vy x.
Proof. destruct x. svec. ring. Qed.
Lemma demo_acoef k l : (k < 2)%nat -> (l < 2)%nat -> acoef demo_t demo_vars demo_V k l = demo_m k l.
Proof.
  destruct demo_v0 as (N0 & C0 & P0 & R0 & S0). pose proof demo_v1 as M.
  assert (N1 : pv_n (demo_vars 1) = V3 0 1 0) by (rewrite (mv_n _ _ M), N0; svec; vec_eq; ring).
  assert (VV : forall k, demo_V k = smirror (demo_V k)) by (intros; unfold demo_V; svec; vec_eq; ring).
  assert (R1 : Ring (smirror (rD (pv_ring (demo_vars 1)))) (smirror (rC (pv_ring (demo_vars 1)))) (smirror (rB (pv_ring (demo_vars 1)))) (smirror (rA (pv_ring (demo_vars 1)))) = pv_ring (demo_vars 0)).
  { rewrite (mv_ring _ _ M), R0. cbn [rA rB rC rD]. f_equal; svec; vec_eq; ring. }
  assert (I11 : infl demo_t demo_vars demo_V (smirror (V3 36 0 (25/2))) 1 = smirror (infl demo_t demo_vars demo_V (V3 36 0 (25/2)) 0)).
  { unfold infl. rewrite (mv_ring _ _ M), (VV 1%nat). apply influence_mirror. }
  assert (I10 : infl demo_t demo_vars demo_V (smirror (V3 36 0 (25/2))) 0 = smirror (infl demo_t demo_vars demo_V (V3 36 0 (25/2)) 1)).
  { unfold infl. rewrite <- R1, (VV 0%nat). apply influence_mirror. }
  intros Hk Hl. assert (KL : (k = 0 \/ k = 1)%nat) by lia. assert (LL : (l = 0 \/ l = 1)%nat) by lia.
  unfold acoef, demo_m. destruct KL as [-> | ->], LL as [-> | ->]; cbn [Nat.eqb]; rewrite ?(mv_ctr _ _ M), ?N0, ?N1, C0, infl_dot_y, ?I11, ?I10;
    unfold smirror; cbn [vx vy vz]; first [apply demo_00 | apply demo_01].
Qed.
Lemma sumn2 f : sumn 2 f = f 0%nat + f 1%nat.
Proof. unfold sumn, tab. cbn [map seq]. rewrite !rsum_cons. change (rsum []) with 0. ring. Qed.
Lemma demo_ab : demo_a + demo_b < 0 /\ demo_a - demo_b < 0.
Proof.
  unfold demo_a, demo_b. pose proof PI_RGT_0 as P. assert (Q : 0 < / (4 * PI)) by (apply Rinv_0_lt_compat; lra). unfold Rdiv. split; nra.
Qed.
Lemma demo_areas : get_panels_area demo_panels = [672; 672].
Proof.
  assert (A : panel_area demo_panel = 672).
  { unfold panel_area, demo_panel; cbv zeta; cbn [pp1 pp2 pp3 pp4]. tospec. rewrite ndec_R. change (10 ^ 1)%Z with 10%Z. rnum.
    unfold ssub. cbn [vx vy vz]. unfold scross. cbn [vx vy vz]. rewrite (snorm_val _ _ _ (48*14)) by lra. rewrite (snorm_val _ _ _ (48*14)) by lra. lra. }
  unfold get_panels_area, demo_panels. cbn [map]. rewrite panel_area_mirrored, A. reflexivity.
Qed.
Lemma demo_solved : solved 2 1 demo_panels [false; false] demo_t demo_vars demo_V (fun _ => - 3 / (demo_a + demo_b)) (fun _ => - 3 / (demo_a + demo_b)).
Proof.
  destruct demo_ab as [AB AB']. constructor.
  - assert (N : forall k, (k < 2)%nat -> sdot (demo_V k) (pv_n (demo_vars k)) = 3).
    { intros k Hk. assert (KL : (k = 0 \/ k = 1)%nat) by lia. destruct KL as [-> | ->]; rewrite ?(mv_n _ _ demo_v1), (proj1 demo_v0); unfold demo_V; svec; ring. }
    intros k Hk. rewrite sumn2, !demo_acoef, N by lia. assert (KL : (k = 0 \/ k = 1)%nat) by lia. destruct KL as [-> | ->]; unfold demo_m; cbn [Nat.eqb]; field; lra.
  - intros z Z. pose proof (Z 0%nat ltac:(lia)) as Z0. pose proof (Z 1%nat ltac:(lia)) as Z1. rewrite sumn2, !demo_acoef in Z0, Z1 by lia.
    unfold demo_m in *. cbn [Nat.eqb] in *.
    assert (P : z 0%nat + z 1%nat = 0) by nra. assert (M : z 0%nat - z 1%nat = 0) by nra.
    intros l L. assert (LL : (l = 0 \/ l = 1)%nat) by lia. destruct LL as [-> | ->]; lra.
  - rewrite demo_areas. intros a [<-|[<-|[]]]; rewrite ndec_R; change (10 ^ 14)%Z with 100000000000000%Z; lra.
  - intros k Hk. assert (KL : (k = 0 \/ k = 1)%nat) by lia. destruct KL as [-> | ->]; reflexivity.
Qed.
Lemma demo_vars_ok : calculate_vlm_variables demo_panels [true; true] (-1) 1 1 = Ok [demo_vars 0; demo_vars 1].
Proof. reflexivity. Qed.
Lemma demo_inlet : exists ic, InletConditions demo_wind (map pv_cp [demo_vars 0; demo_vars 1]) = Ok ic /\ in_V ic = [V3 4 3 0; V3 4 3 0].
Proof.
  eexists. split; [reflexivity|]. cbn [in_V map].
  assert (W : get_app_infs_at_h demo_wind (length_to_xyz_vector demo_wind 3) = V3 4 3 0).
  { unfold get_app_infs_at_h, length_to_xyz_vector, w_alpha, demo_wind. cbn [w_alpha_deg w_sog vx vy vz]. rewrite !deg2rad_s.
    replace (rad 90) with (PI / 2) by (unfold rad; field). rnum. rewrite cos_PI2, sin_PI2. vec_eq; ring. }
  change (w_tws demo_wind) with 3. rewrite W. reflexivity.
Qed.
Lemma demo_Vlm rho : exists o, Vlm demo_panels 1 1 rho demo_wind [true; true] [false; false] = Ok o.
Proof.
  destruct demo_inlet as (ic & IC & EI).
  destruct (vlm_solve_make 2 1 rho demo_panels [false; false] demo_t demo_vars demo_V 1 [true; true] [demo_vars 0; demo_vars 1] ic _ _ eq_refl eq_refl eq_refl EI demo_solved) as (o & E & _).
  exists o. unfold Vlm. rewrite gor_R, demo_vars_ok. unfold bind at 1. rewrite IC. exact E.
Qed.
(* the panels are those of a flat rectangular sail *)
Definition flat_panels (c : R) : list (panel R) :=
  let p := Panel (V3 c 0 (11/2)) (V3 0 0 (11/2)) (V3 0 0 (39/2)) (V3 c 0 (39/2)) in [p; mirrored p].
Lemma flat_sail_mode c name mode : 0 <= c -> mode = None \/ mode = Some "real_twist"%string ->
  good_sail (V3 0 0 (39/2)) (V3 0 0 (11/2)) (Csys 0 0 szero) 1 1 [c; c] [0; 0] [0; 0] [1/2; 1/2] mode /\
  exists s ss, SailGeometry (V3 0 0 (39/2)) (V3 0 0 (11/2)) (Csys 0 0 szero) 1 1 [c; c] [0; 0] name mode [0; 0] [1/2; 1/2] = Ok s /\
    (SailSet [s] = Ok ss) /\ (ss_panels ss = flat_panels c) /\ ss_te ss = [true; true] /\ ss_le ss = [false; false].
Proof.
  intros C MO. assert (G : good_sail (V3 0 0 (39/2)) (V3 0 0 (11/2)) (Csys 0 0 szero) 1 1 [c; c] [0; 0] [0; 0] [1/2; 1/2] mode).
  { constructor; try reflexivity; try lia; simpl; try lra; auto.
    - intros m [<-|[<-|[]]]; lra. - intros m [<-|[<-|[]]]; lra.
    - destruct MO as [-> | ->]; [exact I|]. split; [auto|]. right. unfold sheel, onto_plane, srot. rewrite rad_0, Ropp_0, cos_0, sin_0. svec. lra. }
  split; [exact G|]. destruct (good_sail_spec _ _ _ _ _ _ _ _ _ _ name G) as (s & E & _ & _ & _ & _ & _ & _ & P).
  assert (BU : built 1 1 s) by (do 9 eexists; exact E). destruct (built_layout _ _ _ BU) as [L1 L2 L3 L4 T L _ _].
  exists s. eexists. split; [exact E|]. split; [reflexivity|]. cbn [ss_panels ss_te ss_le map concat app].
  assert (S1 : forall (X : Type) (l : list X) a, length l = (1 * 1)%nat -> nth_error l 0 = Some a -> l = [a]).
  { intros X [|x [|y l]] a LL EQ; simpl in LL; try discriminate. injection EQ as ->. reflexivity. }
  rewrite (S1 _ _ _ L3 (T 0 0 ltac:(lia) ltac:(lia))%nat), (S1 _ _ _ L4 (L 0 0 ltac:(lia) ltac:(lia))%nat).
  destruct (P 0%nat 0%nat ltac:(lia) ltac:(lia)) as (PA & PU & _). rewrite (S1 _ _ _ L1 PA), (S1 _ _ _ L2 PU).
  split; [|split; reflexivity]. unfold upoint, spoint.
  assert (AN : forall k, angle (fun k => nth k [0; 0] 0) mode k = 0). { intros k. unfold angle. destruct MO as [-> | ->]; [reflexivity|]. destruct k as [|[|[|k]]]; reflexivity. }
  rewrite !AN, rad_0, !srot_line_0.
  assert (H0 : forall p, hl (Csys 0 0 szero) p = p).
  { intros p. unfold hl, sheel. cbn [heel_deg leeway_deg]. rewrite rad_0, Ropp_0. unfold srot. rewrite cos_0, sin_0. destruct p; svec; vec_eq; ring. }
  rewrite !H0. unfold zpoint, ssection. cbv zeta. simpl Nat.sub. simpl Nat.add. cbn [nth]. simpl INR.
  assert (SC : forall x, scamber 0 (1/2) x = 0) by (intros x; unfold scamber; destruct (Rlt_dec x (1/2)); field).
  rewrite !SC. unfold flat_panels, mirrored, slerp. cbn [pp1 pp2 pp3 pp4 app]. f_equal; [|f_equal]; f_equal; svec; vec_eq; field.
Qed.
Lemma flat_sail c : 0 <= c -> good_sail (V3 0 0 (39/2)) (V3 0 0 (11/2)) (Csys 0 0 szero) 1 1 [c; c] [0; 0] [0; 0] [1/2; 1/2] None /\
  exists s ss, SailGeometry (V3 0 0 (39/2)) (V3 0 0 (11/2)) (Csys 0 0 szero) 1 1 [c; c] [0; 0] "demo"%string None [0; 0] [1/2; 1/2] = Ok s /\
    (SailSet [s] = Ok ss) /\ (ss_panels ss = flat_panels c) /\ ss_te ss = [true; true] /\ ss_le ss = [false; false].
Proof. intros C. apply flat_sail_mode; auto. Qed.
Lemma demo_sail : good_sail (V3 0 0 (39/2)) (V3 0 0 (11/2)) (Csys 0 0 szero) 1 1 [48; 48] [0; 0] [0; 0] [1/2; 1/2] None /\
  exists s ss, SailGeometry (V3 0 0 (39/2)) (V3 0 0 (11/2)) (Csys 0 0 szero) 1 1 [48; 48] [0; 0] "demo"%string None [0; 0] [1/2; 1/2] = Ok s /\
    (SailSet [s] = Ok ss) /\ (ss_panels ss = demo_panels) /\ ss_te ss = [true; true] /\ ss_le ss = [false; false].
Proof. apply (flat_sail 48). lra. Qed.
