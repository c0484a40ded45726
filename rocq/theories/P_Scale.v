(** C77: geometrically similar lattices. *)

From Coq Require Import String ZArith Reals List Bool Lra Psatz Lia.
From Verif Require Import Num PyBase RNum Spec M_Panels M_Velocity M_Solve M_Coefs M_Forces M_Winds M_Csys M_Sail M_Vlm
  L_List L_Rot L_Vel L_Vel2 L_Csys L_Sail L_Solve L_Lattice L_Vlm L_Vlm2 L_Scale P_Sail P_Lattice L_Demo P_Vlm.
Import ListNotations.
Open Scope R_scope.

(** Circulation grows with the length, forces with its square; velocities and pressures do not depend on it. *)
Record similar (k : R) (o o' : vlm R) : Prop := {
  si_ctr : vl_ctr o' = map (sscale k) (vl_ctr o);
  si_cp : vl_cp o' = map (sscale k) (vl_cp o);
  si_normals : vl_normals o' = vl_normals o;
  si_spans : vl_spans o' = map (sscale k) (vl_spans o);
  si_areas : vl_areas o' = map (Rmult (k ^ 2)) (vl_areas o);
  si_inflow : in_V (vl_inlet o') = in_V (vl_inlet o);
  si_gamma : vl_gamma o' = map (Rmult k) (vl_gamma o);
  si_V_ind_ctrl : vl_V_ind_ctrl o' = vl_V_ind_ctrl o;
  si_V_ctrl : vl_V_ctrl o' = vl_V_ctrl o;
  si_V_ind_cp : vl_V_ind_cp o' = vl_V_ind_cp o;
  si_V_cp : vl_V_cp o' = vl_V_cp o;
  si_force : vl_force o' = map (sscale (k ^ 2)) (vl_force o);
  si_lift : vl_lift o' = map (sscale (k ^ 2)) (vl_lift o);
  si_drag : vl_drag o' = map (sscale (k ^ 2)) (vl_drag o);
  si_pressure : vl_pressure o' = vl_pressure o;
  si_pcoef : vl_pcoef o' = vl_pcoef o }.

(** No control point and no centre of pressure enters or leaves the core of a vortex segment. *)
Definition same_cores (k : R) (o : vlm R) : Prop :=
  forall p l r t, In p (vl_ctr o ++ vl_cp o) -> nth_error (vl_rings o) l = Some r -> nth_error (vl_te o) l = Some t -> same_core k p t r.

Theorem C77_solver : forall k nc ns G panels rho te le w o, 0 < k ->
  (0 < nc)%nat -> (0 < ns)%nat -> (0 < G)%nat -> flags nc ns G te le -> length panels = (G * (nc * ns))%nat ->
  Vlm panels nc ns rho w te le = Ok o -> same_cores k o -> (forall a, In a (vl_areas o) -> / 10 ^ 14 <= k ^ 2 * a) ->
  exists o', Vlm (map (enlarged k) panels) nc ns rho (stretched k w) te le = Ok o' /\ similar k o o'.
Proof.
  intros k nc ns G panels rho te le w o HK NC NS NG FG LP EE SC AB.
  assert (LT : length te = length panels) by (rewrite LP; apply FG).
  destruct (Vlm_inv _ _ _ _ _ _ _ _ LT EE) as (vars & ic & g & net & CV & LV & IC & LI & VS & SO & FL).
  destruct (vars_sc k HK nc ns G te panels vars NC NS NG LP (fl_te_len _ _ _ _ _ FG) (fl_te _ _ _ _ _ FG) CV) as (vars' & CV' & LV' & MV).
  set (K := length panels) in *. set (t := fun k => nth k te false) in *. set (v := fun k => nth k vars dpv) in *. set (V := fun k => nth k (in_V ic) szero) in *.
  destruct SO as [EQ RG AR NT].
  set (v' := fun k => nth k vars' dpv). set (panels' := map (enlarged k) panels).
  assert (ET : te = tab K t) by (apply list_tab; assumption). assert (EV : vars = tab K v) by (apply list_tab; assumption).
  assert (EV' : vars' = tab K v') by (apply list_tab; congruence).
  assert (EI0 : in_V ic = tab K V) by (apply list_tab; assumption).
  assert (MK : forall c, (c < K)%nat -> scaled_vars k (v c) (v' c)).
  { intros c Hc. destruct (MV c (v c)) as (x & W & M). { unfold v. apply nth_error_nth'. lia. }
    unfold v'. rewrite (nth_of_error _ _ dpv _ W). exact M. }
  assert (CP : map pv_cp vars' = map (sscale k) (map pv_cp vars)).
  { rewrite EV, EV', !map_tab. apply tab_ext. intros c Hc. apply (sv_cp _ _ _ (MK c Hc)). }
  set (ic' := Inlet (map (sscale k) (map pv_cp vars)) (in_tws ic) (in_V ic) (in_awa_deg ic)).
  assert (IC' : InletConditions (stretched k w) (map pv_cp vars') = Ok ic') by (rewrite CP, inlet_sc, IC by assumption; reflexivity).
  assert (IN : forall p l, (l < K)%nat -> In p (vl_ctr o ++ vl_cp o) -> infl t v' V (sscale k p) l = sscale (/ k) (infl t v V p l)).
  { intros p l L I. unfold infl. rewrite (sv_ring _ _ _ (MK l L)). apply influence_scale; [assumption|].
    apply (SC p l); [assumption| |].
    - unfold vl_rings. rewrite (f_vars _ _ _ _ _ _ _ _ _ _ _ _ _ _ FL), map_tab. exact (tab_nth_error K (fun x => pv_ring (v x)) l L).
    - rewrite (f_te _ _ _ _ _ _ _ _ _ _ _ _ _ _ FL), ET. exact (tab_nth_error K t l L). }
  assert (PC : forall a, (a < K)%nat -> In (pv_ctr (v a)) (vl_ctr o ++ vl_cp o)).
  { intros a A. apply in_or_app. left. unfold vl_ctr. rewrite (f_vars _ _ _ _ _ _ _ _ _ _ _ _ _ _ FL), map_tab. apply (nth_error_In _ a). exact (tab_nth_error K (fun x => pv_ctr (v x)) a A). }
  assert (PP : forall a, (a < K)%nat -> In (pv_cp (v a)) (vl_ctr o ++ vl_cp o)).
  { intros a A. apply in_or_app. right. unfold vl_cp. rewrite (f_vars _ _ _ _ _ _ _ _ _ _ _ _ _ _ FL), map_tab. apply (nth_error_In _ a). exact (tab_nth_error K (fun x => pv_cp (v x)) a A). }
  assert (KI : k * / k = 1) by (apply Rinv_r; lra).
  set (g' := fun l => k * g l).
  assert (WA : forall p, In p (vl_ctr o ++ vl_cp o) -> wash K t v' V g' (sscale k p) = wash K t v V g p).
  { intros p I. unfold wash. apply vsumn_ext. intros l L. rewrite IN by assumption. unfold g'. destruct (infl t v V p l) as [x y z]. svec. vec_eq; field; lra. }
  assert (AC : forall a b, (a < K)%nat -> (b < K)%nat -> acoef t v' V a b = / k * acoef t v V a b).
  { intros a b A B. unfold acoef. rewrite (sv_ctr _ _ _ (MK a A)), (sv_n _ _ _ (MK a A)), IN by auto. destruct (infl _ _ _ _ _), (pv_n (v a)). svec. ring. }
  assert (AREA : get_panels_area panels' = map (Rmult (k * k)) (get_panels_area panels)) by (apply areas_sc; assumption).
  assert (FA : vl_areas o = get_panels_area panels) by apply (f_areas _ _ _ _ _ _ _ _ _ _ _ _ _ _ FL).
  destruct (vlm_solve_make K ns rho panels' le t v' V nc te vars' ic' g' (fun l => k * net l)) as (o' & E' & FL'); try assumption.
  { unfold panels'. apply map_length. }
  { constructor.
    - intros a A. rewrite (sv_n _ _ _ (MK a A)), <- (EQ a A). apply sumn_ext. intros l L. rewrite AC by assumption. unfold g'. transitivity (k * / k * (acoef t v V a l * g l)); [ring|]. rewrite KI. ring.
    - intros z Z l L. apply (RG z); [|exact L]. intros a A. apply (Rmult_eq_reg_l (/ k)); [|apply Rinv_neq_0_compat; lra]. rewrite Rmult_0_r, <- (Z a A), <- sumn_scale. apply sumn_ext. intros l' L'. rewrite AC by assumption. ring.
    - rewrite AREA. intros a I. apply in_map_iff in I. destruct I as (x & <- & I). rewrite <- FA in I. pose proof (AB x I) as Q. rewrite ndec_R. change (IZR (10 ^ 14)) with (IZR (Z.pow_pos 10 14)).
      replace (1 / IZR (Z.pow_pos 10 14)) with (/ 10 ^ 14) by (simpl; lra). lra.
    - intros a A. unfold g'. rewrite <- (map_tab (Rmult k)). apply net_scale. apply NT. assumption. }
  exists o'. split. { unfold Vlm. rewrite gor_R. fold panels' in CV'. rewrite CV'. unfold bind at 1. rewrite IC'. exact E'. }
  destruct FL as [_ _ _ _ _ _ FA0 FV FI F1 F2 F3 F4 F5 F6 F7 F8 F9 F10]. destruct FL' as [_ _ _ _ _ _ FA' FV' FI' F1' F2' F3' F4' F5' F6' F7' F8' F9' F10'].
  assert (FO : forall a, (a < K)%nat -> pforce K rho t v' V g' (fun l => k * net l) a = sscale (k ^ 2) (pforce K rho t v V g net a)).
  { intros a A. unfold pforce. rewrite (sv_cp _ _ _ (MK a A)), (sv_span _ _ _ (MK a A)), WA by auto.
    generalize (wash K t v V g (pv_cp (v a))) (pv_span (v a)) (V a). intros [? ? ?] [? ? ?] [? ? ?]. svec. vec_eq; ring. }
  assert (AR2 : forall a, (a < K)%nat -> area panels' a = k ^ 2 * area panels a).
  { intros a A. unfold area. rewrite AREA. rewrite (nth_map (Rmult (k * k)) _ a 0 0). { ring. } unfold get_panels_area. rewrite map_length. exact A. }
  assert (PR : forall a, (a < K)%nat -> sdot (pforce K rho t v' V g' (fun l => k * net l) a) (pv_n (v' a)) / area panels' a = sdot (pforce K rho t v V g net a) (pv_n (v a)) / area panels a).
  { intros a A. rewrite FO, AR2, (sv_n _ _ _ (MK a A)) by assumption. unfold Rdiv. rewrite Rinv_mult.
    destruct (pforce K rho t v V g net a), (pv_n (v a)). svec. generalize (/ area panels a). intros. field. lra. }
  constructor; unfold vl_ctr, vl_cp, vl_normals, vl_spans;
    [rewrite FV, FV' | rewrite FV, FV' | rewrite FV, FV' | rewrite FV, FV' | rewrite FA0, FA', AREA | rewrite FI, FI'; reflexivity
     | rewrite F1, F1' | rewrite F2, F2' | rewrite F3, F3' | rewrite F4, F4' | rewrite F5, F5' | rewrite F6, F6' | rewrite F7, F7' | rewrite F8, F8' | rewrite F9, F9' | rewrite F10, F10'];
    rewrite ?map_tab; [| | | | |apply tab_ext; intros a A ..].
  - apply tab_ext; intros a A. apply (sv_ctr _ _ _ (MK a A)).
  - apply tab_ext; intros a A. apply (sv_cp _ _ _ (MK a A)).
  - apply tab_ext; intros a A. apply (sv_n _ _ _ (MK a A)).
  - apply tab_ext; intros a A. apply (sv_span _ _ _ (MK a A)).
  - apply map_ext. intros. ring.
  - reflexivity.
  - rewrite (sv_ctr _ _ _ (MK a A)). apply WA; auto.
  - rewrite (sv_ctr _ _ _ (MK a A)), WA by auto. reflexivity.
  - rewrite (sv_cp _ _ _ (MK a A)). apply WA; auto.
  - rewrite (sv_cp _ _ _ (MK a A)), WA by auto. reflexivity.
  - apply FO. assumption.
  - unfold plift. rewrite (sv_span _ _ _ (MK a A)). generalize (pv_span (v a)) (V a). intros [? ? ?] [? ? ?]. svec. vec_eq; ring.
  - unfold pdrag. rewrite (sv_cp _ _ _ (MK a A)), (sv_span _ _ _ (MK a A)), WA by auto. generalize (wash K t v V g (pv_cp (v a))) (pv_span (v a)). intros [? ? ?] [? ? ?]; svec; vec_eq; ring.
  - apply PR. assumption.
  - rewrite PR by assumption. reflexivity.
Qed.

(** *** a similar lattice *)
Lemma core_margin k p a b : 1/10 <= k ->
  (scross (ssub p a) (ssub p b) = szero \/
   (1 <= sdot (ssub p a) (ssub p a) /\ 1 <= sdot (ssub p b) (ssub p b) /\ 1 <= sdot (scross (ssub p a) (ssub p b)) (scross (ssub p a) (ssub p b)))) ->
  in_core p a b <-> in_core (sscale k p) (sscale k a) (sscale k b).
Proof.
  intros K H. unfold in_core. rewrite !sc_sub, sc_cross_norm, !sc_norm by lra. destruct H as [Z|(A & B & C)].
  - rewrite Z. replace (snorm szero) with 0 by (symmetry; apply snorm_zero; reflexivity). split; intros _; right; right; simpl; lra.
  - assert (G : forall x, 1 <= sdot x x -> 1 <= snorm x).
    { intros x X. pose proof (snorm_nonneg x). rewrite <- snorm_sq in X. nra. }
    pose proof (G _ A). pose proof (G _ B). pose proof (G _ C). set (x := snorm (ssub p a)) in *. set (y := snorm (ssub p b)) in *. set (z := snorm (scross _ _)) in *.
    assert (1/10 <= k * x) by nra. assert (1/10 <= k * y) by nra. assert (1/100 <= k * k) by nra. assert (1/100 <= k * k * z) by nra.
    split; intros [Q|[Q|Q]]; exfalso; simpl in Q; nra.
Qed.
Lemma demo_same_cores rho o k : 1/10 <= k -> Vlm demo_panels 1 1 rho demo_wind [true; true] [false; false] = Ok o -> same_cores k o.
Proof.
  intros HK E p l r t I RI TI. destruct (Vlm_inv _ _ _ _ _ _ _ _ (eq_refl : length [true; true] = length demo_panels) E) as (vars & ic & g & net & CV & LV & _ & _ & _ & _ & FL).
  rewrite demo_vars_ok in CV. injection CV as <-.
  assert (FV : vl_vars o = [demo_vars 0; demo_vars 1]) by exact (f_vars _ _ _ _ _ _ _ _ _ _ _ _ _ _ FL).
  assert (FT : vl_te o = [true; true]) by exact (f_te _ _ _ _ _ _ _ _ _ _ _ _ _ _ FL). clear FL.
  destruct demo_v0 as (_ & C0 & P0 & R0 & _). pose proof demo_v1 as M1.
  unfold vl_ctr, vl_cp, vl_rings in *. rewrite FV in *. rewrite FT in TI. cbn [map app] in I, RI. rewrite (mv_ctr _ _ M1), (mv_cp _ _ M1), C0, P0 in I. rewrite (mv_ring _ _ M1), R0 in RI. cbn [rA rB rC rD] in RI. unfold smirror in *. cbn [vx vy vz] in *.
  assert (t = true) as ->. { destruct l as [|[|l]]; cbn in TI; try congruence. destruct l; discriminate. }
  assert (RR : r = Ring (V3 60 0 (11/2)) (V3 12 0 (11/2)) (V3 12 0 (39/2)) (V3 60 0 (39/2)) \/ r = Ring (V3 60 0 (-(39/2))) (V3 12 0 (-(39/2))) (V3 12 0 (-(11/2))) (V3 60 0 (-(11/2)))).
  { destruct l as [|[|l]]; cbn in RI; [left | right | destruct l; discriminate]; congruence. }
  intros a b AB. unfold segments in AB. cbn [app] in AB.
  destruct I as [<-|[<-|[<-|[<-|[]]]]], RR as [-> | ->]; cbn [rA rB rC rD] in AB; destruct AB as [AB|[AB|[AB|[]]]]; injection AB as <- <-;
    (apply core_margin; [exact HK|]); first [left; svec; vec_eq; lra | right; svec; repeat split; lra].
Qed.
Example C77_case : exists nc ns G panels rho te le w o, (0 < nc)%nat /\ (0 < ns)%nat /\ (0 < G)%nat /\ flags nc ns G te le /\ length panels = (G * (nc * ns))%nat /\
  Vlm panels nc ns rho w te le = Ok o /\ same_cores (1/2) o /\ (forall a, In a (vl_areas o) -> / 10 ^ 14 <= (1/2) ^ 2 * a) /\ map (enlarged (1/2)) panels <> panels.
Proof.
  destruct (demo_Vlm 1) as [o E]. exists 1%nat, 1%nat, 2%nat, demo_panels, 1, [true; true], [false; false], demo_wind, o.
  do 3 (split; [lia|]). split; [exact demo_flags|]. split; [reflexivity|]. split; [exact E|]. split; [apply (demo_same_cores 1); [lra|exact E]|]. split.
  - destruct (Vlm_inv _ _ _ _ _ _ _ _ (eq_refl : length [true; true] = length demo_panels) E) as (vars & ic & g & net & _ & _ & _ & _ & _ & _ & FL).
    rewrite (f_areas _ _ _ _ _ _ _ _ _ _ _ _ _ _ FL), demo_areas. intros a [<-|[<-|[]]]; simpl; lra.
  - intros X. apply (f_equal (fun l => match l with p :: _ => vx (pp1 p) | [] => 0 end)) in X. cbn [map demo_panels enlarged pp1 demo_panel] in X. unfold sscale in X. cbn [vx] in X. lra.
Qed.

(** *** a lattice too small: all segments of the rings are taken for vortex cores *)
Definition small : R := / 10 ^ 4.
Definition small_vars (l : nat) : pvars R := match l with O => panel_vars (-1) (enlarged small demo_panel) (aft_A (enlarged small demo_panel)) (aft_D (enlarged small demo_panel))
  | _ => panel_vars (-1) (enlarged small (mirrored demo_panel)) (aft_A (enlarged small (mirrored demo_panel))) (aft_D (enlarged small (mirrored demo_panel))) end.
Lemma small_pos : 0 < small.
Proof. unfold small. lra. Qed.
Lemma small_scaled l : scaled_vars small (demo_vars l) (small_vars l).
Proof. unfold small_vars, demo_vars. destruct l; rewrite aft_A_sc, aft_D_sc; apply panel_vars_sc; apply small_pos. Qed.
Lemma small_core p a b g : sdot (scross (ssub p a) (ssub p b)) (scross (ssub p a) (ssub p b)) < 10 ^ 7 -> vortex_line (sscale small p) (sscale small a) (sscale small b) g = szero.
Proof.
  intros H. apply vortex_line_core. right; right. rewrite !sc_sub, sc_cross_norm by apply small_pos. rewrite <- snorm_sq in H. set (n := snorm _) in *.
  replace ((small * small * n) ^ 2) with (small ^ 4 * n ^ 2) by ring. unfold small. simpl in *. lra.
Qed.
Definition small_a : R := - (112/10/1105)/(4*PI).
Definition small_b : R := (144/10/1476 - 256/10/2368)/(4*PI).
Lemma small_00 : vy (infl demo_t small_vars demo_V (sscale small (V3 36 0 (25/2))) 0) = / small * small_a.
Proof.
  destruct demo_v0 as (_ & _ & _ & R0 & _). unfold infl, influence, demo_t. rewrite (sv_ring _ _ _ (small_scaled 0)), R0. unfold ring_scaled. cbn [rA rB rC rD]. unfold vortex_horseshoe_v2, demo_V. cbv zeta.
  rewrite !small_core by (svec; lra). rewrite !inf_scale by apply small_pos.
  rewrite !(inf_val (V3 36 0 (25/2)) _ (V3 4 3 0) _ 5 25) by (first [unfold ssub; cbn [vx vy vz]; apply snorm_val; lra]).
  pose proof small_pos as SP. generalize dependent small. intros s SP. tospec. rnum. svec. unfold small_a. pose proof PI_RGT_0. field. lra.
Qed.
Lemma small_01 : vy (infl demo_t small_vars demo_V (sscale small (V3 36 0 (25/2))) 1) = / small * small_b.
Proof.
  destruct demo_v0 as (_ & _ & _ & R0 & _). unfold infl, influence, demo_t. rewrite (sv_ring _ _ _ (small_scaled 1)), (mv_ring _ _ demo_v1), R0. unfold ring_scaled. cbn [rA rB rC rD]. unfold vortex_horseshoe_v2, demo_V. cbv zeta.
  rewrite !small_core by (svec; lra). rewrite !inf_scale by apply small_pos. unfold smirror. cbn [vx vy vz].
  rewrite (inf_val (V3 36 0 (25/2)) (V3 60 0 (-(11/2))) (V3 4 3 0) _ 5 30) by (first [unfold ssub; cbn [vx vy vz]; apply snorm_val; lra]).
  rewrite (inf_val (V3 36 0 (25/2)) (V3 60 0 (-(39/2))) (V3 4 3 0) _ 5 40) by (first [unfold ssub; cbn [vx vy vz]; apply snorm_val; lra]).
  pose proof small_pos as SP. generalize dependent small. intros s SP. tospec. rnum. svec. unfold small_b. pose proof PI_RGT_0. field. lra.
Qed.
Lemma smirror_sc s p : smirror (sscale s p) = sscale s (smirror p).
Proof. destruct p. svec. vec_eq; ring. Qed.
Lemma small_acoef k l : (k < 2)%nat -> (l < 2)%nat -> acoef demo_t small_vars demo_V k l = / small * (if Nat.eqb k l then small_a else small_b).
Proof.
  destruct demo_v0 as (N0 & C0 & P0 & R0 & S0). pose proof demo_v1 as M.
  assert (N1 : pv_n (demo_vars 1) = V3 0 1 0) by (rewrite (mv_n _ _ M), N0; svec; vec_eq; ring).
  assert (VV : forall k, demo_V k = smirror (demo_V k)) by (intros; unfold demo_V; svec; vec_eq; ring).
  assert (MR : forall i j, pv_ring (demo_vars j) = Ring (smirror (rD (pv_ring (demo_vars i)))) (smirror (rC (pv_ring (demo_vars i)))) (smirror (rB (pv_ring (demo_vars i)))) (smirror (rA (pv_ring (demo_vars i)))) ->
    forall p, infl demo_t small_vars demo_V (sscale small (smirror p)) j = smirror (infl demo_t small_vars demo_V (sscale small p) i)).
  { intros i j E p. unfold infl. rewrite !(sv_ring _ _ _ (small_scaled _)), E. unfold ring_scaled. cbn [rA rB rC rD]. rewrite <- !smirror_sc, (VV j).
    change (demo_V j) with (demo_V i). unfold demo_t. exact (influence_mirror (-1) (sscale small p) (Ring (sscale small (rA (pv_ring (demo_vars i)))) (sscale small (rB (pv_ring (demo_vars i)))) (sscale small (rC (pv_ring (demo_vars i)))) (sscale small (rD (pv_ring (demo_vars i))))) true (demo_V i)). }
  assert (I11 := MR 0%nat 1%nat (mv_ring _ _ M)).
  assert (I10 : forall p, infl demo_t small_vars demo_V (sscale small (smirror p)) 0 = smirror (infl demo_t small_vars demo_V (sscale small p) 1)).
  { apply MR. rewrite (mv_ring _ _ M), R0. cbn [rA rB rC rD]. f_equal; svec; vec_eq; ring. }
  intros Hk Hl. assert (KL : (k = 0 \/ k = 1)%nat) by lia. assert (LL : (l = 0 \/ l = 1)%nat) by lia.
  unfold acoef. destruct KL as [-> | ->], LL as [-> | ->]; cbn [Nat.eqb]; rewrite (sv_ctr _ _ _ (small_scaled _)), (sv_n _ _ _ (small_scaled _)), ?(mv_ctr _ _ M), ?N0, ?N1, C0, infl_dot_y, ?I11, ?I10;
    unfold smirror; cbn [vx vy vz]; first [apply small_00 | apply small_01].
Qed.
Lemma small_ab : small_a + small_b < 0 /\ small_a - small_b < 0 /\ demo_a + demo_b < small_a + small_b.
Proof.
  unfold small_a, small_b, demo_a, demo_b. pose proof PI_RGT_0 as P. assert (Q : 0 < / (4 * PI)) by (apply Rinv_0_lt_compat; lra). unfold Rdiv. repeat split; nra.
Qed.
Lemma small_solved : let g := fun _ : nat => - 3 / (small_a + small_b) * small in solved 2 1 (map (enlarged small) demo_panels) [false; false] demo_t small_vars demo_V g g.
Proof.
  destruct small_ab as (AB & AB' & _). pose proof small_pos as SP. intros g. constructor.
  - assert (N : forall k, (k < 2)%nat -> sdot (demo_V k) (pv_n (small_vars k)) = 3).
    { intros k Hk. rewrite (sv_n _ _ _ (small_scaled k)). assert (KL : (k = 0 \/ k = 1)%nat) by lia. destruct KL as [-> | ->]; rewrite ?(mv_n _ _ demo_v1), (proj1 demo_v0); unfold demo_V; svec; ring. }
    intros k Hk. rewrite sumn2, !small_acoef, N by lia. unfold g. assert (KL : (k = 0 \/ k = 1)%nat) by lia. destruct KL as [-> | ->]; cbn [Nat.eqb]; field; lra.
  - intros z Z. pose proof (Z 0%nat ltac:(lia)) as Z0. pose proof (Z 1%nat ltac:(lia)) as Z1. rewrite sumn2, !small_acoef in Z0, Z1 by lia. cbn [Nat.eqb] in *.
    assert (IS : 0 < / small) by (apply Rinv_0_lt_compat; exact SP).
    assert (Y0 : small_a * z 0%nat + small_b * z 1%nat = 0) by nra. assert (Y1 : small_b * z 0%nat + small_a * z 1%nat = 0) by nra.
    assert (P : z 0%nat + z 1%nat = 0) by nra. assert (M : z 0%nat - z 1%nat = 0) by nra.
    intros l L. assert (LL : (l = 0 \/ l = 1)%nat) by lia. destruct LL as [-> | ->]; lra.
  - rewrite areas_sc, demo_areas by exact SP. unfold small. intros a [<-|[<-|[]]]; rewrite ndec_R; change (10 ^ 14)%Z with 100000000000000%Z; simpl; lra.
  - intros k Hk. assert (KL : (k = 0 \/ k = 1)%nat) by lia. destruct KL as [-> | ->]; reflexivity.
Qed.
(** The same sail ten thousand times smaller: the program computes it without complaint, but the circulation is more than forty times too large. *)
Theorem C77_refuted : exists k panels w te le o o' g g', 0 < k /\ flags 1 1 2 te le /\ length panels = 2%nat /\
  Vlm panels 1 1 1 w te le = Ok o /\ (forall a, In a (vl_areas o) -> / 10 ^ 14 <= k ^ 2 * a) /\
  Vlm (map (enlarged k) panels) 1 1 1 (stretched k w) te le = Ok o' /\ vl_gamma o = [g; g] /\ vl_gamma o' = [g'; g'] /\ 0 < g /\ 40 * (k * g) < g'.
Proof.
  destruct (demo_Vlm 1) as [o E]. destruct (demo_gamma 1 o E) as (g & GP & EG).
  exists small, demo_panels, demo_wind, [true; true], [false; false], o.
  destruct demo_inlet as (ic & IC & EI).
  set (ic' := Inlet (map (sscale small) (map pv_cp [demo_vars 0; demo_vars 1])) (in_tws ic) (in_V ic) (in_awa_deg ic)).
  assert (CP : map pv_cp [small_vars 0; small_vars 1] = map (sscale small) (map pv_cp [demo_vars 0; demo_vars 1])).
  { cbn [map]. rewrite !(sv_cp _ _ _ (small_scaled _)). reflexivity. }
  assert (IC' : InletConditions (stretched small demo_wind) (map pv_cp [small_vars 0; small_vars 1]) = Ok ic') by (rewrite CP, inlet_sc, IC by apply small_pos; reflexivity).
  destruct (vlm_solve_make 2 1 1 (map (enlarged small) demo_panels) [false; false] demo_t small_vars demo_V 1 [true; true] [small_vars 0; small_vars 1] ic' _ _ eq_refl eq_refl eq_refl EI small_solved) as (o' & E' & FL').
  exists o', g. eexists. split; [apply small_pos|]. split; [exact demo_flags|]. split; [reflexivity|]. split; [exact E|]. split.
  { destruct (Vlm_inv _ _ _ _ _ _ _ _ (eq_refl : length [true; true] = length demo_panels) E) as (vars & ? & ? & net & _ & _ & _ & _ & _ & _ & FL).
    rewrite (f_areas _ _ _ _ _ _ _ _ _ _ _ _ _ _ FL), demo_areas. unfold small. intros a [<-|[<-|[]]]; simpl; lra. }
  split. { unfold Vlm. rewrite gor_R. change (calculate_vlm_variables (map (enlarged small) demo_panels) [true; true] (-1) 1 1) with (Ok [small_vars 0; small_vars 1]). unfold bind at 1. rewrite IC'. exact E'. }
  split; [exact EG|]. split; [rewrite (f_gamma _ _ _ _ _ _ _ _ _ _ _ _ _ _ FL'); reflexivity|]. split; [exact GP|].
  assert (g = - 3 / (demo_a + demo_b)) as ->.
  { destruct (vlm_solve_make 2 1 1 demo_panels [false; false] demo_t demo_vars demo_V 1 [true; true] [demo_vars 0; demo_vars 1] ic _ _ eq_refl eq_refl eq_refl EI demo_solved) as (o2 & E2 & FL2).
    assert (o2 = o). { unfold Vlm in E. rewrite gor_R, demo_vars_ok in E. unfold bind at 1 in E. rewrite IC in E. unfold bind in E. congruence. } subst o2.
    rewrite (f_gamma _ _ _ _ _ _ _ _ _ _ _ _ _ _ FL2) in EG. injection EG as -> _. reflexivity. }
  cbv beta. generalize small small_pos. intros s SP. unfold demo_a, demo_b, small_a, small_b. pose proof PI_RGT_0 as P.
  match goal with |- 40 * (s * ?x) < ?y * s => replace x with (4 * PI * (3 / (10805/18564 - 9175/218448))) by (field; lra); replace y with (4 * PI * (3 / (112/10/1105 - 144/10/1476 + 256/10/2368))) by (field; lra) end.
  assert (0 < 4 * PI * s) by nra. nra.
Qed.
Print Assumptions C77_solver.
Print Assumptions C77_refuted.
