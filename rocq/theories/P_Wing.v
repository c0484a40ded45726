(** C78: similar wings (runner/aircraft.py). *)

From Coq Require Import String ZArith Reals List Bool Lra Psatz Lia Arith.
From Verif Require Import Num PyBase RNum Spec M_Rotations M_Mesher M_Panels M_Velocity M_Solve M_Coefs M_Forces M_Winds M_Vlm M_Runner
  L_List L_Rot L_Csys L_Vel L_Vel2 L_Solve L_Mesh L_Lattice L_Vlm L_Vlm2 L_Demo P_Rot P_Mesh P_Lattice P_Vlm P_Aircraft L_Scale P_Scale L_ScaleRun P_Tack.
Import ListNotations.
Open Scope R_scope.

(** ** Any sense of the circulation *)
Lemma influence_linear m g p r te u : influence (m * g) p r te u = sscale m (influence g p r te u).
Proof. unfold influence. destruct te; [apply horseshoe2_linear | apply ring_linear]. Qed.
Lemma influence_similar k s m g p r te u : 0 < k -> 0 < s -> same_core k p te r ->
  influence (m * g) (sscale k p) (ring_scaled k r) te (sscale s u) = sscale (m / k) (influence g p r te u).
Proof.
  intros K S C. rewrite influence_direction, influence_linear by assumption.
  replace g with ((- g) * -1) by ring. rewrite !(influence_linear (- g)), influence_scale by assumption.
  destruct (influence (-1) p r te u). svec. unfold Rdiv. vec_eq; ring.
Qed.
Record wing_vars_similar (k m : R) (v w : pvars R) : Prop := {
  ws_n : pv_n w = pv_n v; ws_ctr : pv_ctr w = sscale k (pv_ctr v); ws_cp : pv_cp w = sscale k (pv_cp v);
  ws_ring : pv_ring w = ring_scaled k (pv_ring v); ws_span : pv_span w = sscale (k * m) (pv_span v) }.
Lemma wvars_similar k m g ps i : 0 < k -> wing_vars_similar k m (wvars g ps i) (wvars (m * g) (map (enlarged k) ps) i).
Proof.
  intros K. unfold wvars. set (o := Panel szero szero szero szero).
  assert (EO : enlarged k o = o) by (unfold enlarged, o; cbn [pp1 pp2 pp3 pp4]; replace (sscale k szero) with (szero) by (svec; vec_eq; ring); reflexivity).
  assert (EN : nth i (map (enlarged k) ps) o = enlarged k (nth i ps o)) by (rewrite <- EO at 1; apply map_nth).
  cbv zeta. rewrite EN. generalize (nth i ps o). intros p. rewrite aft_A_sc, aft_D_sc.
  destruct (panel_vars_sc k K p (aft_A p) (aft_D p)) as [N C P G _ _ _].
  constructor; try assumption. unfold panel_vars. cbv zeta. cbn [pv_span]. rewrite quarter_B_sc, quarter_C_sc.
  generalize (quarter_B p) (quarter_C p). intros [a b c] [d e f]. tospec. svec. vec_eq; ring.
Qed.
Lemma wing_at_similar k chord half AoA x z : wing_at (k * chord) (k * half) AoA x z = sscale k (wing_at chord half AoA x z).
Proof. unfold wing_at, srot. svec. vec_eq; ring. Qed.
Lemma point_mesh_similar k s1 : forall s2 n, make_point_mesh (map (sscale k) s1) (map (sscale k) s2) n = map (map (sscale k)) (make_point_mesh s1 s2 n).
Proof.
  unfold make_point_mesh. induction s1 as [|a s1 IH]; intros [|b s2] n; try reflexivity.
  change (discrete_segment (sscale k a) (sscale k b) n :: zipWith (fun p1 p2 => discrete_segment p1 p2 n) (map (sscale k) s1) (map (sscale k) s2)
    = map (sscale k) (discrete_segment a b n) :: map (map (sscale k)) (zipWith (fun p1 p2 => discrete_segment p1 p2 n) s1 s2)).
  rewrite IH, segment_sc. reflexivity.
Qed.
Lemma wing_mesh_similar k a b c d nc ns ps te le : make_panels_from_le_te_points a b c d nc ns = Ok (ps, te, le) ->
  make_panels_from_le_te_points (sscale k a) (sscale k b) (sscale k c) (sscale k d) nc ns = Ok (map (enlarged k) ps, te, le).
Proof. unfold make_panels_from_le_te_points. intros E. rewrite !segment_sc, point_mesh_similar, make_panels_sc, E. reflexivity. Qed.

(** the pressures and the reported pressure coefficient *)
Lemma aircraft_pressure chord half AoA ns nc V rho gor (a : aircraft (F := R)) : Aircraft chord half AoA ns nc V rho gor = Ok a ->
  ac_pressure a = calc_pressure (ac_force a) (map pv_n (ac_vars a)) (get_panels_area (ac_panels a)) /\
  ac_Cp a = rsum (ac_pressure a) / (1/2 * rho * sdot V V * (2 * half * chord)) /\
  ac_V a = map (fun _ => V) (ac_panels a) /\
  (ac_CL_theory a, ac_CD_theory a) = get_CL_CD_free_wing (2 * half / chord) AoA.
Proof.
  unfold Aircraft. cbv zeta. change (ndiv (nmul (nZ 2) half) chord) with (2 * half / chord). destruct (get_CL_CD_free_wing (2 * half / chord) AoA) as [c d]. intros E.
  destruct (make_panels_from_le_te_points _ _ _ _ _ _) as [[[ps te] le]|]; [|discriminate]. unfold bind at 1 in E. destruct (calc_velocity_coefs _ _ _ _ _ _) as [co vi].
  destruct (solve_eq _ _) as [gamma|]; [|discriminate]. unfold bind at 1 in E. destruct (calculate_app_fs _ _ _) as [vi' vc].
  destruct (is_no_flux_BC_satisfied _ _ _) as [b|]; [|discriminate]. unfold bind at 1 in E. destruct (guard _ _); [|discriminate]. unfold bind at 1 in E.
  destruct (calc_force_wrapper _ _ _ _ _ _ _ _ _ _ _ _) as [[[f ?] ?]|]; [|discriminate]. unfold bind in E. destruct (get_vlm_CL_CD_free_wing _ _ _ _) as [CL CD].
  injection E as <-. cbn [ac_pressure ac_force ac_vars ac_panels ac_Cp ac_V ac_CL_theory ac_CD_theory].
  split; [reflexivity|]. split; [|split; reflexivity]. rewrite L_Solve.nsum_rsum. f_equal. rewrite sqrt_sqrt by nra. change (Z.pow_pos 10 1) with 10%Z. unfold sdot. field.
Qed.

(** ** The theorem *)
(** [a'] is the wing [a] with its lengths multiplied by [k], in a flow [s] times as fast of a fluid [r] times as dense, the unit of
    circulation being multiplied by [m] *)
Record wing_similar (k s r m : R) (a a' : aircraft (F := R)) : Prop := {
  wi_panels : ac_panels a' = map (enlarged k) (ac_panels a);
  wi_gamma : ac_gamma a' = map (Rmult (k * s / m)) (ac_gamma a);
  wi_V_ctrl : ac_V_ctrl a' = map (sscale s) (ac_V_ctrl a);
  wi_force : ac_force a' = map (sscale (r * s ^ 2 * k ^ 2)) (ac_force a);
  wi_pressure : ac_pressure a' = map (Rmult (r * s ^ 2)) (ac_pressure a);
  wi_CL : ac_CL a' = ac_CL a; wi_CD : ac_CD a' = ac_CD a; wi_Cxyz : ac_Cxyz a' = ac_Cxyz a;
  wi_CLt : ac_CL_theory a' = ac_CL_theory a; wi_CDt : ac_CD_theory a' = ac_CD_theory a;
  wi_Cp : ac_Cp a' = ac_Cp a / k ^ 2 }.
Lemma same_core_open k p te r : same_core k p false r -> same_core k p te r.
Proof. intros C a b I. apply C. unfold segments in *. destruct te; [|exact I]. rewrite app_nil_r in I. apply in_or_app. left. exact I. Qed.

Theorem C78_similar : forall k s r m chord half AoA ns nc V rho gor a, 0 < k -> 0 < s -> r <> 0 -> m <> 0 -> (1 <= nc)%nat -> (1 <= ns)%nat ->
  Aircraft chord half AoA ns nc V rho gor = Ok a ->
  (forall p v, In p (map pv_ctr (ac_vars a) ++ map pv_cp (ac_vars a)) -> In v (ac_vars a) -> same_core k p false (pv_ring v)) ->
  (forall x, In x (get_panels_area (ac_panels a)) -> / 10 ^ 14 <= k ^ 2 * x) ->
  exists a', Aircraft (k * chord) (k * half) AoA ns nc (sscale s V) (r * rho) (m * gor) = Ok a' /\ wing_similar k s r m a a'.
Proof.
  intros k s r m chord half AoA ns nc V rho gor a HK HS R0 M0 NC NS E SC AB.
  destruct (aircraft_inv _ _ _ _ _ _ _ _ _ NC NS E) as (te & le & g & net & MP & EVs & EG & EQ & RG & NT & EVc & EF & ECL & ECD & ECX).
  destruct (aircraft_pressure _ _ _ _ _ _ _ _ _ E) as (EP & ECp & _ & ETH).
  pose proof (wing_mesh_similar k _ _ _ _ _ _ _ _ _ MP) as MP'. rewrite <- !wing_at_similar in MP'.
  set (ps := ac_panels a) in *. set (ps' := map (enlarged k) ps) in *. set (K := length ps) in *. set (t := fun k => nth k te false) in *.
  set (v := wvars gor ps) in *. set (v' := wvars (m * gor) ps'). set (V' := sscale s V).
  assert (LK : length ps' = K) by (unfold ps'; apply map_length).
  assert (LT : length te = K).
  { pose proof (point_mesh_rect (discrete_segment (wing_at chord half AoA 0 (-1)) (wing_at chord half AoA 1 (-1)) nc) (discrete_segment (wing_at chord half AoA 0 1) (wing_at chord half AoA 1 1) nc) ns) as Q.
    rewrite !segment_length in Q. destruct (panels_spec _ nc ns (Q eq_refl)) as (qs' & te' & le' & E' & L1' & L2' & _).
    unfold make_panels_from_le_te_points in MP. rewrite MP in E'. injection E' as EP1 ET _. rewrite ET, L2'. unfold K. rewrite EP1. symmetry. exact L1'. }
  assert (MK : forall i, wing_vars_similar k m (v i) (v' i)) by (intros i; apply wvars_similar; assumption).
  assert (IN : forall p l, (l < K)%nat -> In p (map pv_ctr (ac_vars a) ++ map pv_cp (ac_vars a)) -> winfl (m * gor) t v' V' (sscale k p) l = sscale (m / k) (winfl gor t v V p l)).
  { intros p l L I. unfold winfl. rewrite (ws_ring _ _ _ _ (MK l)). apply influence_similar; try assumption. apply same_core_open, SC; [assumption|].
    rewrite EVs. apply (nth_error_In _ l). exact (tab_nth_error K v l L). }
  assert (PC : forall i, (i < K)%nat -> In (pv_ctr (v i)) (map pv_ctr (ac_vars a) ++ map pv_cp (ac_vars a))).
  { intros i I. apply in_or_app. left. rewrite EVs, map_tab. apply (nth_error_In _ i). exact (tab_nth_error K (fun x => pv_ctr (v x)) i I). }
  assert (PP : forall i, (i < K)%nat -> In (pv_cp (v i)) (map pv_ctr (ac_vars a) ++ map pv_cp (ac_vars a))).
  { intros i I. apply in_or_app. right. rewrite EVs, map_tab. apply (nth_error_In _ i). exact (tab_nth_error K (fun x => pv_cp (v x)) i I). }
  set (q := k * s / m). set (g' := fun l => q * g l).
  assert (WA : forall p, In p (map pv_ctr (ac_vars a) ++ map pv_cp (ac_vars a)) -> wwash K (m * gor) t v' V' g' (sscale k p) = sscale s (wwash K gor t v V g p)).
  { intros p I. unfold wwash. rewrite <- vsumn_scale. apply vsumn_ext. intros l L. rewrite IN by assumption. unfold g', q. destruct (winfl gor t v V p l). svec. vec_eq; field; split; lra. }
  assert (AC : forall i j, (i < K)%nat -> (j < K)%nat -> wcoef (m * gor) t v' V' i j = m / k * wcoef gor t v V i j).
  { intros i j I J. unfold wcoef. rewrite (ws_ctr _ _ _ _ (MK i)), (ws_n _ _ _ _ (MK i)), IN by auto. destruct (winfl _ _ _ _ _ _), (pv_n (v i)). svec. ring. }
  assert (AREA : get_panels_area ps' = map (Rmult (k * k)) (get_panels_area ps)) by (apply areas_sc; assumption).
  assert (QM : m / k <> 0) by (unfold Rdiv; apply Rmult_integral_contrapositive; split; [assumption | apply Rinv_neq_0_compat; lra]).
  assert (EQ' : forall i, (i < K)%nat -> sumn K (fun l => wcoef (m * gor) t v' V' i l * g' l) = - sdot V' (pv_n (v' i))).
  { intros i I. rewrite (ws_n _ _ _ _ (MK i)). replace (- sdot V' (pv_n (v i))) with (s * - sdot V (pv_n (v i))) by (unfold V'; destruct V, (pv_n (v i)); svec; ring).
    rewrite <- (EQ i I), <- sumn_scale. apply sumn_ext. intros l L. rewrite AC by assumption. unfold g', q. field. split; lra. }
  assert (RG' : regular K (wcoef (m * gor) t v' V')).
  { intros z Z l L. apply (RG z); [|exact L]. intros i I. apply (Rmult_eq_reg_l (m / k)); [|exact QM]. rewrite Rmult_0_r, <- (Z i I), <- sumn_scale. apply sumn_ext. intros l' L'. rewrite AC by assumption. ring. }
  assert (NT' : forall i, (i < K)%nat -> net_circulation (tab K g') le ns i = Ok (q * net i)).
  { intros i I. unfold g'. rewrite <- (map_tab (Rmult q)). apply net_scale. apply NT. assumption. }
  destruct (aircraft_make (k * chord) (k * half) AoA V' (r * rho) (m * gor) ps' te le ns nc g' (fun i => q * net i) MP') as (a' & E' & EPa).
  { rewrite LK. exact LT. } { rewrite LK. exact EQ'. } { rewrite LK. exact RG'. }
  { rewrite AREA. intros x I. apply in_map_iff in I. destruct I as (y & <- & I). pose proof (AB y I) as Q. rewrite ndec_R. change (IZR (10 ^ 14)) with (IZR (Z.pow_pos 10 14)).
    replace (1 / IZR (Z.pow_pos 10 14)) with (/ 10 ^ 14) by (simpl; lra). lra. }
  { rewrite LK. exact NT'. }
  exists a'. split; [exact E'|].
  destruct (aircraft_inv _ _ _ _ _ _ _ _ _ NC NS E') as (te1 & le1 & g1 & net1 & MP1 & EVs1 & EG1 & EQ1 & _ & NT1 & EVc1 & EF1 & ECL1 & ECD1 & ECX1).
  destruct (aircraft_pressure _ _ _ _ _ _ _ _ _ E') as (EP1 & ECp1 & _ & ETH1).
  rewrite EPa in *. rewrite MP' in MP1. injection MP1 as <- <-. rewrite LK in *. fold t v' in EVs1, EG1, EQ1, NT1, EVc1, EF1.
  assert (GG : forall l, (l < K)%nat -> g1 l = g' l).
  { intros l L. apply Rminus_diag_uniq. apply (RG' (fun l => g1 l - g' l)); [|exact L]. intros i I.
    transitivity (sumn K (fun l => wcoef (m * gor) t v' V' i l * g1 l) - sumn K (fun l => wcoef (m * gor) t v' V' i l * g' l)).
    - unfold Rminus. replace (- sumn K (fun l0 => wcoef (m * gor) t v' V' i l0 * g' l0)) with (-1 * sumn K (fun l0 => wcoef (m * gor) t v' V' i l0 * g' l0)) by ring.
      rewrite <- sumn_scale, <- sumn_add. apply sumn_ext. intros. ring.
    - rewrite EQ1, EQ' by assumption. ring. }
  assert (TG : tab K g1 = tab K g') by (apply tab_ext; exact GG).
  assert (NN : forall i, (i < K)%nat -> net1 i = q * net i).
  { intros i I. pose proof (NT1 i I) as X. rewrite TG, NT' in X by assumption. congruence. }
  assert (WW : forall p, In p (map pv_ctr (ac_vars a) ++ map pv_cp (ac_vars a)) -> wwash K (m * gor) t v' V' g1 (sscale k p) = sscale s (wwash K gor t v V g p)).
  { intros p I. rewrite <- WA by assumption. unfold wwash. apply vsumn_ext. intros l L. rewrite GG by assumption. reflexivity. }
  set (f := r * s ^ 2 * k ^ 2).
  assert (FO : ac_force a' = map (sscale f) (ac_force a)).
  { rewrite EF, EF1, map_tab. apply tab_ext. intros i I. unfold wforce. rewrite (ws_cp _ _ _ _ (MK i)), (ws_span _ _ _ _ (MK i)), WW, NN by auto.
    unfold V', q, f. generalize (wwash K gor t v V g (pv_cp (v i))) (pv_span (v i)). intros [x y z] [x1 y1 z1]. destruct V as [x2 y2 z2]. svec. vec_eq; field; assumption. }
  assert (SU : ssum (ac_force a') = sscale f (ssum (ac_force a))).
  { rewrite FO. generalize (ac_force a). intros l. induction l as [|x l IH]; [unfold ssum; cbn [map fold_right]; svec; vec_eq; ring|]. cbn [map]. unfold ssum in *. cbn [fold_right]. rewrite IH. destruct x, (fold_right _ _ l). svec. vec_eq; ring. }
  assert (F0 : f <> 0) by (unfold f; apply Rmult_integral_contrapositive_currified; [apply Rmult_integral_contrapositive_currified; [assumption|]|]; apply pow_nonzero; lra).
  assert (DD : 1 / 2 * (r * rho) * sdot V' V' * (2 * (k * half) * (k * chord)) = f * (1 / 2 * rho * sdot V V * (2 * half * chord))) by (unfold f, V'; destruct V; svec; ring).
  set (d := 1 / 2 * rho * sdot V V * (2 * half * chord)) in *.
  assert (DIV : forall x, f * x / (f * d) = x / d) by (intros x; unfold Rdiv; rewrite Rinv_mult; generalize (/ d); intros; field; assumption).
  assert (PRS : ac_pressure a' = map (Rmult (r * s ^ 2)) (ac_pressure a)).
  { rewrite EP, EP1, EVs, EVs1, AREA, FO, EF, !map_tab. rewrite (list_tab (get_panels_area ps) K 0) by (unfold get_panels_area; apply map_length). rewrite map_tab.
    unfold calc_pressure. rewrite !combine_tab, !zipWith_tab, map_tab. apply tab_ext. intros i I. cbn [fst snd]. rewrite (ws_n _ _ _ _ (MK i)). tospec.
    unfold ndiv, nmul. cbn [RNum]. unfold Rdiv. rewrite Rinv_mult. generalize (/ nth i (get_panels_area ps) 0). intros c. unfold f. destruct (wforce K rho gor t v V g net i), (pv_n (v i)). svec. field. lra. }
  constructor; try assumption.
  - rewrite EG, EG1, map_tab, TG. reflexivity.
  - rewrite EVc, EVc1, map_tab. apply tab_ext. intros i I. rewrite (ws_ctr _ _ _ _ (MK i)), WW by auto. unfold V'. destruct V, (wwash _ _ _ _ _ _ _). svec. vec_eq; ring.
  - rewrite ECL, ECL1, SU, DD. cbn [sscale vz]. apply DIV.
  - rewrite ECD, ECD1, SU, DD. cbn [sscale vx]. apply DIV.
  - rewrite ECX, ECX1, SU, DD. generalize (ssum (ac_force a)). intros [x y z]. rewrite Rinv_mult. generalize (/ d). intros e. svec. vec_eq; field; assumption.
  - replace (2 * (k * half) / (k * chord)) with (2 * half / chord) in ETH1 by (unfold Rdiv; rewrite Rinv_mult; generalize (/ chord); intros; field; lra). rewrite <- ETH in ETH1. congruence.
  - replace (2 * (k * half) / (k * chord)) with (2 * half / chord) in ETH1 by (unfold Rdiv; rewrite Rinv_mult; generalize (/ chord); intros; field; lra). rewrite <- ETH in ETH1. congruence.
  - rewrite ECp, ECp1, DD, PRS. replace (rsum (map (Rmult (r * s ^ 2)) (ac_pressure a))) with (r * s ^ 2 * rsum (ac_pressure a)).
    2:{ generalize (ac_pressure a). intros l. induction l as [|x l IH]; [cbn; ring|]. cbn [map]. rewrite !rsum_cons, <- IH. ring. }
    unfold Rdiv. rewrite Rinv_mult. generalize (/ d). intros e. unfold f. field. repeat split; lra.
Qed.

(** ** The wing of chord 48 and half span 7 again, and the same wing at another scale *)
Lemma wing_cores rho a k : 1/10 <= k -> Aircraft 48 7 demo_aoa 1 1 wing_V rho 1 = Ok a -> ac_panels a = [wing_panel] ->
  (forall p v, In p (map pv_ctr (ac_vars a) ++ map pv_cp (ac_vars a)) -> In v (ac_vars a) -> same_core k p false (pv_ring v)) /\
  (forall x, In x (get_panels_area (ac_panels a)) -> / 10 ^ 14 <= k ^ 2 * x).
Proof.
  intros K E EP. destruct (aircraft_inv _ _ _ _ _ _ _ _ _ (le_n 1) (le_n 1) E) as (te & le & g & net & _ & EV & _). rewrite EP in *. fold wing_v in EV. cbn [length tab map seq] in EV.
  destruct wing_vars_at as (_ & C & P & G & _). fold wing_v in C, P, G. rewrite EV. cbn [map app]. split.
  - intros p v I [<-|[]]. rewrite C, P in I. rewrite G. intros a0 b0 AB. unfold segments in AB. cbn [app rA rB rC rD] in AB.
    destruct I as [<-|[<-|[]]]; destruct AB as [AB|[AB|[AB|[AB|[]]]]]; injection AB as <- <-;
    (apply core_margin; [exact K|]); first [left; svec; vec_eq; lra | right; svec; repeat split; lra].
  - intros x [<-|[]]. unfold panel_area, wing_panel. cbv zeta. cbn [pp1 pp2 pp3 pp4]. tospec. rewrite !ndec_R. change (10 ^ 1)%Z with 10%Z. rnum.
    replace (scross _ _) with (V3 (2016/5) (2688/5) 0) by (svec; vec_eq; field). rewrite (snorm_val _ _ 0 672) by lra. pose proof (snorm_nonneg (scross (ssub (V3 0 0 7) (V3 0 0 (-7))) (ssub (V3 (192 / 5) (-144 / 5) 7) (V3 0 0 7)))) as N.
    set (n := snorm _) in *. clearbody n. assert (1 <= 0 + 5 / 10 * 672 + 5 / 10 * n) by lra. set (y := 0 + 5 / 10 * 672 + 5 / 10 * n) in *. clearbody y. assert (1/100 <= k ^ 2) by nra. assert (1/100 <= k ^ 2 * y) by nra. assert (/ 10 ^ 14 <= 1/100) by (simpl; lra). lra.
Qed.
Example C78_case : exists chord half AoA ns nc V rho gor a a', Aircraft chord half AoA ns nc V rho gor = Ok a /\
  Aircraft (2 * chord) (2 * half) AoA ns nc (sscale 3 V) (5 * rho) (-1 * gor) = Ok a' /\ wing_similar 2 3 5 (-1) a a'.
Proof.
  destruct (wing_run 1) as (a & E & EP). destruct (wing_cores 1 a 2 ltac:(lra) E EP) as [C A].
  destruct (C78_similar 2 3 5 (-1) 48 7 demo_aoa 1 1 wing_V 1 1 a) as (a' & E' & W); try assumption; try lra; try lia.
  exists 48, 7, demo_aoa, 1%nat, 1%nat, wing_V, 1, 1, a, a'. auto.
Qed.
(** the flow at the centre of pressure has an upward component *)
Lemma wing_y : exists n, 48 <= n /\ vx (winfl 1 wing_t wing_v wing_V (pv_cp (wing_v 0)) 0) = 288 / 35 / n / (4 * PI) /\
  0 < vy (winfl 1 wing_t wing_v wing_V (pv_cp (wing_v 0)) 0).
Proof.
  pose proof PI_RGT_0 as P0. destruct wing_vars_at as (_ & _ & C & R0 & _). fold wing_v in C, R0. unfold winfl, influence. rewrite C, R0. cbn [wing_t nth rA rB rC rD]. unfold vortex_horseshoe_v2, wing_V. cbv zeta.
  set (n := sqrt 2353). assert (NN : n * n = 2353) by (apply sqrt_sqrt; lra). assert (N0 : 0 <= n) by apply sqrt_pos. exists n. split; [nra|].
  rewrite (line_val (V3 (48/5) (-36/5) 0) (V3 48 (-36) (-7)) (V3 (48/5) (-36/5) (-7)) n 7) by (first [unfold ssub; cbn [vx vy vz]; apply snorm_val; lra | svec; lra | nra]).
  rewrite (line_val (V3 (48/5) (-36/5) 0) (V3 (48/5) (-36/5) 7) (V3 48 (-36) 7) 7 n) by (first [unfold ssub; cbn [vx vy vz]; apply snorm_val; lra | svec; lra | nra]).
  rewrite (vortex_line_core (V3 (48/5) (-36/5) 0) (V3 (48/5) (-36/5) (-7)) (V3 (48/5) (-36/5) 7)).
  2:{ right. right. replace (scross _ _) with szero by (svec; vec_eq; ring). replace (snorm szero) with 0 by (symmetry; apply snorm_zero; reflexivity). lra. }
  rewrite !(inf_val (V3 (48/5) (-36/5) 0) _ (V3 5 0 0) _ 5 n) by (first [unfold ssub; cbn [vx vy vz]; apply snorm_val; lra]).
  tospec. rnum. svec. assert (n <> 0) by nra. split.
  - field. repeat split; nra.
  - match goal with |- 0 < ?x => replace x with (4/3 * (288 / 35) / n / (4 * PI) + 14 / (n * (n + 192/5)) / (4 * PI)) by (field; repeat split; nra) end.
    apply Rplus_lt_0_compat; repeat apply Rdiv_lt_0_compat; nra.
Qed.
Lemma wing_Cp rho a : 0 < rho -> Aircraft 48 7 demo_aoa 1 1 wing_V rho 1 = Ok a -> ac_panels a = [wing_panel] -> 0 < ac_Cp a.
Proof.
  intros H0 E EP. pose proof PI_RGT_0 as P0.
  destruct (aircraft_inv _ _ _ _ _ _ _ _ _ (le_n 1) (le_n 1) E) as (te & le & g & net & MP & EV & EG & EQ & _ & NT & _ & EF & _).
  destruct (aircraft_pressure _ _ _ _ _ _ _ _ _ E) as (EPr & ECp & _).
  rewrite EP in *. rewrite wing_one in MP. injection MP as <- <-. cbn [length] in *. fold wing_v in *. change (fun k => nth k [true] false) with wing_t in *.
  specialize (EQ 0%nat Nat.lt_0_1). specialize (NT 0%nat Nat.lt_0_1). assert (NE : net 0%nat = g 0%nat) by (injection NT; auto). clear NT.
  unfold sumn in EQ. cbn [tab map seq] in EQ. rewrite rsum_cons in EQ. change (rsum []) with 0 in EQ. rewrite wing_coef in EQ.
  destruct wing_vars_at as (N & _ & _ & _ & SP). fold wing_v in N, SP. rewrite N in EQ. unfold wing_V in EQ at 1. unfold sdot in EQ. cbn [vx vy vz] in EQ.
  rewrite ECp, EPr, EF, EV. cbn [tab map seq]. unfold calc_pressure, get_panels_area. cbn [map combine zipWith fst snd]. rewrite rsum_cons. change (rsum []) with 0. rewrite N.
  assert (AR : 0 < panel_area wing_panel).
  { unfold panel_area, wing_panel. cbv zeta. cbn [pp1 pp2 pp3 pp4]. tospec. rewrite !ndec_R. change (10 ^ 1)%Z with 10%Z. rnum.
    replace (scross _ _) with (V3 (2016/5) (2688/5) 0) by (svec; vec_eq; field). rewrite (snorm_val _ _ 0 672) by lra. pose proof (snorm_nonneg (scross (ssub (V3 0 0 7) (V3 0 0 (-7))) (ssub (V3 (192 / 5) (-144 / 5) 7) (V3 0 0 7)))). lra. }
  change (0 < (vdot (wforce 1 rho 1 wing_t wing_v wing_V g net 0) (V3 (3/5) (4/5) 0) / panel_area wing_panel + 0) / (1 / 2 * rho * sdot wing_V wing_V * (2 * 7 * 48))).
  apply Rdiv_lt_0_compat. 2:{ unfold wing_V. svec. nra. }
  rewrite Rplus_0_r. apply Rdiv_lt_0_compat; [|exact AR]. unfold wforce. rewrite SP, NE. destruct wing_y as (n & N48 & WX & WY).
  unfold wwash, vsumn. cbn [tab map seq]. unfold ssum. cbn [fold_right].
  revert WX WY. generalize (winfl 1 wing_t wing_v wing_V (pv_cp (wing_v 0)) 0). intros [x y z] WX WY. cbn [vx vy] in WX, WY. unfold wing_V. tospec. svec.
  set (g0 := g 0%nat) in *. clearbody g0. unfold wing_a in EQ.
  assert (GE : g0 = - (3 * (18564/10805) * (4 * PI))) by (apply (Rmult_eq_reg_l (10805 / 18564 / (4 * PI))); [rewrite <- (Rplus_0_r (_ * g0)), EQ; field; lra | apply Rgt_not_eq, Rdiv_lt_0_compat; lra]).
  assert (GX : g0 * x = - (3 * (18564/10805) * (288/35) * / n)) by (rewrite GE, WX; field; split; lra).
  assert (NI : 0 < / n <= / 48) by (split; [apply Rinv_0_lt_compat; lra | apply Rinv_le_contravar; lra]).
  assert (G0 : g0 < 0) by (rewrite GE; lra).
  assert (A1 : 0 < 5 + g0 * x) by (rewrite GX; lra). assert (A2 : g0 * y < 0) by nra.
  match goal with |- 0 < ?e => replace e with (rho * (14 * ((- g0) * (4/5 * (5 + g0 * x) - 3/5 * (g0 * y))))) by ring end.
  apply Rmult_lt_0_compat; [exact H0|]. apply Rmult_lt_0_compat; [lra|]. apply Rmult_lt_0_compat; lra.
Qed.
(** The reported pressure coefficient depends on the size of the wing: for the wing of half the size, whose forces, lift and pressures are those of a
    similar flow, it is four times as large. *)
Theorem C78_refuted : exists k chord half AoA ns nc V rho gor a a', 0 < k /\ Aircraft chord half AoA ns nc V rho gor = Ok a /\
  Aircraft (k * chord) (k * half) AoA ns nc V rho gor = Ok a' /\ ac_pressure a' = ac_pressure a /\ ac_Cxyz a' = ac_Cxyz a /\ ac_Cp a' = 4 * ac_Cp a /\ 0 < ac_Cp a.
Proof.
  destruct (wing_run 1) as (a & E & EP). destruct (wing_cores 1 a (1/2) ltac:(lra) E EP) as [C A].
  destruct (C78_similar (1/2) 1 1 1 48 7 demo_aoa 1 1 wing_V 1 1 a) as (a' & E' & W); try assumption; try lra; try lia.
  exists (1/2), 48, 7, demo_aoa, 1%nat, 1%nat, wing_V, 1, 1, a, a'. split; [lra|]. split; [exact E|].
  replace (sscale 1 wing_V) with wing_V in E' by (unfold wing_V; svec; vec_eq; ring). rewrite !Rmult_1_l in E'. split; [exact E'|].
  split; [|split; [apply (wi_Cxyz _ _ _ _ _ _ W)|split]].
  - rewrite (wi_pressure _ _ _ _ _ _ W). rewrite <- (map_id (ac_pressure a)) at 2. apply map_ext. intros. ring.
  - rewrite (wi_Cp _ _ _ _ _ _ W). field.
  - apply (wing_Cp 1); [lra|assumption..].
Qed.

Print Assumptions C78_similar.
Print Assumptions C78_refuted.
