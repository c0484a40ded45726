(** Properties C40 - C42, C44, C45, C59, C60: the solver. *)

From Coq Require Import String ZArith Reals List Bool Lra Psatz Lia.
From Verif Require Import Num PyBase RNum Spec M_Panels M_Velocity M_Solve M_Coefs M_Forces M_Winds M_Csys M_Sail M_Vlm
  L_List L_Rot L_Vel L_Vel2 L_Csys L_Sail L_Solve L_Lattice L_Vlm L_Vlm2 P_Sail P_Lattice L_Demo.
Import ListNotations.
Open Scope R_scope.

(** The velocity at [p] of all vortices of the solution [o]; vortex [l] has the circulation [gamma[l]]. *)
Definition induced (o : vlm R) (p : vec R) : vec R :=
  vsumn (length (vl_panels o)) (fun l => sscale (nth l (vl_gamma o) 0)
    (influence (-1) p (nth l (vl_rings o) (Ring szero szero szero szero)) (nth l (vl_te o) false) (nth l (in_V (vl_inlet o)) szero))).

Lemma nth_map {A B} (f : A -> B) l k d e : (k < length l)%nat -> nth k (map f l) e = f (nth k l d).
Proof. intros H. rewrite (nth_indep _ _ (f d)) by (rewrite map_length; assumption). apply map_nth. Qed.
Lemma tab_some {A} n (f : nat -> A) k a : nth_error (tab n f) k = Some a -> (k < n)%nat /\ a = f k.
Proof. intros E. assert (K : (k < n)%nat) by (apply nth_error_Some_lt in E; rewrite tab_length in E; assumption). rewrite tab_nth_error in E by assumption. split; congruence. Qed.
Lemma flow_induced ns rho panels le vars nc te ic g net o p :
  length vars = length panels ->
  flow (length panels) ns rho panels le (fun k => nth k te false) (fun k => nth k vars dpv) (fun k => nth k (in_V ic) szero) nc te ic g net o ->
  induced o p = wash (length panels) (fun k => nth k te false) (fun k => nth k vars dpv) (fun k => nth k (in_V ic) szero) g p.
Proof.
  intros LV FL. unfold induced, wash. rewrite (f_panels _ _ _ _ _ _ _ _ _ _ _ _ _ _ FL). apply vsumn_ext. intros l L.
  unfold infl. rewrite (f_gamma _ _ _ _ _ _ _ _ _ _ _ _ _ _ FL), (f_te _ _ _ _ _ _ _ _ _ _ _ _ _ _ FL), (f_inlet _ _ _ _ _ _ _ _ _ _ _ _ _ _ FL).
  unfold vl_rings. rewrite (f_vars _ _ _ _ _ _ _ _ _ _ _ _ _ _ FL), map_tab, !tab_nth by assumption. reflexivity.
Qed.

(** ** C40 *)
Theorem C40_no_flux : forall panels nc ns rho w te le o, length te = length panels -> Vlm panels nc ns rho w te le = Ok o ->
  forall k, (k < length panels)%nat -> exists n c v u,
    nth_error (vl_normals o) k = Some n /\ nth_error (vl_ctr o) k = Some c /\ nth_error (in_V (vl_inlet o)) k = Some v /\
    nth_error (vl_V_ctrl o) k = Some u /\
    u = sadd v (induced o c) /\ sdot u n = 0.
Proof.
  intros panels nc ns rho w te le o LT E k K. destruct (Vlm_inv _ _ _ _ _ _ _ _ LT E) as (vars & ic & g & net & CV & LV & IC & LI & _ & SO & FL).
  unfold vl_normals, vl_ctr. rewrite (f_vars _ _ _ _ _ _ _ _ _ _ _ _ _ _ FL), (f_inlet _ _ _ _ _ _ _ _ _ _ _ _ _ _ FL), !map_tab, (f_V_ctrl _ _ _ _ _ _ _ _ _ _ _ _ _ _ FL).
  exists (pv_n (nth k vars dpv)), (pv_ctr (nth k vars dpv)), (nth k (in_V ic) szero). eexists.
  split; [exact (tab_nth_error _ (fun k => pv_n (nth k vars dpv)) k K)|]. split; [exact (tab_nth_error _ (fun k => pv_ctr (nth k vars dpv)) k K)|].
  split; [apply (nth_error_nth' _ szero); lia|]. split; [apply tab_nth_error; assumption|]. split.
  - cbv beta. f_equal. symmetry. apply (flow_induced ns rho panels le vars nc te ic g net); assumption.
  - pose proof (so_eqs _ _ _ _ _ _ _ _ _ SO k K) as Q. rewrite <- wash_dot in Q. cbv beta in *. revert Q.
    generalize (wash (length panels) (fun k => nth k te false) (fun k => nth k vars dpv) (fun k => nth k (in_V ic) szero) g (pv_ctr (nth k vars dpv))).
    generalize (nth k (in_V ic) szero) (pv_n (nth k vars dpv)). intros [a b c] [d e f] [x y z]. svec. lra.
Qed.

(* the check of Vlm after the circulations are known *)
Theorem C40_flux_check : forall (V ctr normals : list (vec R)) rings te areas gamma vind K,
  length V = K -> length ctr = K -> length normals = K -> length rings = K -> length te = K ->
  snd (calc_velocity_coefs V ctr rings normals te (-1)) = vind ->
  solve_eq (fst (calc_velocity_coefs V ctr rings normals te (-1))) (calculate_RHS V normals) = Ok gamma ->
  is_no_flux_BC_satisfied (snd (calculate_app_fs V vind gamma)) areas normals = Ok true \/
  (is_no_flux_BC_satisfied (snd (calculate_app_fs V vind gamma)) areas normals = Raise ValueError /\ exists a, In a areas /\ a < 1 / 10 ^ 14).
Proof.
  intros V ctr normals rings te areas gamma vind K LV LC LN LR LT <- S.
  set (r0 := Ring szero szero szero szero : ring R).
  set (v := fun k => PVars (nth k normals szero) (nth k ctr szero) szero (nth k rings r0) szero szero szero).
  set (t := fun k => nth k te false). set (Vf := fun k => nth k V szero).
  assert (EV : V = tab K Vf) by (apply list_tab; assumption).
  assert (EC : ctr = tab K (fun k => pv_ctr (v k))) by (apply list_tab; assumption).
  assert (EN : normals = tab K (fun k => pv_n (v k))) by (apply list_tab; assumption).
  assert (ER : rings = tab K (fun k => pv_ring (v k))) by (apply list_tab; assumption).
  assert (ET : te = tab K t) by (apply list_tab; assumption).
  rewrite EV, EC, EN, ER, ET in *. rewrite coefs_tab in *. cbn [fst snd] in *.
  unfold calculate_RHS in S. rewrite zipWith_tab in S.
  destruct (solve_tab _ _ _ _ S) as (g & -> & EQ & _). rewrite app_fs_tab. cbn [snd].
  unfold is_no_flux_BC_satisfied. cbv zeta. rewrite zipWith_tab.
  destruct (existsb _ areas) eqn:X.
  - right. split; [reflexivity|]. apply existsb_exists in X. destruct X as (a & I & X). exists a. split; [assumption|].
    change (Rltb a (ndec 1 14) = true) in X. apply Rltb_true in X. rewrite ndec_R in X. change (10 ^ 14)%Z with 100000000000000%Z in X. lra.
  - left. replace (existsb _ (tab K _)) with false; [reflexivity|]. symmetry. apply not_true_is_false. intros Y. apply existsb_exists in Y.
    destruct Y as (a & I & Y). apply in_tab in I. destruct I as (k & Hk & ->).
    pose proof (EQ k Hk) as Q. change (fun l => sdot (infl t v Vf (pv_ctr (v k)) l) (pv_n (v k)) * g l) with (fun l => acoef t v Vf k l * g l) in Q.
    rewrite <- wash_dot in Q.
    assert (Z : vdot (vopp (sadd (Vf k) (wash K t v Vf g (pv_ctr (v k))))) (pv_n (v k)) = 0).
    { revert Q. generalize (wash K t v Vf g (pv_ctr (v k))) (Vf k) (pv_n (v k)). intros [a b c] [d e f] [x y z]. vnum. svec. lra. }
    rewrite Z in Y. change (Rltb (ndec 1 12) (Rabs 0) || false = true)%bool in Y. rewrite orb_false_r, Rabs_R0 in Y. apply Rltb_true in Y.
    rewrite ndec_R in Y. change (10 ^ 12)%Z with 1000000000000%Z in Y. lra.
Qed.

(** ** C42 *)
Record scaled (k q : R) (o o' : vlm R) : Prop := {
  sc_gamma : vl_gamma o' = map (Rmult k) (vl_gamma o);
  sc_V_ind_ctrl : vl_V_ind_ctrl o' = map (sscale k) (vl_V_ind_ctrl o);
  sc_V_ind_cp : vl_V_ind_cp o' = map (sscale k) (vl_V_ind_cp o);
  sc_V_ctrl : vl_V_ctrl o' = map (sscale k) (vl_V_ctrl o);
  sc_V_cp : vl_V_cp o' = map (sscale k) (vl_V_cp o);
  sc_force : vl_force o' = map (sscale q) (vl_force o);
  sc_lift : vl_lift o' = map (sscale q) (vl_lift o);
  sc_drag : vl_drag o' = map (sscale q) (vl_drag o);
  sc_pressure : vl_pressure o' = map (Rmult q) (vl_pressure o) }.

Lemma infl_scale t v V k p l : 0 < k -> infl t v (fun l => sscale k (V l)) p l = infl t v V p l.
Proof. intros K. unfold infl. apply influence_direction. assumption. Qed.
Lemma wash_scale K t v V k g p : 0 < k -> wash K t v (fun l => sscale k (V l)) (fun l => k * g l) p = sscale k (wash K t v V g p).
Proof.
  intros Hk. unfold wash. rewrite <- vsumn_scale. apply vsumn_ext. intros l _. rewrite infl_scale by assumption.
  destruct (infl t v V p l). svec. vec_eq; ring.
Qed.
Lemma coef_scale c f n a q : c <> 0 -> sdot (sscale c f) n / a / (c * q) = sdot f n / a / q.
Proof.
  intros C. unfold Rdiv. rewrite Rinv_mult. replace (sdot (sscale c f) n) with (c * sdot f n) by (destruct f, n; svec; ring).
  generalize (/ a) (/ q). intros. field. assumption.
Qed.
Theorem C42_inflow : forall panels nc ns rho te le vars ic ic' o k, 0 < k ->
  length te = length panels -> length vars = length panels -> length (in_V ic) = length panels ->
  in_V ic' = map (sscale k) (in_V ic) ->
  vlm_solve panels nc ns rho te le vars ic = Ok o ->
  exists o', vlm_solve panels nc ns rho te le vars ic' = Ok o' /\ scaled k (k ^ 2) o o' /\ vl_pcoef o' = vl_pcoef o.
Proof.
  intros panels nc ns rho te le vars ic ic' o k Hk LT LV LI EI E.
  set (K := length panels) in *. set (t := fun k => nth k te false). set (v := fun k => nth k vars dpv). set (V := fun k => nth k (in_V ic) szero).
  assert (ET : te = tab K t) by (apply list_tab; assumption). assert (EV : vars = tab K v) by (apply list_tab; assumption).
  assert (EI0 : in_V ic = tab K V) by (apply list_tab; assumption).
  destruct (vlm_solve_inv K ns rho panels le t v V nc te vars ic o eq_refl ET EV EI0 E) as (g & net & [EQ RG AR NT] & FL).
  set (V' := fun l => sscale k (V l)).
  assert (EI' : in_V ic' = tab K V') by (rewrite EI, EI0, map_tab; reflexivity).
  assert (AC : forall a b, acoef t v V' a b = acoef t v V a b) by (intros; unfold acoef, V'; rewrite infl_scale by assumption; reflexivity).
  destruct (vlm_solve_make K ns rho panels le t v V' nc te vars ic' (fun l => k * g l) (fun l => k * net l) eq_refl ET EV EI') as (o' & E' & FL').
  { constructor; try assumption.
    - intros a A. transitivity (k * sumn K (fun l => acoef t v V a l * g l)).
      + rewrite <- sumn_scale. apply sumn_ext. intros l _. rewrite AC. ring.
      + rewrite (EQ a A). unfold V'. destruct (V a), (pv_n (v a)). svec. ring.
    - intros z Z. apply RG. intros a A. rewrite <- (Z a A). apply sumn_ext. intros. rewrite AC. reflexivity.
    - intros a A. rewrite <- (map_tab (Rmult k)). apply net_scale. apply NT. assumption. }
  exists o'. split; [exact E'|].
  destruct FL as [_ _ _ _ _ _ _ _ _ F1 F2 F3 F4 F5 F6 F7 F8 F9 F10]. destruct FL' as [_ _ _ _ _ _ _ _ _ F1' F2' F3' F4' F5' F6' F7' F8' F9' F10'].
  assert (FO : forall a, pforce K rho t v V' (fun l => k * g l) (fun l => k * net l) a = sscale (k ^ 2) (pforce K rho t v V g net a)).
  { intros a. unfold pforce, V'. rewrite wash_scale by assumption. generalize (wash K t v V g (pv_cp (v a))) (pv_span (v a)) (V a).
    intros [? ? ?] [? ? ?] [? ? ?]. svec. vec_eq; ring. }
  split.
  - constructor; [rewrite F1, F1' | rewrite F2, F2' | rewrite F4, F4' | rewrite F3, F3' | rewrite F5, F5' | rewrite F6, F6' | rewrite F7, F7' | rewrite F8, F8' | rewrite F9, F9']; rewrite map_tab; apply tab_ext; intros a A.
    + reflexivity.
    + apply wash_scale; assumption.
    + apply wash_scale; assumption.
    + unfold V'. rewrite wash_scale by assumption. generalize (wash K t v V g (pv_ctr (v a))) (V a). intros [? ? ?] [? ? ?]; svec; vec_eq; ring.
    + unfold V'. rewrite wash_scale by assumption. generalize (wash K t v V g (pv_cp (v a))) (V a). intros [? ? ?] [? ? ?]; svec; vec_eq; ring.
    + apply FO.
    + unfold plift, V'. destruct (V a), (pv_span (v a)). svec. vec_eq; ring.
    + unfold pdrag, V'. rewrite wash_scale by assumption. generalize (wash K t v V g (pv_cp (v a))) (pv_span (v a)). intros [? ? ?] [? ? ?]; svec; vec_eq; ring.
    + rewrite FO. destruct (pforce K rho t v V g net a), (pv_n (v a)). svec. unfold Rdiv. ring.
  - rewrite F10, F10'. apply tab_ext. intros a A. rewrite FO.
    replace (1 / 2 * rho * sdot (V' a) (V' a)) with (k ^ 2 * (1 / 2 * rho * sdot (V a) (V a))) by (unfold V'; destruct (V a); svec; ring).
    apply coef_scale. apply pow_nonzero, Rgt_not_eq. assumption.
Qed.
(* all wind profiles and the yacht speed multiplied by [k] *)
Definition faster (k : R) (w : wind R) : wind R := Wind_ (w_alpha_deg w) (k * w_tws w) (k * w_sog w) (w_prof w).
Lemma wind_faster k w h u : get_true_wind_speed_at_h w h = Ok u -> get_true_wind_speed_at_h (faster k w) h = Ok (sscale k u).
Proof.
  unfold get_true_wind_speed_at_h, wind_speed_at_h. destruct w as [al tws sog pr]. unfold faster. cbn [w_prof w_tws w_alpha_deg w_sog].
  assert (L : forall s, length_to_xyz_vector (Wind_ al (k * tws) (k * sog) pr) (k * s) = sscale k (length_to_xyz_vector (Wind_ al tws sog pr) s)).
  { intros s. unfold length_to_xyz_vector, w_alpha. cbn [w_alpha_deg]. rnum. svec. vec_eq; ring. }
  destruct pr as [|r rh|e rh wl].
  - unfold bind. intros X. injection X as <-. rewrite L. reflexivity.
  - destruct r as [r|]; [|discriminate]. destruct rh as [rh|]; [|discriminate]. unfold opt_arg, bind. intros X. injection X as <-.
    rewrite <- L. f_equal. f_equal. rnum. ring.
  - destruct wl as [wl|]; [|discriminate]. destruct rh as [rh|]; [|discriminate]. destruct e as [e|]; [|discriminate]. unfold opt_arg, bind. intros X. injection X as <-.
    rewrite <- L. f_equal. f_equal. rnum. ring.
Qed.
Lemma inlet_faster k w cp ic : InletConditions w cp = Ok ic -> exists ic', InletConditions (faster k w) cp = Ok ic' /\ in_V ic' = map (sscale k) (in_V ic).
Proof.
  unfold InletConditions. destruct (mapM _ cp) as [tws|] eqn:M; [|discriminate]. intros E. injection E as <-. cbn [in_V].
  assert (M' : mapM (fun p => get_true_wind_speed_at_h (faster k w) (nabs (vz p))) cp = Ok (map (sscale k) tws)).
  { revert tws M. induction cp as [|p cp IH]; intros tws M; [injection M as <-; reflexivity|].
    cbn [mapM] in *. destruct (get_true_wind_speed_at_h w _) as [u|] eqn:U; [|discriminate]. unfold bind in M at 1.
    destruct (mapM _ cp) as [us|] eqn:US; [|discriminate]. injection M as <-.
    rewrite (wind_faster _ _ _ _ U), (IH us eq_refl). reflexivity. }
  rewrite M'. unfold bind. eexists. split; [reflexivity|]. cbn [in_V]. rewrite !map_map. apply map_ext. intros [x y z].
  unfold get_app_infs_at_h, faster. cbn [w_sog]. rnum. svec. vec_eq; ring.
Qed.
Theorem C42_speed : forall panels nc ns rho w te le o k, 0 < k -> length te = length panels ->
  Vlm panels nc ns rho w te le = Ok o ->
  exists o', Vlm panels nc ns rho (faster k w) te le = Ok o' /\ scaled k (k ^ 2) o o' /\ vl_pcoef o' = vl_pcoef o.
Proof.
  intros panels nc ns rho w te le o k Hk LT E. destruct (Vlm_inv _ _ _ _ _ _ _ _ LT E) as (vars & ic & g & net & CV & LV & IC & LI & VS & _).
  destruct (inlet_faster k _ _ _ IC) as (ic' & IC' & EI).
  destruct (C42_inflow panels nc ns rho te le vars ic ic' o k Hk LT LV LI EI VS) as (o' & E' & S). exists o'. split; [|exact S].
  unfold Vlm. rewrite gor_R, CV. unfold bind at 1. rewrite IC'. unfold bind. exact E'.
Qed.
Theorem C42_density : forall panels nc ns rho w te le o k, length te = length panels ->
  Vlm panels nc ns rho w te le = Ok o ->
  exists o', Vlm panels nc ns (k * rho) w te le = Ok o' /\ scaled 1 k o o' /\ (k <> 0 -> vl_pcoef o' = vl_pcoef o).
Proof.
  intros panels nc ns rho w te le o k LT E. destruct (Vlm_inv _ _ _ _ _ _ _ _ LT E) as (vars & ic & g & net & CV & LV & IC & LI & VS & SO & FL).
  set (K := length panels) in *. set (t := fun k => nth k te false) in *. set (v := fun k => nth k vars dpv) in *. set (V := fun k => nth k (in_V ic) szero) in *.
  assert (ET : te = tab K t) by (apply list_tab; assumption). assert (EV : vars = tab K v) by (apply list_tab; assumption).
  assert (EI0 : in_V ic = tab K V) by (apply list_tab; assumption).
  destruct (vlm_solve_make K ns (k * rho) panels le t v V nc te vars ic g net eq_refl ET EV EI0 SO) as (o' & E' & FL').
  exists o'. split; [unfold Vlm; rewrite gor_R, CV; unfold bind at 1; rewrite IC; exact E'|].
  destruct FL as [_ _ _ _ _ _ _ _ _ F1 F2 F3 F4 F5 F6 F7 F8 F9 F10]. destruct FL' as [_ _ _ _ _ _ _ _ _ F1' F2' F3' F4' F5' F6' F7' F8' F9' F10'].
  assert (FO : forall a, pforce K (k * rho) t v V g net a = sscale k (pforce K rho t v V g net a)).
  { intros a. unfold pforce. generalize (wash K t v V g (pv_cp (v a))) (pv_span (v a)) (V a). intros [? ? ?] [? ? ?] [? ? ?]. svec. vec_eq; ring. }
  assert (O : forall a, sscale 1 a = a) by (intros [? ? ?]; svec; vec_eq; ring).
  split.
  - constructor; [rewrite F1, F1' | rewrite F2, F2' | rewrite F4, F4' | rewrite F3, F3' | rewrite F5, F5' | rewrite F6, F6' | rewrite F7, F7' | rewrite F8, F8' | rewrite F9, F9']; rewrite map_tab; apply tab_ext; intros a A; rewrite ?O; try reflexivity.
    + ring.
    + apply FO.
    + unfold plift. destruct (V a), (pv_span (v a)). svec. vec_eq; ring.
    + unfold pdrag. generalize (wash K t v V g (pv_cp (v a))) (pv_span (v a)). intros [? ? ?] [? ? ?]; svec; vec_eq; ring.
    + rewrite FO. destruct (pforce K rho t v V g net a), (pv_n (v a)). svec. unfold Rdiv. ring.
  - intros Hk. rewrite F10, F10'. apply tab_ext. intros a A. rewrite FO.
    replace (1 / 2 * (k * rho) * sdot (V a) (V a)) with (k * (1 / 2 * rho * sdot (V a) (V a))) by ring.
    apply coef_scale. assumption.
Qed.

(** ** C44 *)
Lemma panel_forces_nth rho X spans gamma le ns f k x s : panel_forces rho X spans gamma le ns = Ok f ->
  nth_error X k = Some x -> nth_error spans k = Some s ->
  exists c, net_circulation gamma le ns k = Ok c /\ nth_error f k = Some (sscale rho (scross x (sscale c s))).
Proof.
  intros E P Q. unfold panel_forces in E.
  assert (L : nth_error (combine (seq 0 (length spans)) (combine X spans)) k = Some (k, (x, s))).
  { apply nth_error_combine; [|apply nth_error_combine; assumption]. apply (nth_error_seq 0). apply nth_error_Some_lt in Q. assumption. }
  destruct (mapM_nth _ _ _ _ _ E L) as (b & B1 & B2). cbn [fst snd] in B2.
  destruct (net_circulation gamma le ns k) as [c|]; [|discriminate]. exists c. split; [reflexivity|]. unfold bind in B2. injection B2 as <-. exact B1.
Qed.
Lemma panel_forces_other rho X Y spans gamma le ns f : panel_forces rho X spans gamma le ns = Ok f -> length X = length spans -> length Y = length spans ->
  exists f', panel_forces rho Y spans gamma le ns = Ok f' /\ length f' = length spans.
Proof.
  intros E LX LY. destruct (mapM_total (fun ivs => let i := fst ivs in let v := fst (snd ivs) in let s := snd (snd ivs) in
          bind (net_circulation gamma le ns i) (fun g => Ok (vscale rho (vcross v (vscale g s)))))
       (combine (seq 0 (length spans)) (combine Y spans))) as [f' F'].
  - intros [k [y s]] I. apply In_nth_error in I. destruct I as [i I]. apply nth_error_combine_inv in I. destruct I as [I1 I2].
    apply nth_error_combine_inv in I2. destruct I2 as [I2 I3]. cbn [fst snd].
    assert (i < length spans)%nat by (apply nth_error_Some_lt in I3; assumption).
    rewrite (nth_error_seq 0) in I1 by assumption. injection I1 as <-.
    destruct (nth_error_ex X i) as [x X1]; [lia|]. destruct (panel_forces_nth _ _ _ _ _ _ _ _ _ _ E X1 I3) as (c & C & _).
    rewrite ?Nat.add_0_l, C. unfold bind. eauto.
  - exists f'. split; [exact F'|]. rewrite (mapM_length _ _ _ F'), !combine_length, seq_length. lia.
Qed.
Theorem C44_force_splits : forall V gamma rho cp rings ns normals spans te le gor fs us ws,
  length V = length spans -> length cp = length spans ->
  calc_force_wrapper V gamma rho cp rings ns normals spans te le "force_xyz" gor = Ok (fs, us, ws) ->
  exists ls ds,
    calc_force_wrapper V gamma rho cp rings ns normals spans te le "lift" gor = Ok (ls, us, ws) /\
    calc_force_wrapper V gamma rho cp rings ns normals spans te le "drag" gor = Ok (ds, us, ws) /\
    length fs = length spans /\ length us = length spans /\ length ls = length spans /\ length ds = length spans /\
    forall k f u l d v s, nth_error fs k = Some f -> nth_error us k = Some u -> nth_error ls k = Some l -> nth_error ds k = Some d ->
      nth_error V k = Some v -> nth_error spans k = Some s ->
      f = sadd l d /\ sdot l v = 0 /\ sdot l s = 0 /\ sdot f u = 0 /\ sdot f s = 0.
Proof.
  intros V gamma rho cp rings ns normals spans te le gor fs us ws LV LC E. unfold calc_force_wrapper in *.
  change (negb (existsb (String.eqb "force_xyz") ["lift"; "drag"; "force_xyz"]%string)) with false in E.
  change (negb (existsb (String.eqb "lift") ["lift"; "drag"; "force_xyz"]%string)) with false.
  change (negb (existsb (String.eqb "drag") ["lift"; "drag"; "force_xyz"]%string)) with false.
  change (String.eqb "force_xyz" "lift") with false in E. change (String.eqb "force_xyz" "drag") with false in E.
  change (String.eqb "lift" "lift") with true. change (String.eqb "drag" "lift") with false. change (String.eqb "drag" "drag") with true. cbv iota in *.
  destruct (calc_velocity_coefs V cp rings normals te gor) as [co vi] eqn:CC. destruct (calculate_app_fs V vi gamma) as [ind at_] eqn:AF.
  destruct (panel_forces rho at_ spans gamma le ns) as [f|] eqn:PF; [|discriminate]. unfold bind in E. injection E as -> -> ->.
  assert (LW : length ws = length spans).
  { unfold calc_velocity_coefs in CC. injection CC as _ <-. unfold calculate_app_fs, calc_induced_velocity in AF. injection AF as <- _. rewrite !map_length. assumption. }
  assert (EU : us = zipWith vadd V ws) by (unfold calculate_app_fs in AF; injection AF as <- <-; reflexivity).
  assert (LU : length us = length spans) by (rewrite EU, zipWith_length; lia).
  destruct (panel_forces_other _ _ V _ _ _ _ _ PF LU LV) as (ls & PL & LL). destruct (panel_forces_other _ _ ws _ _ _ _ _ PF LU LW) as (ds & PD & LD).
  destruct (panel_forces_other _ _ us _ _ _ _ _ PF LU LU) as (fs' & PF' & LF). assert (fs' = fs) by congruence. subst fs'.
  exists ls, ds. rewrite PL, PD. unfold bind. repeat (split; [assumption || reflexivity|]).
  intros k f u l d v s Hf Hu Hl Hd Hv Hs.
  destruct (panel_forces_nth _ _ _ _ _ _ _ _ _ _ PF Hu Hs) as (c & C & F1). destruct (panel_forces_nth _ _ _ _ _ _ _ _ _ _ PL Hv Hs) as (c1 & C1 & F2).
  destruct (nth_error_same us ws k u Hu ltac:(lia)) as [w W]. destruct (panel_forces_nth _ _ _ _ _ _ _ _ _ _ PD W Hs) as (c2 & C2 & F3).
  assert (c1 = c) by congruence. assert (c2 = c) by congruence. subst c1 c2.
  assert (U : u = sadd v w). { rewrite EU in Hu. rewrite (nth_error_zipWith _ _ _ _ _ _ Hv W) in Hu. injection Hu as <-. tospec. reflexivity. }
  assert (X1 : f = sscale rho (scross u (sscale c s))) by congruence. assert (X2 : l = sscale rho (scross v (sscale c s))) by congruence.
  assert (X3 : d = sscale rho (scross w (sscale c s))) by congruence. subst f l d u. clear.
  destruct v as [v1 v2 v3], w as [w1 w2 w3], s as [s1 s2 s3]. svec. split; [vec_eq; ring|]. split; [ring|]. split; [ring|]. split; ring.
Qed.
Theorem C44_other_names : forall (F : Type) (NF : Num F) (V : list (vec F)) gamma rho cp rings ns normals spans te le gor name,
  name <> "lift"%string -> name <> "drag"%string -> name <> "force_xyz"%string ->
  calc_force_wrapper V gamma rho cp rings ns normals spans te le name gor = Raise (SystemExit 0).
Proof.
  intros until name. intros A B C. unfold calc_force_wrapper. cbn [existsb].
  apply String.eqb_neq in A, B, C. rewrite A, B, C. reflexivity.
Qed.
(* the three results stored by Vlm *)
Theorem C44_vlm : forall panels nc ns rho w te le o, length te = length panels -> Vlm panels nc ns rho w te le = Ok o ->
  forall k, (k < length panels)%nat -> exists f l d v s u,
    nth_error (vl_force o) k = Some f /\ nth_error (vl_lift o) k = Some l /\ nth_error (vl_drag o) k = Some d /\
    nth_error (in_V (vl_inlet o)) k = Some v /\ nth_error (vl_spans o) k = Some s /\ nth_error (vl_V_cp o) k = Some u /\
    f = sadd l d /\ sdot l v = 0 /\ sdot l s = 0 /\ sdot f u = 0.
Proof.
  intros panels nc ns rho w te le o LT E k K. destruct (Vlm_inv _ _ _ _ _ _ _ _ LT E) as (vars & ic & g & net & CV & LV & IC & LI & VS & SO & FL).
  destruct FL as [_ _ _ _ _ _ _ F0 FI F1 F2 F3 F4 F5 F6 F7 F8 F9 F10]. unfold vl_spans. rewrite F0, FI, F5, F6, F7, F8, map_tab.
  do 6 eexists. split; [apply tab_nth_error; assumption|]. split; [apply tab_nth_error; assumption|]. split; [apply tab_nth_error; assumption|].
  split; [apply (nth_error_nth' _ szero); lia|]. split; [apply tab_nth_error; assumption|]. split; [apply tab_nth_error; assumption|].
  unfold pforce, plift, pdrag. cbv beta. generalize (wash (length panels) (fun k => nth k te false) (fun k => nth k vars dpv) (fun k => nth k (in_V ic) szero) g (pv_cp (nth k vars dpv))).
  generalize (nth k (in_V ic) szero) (pv_span (nth k vars dpv)) (net k). clear. intros [? ? ?] [? ? ?] c [? ? ?]. svec. split; [vec_eq; ring|]. split; [ring|]. split; ring.
Qed.

(** ** C45 *)
Theorem C45_pressure : forall (forces normals : list (vec R)) (areas : list R) k f n a,
  nth_error forces k = Some f -> nth_error normals k = Some n -> nth_error areas k = Some a -> a <> 0 ->
  exists p, nth_error (calc_pressure forces normals areas) k = Some p /\ p * a = sdot f n.
Proof.
  intros forces normals areas k f n a Hf Hn Ha A. exists (sdot f n / a). split.
  - unfold calc_pressure. rewrite (nth_error_zipWith _ _ _ _ _ _ (nth_error_combine _ _ _ _ _ Hf Hn) Ha). cbn [fst snd]. tospec. rnum. reflexivity.
  - field. assumption.
Qed.
Theorem C45_pressure_coefficient : forall (pressure : list R) rho (V : list (vec R)) k p v,
  nth_error pressure k = Some p -> nth_error V k = Some v -> rho <> 0 -> v <> szero ->
  exists c, nth_error (calc_pressure_coeff pressure rho V) k = Some c /\ c * (rho * snorm v ^ 2 / 2) = p.
Proof.
  intros pressure rho V k p v Hp Hv HR HV. eexists. split; [unfold calc_pressure_coeff; apply (nth_error_zipWith _ _ _ _ _ _ Hp Hv)|].
  cbv beta. tospec. rewrite ndec_R. change (10 ^ 1)%Z with 10%Z. rnum.
  assert (S : snorm v ^ 2 = sdot v v) by (rewrite <- snorm_sq; ring). rewrite S. field. split; [|assumption].
  intros Z. apply HV. apply snorm_zero. apply Rsqr_0_uniq. unfold Rsqr. rewrite <- Z, <- snorm_sq. ring.
Qed.
Theorem C45_vlm : forall panels nc ns rho w te le o, length te = length panels -> Vlm panels nc ns rho w te le = Ok o ->
  forall k, (k < length panels)%nat -> exists f n a p v c,
    nth_error (vl_force o) k = Some f /\ nth_error (vl_normals o) k = Some n /\ nth_error (vl_areas o) k = Some a /\
    nth_error (vl_pressure o) k = Some p /\ nth_error (in_V (vl_inlet o)) k = Some v /\ nth_error (vl_pcoef o) k = Some c /\
    p * a = sdot f n /\ (rho <> 0 -> v <> szero -> c * (rho * snorm v ^ 2 / 2) = p).
Proof.
  intros panels nc ns rho w te le o LT E k K. destruct (Vlm_inv _ _ _ _ _ _ _ _ LT E) as (vars & ic & g & net & CV & LV & IC & LI & VS & SO & FL).
  destruct FL as [_ _ _ _ _ _ FA F0 FI F1 F2 F3 F4 F5 F6 F7 F8 F9 F10]. unfold vl_normals. rewrite F0, FI, FA, F6, F9, F10, map_tab.
  assert (LA : length (get_panels_area panels) = length panels) by (unfold get_panels_area; apply map_length).
  assert (AR : ndec 1 14 <= area panels k). { apply (so_areas _ _ _ _ _ _ _ _ _ SO). apply nth_In. lia. }
  assert (AR' : area panels k <> 0). { rewrite ndec_R in AR. change (10 ^ 14)%Z with 100000000000000%Z in AR. lra. }
  do 6 eexists. split; [apply tab_nth_error; assumption|]. split; [apply tab_nth_error; assumption|]. split; [apply (nth_error_nth' _ 0); lia|].
  split; [apply tab_nth_error; assumption|]. split; [apply (nth_error_nth' _ szero); lia|]. split; [apply tab_nth_error; assumption|].
  cbv beta. fold (area panels k). split; [field; assumption|]. intros HR HV.
  assert (S : forall v, snorm v ^ 2 = sdot v v) by (intros; rewrite <- snorm_sq; ring). rewrite S. field. split; [assumption|]. split; [|assumption].
  intros Z. apply HV. apply snorm_zero. apply Rsqr_0_uniq. unfold Rsqr. rewrite <- Z, <- snorm_sq. ring.
Qed.

(** ** C59 *)
Record moved_solution (m : vec R -> vec R) (o o' : vlm R) : Prop := {
  ms_gamma : vl_gamma o' = vl_gamma o;
  ms_V_ind_ctrl : vl_V_ind_ctrl o' = map m (vl_V_ind_ctrl o);
  ms_V_ctrl : vl_V_ctrl o' = map m (vl_V_ctrl o);
  ms_V_ind_cp : vl_V_ind_cp o' = map m (vl_V_ind_cp o);
  ms_V_cp : vl_V_cp o' = map m (vl_V_cp o);
  ms_force : vl_force o' = map m (vl_force o);
  ms_lift : vl_lift o' = map m (vl_lift o);
  ms_drag : vl_drag o' = map m (vl_drag o);
  ms_pressure : vl_pressure o' = vl_pressure o;
  ms_pcoef : vl_pcoef o' = vl_pcoef o }.
Lemma m_zero m : rotation_map m -> m szero = szero.
Proof.
  intros RM. replace szero with (sscale 0 szero) at 1 by (svec; vec_eq; ring). rewrite (rm_scale m RM). destruct (m szero). svec. vec_eq; ring.
Qed.
Theorem C59_frame_independence : forall m d nc ns G panels rho te le vars ic ic' o, rotation_map m ->
  (0 < nc)%nat -> (0 < ns)%nat -> (0 < G)%nat -> flags nc ns G te le -> length panels = (G * (nc * ns))%nat ->
  calculate_vlm_variables panels te (-1) nc ns = Ok vars ->
  length (in_V ic) = length panels -> in_V ic' = map m (in_V ic) ->
  vlm_solve panels nc ns rho te le vars ic = Ok o ->
  exists vars' o', calculate_vlm_variables (map (moved m d) panels) te (-1) nc ns = Ok vars' /\
    vlm_solve (map (moved m d) panels) nc ns rho te le vars' ic' = Ok o' /\
    map pv_cp vars' = map (motion m d) (map pv_cp vars) /\ moved_solution m o o'.
Proof.
  intros m d nc ns G panels rho te le vars ic ic' o RM NC NS NG FG LP CV LI EI E.
  destruct (vars_moved m d RM nc ns G te panels vars NC NS NG LP (fl_te_len _ _ _ _ _ FG) (fl_te _ _ _ _ _ FG) CV) as (vars' & CV' & LV' & MV).
  assert (LT : length te = length panels) by (rewrite LP; apply FG).
  pose proof (vlm_vars_length _ _ _ _ _ _ LT CV) as LV.
  set (K := length panels) in *. set (t := fun k => nth k te false). set (v := fun k => nth k vars dpv). set (V := fun k => nth k (in_V ic) szero).
  set (v' := fun k => nth k vars' dpv). set (V' := fun k => m (V k)). set (panels' := map (moved m d) panels).
  assert (ET : te = tab K t) by (apply list_tab; assumption). assert (EV : vars = tab K v) by (apply list_tab; assumption).
  assert (EV' : vars' = tab K v') by (apply list_tab; congruence).
  assert (EI0 : in_V ic = tab K V) by (apply list_tab; assumption).
  assert (EI' : in_V ic' = tab K V') by (rewrite EI, EI0, map_tab; reflexivity).
  assert (MK : forall k, (k < K)%nat -> moved_vars m d (v k) (v' k)).
  { intros k Hk. destruct (MV k (v k)) as (w & W & M). { unfold v. apply nth_error_nth'. lia. }
    unfold v'. rewrite (nth_of_error _ _ dpv _ W). exact M. }
  destruct (vlm_solve_inv K ns rho panels le t v V nc te vars ic o eq_refl ET EV EI0 E) as (g & net & [EQ RG AR NT] & FL).
  assert (IN : forall p l, (l < K)%nat -> infl t v' V' (motion m d p) l = m (infl t v V p l)).
  { intros p l L. unfold infl, V'. rewrite (mo_ring _ _ _ _ (MK l L)). apply influence_motion. assumption. }
  assert (WA : forall p, wash K t v' V' g (motion m d p) = m (wash K t v V g p)).
  { intros p. unfold wash. rewrite (vsumn_map m) by (first [apply m_zero; assumption | apply RM]). apply vsumn_ext. intros l L. rewrite IN by assumption. symmetry. apply RM. }
  assert (AC : forall a b, (a < K)%nat -> (b < K)%nat -> acoef t v' V' a b = acoef t v V a b).
  { intros a b A B. unfold acoef. rewrite (mo_ctr _ _ _ _ (MK a A)), (mo_n _ _ _ _ (MK a A)), IN by assumption. apply RM. }
  assert (AREA : get_panels_area panels' = get_panels_area panels).
  { unfold get_panels_area, panels'. rewrite map_map. apply map_ext. intros p. apply panel_area_moved. assumption. }
  destruct (vlm_solve_make K ns rho panels' le t v' V' nc te vars' ic' g net) as (o' & E' & FL'); try assumption.
  { unfold panels'. apply map_length. }
  { constructor; try assumption.
    - intros a A. unfold V'. rewrite (mo_n _ _ _ _ (MK a A)), (rm_dot m RM), <- (EQ a A). apply sumn_ext. intros l L. rewrite AC by assumption. reflexivity.
    - intros z Z. apply RG. intros a A. rewrite <- (Z a A). apply sumn_ext. intros. rewrite AC by assumption. reflexivity.
    - rewrite AREA. assumption. }
  exists vars', o'. split; [exact CV'|]. split; [exact E'|]. split.
  { rewrite EV, EV', !map_tab. apply tab_ext. intros k Hk. apply (mo_cp _ _ _ _ (MK k Hk)). }
  destruct FL as [_ _ _ _ _ _ _ _ _ F1 F2 F3 F4 F5 F6 F7 F8 F9 F10]. destruct FL' as [_ _ _ _ _ _ _ _ _ F1' F2' F3' F4' F5' F6' F7' F8' F9' F10'].
  assert (FO : forall a, (a < K)%nat -> pforce K rho t v' V' g net a = m (pforce K rho t v V g net a)).
  { intros a A. unfold pforce, V'. rewrite (mo_cp _ _ _ _ (MK a A)), (mo_span _ _ _ _ (MK a A)), WA.
    rewrite <- (rm_add m RM), <- (rm_scale m RM), (rm_cross m RM), (rm_scale m RM). reflexivity. }
  assert (AR2 : forall a, area panels' a = area panels a) by (intros; unfold area; rewrite AREA; reflexivity).
  constructor; [rewrite F1, F1' | rewrite F2, F2' | rewrite F3, F3' | rewrite F4, F4' | rewrite F5, F5' | rewrite F6, F6' | rewrite F7, F7' | rewrite F8, F8' | rewrite F9, F9' | rewrite F10, F10']; rewrite ?map_tab; apply tab_ext; intros a A.
  - reflexivity.
  - rewrite (mo_ctr _ _ _ _ (MK a A)). apply WA.
  - rewrite (mo_ctr _ _ _ _ (MK a A)), WA. unfold V'. symmetry. apply RM.
  - rewrite (mo_cp _ _ _ _ (MK a A)). apply WA.
  - rewrite (mo_cp _ _ _ _ (MK a A)), WA. unfold V'. symmetry. apply RM.
  - apply FO. assumption.
  - unfold plift, V'. rewrite (mo_span _ _ _ _ (MK a A)), <- (rm_scale m RM), (rm_cross m RM), (rm_scale m RM). reflexivity.
  - unfold pdrag. rewrite (mo_cp _ _ _ _ (MK a A)), (mo_span _ _ _ _ (MK a A)), WA, <- (rm_scale m RM), (rm_cross m RM), (rm_scale m RM). reflexivity.
  - rewrite FO, (mo_n _ _ _ _ (MK a A)), (rm_dot m RM), AR2 by assumption. reflexivity.
  - rewrite FO, (mo_n _ _ _ _ (MK a A)), (rm_dot m RM), AR2 by assumption. unfold V'. rewrite (rm_dot m RM). reflexivity.
Qed.
(* the same at the level of Vlm: turning lattice and wind about the vertical axis, yacht at rest *)
Definition turn (th : R) : vec R -> vec R := srot (V3 0 0 1) th.
Lemma turn_rotation th : rotation_map (turn th).
Proof. apply srot_is_rotation. svec. ring. Qed.
Theorem C59_turned : forall deg d nc ns G panels rho te le al tws pr o, horizontal d ->
  (0 < nc)%nat -> (0 < ns)%nat -> (0 < G)%nat -> flags nc ns G te le -> length panels = (G * (nc * ns))%nat ->
  Vlm panels nc ns rho (Wind_ al tws 0 pr) te le = Ok o ->
  exists o', Vlm (map (moved (turn (rad deg)) d) panels) nc ns rho (Wind_ (al + deg) tws 0 pr) te le = Ok o' /\
    moved_solution (turn (rad deg)) o o'.
Proof.
  intros deg d nc ns G panels rho te le al tws pr o HD NC NS NG FG LP E.
  assert (LT : length te = length panels) by (rewrite LP; apply FG).
  destruct (Vlm_inv _ _ _ _ _ _ _ _ LT E) as (vars & ic & g & net & CV & LV & IC & LI & VS & _).
  set (m := turn (rad deg)).
  assert (HM : forall p, vz (motion m d p) = vz p).
  { intros [x y z]. unfold motion, m, turn, horizontal in *. destruct d as [d1 d2 d3]. svec. subst d3. ring. }
  assert (W : forall h, get_true_wind_speed_at_h (Wind_ (al + deg) tws 0 pr) h = match get_true_wind_speed_at_h (Wind_ al tws 0 pr) h with Ok u => Ok (m u) | Raise e => Raise e end).
  { assert (L : forall s, length_to_xyz_vector (Wind_ (al + deg) tws 0 pr) s = m (length_to_xyz_vector (Wind_ al tws 0 pr) s)).
    { intros s. unfold length_to_xyz_vector, w_alpha, m, turn. cbn [w_alpha_deg]. rewrite (deg2rad_s (al + deg)), (deg2rad_s al).
      replace (rad (al + deg)) with (rad al + rad deg) by (unfold rad; lra). rnum. rewrite cos_plus, sin_plus. svec. rewrite ?deg2rad_s. vec_eq; ring. }
    intros h. unfold get_true_wind_speed_at_h.
    replace (wind_speed_at_h (Wind_ (al + deg) tws 0 pr) h) with (wind_speed_at_h (Wind_ al tws 0 pr) h) by reflexivity.
    destruct (wind_speed_at_h _ h); [|reflexivity]. unfold bind. rewrite L. reflexivity. }
  set (ic' := Inlet (map (motion m d) (map pv_cp vars)) (map m (in_tws ic)) (map m (in_V ic)) (map (fun v => rad2deg (natan2 (vy v) (vx v))) (map m (in_V ic)))).
  assert (IC' : InletConditions (Wind_ (al + deg) tws 0 pr) (map (motion m d) (map pv_cp vars)) = Ok ic').
  { revert IC. unfold ic', InletConditions. destruct (mapM _ (map pv_cp vars)) as [us|] eqn:M; [|discriminate]. unfold bind at 1. intros X. injection X as <-. cbn [in_tws in_V].
    assert (M' : mapM (fun p => get_true_wind_speed_at_h (Wind_ (al + deg) tws 0 pr) (nabs (vz p))) (map (motion m d) (map pv_cp vars)) = Ok (map m us)).
    { clear - M HM W. revert us M. generalize (map pv_cp vars). intros cp. induction cp as [|p cp IH]; intros us M; [injection M as <-; reflexivity|].
      cbn [mapM map] in *. destruct (get_true_wind_speed_at_h _ (nabs (vz p))) as [u|] eqn:U; [|discriminate]. unfold bind in M at 1.
      destruct (mapM _ cp) as [us'|] eqn:US; [|discriminate]. injection M as <-.
      rewrite W, HM, U, (IH us' eq_refl). reflexivity. }
    rewrite M'. unfold bind.
    assert (Z : map (get_app_infs_at_h (Wind_ (al + deg) tws 0 pr)) (map m us) = map m (map (get_app_infs_at_h (Wind_ al tws 0 pr)) us)).
    { rewrite !map_map. apply map_ext. intros [x y z]. unfold get_app_infs_at_h. cbn [w_sog vx vy vz]. rnum. unfold m, turn. svec. vec_eq; ring. }
    rewrite Z. reflexivity. }
  destruct (C59_frame_independence m d nc ns G panels rho te le vars ic ic' o) as (vars' & o' & CV' & E' & CP & MS); try assumption.
  { apply turn_rotation. } { reflexivity. }
  exists o'. split; [|exact MS]. unfold Vlm. rewrite gor_R, CV'. unfold bind at 1. rewrite CP, IC'. exact E'.
Qed.

(** ** C41 *)
(** entry [k'] of the list is the image under [f] of entry [k] *)
Definition image_at {A} (f : A -> A) (l : list A) (k k' : nat) : Prop := exists a, nth_error l k = Some a /\ nth_error l k' = Some (f a).
Record mirror_solution (o : vlm R) (k k' : nat) : Prop := {
  mi_inflow : image_at smirror (in_V (vl_inlet o)) k k';
  mi_gamma : image_at (fun g => g) (vl_gamma o) k k';
  mi_V_ind_cp : image_at smirror (vl_V_ind_cp o) k k';
  mi_V_cp : image_at smirror (vl_V_cp o) k k';
  mi_V_ctrl : image_at smirror (vl_V_ctrl o) k k';
  mi_force : image_at smirror (vl_force o) k k';
  mi_lift : image_at smirror (vl_lift o) k k';
  mi_drag : image_at smirror (vl_drag o) k k';
  mi_pressure : image_at (fun p => p) (vl_pressure o) k k';
  mi_pcoef : image_at (fun p => p) (vl_pcoef o) k k' }.
Lemma image_tab {A} (f : A -> A) n h k k' : (k < n)%nat -> (k' < n)%nat -> h k' = f (h k) -> image_at f (tab n h) k k'.
Proof. intros K K' E. exists (h k). rewrite <- E. split; apply tab_nth_error; assumption. Qed.
Lemma smirror_dot a b : sdot (smirror a) (smirror b) = sdot a b.
Proof. destruct a, b. svec. ring. Qed.
Lemma smirror_add a b : smirror (sadd a b) = sadd (smirror a) (smirror b).
Proof. destruct a, b. svec. vec_eq; ring. Qed.
Lemma smirror_scale k a : smirror (sscale k a) = sscale k (smirror a).
Proof. destruct a. svec. vec_eq; ring. Qed.
(* inflow is horizontal and the same for mirrored centres of pressure *)
Lemma inflow_mirror w (p q u u' : vec R) : q = smirror p -> get_true_wind_speed_at_h w (nabs (vz p)) = Ok u ->
  get_true_wind_speed_at_h w (nabs (vz q)) = Ok u' -> get_app_infs_at_h w u' = smirror (get_app_infs_at_h w u).
Proof.
  intros -> E E'. assert (Z : nabs (vz (smirror p)) = nabs (vz p)). { destruct p as [px py pz]. cbn [smirror vx vy vz]. rnum. apply Rabs_Ropp. }
  rewrite Z in E'. rewrite E in E'. injection E' as <-.
  unfold get_true_wind_speed_at_h in E. destruct (wind_speed_at_h w _) as [s|]; [|discriminate]. unfold bind in E. injection E as <-.
  unfold get_app_infs_at_h, length_to_xyz_vector. cbn [vx vy vz]. rnum. svec. vec_eq; ring.
Qed.
Theorem C41_mirror_solution : forall nc ns n panels rho w te le o, (0 < nc)%nat -> (0 < ns)%nat -> (0 < n)%nat ->
  flags nc ns (2 * n) te le -> mirror_lattice nc ns n panels ->
  Vlm panels nc ns rho w te le = Ok o ->
  (forall g i j, (g < n)%nat -> (i < nc)%nat -> (j < ns)%nat ->
     mirror_solution o (cell nc ns g i j) (cell nc ns (n + g) i (ns - 1 - j))) /\
  (forall p u, vz p = 0 -> horizontal u -> horizontal (sadd u (induced o p))).
Proof.
  intros nc ns n panels rho w te le o NC NS NG FG ML E.
  pose proof (proj1 ML) as LP. assert (LT : length te = length panels) by (rewrite LP; apply FG).
  destruct (Vlm_inv _ _ _ _ _ _ _ _ LT E) as (vars & ic & g & net & CV & LV & IC & LI & _ & SO & FL).
  pose proof (flow_induced ns rho panels le vars nc te ic g net o) as FI. specialize (fun p => FI p LV FL).
  set (K := length panels) in *. set (t := fun k => nth k te false) in *. set (v := fun k => nth k vars dpv) in *. set (V := fun k => nth k (in_V ic) szero) in *.
  destruct SO as [EQ RG AR NT].
  set (s := opposite nc ns n).
  assert (SL : forall k, (k < K)%nat -> (s k < K)%nat) by (intros k Hk; rewrite LP in *; apply opposite_lt; assumption).
  assert (SS : forall k, (k < K)%nat -> s (s k) = k) by (intros k Hk; rewrite LP in *; apply opposite_inv; assumption).
  assert (MV : forall k, (k < K)%nat -> mirror_vars (v k) (v (s k))).
  { intros k Hk. destruct (vars_mirror nc ns n te le panels vars NC NS NG ML FG CV k (v k)) as (x & X & M). { apply nth_error_nth'. lia. }
    unfold v at 2. fold s in X. rewrite (nth_of_error _ _ dpv _ X). exact M. }
  assert (VS : forall k, (k < K)%nat -> V (s k) = smirror (V k)).
  { assert (Q : forall k, (k < K)%nat -> exists u, get_true_wind_speed_at_h w (nabs (vz (pv_cp (v k)))) = Ok u /\ V k = get_app_infs_at_h w u).
    { intros k Hk. destruct (inlet_nth w _ ic k (pv_cp (v k)) IC) as (u & U1 & U2).
      - apply map_nth_error. apply nth_error_nth'. lia.
      - exists u. split; [assumption|]. unfold V. rewrite (nth_of_error _ _ szero _ U2). reflexivity. }
    intros k Hk. destruct (Q k Hk) as (u & U1 & U2). destruct (Q (s k) (SL k Hk)) as (u' & U1' & U2'). rewrite U2, U2'.
    apply (inflow_mirror w (pv_cp (v k)) (pv_cp (v (s k)))); try assumption. apply (mv_cp _ _ (MV k Hk)). }
  assert (TS : forall k, (k < K)%nat -> t (s k) = t k).
  { intros k Hk. rewrite LP in Hk. destruct (cell_ex nc ns (2 * n) k Hk) as (g0 & i & j & G0 & I0 & J0 & ->). unfold s. rewrite opposite_cell by assumption. unfold t.
    rewrite (nth_of_error _ _ _ _ (fl_te _ _ _ _ _ FG g0 i j G0 I0 J0)).
    rewrite (nth_of_error _ _ _ _ (fl_te _ _ _ _ _ FG (other n g0) i (ns - 1 - j)%nat (other_lt n g0 G0) I0 ltac:(lia))). reflexivity. }
  assert (IN : forall p l, (l < K)%nat -> infl t v V (smirror p) (s l) = smirror (infl t v V p l)).
  { intros p l L. unfold infl. rewrite (mv_ring _ _ (MV l L)), TS, VS by assumption. apply influence_mirror. }
  assert (AC : forall a b, (a < K)%nat -> (b < K)%nat -> acoef t v V (s a) (s b) = acoef t v V a b).
  { intros a b A B. unfold acoef. rewrite (mv_ctr _ _ (MV a A)), (mv_n _ _ (MV a A)), IN by assumption. apply smirror_dot. }
  assert (GS : forall k, (k < K)%nat -> g (s k) = g k).
  { intros k Hk. enough (X : g (s k) - g k = 0) by lra. revert k Hk. apply RG. intros a A.
    transitivity (sumn K (fun l => acoef t v V a l * g (s l)) + -1 * sumn K (fun l => acoef t v V a l * g l)).
    { rewrite <- sumn_scale, <- sumn_add. apply sumn_ext. intros; ring. }
    rewrite (EQ a A). transitivity (sumn K (fun l => acoef t v V (s a) (s l) * g (s l)) + -1 * - sdot (V a) (pv_n (v a))).
    { f_equal. apply sumn_ext. intros l L. rewrite AC by assumption. reflexivity. }
    rewrite (sumn_sigma K s (fun l => acoef t v V (s a) l * g l) SL SS), (EQ (s a) (SL a A)), VS, (mv_n _ _ (MV a A)), smirror_dot by assumption. ring. }
  assert (WA : forall p, wash K t v V g (smirror p) = smirror (wash K t v V g p)).
  { intros p. unfold wash. rewrite (vsumn_map smirror) by (try apply smirror_add; svec; vec_eq; ring).
    rewrite <- (vsumn_sigma K s) by assumption. apply vsumn_ext. intros l L. rewrite IN, GS by assumption. symmetry. apply smirror_scale. }
  assert (NS' : forall k, (k < K)%nat -> net (s k) = net k).
  { intros k Hk. pose proof (NT k Hk) as N1. pose proof (NT (s k) (SL k Hk)) as N2.
    assert (Hk' := Hk). rewrite LP in Hk'. destruct (cell_ex nc ns (2 * n) k Hk') as (g0 & i & j & G0 & I0 & J0 & ->).
    unfold s in N2 |- *. rewrite opposite_cell in N2 |- * by assumption.
    pose proof (other_lt n g0 G0) as G1. assert (J1 : (ns - 1 - j < ns)%nat) by lia.
    assert (LG : length (tab K g) = (2 * n * (nc * ns))%nat) by (rewrite tab_length; assumption).
    destruct (net_circulation_spec nc ns (2 * n) te le (tab K g) g0 i j FG LG G0 I0 J0) as (x & X1 & X2 & X3).
    destruct (net_circulation_spec nc ns (2 * n) te le (tab K g) (other n g0) i (ns - 1 - j) FG LG G1 I0 J1) as (y & Y1 & Y2 & Y3).
    destruct (tab_some _ _ _ _ X1) as [BX ->]. destruct (tab_some _ _ _ _ Y1) as [BY ->].
    assert (C0 : g (cell nc ns (other n g0) i (ns - 1 - j)) = g (cell nc ns g0 i j)).
    { rewrite <- (GS _ BX). unfold s. rewrite opposite_cell by assumption. reflexivity. }
    destruct i as [|i].
    - specialize (X2 eq_refl). specialize (Y2 eq_refl). congruence.
    - destruct (X3 i eq_refl) as (x' & X4 & X5). destruct (Y3 i eq_refl) as (y' & Y4 & Y5).
      destruct (tab_some _ _ _ _ X4) as [BX' ->]. destruct (tab_some _ _ _ _ Y4) as [BY' ->].
      assert (C1 : g (cell nc ns (other n g0) i (ns - 1 - j)) = g (cell nc ns g0 i j)).
      { rewrite <- (GS _ BX'). unfold s. rewrite opposite_cell by lia. reflexivity. }
      congruence. }
  assert (AREA : forall k, (k < K)%nat -> area panels (s k) = area panels k).
  { intros k Hk. destruct (nth_error_ex panels k Hk) as [p P]. pose proof (mirror_lattice_opposite _ _ _ _ _ _ ML P) as P'. fold s in P'.
    unfold area, get_panels_area. rewrite (nth_of_error _ _ 0 _ (map_nth_error panel_area _ _ P)), (nth_of_error _ _ 0 _ (map_nth_error panel_area _ _ P')).
    apply panel_area_mirrored. }
  assert (CR : forall u c x, scross (smirror u) (sscale c (sopp (smirror x))) = smirror (scross u (sscale c x))).
  { intros [? ? ?] c [? ? ?]. svec. vec_eq; ring. }
  assert (FO : forall a, (a < K)%nat -> pforce K rho t v V g net (s a) = smirror (pforce K rho t v V g net a)).
  { intros a A. unfold pforce. rewrite (mv_cp _ _ (MV a A)), (mv_span _ _ (MV a A)), WA, VS, NS', <- smirror_add, CR, smirror_scale by assumption. reflexivity. }
  split.
  - intros g0 i j G0 I0 J0.
    assert (KK : (cell nc ns g0 i j < K)%nat) by (rewrite LP; apply cell_lt; lia).
    replace (cell nc ns (n + g0) i (ns - 1 - j)) with (s (cell nc ns g0 i j)).
    2:{ unfold s. rewrite opposite_cell by assumption. unfold other. destruct (Nat.ltb_spec g0 n); [reflexivity | lia]. }
    set (k := cell nc ns g0 i j) in *. pose proof (SL k KK) as KK'.
    assert (EI0 : in_V ic = tab K V) by (apply list_tab; assumption).
    destruct FL as [_ _ _ _ _ _ _ _ FIN F1 F2 F3 F4 F5 F6 F7 F8 F9 F10].
    constructor; [rewrite FIN, EI0 | rewrite F1 | rewrite F4 | rewrite F5 | rewrite F3 | rewrite F6 | rewrite F7 | rewrite F8 | rewrite F9 | rewrite F10]; apply image_tab; try assumption.
    + apply VS. assumption.
    + apply GS. assumption.
    + rewrite (mv_cp _ _ (MV k KK)). apply WA.
    + rewrite (mv_cp _ _ (MV k KK)), WA, VS by assumption. symmetry. apply smirror_add.
    + rewrite (mv_ctr _ _ (MV k KK)), WA, VS by assumption. symmetry. apply smirror_add.
    + apply FO. assumption.
    + unfold plift. rewrite (mv_span _ _ (MV k KK)), VS, NS', CR, smirror_scale by assumption. reflexivity.
    + unfold pdrag. rewrite (mv_cp _ _ (MV k KK)), (mv_span _ _ (MV k KK)), WA, NS', CR, smirror_scale by assumption. reflexivity.
    + rewrite FO, (mv_n _ _ (MV k KK)), smirror_dot, AREA by assumption. reflexivity.
    + rewrite FO, (mv_n _ _ (MV k KK)), smirror_dot, AREA, VS, smirror_dot by assumption. reflexivity.
  - intros p u P U. rewrite FI. pose proof (WA p) as W. replace (smirror p) with p in W by (destruct p as [x y z]; cbn [vz] in P; subst z; svec; vec_eq; ring).
    revert W. generalize (wash K t v V g p). intros [x y z] W. unfold smirror in W. cbn [vx vy vz] in W. injection W as W.
    unfold horizontal in *. unfold sadd. cbn [vx vy vz]. rewrite U. lra.
Qed.
(* sails of one set, with constant camber position each *)
Definition mirror_sail (nc ns : nat) (s : sail R) : Prop := exists head tack c chords twist camber dist mode name,
  good_sail head tack c ns nc chords twist camber dist mode /\ (forall d d', In d dist -> In d' dist -> d = d') /\
  SailGeometry head tack c ns nc chords twist name mode camber dist = Ok s.
Lemma mirror_sail_built nc ns s : mirror_sail nc ns s -> built nc ns s.
Proof. intros (h & t & c & ch & tw & ca & di & mo & na & _ & _ & E). exists h, t, c, ch, tw, na, mo, ca, di. exact E. Qed.
Lemma mirror_sail_set nc ns sails ss : (forall s, In s sails -> mirror_sail nc ns s) -> SailSet sails = Ok ss ->
  mirror_lattice nc ns (length sails) (ss_panels ss).
Proof.
  intros MS E. assert (B : forall s, In s sails -> built nc ns s) by (intros; apply mirror_sail_built; auto).
  destruct (sail_set_flags nc ns sails ss B E) as [L _]. destruct (sail_set_groups nc ns sails ss B E) as (N & E1 & _).
  assert (LAY : forall s, In s sails -> sail_layout nc ns s) by (intros; apply built_layout, B; assumption).
  split; [exact L|]. intros g i j G I J. rewrite E1.
  assert (L1 : forall a, In a (map sl_above sails ++ map sl_under sails) -> length a = (nc * ns)%nat).
  { intros b Ib. apply in_app_or in Ib. destruct Ib as [Ib|Ib]; apply in_map_iff in Ib; destruct Ib as (s & <- & Ib);
      [apply (lay_above nc ns), LAY | apply (lay_under nc ns), LAY]; assumption. }
  destruct (nth_error_ex sails g G) as [s SG]. destruct (MS s (nth_error_In _ _ SG)) as (h & t & c & ch & tw & ca & di & mo & na & GS & CD & SE).
  destruct (C17_mirror_image h t c ns nc ch tw ca di mo na GS CD) as (s' & SE' & MP). assert (s' = s) by congruence. subst s'.
  destruct (MP i (ns - 1 - j)%nat I ltac:(lia)) as (p & q & P & Q & M). replace (ns - 1 - (ns - 1 - j))%nat with j in P by lia.
  exists p. rewrite !cell_in by (assumption || lia).
  rewrite (concat_groups_nth _ (nc * ns) g (sl_above s)); [|assumption| |nia].
  2:{ rewrite nth_error_app1 by (rewrite map_length; assumption). apply map_nth_error. assumption. }
  rewrite (concat_groups_nth _ (nc * ns) (length sails + g) (sl_under s)); [|assumption| |nia].
  2:{ rewrite nth_error_app2 by (rewrite map_length; lia). rewrite map_length. replace (length sails + g - length sails)%nat with g by lia. apply map_nth_error. assumption. }
  split; [exact P|]. rewrite Q. f_equal. destruct M as (M1 & M2 & M3 & M4). destruct q as [a b cc dd]. cbn [pp1 pp2 pp3 pp4] in *. subst. reflexivity.
Qed.
Theorem C41_sail_sets : forall nc ns sails ss rho w o, (0 < nc)%nat -> (0 < ns)%nat -> (forall s, In s sails -> mirror_sail nc ns s) ->
  SailSet sails = Ok ss -> Vlm (ss_panels ss) nc ns rho w (ss_te ss) (ss_le ss) = Ok o ->
  let n := length sails in
  (forall g i j, (g < n)%nat -> (i < nc)%nat -> (j < ns)%nat ->
     mirror_solution o (cell nc ns g i j) (cell nc ns (n + g) i (ns - 1 - j))) /\
  (forall p u, vz p = 0 -> horizontal u -> horizontal (sadd u (induced o p))).
Proof.
  intros nc ns sails ss rho w o NC NS MS E V n. assert (B : forall s, In s sails -> built nc ns s) by (intros; apply mirror_sail_built; auto).
  destruct (sail_set_flags nc ns sails ss B E) as [_ FG]. destruct (sail_set_groups nc ns sails ss B E) as (N & _).
  apply (C41_mirror_solution nc ns n (ss_panels ss) rho w (ss_te ss) (ss_le ss)); try assumption. apply mirror_sail_set; assumption.
Qed.

(** ** C60 *)
Definition complete_wind (w : wind R) : Prop :=
  match w_prof w with
  | Flat => True
  | Log r rh => r <> None /\ rh <> None
  | Exp e rh wl => e <> None /\ rh <> None /\ wl <> None
  end.
Lemma complete_wind_speed w h : complete_wind w -> exists u, get_true_wind_speed_at_h w h = Ok u.
Proof.
  unfold complete_wind, get_true_wind_speed_at_h, wind_speed_at_h. destruct (w_prof w) as [|r rh|e rh wl].
  - intros _. unfold bind. eauto.
  - intros [A B]. destruct r; [|congruence]. destruct rh; [|congruence]. unfold opt_arg, bind. eauto.
  - intros (A & B & C). destruct e; [|congruence]. destruct rh; [|congruence]. destruct wl; [|congruence]. unfold opt_arg, bind. eauto.
Qed.
Theorem C60_failures : forall nc ns sails ss rho w e, (0 < nc)%nat -> (0 < ns)%nat -> (forall s, In s sails -> built nc ns s) ->
  SailSet sails = Ok ss -> complete_wind w ->
  Vlm (ss_panels ss) nc ns rho w (ss_te ss) (ss_le ss) = Raise e ->
  (e = LinAlgError /\ exists vars ic,
     calculate_vlm_variables (ss_panels ss) (ss_te ss) (-1) nc ns = Ok vars /\ InletConditions w (map pv_cp vars) = Ok ic /\
     let A := fst (calc_velocity_coefs (in_V ic) (map pv_ctr vars) (map pv_ring vars) (map pv_n vars) (ss_te ss) (-1)) in
     exists z, length z = length A /\ (exists x, In x z /\ x <> 0) /\ solves A (repeat 0 (length A)) z) \/
  (e = ValueError /\ exists a, In a (get_panels_area (ss_panels ss)) /\ a < 1 / 10 ^ 14).
Proof.
  intros nc ns sails ss rho w e NC NS B SS CW E. destruct (sail_set_flags nc ns sails ss B SS) as [LP FG]. destruct (sail_set_groups nc ns sails ss B SS) as (N & _).
  assert (LT : length (ss_te ss) = length (ss_panels ss)) by (rewrite LP; apply FG).
  destruct (vlm_vars_spec (-1) nc ns (2 * length sails) (ss_panels ss) (ss_te ss) NC NS ltac:(lia) LP (fl_te_len _ _ _ _ _ FG) (fl_te _ _ _ _ _ FG)) as (vars & CV & LV & _).
  destruct (mapM_total (fun p => get_true_wind_speed_at_h w (nabs (vz p))) (map pv_cp vars)) as [tws TW]. { intros p _. apply complete_wind_speed. assumption. }
  assert (IC : exists ic, InletConditions w (map pv_cp vars) = Ok ic). { unfold InletConditions. rewrite TW. unfold bind. eauto. }
  destruct IC as [ic IC]. pose proof (inlet_length _ _ _ IC) as LI. rewrite map_length, LV in LI.
  unfold Vlm in E. rewrite gor_R, CV in E. unfold bind at 1 in E. rewrite IC in E. unfold bind in E.
  set (panels := ss_panels ss) in *. set (te := ss_te ss) in *. set (le := ss_le ss) in *.
  set (K := length panels) in *. set (t := fun k => nth k te false). set (v := fun k => nth k vars dpv). set (V := fun k => nth k (in_V ic) szero).
  assert (ET : te = tab K t) by (apply list_tab; assumption). assert (EV : vars = tab K v) by (apply list_tab; assumption).
  assert (EI : in_V ic = tab K V) by (apply list_tab; assumption).
  set (A := fst (calc_velocity_coefs (in_V ic) (map pv_ctr vars) (map pv_ring vars) (map pv_n vars) te (-1))) in *.
  assert (EA : A = matrix K (acoef t v V)). { unfold A. rewrite EI, EV, !map_tab, ET, coefs_tab. reflexivity. }
  destruct (solve_eq A (calculate_RHS (in_V ic) (map pv_n vars))) as [gamma|e1] eqn:SE.
  - right.
    destruct (C40_flux_check (in_V ic) (map pv_ctr vars) (map pv_n vars) (map pv_ring vars) te (get_panels_area panels) gamma (snd (calc_velocity_coefs (in_V ic) (map pv_ctr vars) (map pv_ring vars) (map pv_n vars) te (-1))) K) as [NF|[NF AR]];
      try (rewrite ?map_length; assumption); try reflexivity; try exact SE.
    + exfalso. pose proof SE as SE'. rewrite EA in SE'. unfold calculate_RHS in SE'. rewrite EI, EV, map_tab, zipWith_tab in SE'.
      destruct (solve_tab _ _ _ _ SE') as (g & -> & EQ & RG).
      destruct (vlm_solve_make K ns rho panels le t v V nc te vars ic g (fun k => match net_circulation (tab K g) le ns k with Ok x => x | Raise _ => 0 end) eq_refl ET EV EI) as (o & O & _).
      { constructor.
        - intros k Hk. rewrite (EQ k Hk). destruct (V k) as [a b c], (pv_n (v k)) as [x y z]. vnum. svec. ring.
        - exact RG.
        - intros a I. unfold is_no_flux_BC_satisfied in NF. cbv zeta in NF.
          destruct (existsb _ (get_panels_area panels)) eqn:X; [discriminate|].
          destruct (Rle_lt_dec (ndec 1 14) a) as [|L]; [assumption|]. exfalso.
          assert (T : existsb (fun a => nisnan a || nltb a (ndec 1 14))%bool (get_panels_area panels) = true).
          { apply existsb_exists. exists a. split; [assumption|]. change (Rltb a (ndec 1 14) = true). apply Rltb_true. assumption. }
          rewrite T in X. discriminate.
        - intros k Hk. rewrite LP in Hk. destruct (cell_ex nc ns _ k Hk) as (g0 & i & j & G0 & I0 & J0 & ->).
          destruct (net_circulation_spec nc ns _ te le (tab K g) g0 i j FG ltac:(rewrite tab_length; assumption) G0 I0 J0) as (x & _ & X2 & X3).
          destruct i as [|i]; [rewrite (X2 eq_refl); reflexivity|]. destruct (X3 i eq_refl) as (y & _ & Y). rewrite Y. reflexivity. }
      congruence.
    + split; [|exact AR]. revert E. unfold vlm_solve. cbv zeta. rewrite gor_R.
      destruct (calc_velocity_coefs (in_V ic) (map pv_ctr vars) (map pv_ring vars) (map pv_n vars) te (-1)) as [A0 vi] eqn:CC.
      assert (HA : A0 = A) by (unfold A; rewrite ?CC; reflexivity). rewrite HA, SE. unfold bind at 1. try rewrite CC in NF. cbn [snd] in NF. destruct (calculate_app_fs _ _ gamma) as [x y]. cbn [snd] in NF. rewrite NF. unfold bind at 1. congruence.
  - left.
    assert (EE : e = e1).
    { revert E. unfold vlm_solve. cbv zeta. rewrite gor_R.
      destruct (calc_velocity_coefs (in_V ic) (map pv_ctr vars) (map pv_ring vars) (map pv_n vars) te (-1)) as [A0 vi] eqn:CC.
      assert (HA : A0 = A) by (unfold A; rewrite ?CC; reflexivity). rewrite HA, SE. unfold bind at 1. congruence. }
    subst e1. destruct (proj1 (proj2 (C39_linear_solver _ _)) _ SE) as [-> SI]. split; [reflexivity|]. exists vars, ic. split; [exact CV|]. split; [exact IC|]. apply SI.
    + rewrite EA. apply matrix_square.
    + rewrite EA. unfold matrix, calculate_RHS. rewrite zipWith_length, map_length, tab_length. lia.
Qed.
Theorem C60_complete_results : forall panels nc ns rho w te le o, length te = length panels -> Vlm panels nc ns rho w te le = Ok o ->
  let K := length panels in
  length (vl_areas o) = K /\ length (vl_normals o) = K /\ length (vl_ctr o) = K /\ length (vl_cp o) = K /\ length (vl_rings o) = K /\ length (vl_spans o) = K /\
  length (in_V (vl_inlet o)) = K /\ length (vl_gamma o) = K /\ length (vl_V_ctrl o) = K /\ length (vl_V_cp o) = K /\
  length (vl_force o) = K /\ length (vl_lift o) = K /\ length (vl_drag o) = K /\ length (vl_pressure o) = K /\ length (vl_pcoef o) = K.
Proof.
  intros panels nc ns rho w te le o LT E. destruct (Vlm_inv _ _ _ _ _ _ _ _ LT E) as (vars & ic & g & net & CV & LV & IC & LI & VS & SO & FL).
  cbv zeta. unfold vl_normals, vl_ctr, vl_cp, vl_rings, vl_spans. rewrite !map_length.
  destruct FL as [_ _ _ _ _ _ FA F0 FI F1 F2 F3 F4 F5 F6 F7 F8 F9 F10]. rewrite FA, F0, FI, F1, F3, F5, F6, F7, F8, F9, F10, !tab_length.
  unfold get_panels_area. rewrite map_length. repeat split; assumption.
Qed.

(** ** Concrete cases: the flat sail of L_Demo, one panel above and one under the water.
    Every step of the solver stage is reached. *)
Lemma vlm_solve_steps panels nc ns rho te le vars ic o : vlm_solve panels nc ns rho te le vars ic = Ok o ->
  solve_eq (fst (calc_velocity_coefs (in_V ic) (map pv_ctr vars) (map pv_ring vars) (map pv_n vars) te vlm_gor)) (calculate_RHS (in_V ic) (map pv_n vars)) = Ok (vl_gamma o) /\
  calc_force_wrapper (in_V ic) (vl_gamma o) rho (map pv_cp vars) (map pv_ring vars) ns (map pv_n vars) (map pv_span vars) te le "force_xyz" vlm_gor = Ok (vl_force o, vl_V_cp o, vl_V_ind_cp o).
Proof.
  unfold vlm_solve. cbv zeta. destruct (calc_velocity_coefs (in_V ic) (map pv_ctr vars) (map pv_ring vars) (map pv_n vars) te vlm_gor) as [A vi]. cbn [fst].
  destruct (solve_eq A _) as [gamma|]; [|discriminate]. unfold bind at 1. destruct (calculate_app_fs (in_V ic) vi gamma).
  destruct (is_no_flux_BC_satisfied _ _ _) as [b|]; [|discriminate]. unfold bind at 1. destruct (guard b _); [|discriminate]. unfold bind at 1.
  destruct (calc_force_wrapper _ _ _ _ _ _ _ _ _ _ "force_xyz" _) as [[[f u] x]|] eqn:W; [|discriminate]. unfold bind at 1.
  destruct (calc_force_wrapper _ _ _ _ _ _ _ _ _ _ "lift" _) as [[[f2 u2] x2]|]; [|discriminate]. unfold bind at 1.
  destruct (calc_force_wrapper _ _ _ _ _ _ _ _ _ _ "drag" _) as [[[f3 u3] x3]|]; [|discriminate]. unfold bind. intros E. injection E as <-. cbn [vl_gamma vl_force vl_V_cp vl_V_ind_cp].
  split; [reflexivity | exact W].
Qed.
Lemma demo_flags : flags 1 1 (2 * 1) [true; true] [false; false].
Proof.
  destruct demo_sail as (_ & s & ss & E & S & _ & E2 & E3). destruct (sail_set_flags 1 1 [s] ss) as [_ F]; [|exact S|].
  - intros s' [<-|[]]. do 9 eexists. exact E.
  - rewrite E2, E3 in F. exact F.
Qed.
Lemma demo_mirror : exists s ss, mirror_sail 1 1 s /\ SailSet [s] = Ok ss /\ ss_panels ss = demo_panels /\ ss_te ss = [true; true] /\ ss_le ss = [false; false].
Proof.
  destruct demo_sail as (G & s & ss & E & S & E1 & E2 & E3). exists s, ss. split; [|auto].
  do 9 eexists. split; [exact G|]. split; [|exact E]. intros d d' [<-|[<-|[]]] [<-|[<-|[]]]; reflexivity.
Qed.
(* the circulations of the demo are not zero *)
Lemma demo_gamma rho o : Vlm demo_panels 1 1 rho demo_wind [true; true] [false; false] = Ok o -> exists g, 0 < g /\ vl_gamma o = [g; g].
Proof.
  intros E. destruct demo_inlet as (ic & IC & EI).
  destruct (vlm_solve_make 2 1 rho demo_panels [false; false] demo_t demo_vars demo_V 1 [true; true] [demo_vars 0; demo_vars 1] ic _ _ eq_refl eq_refl eq_refl EI demo_solved) as (o' & E' & FL).
  assert (o' = o). { unfold Vlm in E. rewrite gor_R, demo_vars_ok in E. unfold bind at 1 in E. rewrite IC in E. unfold bind in E. congruence. } subst o'.
  exists (- 3 / (demo_a + demo_b)). split.
  - destruct demo_ab as [AB _]. unfold Rdiv. replace (-3 * / (demo_a + demo_b)) with (3 * / (- (demo_a + demo_b))) by (field; lra).
    apply Rmult_lt_0_compat; [lra|]. apply Rinv_0_lt_compat. lra.
  - rewrite (f_gamma _ _ _ _ _ _ _ _ _ _ _ _ _ _ FL). reflexivity.
Qed.

Example C40_case : exists panels nc ns rho w te le o, length te = length panels /\ Vlm panels nc ns rho w te le = Ok o /\ (1 < length panels)%nat /\
  exists g, 0 < g /\ vl_gamma o = [g; g].
Proof.
  destruct (demo_Vlm 1) as [o E]. exists demo_panels, 1%nat, 1%nat, 1, demo_wind, [true; true], [false; false], o.
  split; [reflexivity|]. split; [exact E|]. split; [simpl; lia|]. apply (demo_gamma 1); assumption.
Qed.
Example C40_check_case : exists V ctr normals rings te gamma, length V = 2%nat /\ length ctr = 2%nat /\ length normals = 2%nat /\ length rings = 2%nat /\ length te = 2%nat /\
  solve_eq (fst (calc_velocity_coefs V ctr rings normals te (-1))) (calculate_RHS V normals) = Ok gamma.
Proof.
  destruct (demo_Vlm 1) as [o E]. destruct demo_inlet as (ic & IC & EI). unfold Vlm in E. rewrite gor_R, demo_vars_ok in E. unfold bind at 1 in E. rewrite IC in E. unfold bind in E.
  apply vlm_solve_steps in E. destruct E as [E _]. rewrite gor_R in E. do 6 eexists. split; [|split; [|split; [|split; [|split; [|exact E]]]]]; try reflexivity. rewrite EI. reflexivity.
Qed.
Example C41_case : exists nc ns sails ss rho w o, (0 < nc)%nat /\ (0 < ns)%nat /\ sails <> [] /\ (forall s, In s sails -> mirror_sail nc ns s) /\
  SailSet sails = Ok ss /\ Vlm (ss_panels ss) nc ns rho w (ss_te ss) (ss_le ss) = Ok o.
Proof.
  destruct demo_mirror as (s & ss & M & S & E1 & E2 & E3). destruct (demo_Vlm 1) as [o E]. exists 1%nat, 1%nat, [s], ss, 1, demo_wind, o.
  rewrite E1, E2, E3. repeat split; try lia; try assumption; try discriminate. intros s' [<-|[]]. assumption.
Qed.
Example C42_case : exists panels nc ns rho w te le o, 0 < 2 /\ length te = length panels /\ Vlm panels nc ns rho w te le = Ok o /\ faster 2 w = Wind_ 90 6 8 Flat.
Proof.
  destruct (demo_Vlm 1) as [o E]. exists demo_panels, 1%nat, 1%nat, 1, demo_wind, [true; true], [false; false], o.
  split; [lra|]. split; [reflexivity|]. split; [exact E|]. unfold faster, demo_wind. cbn [w_alpha_deg w_tws w_sog w_prof]. f_equal; ring.
Qed.
Example C42_inflow_case : exists panels nc ns rho te le vars ic o, length te = length panels /\ length vars = length panels /\ length (in_V ic) = length panels /\
  vlm_solve panels nc ns rho te le vars ic = Ok o.
Proof.
  destruct demo_inlet as (ic & IC & EI). destruct (demo_Vlm 1) as [o E]. unfold Vlm in E. rewrite gor_R, demo_vars_ok in E. unfold bind at 1 in E. rewrite IC in E. unfold bind in E.
  do 9 eexists. split; [|split; [|split; [|exact E]]]; try reflexivity. rewrite EI. reflexivity.
Qed.
Example C44_case : exists V gamma rho cp rings ns normals spans te le gor r, length V = length spans /\ length cp = length spans /\ (1 < length spans)%nat /\
  calc_force_wrapper (V : list (vec R)) gamma rho cp rings ns normals spans te le "force_xyz" gor = Ok r.
Proof.
  destruct (demo_Vlm 1) as [o E]. destruct demo_inlet as (ic & IC & EI). unfold Vlm in E. rewrite gor_R, demo_vars_ok in E. unfold bind at 1 in E. rewrite IC in E. unfold bind in E.
  apply vlm_solve_steps in E. destruct E as [_ E]. do 12 eexists. split; [|split; [|split; [|exact E]]]; try reflexivity; [rewrite EI; reflexivity | simpl; lia].
Qed.
Example C44_names_case : "thrust"%string <> "lift"%string /\ "thrust"%string <> "drag"%string /\ "thrust"%string <> "force_xyz"%string.
Proof. repeat split; discriminate. Qed.
Example C45_case : nth_error (calc_pressure [V3 1 2 3; V3 0 6 0] [V3 1 0 0; V3 0 1 0] [2; 3]) 1 = Some 2 /\
  nth_error (calc_pressure_coeff [5; 2] 1 [V3 1 0 0; V3 0 2 0]) 1 = Some 1.
Proof.
  unfold calc_pressure, calc_pressure_coeff. cbn [combine zipWith nth_error fst snd]. tospec. rewrite !ndec_R. change (10 ^ 1)%Z with 10%Z. rnum. svec.
  split; f_equal; field.
Qed.
(* the same inflow (4, 3, 0) from the wind alone: 5 m/s at the angle of tangent 3/4 *)
Definition demo_angle : R := atan (3/4) * 180 / PI.
Lemma demo_rad : rad demo_angle = atan (3/4).
Proof. unfold rad, demo_angle. pose proof PI_RGT_0. field. lra. Qed.
Lemma demo_cos_sin : cos (atan (3/4)) = 4/5 /\ sin (atan (3/4)) = 3/5.
Proof.
  assert (Q : sqrt (1 + (3/4)²) = 5/4). { replace (1 + (3/4)²) with ((5/4) * (5/4)) by (unfold Rsqr; field). apply sqrt_square. lra. }
  rewrite cos_atan, sin_atan, Q. split; field.
Qed.
Lemma demo_inlet_at_rest : exists ic, InletConditions (Wind_ demo_angle 5 0 Flat) (map pv_cp [demo_vars 0; demo_vars 1]) = Ok ic /\ in_V ic = [V3 4 3 0; V3 4 3 0].
Proof.
  eexists. split; [reflexivity|]. cbn [in_V map w_tws]. destruct demo_cos_sin as [C S].
  assert (W : get_app_infs_at_h (Wind_ demo_angle 5 0 Flat) (length_to_xyz_vector (Wind_ demo_angle 5 0 Flat) 5) = V3 4 3 0).
  { unfold get_app_infs_at_h, length_to_xyz_vector, w_alpha. cbn [w_alpha_deg w_sog vx vy vz]. rewrite !(deg2rad_s demo_angle), demo_rad. rnum.
    rewrite C, S. vec_eq; field. }
  rewrite W. reflexivity.
Qed.
Example C59_case : exists deg d nc ns G panels rho al tws pr te le o, deg = 30 /\ d = V3 7 (-2) 0 /\ horizontal d /\ (0 < nc)%nat /\ (0 < ns)%nat /\ (0 < G)%nat /\
  flags nc ns G te le /\ length panels = (G * (nc * ns))%nat /\ Vlm panels nc ns rho (Wind_ al tws 0 pr) te le = Ok o.
Proof.
  destruct demo_inlet_at_rest as (ic & IC & EI).
  destruct (vlm_solve_make 2 1 1 demo_panels [false; false] demo_t demo_vars demo_V 1 [true; true] [demo_vars 0; demo_vars 1] ic _ _ eq_refl eq_refl eq_refl EI demo_solved) as (o & E & _).
  exists 30, (V3 7 (-2) 0), 1%nat, 1%nat, 2%nat, demo_panels, 1, demo_angle, 5, Flat, [true; true], [false; false], o.
  repeat (split; [first [reflexivity | lia | exact demo_flags]|]).
  unfold Vlm. rewrite gor_R, demo_vars_ok. unfold bind at 1. rewrite IC. exact E.
Qed.
Example C59_motion_case : rotation_map (turn (rad 30)).
Proof. apply turn_rotation. Qed.
Example C60_case : exists nc ns sails ss rho w o, (0 < nc)%nat /\ (0 < ns)%nat /\ (forall s, In s sails -> built nc ns s) /\ SailSet sails = Ok ss /\ complete_wind w /\
  Vlm (ss_panels ss) nc ns rho w (ss_te ss) (ss_le ss) = Ok o.
Proof.
  destruct demo_mirror as (s & ss & M & S & E1 & E2 & E3). destruct (demo_Vlm 1) as [o E]. exists 1%nat, 1%nat, [s], ss, 1, demo_wind, o.
  rewrite E1, E2, E3. repeat split; try lia; try assumption. intros s' [<-|[]]. apply mirror_sail_built. assumption.
Qed.
(* a sail of zero chord: its panels have no area and the constructor raises *)
Example C60_failure_case : exists s ss, good_sail (V3 0 0 (39/2)) (V3 0 0 (11/2)) (Csys 0 0 szero) 1 1 [0; 0] [0; 0] [0; 0] [1/2; 1/2] None /\
  SailGeometry (V3 0 0 (39/2)) (V3 0 0 (11/2)) (Csys 0 0 szero) 1 1 [0; 0] [0; 0] "demo"%string None [0; 0] [1/2; 1/2] = Ok s /\ SailSet [s] = Ok ss /\
  complete_wind demo_wind /\ exists e, Vlm (ss_panels ss) 1 1 1 demo_wind (ss_te ss) (ss_le ss) = Raise e.
Proof.
  destruct (flat_sail 0 ltac:(lra)) as (G & s & ss & E & S & E1 & E2 & E3). exists s, ss. split; [exact G|]. split; [exact E|]. split; [exact S|]. split; [exact I|].
  rewrite E1, E2, E3. destruct (Vlm (flat_panels 0) 1 1 1 demo_wind [true; true] [false; false]) as [o|e] eqn:V; [|eauto]. exfalso.
  apply Vlm_inv in V; [|reflexivity]. destruct V as (vars & ic & g & net & _ & _ & _ & _ & _ & SO & _).
  assert (A : nth_error (get_panels_area (flat_panels 0)) 0 = Some 0).
  { unfold get_panels_area, flat_panels. cbv zeta. cbn [map nth_error]. f_equal. unfold panel_area. cbv zeta. cbn [pp1 pp2 pp3 pp4]. tospec. rewrite ndec_R. change (10 ^ 1)%Z with 10%Z. rnum.
    unfold ssub. cbn [vx vy vz]. unfold scross. cbn [vx vy vz]. rewrite !(snorm_val _ _ _ 0) by lra. lra. }
  apply nth_error_In in A. apply (so_areas _ _ _ _ _ _ _ _ _ SO) in A. rewrite ndec_R in A. change (10 ^ 14)%Z with 100000000000000%Z in A. lra.
Qed.

Print Assumptions C40_no_flux.
Print Assumptions C40_flux_check.
Print Assumptions C41_mirror_solution.
Print Assumptions C41_sail_sets.
Print Assumptions C42_inflow.
Print Assumptions C42_speed.
Print Assumptions C42_density.
Print Assumptions C44_force_splits.
Print Assumptions C44_other_names.
Print Assumptions C44_vlm.
Print Assumptions C45_pressure.
Print Assumptions C45_pressure_coefficient.
Print Assumptions C45_vlm.
Print Assumptions C59_frame_independence.
Print Assumptions C59_turned.
Print Assumptions C60_failures.
Print Assumptions C60_complete_results.
