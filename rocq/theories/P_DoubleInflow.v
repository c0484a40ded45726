(** Double arithmetic, XI: the inflow at the panels of a lattice against that at the exact panels. *)

From Coq Require Import String ZArith Reals List Bool Lra Psatz Lia.
From Flocq Require Import Core BinarySingleNaN.
From Verif Require Import Num PyBase RNum Spec M_Csys M_Rotations M_Panels M_Velocity M_Solve M_Coefs M_Forces M_Winds M_Sail M_Vlm L_List L_Sail P_Double P_DoubleRun Double L_Double L_Near L_NearRot P_DoubleRot L_NearLine L_NearVel P_DoubleAccept P_DoubleForce P_DoubleSail P_DoubleLattice P_DoubleWind.
Import ListNotations.
Open Scope R_scope.

(** ** Specification *)
(** an uncertainty [g] of the height [H], relative to the height from which the profile counts *)
Definition sway (p : profile double) (H g : R) : R :=
  match p with Flat => 0 | Log _ _ => g / H | Exp _ _ (Some wl) => g / (H - val wl) | Exp _ _ None => 0 end.
(** all heights that close are of the usual size *)
Definition safe (p : profile double) (H g : R) : Prop := sway p H g <= 1 / 1000 /\ forall h, Rabs (h - H) <= g -> usual_profile p h.
(** the height at which the wind of a panel is taken: a quarter chord behind the leading edge, and the mirror image sees the wind of the sail *)
Definition wind_height (q : panel R) : R := Rabs (vz (middle q (1 / 4))).
Definition inflow_error (T G d L : R) (p : profile double) (H : R) : R :=
  2 / 100000000000000 * (2 * (T * gain_size p H) + G) + 16 * (sway p H (d + 4 / 1000000000000000 * L) * (T * gain_size p H)).

(** ** Proofs *)
Lemma ratio_d a b g : 0 < b -> Rabs (a - b) <= g -> g / b <= 1 / 1000 -> exists r, a = b * (1 + r) /\ Rabs r <= g / b /\ 0 <= g / b.
Proof.
  intros P A G. exists ((a - b) / b). split; [field; lra|]. assert (K : Rabs ((a - b) / b) <= g / b). { unfold Rdiv. rewrite Rabs_mult, Rabs_inv, (Rabs_pos_eq b) by lra. apply Rmult_le_compat_r; [left; apply Rinv_0_lt_compat, P|exact A]. }
  split; [exact K|]. eapply Rle_trans; [apply Rabs_pos|exact K].
Qed.
(** how far the speed moves with the height *)
Theorem C105_height p H g h : safe p H g -> Rabs (h - H) <= g -> Rabs (gain p h - gain p H) <= 16 * (sway p H g * gain_size p H) /\ 0 <= gain_size p H /\ gain_size p h <= 2 * gain_size p H.
Proof.
  intros [SW UP] HH. assert (PG : 0 <= g) by (eapply Rle_trans; [apply Rabs_pos|exact HH]). pose proof (UP h HH) as U1. pose proof (UP H ltac:(rewrite Rminus_eq_0, Rabs_R0; exact PG)) as U2. clear UP. destruct p as [|r rh|y rh wl]; cbn [sway gain gain_size usual_profile] in *.
  - rewrite Rminus_eq_0, Rabs_R0. lra.
  - destruct r as [r|], rh as [rh|]; try contradiction. destruct U1 as (_ & _ & BH & BR & BRH). destruct U2 as (_ & _ & BH2 & _). destruct (ratio_d h H g ltac:(lra) HH SW) as (d & E & BD & PD). pose proof (abs_2 _ _ BD) as BD2.
    assert (LO : 1 / 2 <= ln (val rh / val r)). { pose proof (quot_between 2 1000000 (val rh) (val r) ltac:(lra) ltac:(lra)) as [Q _]. pose proof ln_lt_2. destruct Q as [Q|Q]; [pose proof (ln_increasing 2 _ ltac:(lra) Q); lra|rewrite <- Q; lra]. }
    assert (PQ : 0 < H / val r) by (unfold Rdiv; apply Rmult_lt_0_compat; [lra|apply Rinv_0_lt_compat; lra]).
    assert (EQ : ln (h / val r) = ln (H / val r) + ln (1 + d)) by (rewrite E; replace (H * (1 + d) / val r) with (H / val r * (1 + d)) by (field; lra); apply ln_mult; lra).
    rewrite EQ. pose proof (ln_1d d ltac:(lra)) as LD. set (A := ln (H / val r)). set (B := ln (val rh / val r)) in *. set (s := g / H) in *. clearbody A B s. split; [|lra]. replace ((A + ln (1 + d)) / B - A / B) with (ln (1 + d) * / B) by (field; lra). rewrite Rabs_mult, Rabs_inv, (Rabs_pos_eq B) by lra.
    assert (IB : / B <= 2) by (apply Rmult_le_reg_r with B; [lra|]; rewrite Rinv_l by lra; lra). pose proof (Rinv_0_lt_compat B ltac:(lra)). assert (Rabs (ln (1 + d)) * / B <= (2 * s) * 2) by (apply Rmult_le_compat; try apply Rabs_pos; lra). lra.
  - destruct y as [y|], rh as [rh|], wl as [wl|]; try contradiction. cbn [sway gain gain_size] in *. destruct U1 as (_ & _ & _ & BH & BRH & BY). destruct U2 as (_ & _ & _ & BH2 & _).
    destruct (ratio_d (h - val wl) (H - val wl) g ltac:(lra) ltac:(replace (h - val wl - (H - val wl)) with (h - H) by ring; exact HH) SW) as (d & E & BD & PD). pose proof (abs_2 _ _ BD) as BD2. rewrite E.
    assert (PQ : 0 < (H - val wl) / val rh) by (unfold Rdiv; apply Rmult_lt_0_compat; [lra|apply Rinv_0_lt_compat; lra]).
    assert (EQ : Rpower ((H - val wl) * (1 + d) / val rh) (val y) = Rpower ((H - val wl) / val rh) (val y) * exp (val y * ln (1 + d))) by (unfold Rpower; replace ((H - val wl) * (1 + d) / val rh) with ((H - val wl) / val rh * (1 + d)) by (field; lra); rewrite ln_mult by lra; rewrite Rmult_plus_distr_l; apply exp_plus).
    rewrite EQ. pose proof (ln_1d d ltac:(lra)) as LD. set (s := g / (H - val wl)) in *. clearbody s. assert (TT : Rabs (val y * ln (1 + d)) <= 4 * (2 * s)) by (rewrite Rabs_mult; apply Rmult_le_compat; try apply Rabs_pos; lra). pose proof (exp_1t (val y * ln (1 + d)) ltac:(lra)) as ET. set (t := exp (val y * ln (1 + d))) in *.
    assert (P : 0 < Rpower ((H - val wl) / val rh) (val y)) by (unfold Rpower; apply exp_pos). set (P' := Rpower ((H - val wl) / val rh) (val y)) in *. clearbody t P'. assert (ET2 : Rabs (t - 1) <= 16 * s) by lra. pose proof (abs_2 _ _ ET2). split; [|split; [lra|]].
    + replace (P' * t - P') with (P' * (t - 1)) by ring. rewrite Rabs_mult, (Rabs_pos_eq P') by lra. replace (16 * (s * P')) with (P' * (16 * s)) by ring. apply Rmult_le_compat_l; lra.
    + replace (2 * P') with (P' * 2) by ring. apply Rmult_le_compat_l; lra.
Qed.
Lemma off_z g p q : off g p q -> fin (vz p) /\ Rabs (Rabs (val (vz p)) - Rabs (vz q)) <= g.
Proof.
  intros O. destruct (proj1 (off_norm _ _ _) O) as [(_ & _ & F) N]. split; [exact F|]. eapply Rle_trans; [apply Rabs_triang_inv2|]. eapply Rle_trans; [|exact N]. unfold snorm, ssub, vvals. cbn [vx vy vz]. rewrite <- sqrt_Rsqr_abs. apply sqrt_le_1_alt. unfold Rsqr. pose proof (Rle_0_sqr (val (vx p) - vx q)). pose proof (Rle_0_sqr (val (vy p) - vy q)). unfold Rsqr in *. lra.
Qed.
Lemma exact_moved T G w h H D : usual_wind T G w -> Rabs (gain (w_prof w) h - gain (w_prof w) H) <= D ->
  Rabs (vx (exact_apparent w h) - vx (exact_apparent w H)) <= T * D /\ Rabs (vy (exact_apparent w h) - vy (exact_apparent w H)) <= T * D /\ Rabs (vz (exact_apparent w h) - vz (exact_apparent w H)) <= T * D.
Proof.
  intros [BT _ _ [_ TT] _] DD. assert (PD : 0 <= D) by (eapply Rle_trans; [apply Rabs_pos|exact DD]). assert (K : forall c, -1 <= c <= 1 -> Rabs (val (w_tws w) * gain (w_prof w) h * c - val (w_tws w) * gain (w_prof w) H * c) <= T * D).
  { intros c C. replace (val (w_tws w) * gain (w_prof w) h * c - val (w_tws w) * gain (w_prof w) H * c) with (val (w_tws w) * (gain (w_prof w) h - gain (w_prof w) H) * c) by ring. rewrite !Rabs_mult. assert (Rabs c <= 1) by (apply Rabs_le; exact C).
    assert (Rabs (val (w_tws w)) * Rabs (gain (w_prof w) h - gain (w_prof w) H) <= T * D) by (apply Rmult_le_compat; try apply Rabs_pos; assumption). rewrite <- (Rmult_1_r (T * D)). apply Rmult_le_compat; try apply Rabs_pos; try assumption. rewrite <- Rabs_mult. apply Rabs_pos. }
  unfold exact_apparent, exact_true, sadd. cbn [vx vy vz]. rewrite !Rplus_0_r. split; [|split].
  - match goal with |- Rabs (?a + ?b - (?c + ?b)) <= _ => replace (a + b - (c + b)) with (a - c) by ring end. apply K, COS_bound.
  - apply K, SIN_bound.
  - rewrite Rminus_eq_0, Rabs_R0. apply Rmult_le_pos; lra.
Qed.
Section Inflow.
Context (e : elementary) (AC : accurate e) (AL : accurate_ln e) (AP : accurate_pow e) (T G : R) (w : wind double) (US : usual_wind T G w).
Notation D := (Double e).
Lemma app_within (h : double) H g : fin h -> Rabs (val h - H) <= g -> safe (w_prof w) H g -> exists t, @get_true_wind_speed_at_h _ D w h = Ok t /\
  within (2 / 100000000000000 * (2 * (T * gain_size (w_prof w) H) + G) + 16 * (sway (w_prof w) H g * (T * gain_size (w_prof w) H))) (@get_app_infs_at_h _ D w t) (exact_apparent w H).
Proof.
  intros F HH SF. destruct (C105_height (w_prof w) H g (val h) SF HH) as (GA & PG & GS). destruct (C104_apparent e AL AP T G w US AC h F (proj2 SF _ HH)) as (t & E & _ & (FV & X & Y & Z)). exists t. split; [exact E|]. split; [exact FV|].
  destruct (exact_moved T G w (val h) H _ US GA) as (MX & MY & MZ). destruct US as [BT _ _ _ _]. set (S := gain_size (w_prof w) H) in *. set (S' := gain_size (w_prof w) (val h)) in *. set (s := sway (w_prof w) H g) in *. clearbody S S' s.
  assert (TS : T * S' <= 2 * (T * S)) by (replace (2 * (T * S)) with (T * (2 * S)) by ring; apply Rmult_le_compat_l; lra). replace (T * (16 * (s * S))) with (16 * (s * (T * S))) in * by ring.
  assert (TR : forall a b c x y, Rabs (a - b) <= x -> Rabs (b - c) <= y -> Rabs (a - c) <= x + y) by (intros a b c x y A B; replace (a - c) with ((a - b) + (b - c)) by ring; eapply Rle_trans; [apply Rabs_triang|lra]).
  split; [|split]; (eapply Rle_trans; [eapply TR; eassumption|]); lra.
Qed.
(** the wind at the panels of a lattice *)
Theorem C105_inflow L d panels qs te nc ns vars : 1 / 100 <= L <= 1000 -> 0 <= d <= L / 100 -> length te = length panels ->
  @calculate_vlm_variables _ D panels te (@vlm_gor _ D) nc ns = Ok vars -> Forall2 (panel_off d) panels qs -> Forall (panel_size L) qs ->
  Forall (fun q => safe (w_prof w) (wind_height q) (d + 4 / 1000000000000000 * L)) qs ->
  exists ic, @InletConditions _ D w (map pv_cp vars) = Ok ic /\ Forall2 (fun v q => within (inflow_error T G d L (w_prof w) (wind_height q)) v (exact_apparent w (wind_height q))) (in_V ic) qs.
Proof.
  intros HL Hd LT EV OF SZ SF. destruct (C102_lattice e L d panels qs te nc ns vars HL Hd LT EV OF SZ) as [LV LA]. pose proof (Forall2_len _ _ _ OF) as LQ.
  assert (CP : Forall2 (fun v q => off (d + 4 / 1000000000000000 * L) (pv_cp v) (middle q (1 / 4))) vars qs).
  { apply Forall2_of_nth; [exact LV|]. intros i v q IV IQ. destruct (nth_error_ex te i) as [t IT]; [rewrite LT, LQ, <- LV; exact (nth_error_Some_lt _ _ _ IV)|]. apply (LA i v q t IV IQ IT). }
  clear LA LV EV OF SZ LQ LT. unfold InletConditions.
  assert (K : exists ts, mapM (fun p => @get_true_wind_speed_at_h _ D w (@nabs _ D (vz p))) (map pv_cp vars) = Ok ts /\ Forall2 (fun v q => within (inflow_error T G d L (w_prof w) (wind_height q)) v (exact_apparent w (wind_height q))) (map (@get_app_infs_at_h _ D w) ts) qs).
  { induction CP as [|v q vars qs O CP IH]; [exists []; split; [reflexivity|constructor]|]. destruct (IH (Forall_inv_tail SF)) as (ts & E & I). destruct (off_z _ _ _ O) as [FZ BZ].
    assert (FA : fin (@nabs _ D (vz (pv_cp v)))) by (cbn [nabs Double]; rewrite is_finite_Babs; exact FZ). assert (VA : val (@nabs _ D (vz (pv_cp v))) = Rabs (val (vz (pv_cp v)))) by (cbn [nabs Double]; apply B2R_Babs).
    destruct (app_within (@nabs _ D (vz (pv_cp v))) (wind_height q) (d + 4 / 1000000000000000 * L) FA ltac:(rewrite VA; exact BZ) (Forall_inv SF)) as (t & ET & W). exists (t :: ts). cbn [map mapM]. rewrite ET. cbn [bind]. rewrite E. cbn [bind map]. split; [reflexivity|]. constructor; [exact W|exact I]. }
  destruct K as (ts & E & I). rewrite E. cbn [bind]. eexists. split; [reflexivity|exact I].
Qed.
(** an accepted run *)
Theorem C105_run L d panels qs te le nc ns rho o : 1 / 100 <= L <= 1000 -> 0 <= d <= L / 100 -> length te = length panels ->
  @Vlm _ D panels nc ns rho w te le = Ok o -> Forall2 (panel_off d) panels qs -> Forall (panel_size L) qs ->
  Forall (fun q => safe (w_prof w) (wind_height q) (d + 4 / 1000000000000000 * L)) qs ->
  Forall2 (fun v q => within (inflow_error T G d L (w_prof w) (wind_height q)) v (exact_apparent w (wind_height q))) (in_V (vl_inlet o)) qs.
Proof.
  intros HL Hd LT E OF SZ SF. assert (K : exists vars ic, @calculate_vlm_variables _ D panels te (@vlm_gor _ D) nc ns = Ok vars /\ @InletConditions _ D w (map pv_cp vars) = Ok ic /\ vl_inlet o = ic).
  { unfold Vlm in E. apply bind_Ok in E. destruct E as (vars & EV & E). apply bind_Ok in E. destruct E as (ic & EI & E). exists vars, ic. split; [exact EV|]. split; [exact EI|]. unfold vlm_solve in E. cbv zeta in E.
    destruct (calc_velocity_coefs _ _ _ _ _ _) as [coeff vind]. apply bind_Ok in E. destruct E as (gamma & _ & E). destruct (calculate_app_fs _ _ _) as [va vb]. apply bind_Ok in E. destruct E as (ok & _ & E). apply bind_Ok in E. destruct E as (gd & _ & E).
    apply bind_Ok in E. destruct E as (fo & _ & E). destruct fo as [[f1 f2] f3]. apply bind_Ok in E. destruct E as (li & _ & E). destruct li as [[l1 l2] l3]. apply bind_Ok in E. destruct E as (dr & _ & E). destruct dr as [[d1 d2] d3].
    assert (HO : forall A (x y : A), Ok x = Ok y -> x = y) by (intros A x y [= Q]; exact Q). apply HO in E. subst o. reflexivity. }
  destruct K as (vars & ic & EV & EI & ->). destruct (C105_inflow L d panels qs te nc ns vars HL Hd LT EV OF SZ SF) as (ic' & EI' & I). rewrite EI in EI'. assert (HO : forall A (x y : A), Ok x = Ok y -> x = y) by (intros A x y [= Q]; exact Q). apply HO in EI'. subst ic'. exact I.
Qed.
End Inflow.

(** ** Case: a panel 1 m to 3 m above the water and its mirror image, in the winds of C104 *)
Definition upright : list (panel R) := map pvals mirrored.
Lemma upright_off : Forall2 (panel_off 0) mirrored upright.
Proof.
  assert (K : forall a b c, (Z.abs a <= 1000)%Z -> (Z.abs b <= 1000)%Z -> (Z.abs c <= 1000)%Z -> off 0 (V3 (dZ a) (dZ b) (dZ c)) (vvals (V3 (dZ a) (dZ b) (dZ c)))).
  { intros a b c A B C. destruct (dv_val a b c A B C) as [F _]. apply off_norm. split; [exact F|]. replace (ssub (vvals (V3 (dZ a) (dZ b) (dZ c))) (vvals (V3 (dZ a) (dZ b) (dZ c)))) with szero by (unfold ssub, szero; f_equal; ring). unfold snorm, szero. cbn [vx vy vz]. replace (0 ^ 2 + 0 ^ 2 + 0 ^ 2) with 0 by ring. rewrite sqrt_0. lra. }
  unfold upright, mirrored. cbn [map]. constructor; [|constructor; [|constructor]]; unfold panel_off, pvals, tilted; cbn [pp1 pp2 pp3 pp4]; (split; [|split; [|split]]; apply K; lia).
Qed.
Lemma upright_size : Forall (panel_size 10) upright.
Proof.
  unfold upright, mirrored. cbn [map]. constructor; [|constructor; [|constructor]]; unfold panel_size, pvals, tilted, vvals; cbn [pp1 pp2 pp3 pp4 vx vy vz]; rewrite !dZ_val, ?plus_IZR by lia; (split; [|split; [|split]]; apply size_10; lra).
Qed.
Lemma height_of q a b : vz (pp1 q) = a -> vz (pp2 q) = a -> vz (pp3 q) = b -> vz (pp4 q) = b -> wind_height q = Rabs ((a + b) / 2).
Proof. intros A1 A2 B1 B2. unfold wind_height, middle, slerp, sadd, sscale, ssub. cbn [vx vy vz]. rewrite A1, A2, B1, B2. f_equal. field. Qed.
Lemma upright_height : Forall (fun q => wind_height q = 2) upright.
Proof.
  assert (K : forall x0 y0 y1 z0, (Z.abs z0 <= 900)%Z -> wind_height (pvals (tilted x0 y0 y1 z0)) = Rabs (IZR z0 + 1)).
  { intros x0 y0 y1 z0 Z. rewrite (height_of _ (IZR z0) (IZR (z0 + 2))); [rewrite plus_IZR; f_equal; field|apply dZ_val; lia|apply dZ_val; lia|apply dZ_val; lia|apply dZ_val; lia]. }
  change upright with [pvals (tilted 0 (-5) (-1) 1); pvals (tilted 0 (-5) (-1) (-3))]. apply Forall_cons; [|apply Forall_cons; [|apply Forall_nil]]; (rewrite K by lia); [rewrite Rabs_pos_eq|rewrite Rabs_left]; lra.
Qed.
Example C105_case : let power := Exp (Some eighth) (Some (dZ 10)) (Some (dZ (-1))) in let log := Log (Some (dZ 1)) (Some (dZ 10)) in
  accurate ideal_wind /\ accurate_ln ideal_wind /\ accurate_pow ideal_wind /\ Forall2 (panel_off 0) mirrored upright /\ Forall (panel_size 10) upright /\
  forall p, p = power \/ p = log -> usual_wind 10 5 (case_wind p) /\ Forall (fun q => safe p (wind_height q) (0 + 4 / 1000000000000000 * 10)) upright /\
    exists vars ic, @calculate_vlm_variables _ (Double ideal_wind) mirrored [true; true] (@vlm_gor _ (Double ideal_wind)) 1 1 = Ok vars /\ @InletConditions _ (Double ideal_wind) (case_wind p) (map pv_cp vars) = Ok ic /\
      (p = log -> Forall2 (fun v q => within (2 / 10000000000) v (exact_apparent (case_wind p) 2)) (in_V ic) upright).
Proof.
  intros power log. split; [exact ideal_wind_accurate|]. split; [exact ideal_ln|]. split; [exact ideal_pow|]. split; [exact upright_off|]. split; [exact upright_size|]. intros p P.
  destruct C104_case as (_ & _ & _ & W). destruct (W p P) as (UW & _ & _). split; [exact UW|].
  assert (DI : forall z, (Z.abs z <= 1000)%Z -> fin (dZ z) /\ val (dZ z) = IZR z) by (intros z Z; exact (dint ideal_wind z ltac:(lia))).
  destruct (DI 10%Z ltac:(lia)) as [F10 V10]. destruct (DI 1%Z ltac:(lia)) as [F1 V1]. destruct (DI (-1)%Z ltac:(lia)) as [Fm Vm]. destruct eighth_ok as [FE BE].
  assert (SF : Forall (fun q => safe p (wind_height q) (0 + 4 / 1000000000000000 * 10)) upright).
  { apply Forall_impl with (2 := upright_height). intros q ->. destruct P as [-> | ->]; unfold power, log, safe, sway, usual_profile; rewrite ?V10, ?V1, ?Vm; (split; [lra|]); intros h HH; apply abs_2 in HH; repeat (split; [assumption|]); repeat split; try lra; exact BE. }
  split; [exact SF|]. assert (EV : forall e, match @calculate_vlm_variables _ (Double e) mirrored [true; true] (@vlm_gor _ (Double e)) 1 1 with Ok _ => true | Raise _ => false end = true) by (intros e; vm_compute; reflexivity).
  specialize (EV ideal_wind). destruct (calculate_vlm_variables _ _ _ _ _) as [vars|] eqn:E; [|discriminate EV]. clear EV.
  destruct (C105_inflow ideal_wind ideal_wind_accurate ideal_ln ideal_pow 10 5 (case_wind p) UW 10 0 mirrored upright [true; true] 1 1 vars ltac:(lra) ltac:(lra) eq_refl E upright_off upright_size SF) as (ic & EI & I).
  exists vars, ic. split; [reflexivity|]. split; [exact EI|]. intros ->. pose proof upright_height as UH. clear - I UH. revert UH. induction I as [|v q vs qs X I IH]; intros UH; constructor; [|apply IH; exact (Forall_inv_tail UH)].
  pose proof (Forall_inv UH) as Q. cbv beta in Q. rewrite Q in X. destruct X as (F & X1 & X2 & X3). split; [exact F|].
  assert (B : inflow_error 10 5 0 10 (w_prof (case_wind log)) 2 <= 2 / 10000000000) by (unfold inflow_error, case_wind, log, gain_size, sway; cbn [w_prof]; lra). split; [|split]; lra.
Qed.

Print Assumptions C105_height.
Print Assumptions C105_inflow.
Print Assumptions C105_run.
