(** The three-dimensional picture (panels_plotter.py): C75 (colours), C76 (water, axes, the whole figure). *)

From Coq Require Import String ZArith Reals List Bool Lra Psatz Lia Arith.
From Verif Require Import Num PyBase RNum Spec M_Csys M_Panels M_Airfoil M_Mesher M_Coefs M_Forces M_Winds M_Vlm M_Interp M_Sail M_Results M_Hull M_Runner M_Plots
  L_List L_Rot L_Vel L_Csys L_Airfoil L_Mesh L_Sail L_Sail2 L_Lattice L_Vlm L_Vlm2 L_Results L_Demo L_DemoForce P_Rot P_Airfoil P_Sail P_Lattice P_Vlm P_Winds P_Results L_Runner P_Runner P_Run P_Plots L_Scene.
Import ListNotations.
Open Scope R_scope.

(** The mid points of the leading and the trailing edge of a panel. *)
Definition edge_middles (p : panel R) : list (vec R) := [mid (pp2 p) (pp3 p); mid (pp1 p) (pp4 p)].
(** [m] is the largest distance of such a point from the water. *)
Definition tallest (panels : list (panel R)) (m : R) : Prop :=
  (forall p e, In p panels -> In e (edge_middles p) -> Rabs (vz e) <= m) /\
  (exists p e, In p panels /\ In e (edge_middles p) /\ Rabs (vz e) = m).

(** not every edge of the sails has its middle on the water *)
Definition visible (panels : list (panel R)) : Prop := exists p e, In p panels /\ In e (edge_middles p) /\ vz e <> 0.
Lemma tallest_unique panels m m' : tallest panels m -> tallest panels m' -> m' = m.
Proof. intros [B (p & e & P & I & Q)] [B' (p' & e' & P' & I' & Q')]. apply Rle_antisym; [rewrite <- Q'; exact (B p' e' P' I') | rewrite <- Q; exact (B' p e P I)]. Qed.
Lemma panel_vars_mid gor p A D : pv_lead (panel_vars gor p A D) = mid (pp2 p) (pp3 p) /\ pv_trail (panel_vars gor p A D) = mid (pp1 p) (pp4 p).
Proof. unfold panel_vars, mid, slerp. cbv zeta. cbn [pv_lead pv_trail]. destruct p as [[a b c] [d e f] [g h i] [j k l]]. cbn [pp1 pp2 pp3 pp4]. vnum. svec. split; vec_eq; field. Qed.

Lemma tallest_water panels vars : panels <> [] -> length vars = length panels ->
  (forall k p v, nth_error panels k = Some p -> nth_error vars k = Some v -> pv_lead v = mid (pp2 p) (pp3 p) /\ pv_trail v = mid (pp1 p) (pp4 p)) ->
  exists m, tallest panels m /\ 0 <= m /\ water_size (map pv_lead vars) (map pv_trail vars) = Ok (rtrunc (11/10 * IZR (rceil m))).
Proof.
  intros NE LV ML. unfold water_size. rewrite !map_map.
  assert (NV : vars <> []) by (intros ->; destruct panels; [congruence|discriminate]).
  assert (FW : forall v, In v vars -> exists p, In p panels /\ pv_lead v = mid (pp2 p) (pp3 p) /\ pv_trail v = mid (pp1 p) (pp4 p)).
  { intros v I. apply In_nth_error in I. destruct I as [k I]. destruct (nth_error_ex panels k) as [p P]; [rewrite <- LV; eapply nth_error_Some_lt; eauto|].
    exists p. split; [eapply nth_error_In; eauto|]. eapply ML; eauto. }
  assert (BW : forall p, In p panels -> exists v, In v vars /\ pv_lead v = mid (pp2 p) (pp3 p) /\ pv_trail v = mid (pp1 p) (pp4 p)).
  { intros v I. apply In_nth_error in I. destruct I as [k I]. destruct (nth_error_ex vars k) as [p P]; [rewrite LV; eapply nth_error_Some_lt; eauto|].
    exists p. split; [eapply nth_error_In; eauto|]. eapply ML; eauto. }
  destruct (py_max_spec (map (fun x => nabs (vz (pv_lead x))) vars)) as (a & EA & IA & MA). { destruct vars; [congruence|discriminate]. }
  destruct (py_max_spec (map (fun x => nabs (vz (pv_trail x))) vars)) as (b & EB & IB & MB). { destruct vars; [congruence|discriminate]. }
  destruct (py_max_spec [a; b]) as (m & EM & IM & MM). { discriminate. }
  rewrite EA. cbn [bind]. rewrite EB. cbn [bind]. rewrite EM. cbn [bind]. apply in_map_iff in IA, IB. destruct IA as (va & <- & VA), IB as (vb & <- & VB).
  change (@nabs R RNum) with Rabs in *.
  exists m. split; [split|split].
  - intros p e P E. destruct (BW p P) as (v & V & L1 & L2). destruct E as [<-|[<-|[]]].
    + rewrite <- L1. eapply Rle_trans; [apply MA, in_map_iff; exists v; split; [reflexivity|exact V] | apply MM; simpl; auto].
    + rewrite <- L2. eapply Rle_trans; [apply MB, in_map_iff; exists v; split; [reflexivity|exact V] | apply MM; simpl; auto].
  - destruct IM as [<-|[<-|[]]].
    + destruct (FW va VA) as (p & P & L1 & L2). exists p, (mid (pp2 p) (pp3 p)). rewrite L1. simpl. auto.
    + destruct (FW vb VB) as (p & P & L1 & L2). exists p, (mid (pp1 p) (pp4 p)). rewrite L2. simpl. auto.
  - destruct IM as [<-|[<-|[]]]; apply Rabs_pos.
  - rewrite ndec_R. change (10 ^ 1)%Z with 10%Z. reflexivity.
Qed.

Lemma Ok_inj {A} (a b : A) : Ok a = Ok b -> a = b.
Proof. intros E. injection E. auto. Qed.
Lemma Rabs_le_inv a b : Rabs a <= b -> - b <= a <= b.
Proof. unfold Rabs. destruct (Rcase_abs a); lra. Qed.
Lemma water_bounds m : 0 < m -> let n := rceil m in let w := rtrunc (11/10 * IZR n) in
  (0 < n)%Z /\ (n <= w)%Z /\ IZR w <= 11/10 * IZR n < IZR w + 1.
Proof.
  intros M n w. destruct (rceil_spec m) as [N1 N2]. fold n in N1, N2. assert (N : (0 < n)%Z) by (apply lt_IZR; lra). assert (N' : 1 <= IZR n) by (apply IZR_le; lia).
  destruct (rtrunc_spec (11/10 * IZR n)) as [W1 W2]; [lra|]. fold w in W1, W2. split; [exact N|]. split; [|lra].
  assert (IZR n < IZR w + 1) by lra. rewrite <- plus_IZR in H. apply lt_IZR in H. lia.
Qed.

(** *** the colours *)
Lemma colour_scale_spec (data : list R) lo hi : In lo data -> In hi data -> (forall x, In x data -> lo <= x <= hi) ->
  forall x, In x data -> 0 <= colour_scale lo hi x <= 1 /\ (lo < hi -> colour_scale lo hi x = (x - lo) / (hi - lo)) /\ (lo = hi -> colour_scale lo hi x = 0).
Proof.
  intros I1 I2 B x X. pose proof (B x X) as [B1 B2]. unfold colour_scale. rnum. destruct (Reqb lo hi) eqn:E.
  - apply Reqb_true in E. split; [lra|]. split; [lra|reflexivity].
  - apply Reqb_false in E. assert (lo < hi) by lra. split; [|split; [reflexivity|lra]].
    assert (0 < / (hi - lo)) by (apply Rinv_0_lt_compat; lra). unfold Rdiv. split; [apply Rmult_le_pos; lra|].
    replace 1 with ((hi - lo) * / (hi - lo)) by (apply Rinv_r; lra). apply Rmult_le_compat_r; lra.
Qed.

(** the place of [x] between the smallest and the largest of [data], as a fraction *)
Definition scale_of (data : list R) (x t : R) : Prop :=
  exists lo hi, In lo data /\ In hi data /\ (forall y, In y data -> lo <= y <= hi) /\
    (lo < hi -> t = (x - lo) / (hi - lo)) /\ (lo = hi -> t = 0).

Lemma coloured (panels : list (panel R)) (data : list R) : data <> [] -> length data = length panels ->
  exists lo hi, py_min data = Ok lo /\ py_max data = Ok hi /\ In lo data /\ In hi data /\ (forall y, In y data -> lo <= y <= hi) /\
    let l := zipWith (fun p d => (p, Some (colour_scale lo hi d))) panels data in length l = length panels /\
    forall k p x, nth_error panels k = Some p -> nth_error data k = Some x -> exists t, nth_error l k = Some (p, Some t) /\ scale_of data x t /\ 0 <= t <= 1.
Proof.
  intros N L. destruct (py_min_spec data N) as (lo & E1 & I1 & B1). destruct (py_max_spec data N) as (hi & E2 & I2 & B2). exists lo, hi.
  assert (B : forall y, In y data -> lo <= y <= hi) by auto. repeat (split; [assumption|]). cbv zeta. split; [rewrite zipWith_length; lia|].
  intros k p x P X. exists (colour_scale lo hi x). split; [erewrite nth_error_zipWith by eassumption; reflexivity|].
  destruct (colour_scale_spec data lo hi I1 I2 B x (nth_error_In _ _ X)) as (C1 & C2 & C3). split; [|exact C1]. exists lo, hi. auto.
Qed.

(** ** The figure of a run *)
Lemma run_figure spline cd sv r main jib ref clr rr : (0 < sv_ns sv)%nat -> (0 < sv_nc sv)%nat -> run spline cd sv r main jib ref clr = Ok rr ->
  exists m lo hi, tallest (ss_panels (rr_set rr)) m /\ 0 <= m /\ vl_panels (rr_vlm rr) = ss_panels (rr_set rr) /\ length (vl_pcoef (rr_vlm rr)) = length (ss_panels (rr_set rr)) /\ ss_panels (rr_set rr) <> [] /\
    py_min (vl_pcoef (rr_vlm rr)) = Ok lo /\ py_max (vl_pcoef (rr_vlm rr)) = Ok hi /\
    let w := rtrunc (11/10 * IZR (rceil m)) in
    display_panels_xyz (rr_vlm rr) "p_coeffs" = (do a <- set_ax_eq (water_surface w);
       Ok (Picture (zipWith (fun p d => (p, Some (colour_scale lo hi d))) (vl_panels (rr_vlm rr)) (vl_pcoef (rr_vlm rr))) (Some (lo, hi)) w (water_surface w) a)) /\
    (forall pic, display_panels_xyz (rr_vlm rr) "p_coeffs" = Ok pic -> pi_water pic = w /\ exists arrows, cli_winds (IZR w) sv rr = Ok arrows /\
       cli_display rr = Ok (Figure (String.append "VLM mode: Panels colored by coefficient of pressure " (String.append newline
          (String.append "Winds: True (green), Apparent (blue) " (String.append newline "Centre of Effort & Center of Lateral Resistance (black)"))))
          pic (display_hull (rr_hull rr)) arrows (cli_CE_CLR rr))).
Proof.
  intros NS NC E. destruct (run_inv _ _ _ _ _ _ _ _ _ E) as (w0 & EW & _ & EG & EH & EV & EF).
  destruct (get_sail_set_inv _ _ _ _ _ _ _ EG) as (sails & SS & ES & I & NM & B).
  destruct (sail_set_flags _ _ sails _ B SS) as [LP FG]. assert (NE : (0 < length sails)%nat) by (destruct sails; [discriminate | simpl; lia]).
  assert (LT : length (ss_te (rr_set rr)) = length (ss_panels (rr_set rr))) by (rewrite LP; apply FG).
  destruct (Vlm_inv _ _ _ _ _ _ _ _ LT EV) as (vars & ic' & g0 & net & CV & LV & IC & LI & VS & SO & FL).
  destruct (C60_complete_results _ _ _ _ _ _ _ _ LT EV) as (_ & _ & _ & _ & _ & _ & _ & _ & _ & _ & _ & _ & _ & _ & LC).
  assert (VV : vl_vars (rr_vlm rr) = vars). { rewrite (f_vars _ _ _ _ _ _ _ _ _ _ _ _ _ _ FL). symmetry. apply list_tab. assumption. }
  assert (VP : vl_panels (rr_vlm rr) = ss_panels (rr_set rr)) by apply (f_panels _ _ _ _ _ _ _ _ _ _ _ _ _ _ FL).
  assert (NP : ss_panels (rr_set rr) <> []). { intros X. rewrite X in LP. simpl in LP. nia. }
  destruct (tallest_water (ss_panels (rr_set rr)) vars NP LV) as (m & T & M0 & WS).
  { destruct (vlm_vars_spec (-1) (sv_nc sv) (sv_ns sv) (2 * length sails) (ss_panels (rr_set rr)) (ss_te (rr_set rr))) as (vars' & V & _ & SP); try assumption; try lia; try apply FG.
    rewrite CV in V. injection V as <-. intros k p v P Q.
    pose proof (nth_error_Some_lt _ _ _ P) as K. rewrite LP in K. destruct (cell_ex _ _ _ k K) as (g & i & j & G1 & I1 & J1 & ->).
    destruct (SP g i j p G1 I1 J1 P) as (A & D & X & _). rewrite Q in X. injection X as ->. apply panel_vars_mid. }
  destruct (coloured (ss_panels (rr_set rr)) (vl_pcoef (rr_vlm rr))) as (lo & hi & E1 & E2 & _). { intros X. rewrite X in LC. destruct (ss_panels (rr_set rr)); [congruence|discriminate]. } { exact LC. }
  exists m, lo, hi. repeat (split; [assumption|]). intros w.
  assert (DP : display_panels_xyz (rr_vlm rr) "p_coeffs" = (do a <- set_ax_eq (water_surface w);
       Ok (Picture (zipWith (fun p d => (p, Some (colour_scale lo hi d))) (vl_panels (rr_vlm rr)) (vl_pcoef (rr_vlm rr))) (Some (lo, hi)) w (water_surface w) a))).
  { unfold display_panels_xyz. simpl String.eqb. cbv iota zeta. rewrite E1. cbn [bind]. rewrite E2. cbn [bind]. rewrite VV, WS. reflexivity. }
  split; [exact DP|]. intros pic PE. assert (PW : pi_water pic = w). { rewrite PE in DP. destruct (set_ax_eq _) as [a|]; [|discriminate]. injection DP as ->. reflexivity. }
  split; [exact PW|]. destruct (C65_run (IZR w) _ _ _ _ _ _ _ _ _ NS NC E) as (arrows & AR & _). exists arrows. split; [exact AR|].
  unfold cli_display, display_panels_xyz_and_winds. cbv iota zeta. rewrite PE. cbn [bind]. rewrite PW.
  rewrite (f_nc _ _ _ _ _ _ _ _ _ _ _ _ _ _ FL), (f_ns _ _ _ _ _ _ _ _ _ _ _ _ _ _ FL). unfold cli_winds in AR. rnum. rewrite AR. reflexivity.
Qed.

(** ** C75: every panel is drawn once, in its place on the colour scale of the pressure coefficients *)
Theorem C75_colours : forall spline cd sv r main jib ref clr rr fig, (0 < sv_ns sv)%nat -> (0 < sv_nc sv)%nat ->
  run spline cd sv r main jib ref clr = Ok rr -> cli_display rr = Ok fig ->
  let drawn := pi_panels (fi_picture fig) in let data := vl_pcoef (rr_vlm rr) in
  length drawn = length (ss_panels (rr_set rr)) /\ length data = length (ss_panels (rr_set rr)) /\
  (forall k p x, nth_error (ss_panels (rr_set rr)) k = Some p -> nth_error data k = Some x ->
     exists t, nth_error drawn k = Some (p, Some t) /\ scale_of data x t /\ 0 <= t <= 1) /\
  (forall i j p q t u x y, nth_error drawn i = Some (p, Some t) -> nth_error drawn j = Some (q, Some u) -> nth_error data i = Some x -> nth_error data j = Some y ->
     x <= y -> t <= u) /\
  exists lo hi, pi_scale (fi_picture fig) = Some (lo, hi) /\ In lo data /\ In hi data /\ forall x, In x data -> lo <= x <= hi.
Proof.
  intros spline cd sv r main jib ref clr rr fig NS NC E D drawn data.
  destruct (run_figure _ _ _ _ _ _ _ _ _ NS NC E) as (m & lo & hi & T & M0 & VP & LC & NP & E1 & E2 & DP & FG).
  assert (ND : data <> []). { intros X. unfold data in X. rewrite X in LC. destruct (ss_panels (rr_set rr)); [congruence|discriminate]. }
  destruct (coloured (ss_panels (rr_set rr)) data ND LC) as (lo' & hi' & F1 & F2 & I1 & I2 & BD & LL & P).
  unfold data in F1, F2. rewrite E1 in F1. injection F1 as <-. rewrite E2 in F2. injection F2 as <-.
  destruct (display_panels_xyz (rr_vlm rr) "p_coeffs") as [pic|e] eqn:PE.
  2:{ unfold cli_display, display_panels_xyz_and_winds in D. cbv iota zeta in D. rewrite PE in D. discriminate. }
  destruct (FG pic eq_refl) as (_ & arrows & _ & D'). rewrite D in D'. injection D' as ->.
  destruct (set_ax_eq _) as [a|]; [|discriminate]. cbn [bind] in DP. injection DP as ->. unfold drawn. cbn [fi_picture pi_panels pi_scale]. rewrite VP. fold data.
  split; [exact LL|]. split; [exact LC|]. split; [exact P|]. split; [|exists lo, hi; auto].
  intros i j p q t u x y Q1 Q2 X Y XY. apply nth_error_zipWith_inv in Q1, Q2. destruct Q1 as (p' & x' & _ & X' & Q1), Q2 as (q' & y' & _ & Y' & Q2).
  fold data in X', Y'. rewrite X in X'. injection X' as <-. rewrite Y in Y'. injection Y' as <-. injection Q1 as _ ->. injection Q2 as _ ->.
  destruct (colour_scale_spec data lo hi I1 I2 BD x (nth_error_In _ _ X)) as (_ & A1 & A2). destruct (colour_scale_spec data lo hi I1 I2 BD y (nth_error_In _ _ Y)) as (_ & B1 & B2).
  destruct (Rlt_dec lo hi) as [L|L].
  - rewrite A1, B1 by exact L. unfold Rdiv. apply Rmult_le_compat_r; [left; apply Rinv_0_lt_compat; lra|lra].
  - assert (lo = hi) by (pose proof (BD lo I1); lra). rewrite A2, B2 by assumption. lra.
Qed.

(** ** C76: the water, the axes and the rest of the figure *)

(** Drawing works unless every edge of the sails has its middle on the water. [n] is [m] rounded up, [w] is 1.1 [n] rounded down. *)
Theorem C76_picture : forall spline cd sv r main jib ref clr rr, (0 < sv_ns sv)%nat -> (0 < sv_nc sv)%nat -> run spline cd sv r main jib ref clr = Ok rr ->
  exists m, tallest (ss_panels (rr_set rr)) m /\
  (m = 0 -> cli_display rr = Raise ValueError) /\
  (0 < m -> exists fig n w, cli_display rr = Ok fig /\ IZR n - 1 < m <= IZR n /\ IZR w <= 11/10 * IZR n < IZR w + 1 /\ (0 < n <= w)%Z /\
     pi_water (fi_picture fig) = w /\
     (forall q, In q (pi_sea (fi_picture fig)) <-> exists x y, (- w <= x < w)%Z /\ (- w <= y < w)%Z /\ q = V3 (IZR x) (IZR y) 0) /\
     pi_axes (fi_picture fig) = Axes (- IZR w, IZR w - 1) (- IZR w, IZR w - 1) (- (IZR w - 1/2), IZR w - 1/2)).
Proof.
  intros spline cd sv r main jib ref clr rr NS NC E.
  destruct (run_figure _ _ _ _ _ _ _ _ _ NS NC E) as (m & lo & hi & T & M0 & VP & LC & NP & E1 & E2 & DP & FG).
  exists m. split; [exact T|]. split.
  - intros ->. rewrite (sea_empty (rtrunc _)) in DP.
    + unfold cli_display, display_panels_xyz_and_winds. cbv iota zeta. rewrite DP. reflexivity.
    + destruct (rceil_spec 0) as [C1 C2]. assert (rceil 0 = 0)%Z as ->.
      { assert (IZR (rceil 0) < 1) by lra. apply lt_IZR in H. apply le_IZR in C2. lia. }
      destruct (rtrunc_spec (11/10 * 0)) as [C3 C4]; [lra|]. apply le_IZR. lra.
  - intros M. destruct (water_bounds m M) as (N & NW & W). set (w := rtrunc _) in *. rewrite sea_axes in DP by lia. cbn [bind] in DP.
    destruct (FG _ DP) as (PW & arrows & _ & D). eexists. exists (rceil m), w. split; [exact D|]. cbn [fi_picture pi_sea pi_axes pi_water].
    split; [apply rceil_spec|]. split; [exact W|]. split; [lia|]. split; [reflexivity|]. split; [|reflexivity]. apply sea_in.
Qed.

(** the other parts *)
Theorem C76_parts : forall spline cd sv r main jib ref clr rr fig, (0 < sv_ns sv)%nat -> (0 < sv_nc sv)%nat ->
  run spline cd sv r main jib ref clr = Ok rr -> cli_display rr = Ok fig ->
  let h := rr_hull rr in
  fi_hull fig = [(hu_centre h, true); (hu_port h, true); (hu_starboard h, true); (hu_port_under h, false); (hu_starboard_under h, false)] /\
  cli_winds (IZR (pi_water (fi_picture fig))) sv rr = Ok (fi_winds fig) /\ fi_forces fig = cli_CE_CLR rr /\
  String.prefix "VLM mode: Panels colored by coefficient of pressure " (fi_title fig) = true.
Proof.
  intros spline cd sv r main jib ref clr rr fig NS NC E D h.
  destruct (run_figure _ _ _ _ _ _ _ _ _ NS NC E) as (m & lo & hi & T & M0 & VP & LC & NP & E1 & E2 & DP & FG).
  destruct (display_panels_xyz (rr_vlm rr) "p_coeffs") as [pic|e] eqn:PE.
  2:{ unfold cli_display, display_panels_xyz_and_winds in D. cbv iota zeta in D. rewrite PE in D. discriminate. }
  destruct (FG pic eq_refl) as (PW & arrows & AR & D'). rewrite D in D'. injection D' as ->. cbn [fi_hull fi_picture fi_winds fi_forces fi_title].
  split; [reflexivity|]. split; [rewrite PW; exact AR|]. split; reflexivity.
Qed.

(** [z] lies within the limits of the vertical axis *)
Definition within (z : R) (lim : R * R) : Prop := fst lim <= z <= snd lim.

(** a rig taller than nine metres fits between the limits of the vertical axis *)
Theorem C76_tall : forall spline cd sv r main jib ref clr rr fig, (0 < sv_ns sv)%nat -> (0 < sv_nc sv)%nat ->
  run spline cd sv r main jib ref clr = Ok rr -> cli_display rr = Ok fig ->
  (exists p e, In p (ss_panels (rr_set rr)) /\ In e (edge_middles p) /\ 9 < Rabs (vz e)) ->
  forall p e, In p (ss_panels (rr_set rr)) -> In e (edge_middles p) -> within (vz e) (ax_z (pi_axes (fi_picture fig))).
Proof.
  intros spline cd sv r main jib ref clr rr fig NS NC E D (p0 & e0 & P0 & I0 & H9) p e P I.
  destruct (C76_picture _ _ _ _ _ _ _ _ _ NS NC E) as (m & T & Z0 & PO). pose proof (proj1 T p0 e0 P0 I0) as M9.
  destruct PO as (fig' & n & w & D' & N & W & NW & _ & _ & AX); [lra|]. rewrite D in D'. injection D' as <-. rewrite AX. unfold within. cbn [ax_z fst snd].
  pose proof (proj1 T p e P I) as B. apply Rabs_le_inv in B. assert (N10 : (9 < n)%Z) by (apply lt_IZR; lra). assert (10 <= IZR n) by (apply IZR_le; lia).
  assert (IZR n < IZR w) by lra. apply lt_IZR in H0. assert (IZR n + 1 <= IZR w) by (rewrite <- plus_IZR; apply IZR_le; lia). lra.
Qed.
(** a lower one fits only if its height is at least half a metre below the next whole number *)
Theorem C76_low : forall spline cd sv r main jib ref clr rr fig m n, (0 < sv_ns sv)%nat -> (0 < sv_nc sv)%nat ->
  run spline cd sv r main jib ref clr = Ok rr -> cli_display rr = Ok fig ->
  tallest (ss_panels (rr_set rr)) m -> m <= 9 -> IZR n - 1 < m <= IZR n ->
  ((forall p e, In p (ss_panels (rr_set rr)) -> In e (edge_middles p) -> within (vz e) (ax_z (pi_axes (fi_picture fig)))) -> m <= IZR n - 1/2) /\
  (m <= IZR n - 1/2 -> forall p e, In p (ss_panels (rr_set rr)) -> In e (edge_middles p) -> within (vz e) (ax_z (pi_axes (fi_picture fig)))).
Proof.
  intros spline cd sv r main jib ref clr rr fig m n NS NC E D T M9 N.
  destruct (C76_picture _ _ _ _ _ _ _ _ _ NS NC E) as (m' & T' & Z0 & PO).
  pose proof (tallest_unique _ _ _ T T') as ->.
  assert (0 <= m). { destruct T as [_ (p & e & _ & _ & <-)]. apply Rabs_pos. }
  destruct (Req_dec m 0) as [M0|M0]; [rewrite (Z0 M0) in D; discriminate|].
  destruct PO as (fig' & n' & w & D' & N' & W & NW & _ & _ & AX); [lra|]. rewrite D in D'. injection D' as <-. rewrite AX. unfold within. cbn [ax_z fst snd].
  assert (n' = n). { assert (IZR n' < IZR n + 1) by lra. assert (IZR n < IZR n' + 1) by lra. rewrite <- plus_IZR in *. apply lt_IZR in H0, H1. lia. } subst n'.
  assert (n <= 9)%Z. { assert (IZR n < 9 + 1) by lra. rewrite <- plus_IZR in *. apply lt_IZR in H0. lia. } assert (IZR n <= 9) by (apply IZR_le; lia).
  assert (w = n). { assert (IZR w < IZR n + 1) by lra. rewrite <- plus_IZR in *. apply lt_IZR in H2. lia. } subst w.
  split.
  - intros A. destruct T as [_ (p & e & P & I & Q)]. pose proof (A p e P I) as [A1 A2]. rewrite <- Q. unfold Rabs. destruct (Rcase_abs (vz e)); lra.
  - intros A p e P I. pose proof (proj1 T p e P I) as B. apply Rabs_le_inv in B. lra.
Qed.

Lemma demo_tallest : tallest demo_panels (25/2).
Proof.
  split.
  - intros p e [<-|[<-|[]]] [<-|[<-|[]]]; unfold mid, slerp, demo_panel, mirrored; cbn [pp1 pp2 pp3 pp4]; svec; unfold Rabs; destruct (Rcase_abs _); lra.
  - exists demo_panel, (mid (pp2 demo_panel) (pp3 demo_panel)). split; [left; reflexivity|]. split; [left; reflexivity|].
    unfold mid, slerp, demo_panel. cbn [pp1 pp2 pp3 pp4]. svec. unfold Rabs. destruct (Rcase_abs _); lra.
Qed.
Lemma demo_figure sp : exists rr fig, run sp demo_conditions demo_solver (demo_rig (Some 4)) (Some demo_main) None szero szero = Ok rr /\ ss_panels (rr_set rr) = demo_panels /\
  cli_display rr = Ok fig /\ pi_water (fi_picture fig) = 14%Z /\ pi_axes (fi_picture fig) = Axes (-14, 13) (-14, 13) (-(27/2), 27/2).
Proof.
  destruct (demo_run sp 4 szero) as (rr & s & E & _ & _ & _ & P & _). exists rr.
  destruct (C76_picture _ _ demo_solver _ _ _ _ _ _ Nat.lt_0_1 Nat.lt_0_1 E) as (m & T & Z0 & PO). rewrite P in T.
  pose proof (tallest_unique _ _ _ demo_tallest T) as ->.
  destruct PO as (fig & n & w & D & N & W & NW & PW & _ & AX); [lra|]. exists fig. split; [exact E|]. split; [exact P|]. split; [exact D|].
  assert (n = 13)%Z. { destruct N as [N1 N2]. assert (IZR n < 14) by lra. assert (12 < IZR n) by lra. apply lt_IZR in H, H0. lia. } subst n.
  assert (W14 : (w = 14)%Z). { assert (IZR w < 15) by lra. assert (13 < IZR w) by lra. apply lt_IZR in H, H0. lia. } rewrite W14 in *.
  split; [exact PW|]. rewrite AX. f_equal; f_equal; lra.
Qed.
Example C75_case : forall sp, exists rr fig, run sp demo_conditions demo_solver (demo_rig (Some 4)) (Some demo_main) None szero szero = Ok rr /\ cli_display rr = Ok fig.
Proof. intros sp. destruct (demo_figure sp) as (rr & fig & E & _ & D & _). eauto. Qed.
Example C76_case : forall sp, exists rr fig, run sp demo_conditions demo_solver (demo_rig (Some 4)) (Some demo_main) None szero szero = Ok rr /\ cli_display rr = Ok fig /\
  exists p e, In p (ss_panels (rr_set rr)) /\ In e (edge_middles p) /\ 9 < Rabs (vz e).
Proof.
  intros sp. destruct (demo_figure sp) as (rr & fig & E & P & D & _). exists rr, fig. split; [exact E|]. split; [exact D|]. rewrite P.
  destruct demo_tallest as [_ (p & e & Q & I & X)]. exists p, e. rewrite X. split; [exact Q|]. split; [exact I|]. lra.
Qed.

(** The claim "the limits of the axes enclose the sails" fails. *)
Theorem C76_refuted : forall sp, exists rr fig p, run sp demo_conditions demo_solver (demo_rig (Some 4)) (Some demo_main) None szero szero = Ok rr /\ cli_display rr = Ok fig /\
  In p (ss_panels (rr_set rr)) /\
  ~ within (vx (pp4 p)) (ax_x (pi_axes (fi_picture fig))) /\ ~ within (vz (pp3 p)) (ax_z (pi_axes (fi_picture fig))).
Proof.
  intros sp. destruct (demo_figure sp) as (rr & fig & E & P & D & _ & AX). exists rr, fig, demo_panel. rewrite P, AX. unfold within. cbn [ax_x ax_z fst snd demo_panel pp3 pp4 vx vz].
  split; [exact E|]. split; [exact D|]. split; [left; reflexivity|]. split; lra.
Qed.

(** The SailOpt mode of the figure (not used by a run) colours by pressure. *)
Theorem C75_sailopt : forall (v : vlm R) fr ic h induced fig, display_panels_xyz_and_winds v fr ic h induced true = Ok fig ->
  String.prefix "SailOpt mode: Panels colored by optimal circulation " (fi_title fig) = true /\
  exists lo hi, pi_scale (fi_picture fig) = Some (lo, hi) /\ In lo (vl_pressure v) /\ In hi (vl_pressure v) /\
    pi_panels (fi_picture fig) = zipWith (fun p x => (p, Some (if Req_EM_T lo hi then 0 else (x - lo) / (hi - lo)))) (vl_panels v) (vl_pressure v).
Proof.
  intros v fr ic h induced fig D. unfold display_panels_xyz_and_winds in D. cbv iota zeta in D. apply bind_Ok in D. destruct D as (pic & DP & D).
  apply bind_Ok in D. destruct D as (winds & _ & D). apply Ok_inj in D. subst fig. cbn [fi_title fi_picture]. split; [reflexivity|].
  unfold display_panels_xyz in DP. simpl String.eqb in DP. cbv iota zeta in DP. apply bind_Ok in DP. destruct DP as (lo & E1 & DP). apply bind_Ok in DP. destruct DP as (hi & E2 & DP).
  apply bind_Ok in DP. destruct DP as (w & _ & DP). apply bind_Ok in DP. destruct DP as (a & _ & DP). apply Ok_inj in DP. subst pic. cbn [pi_scale pi_panels].
  assert (N : vl_pressure v <> []) by (intros X; rewrite X in E1; discriminate).
  destruct (py_min_spec _ N) as (lo' & F1 & I1 & _). rewrite E1 in F1. injection F1 as <-. destruct (py_max_spec _ N) as (hi' & F2 & I2 & _). rewrite E2 in F2. injection F2 as <-.
  exists lo, hi. repeat (split; [assumption || reflexivity|]). unfold colour_scale. rnum. unfold Reqb. destruct (Req_EM_T lo hi); reflexivity.
Qed.
Lemma demo_pressure o : Vlm demo_panels 1 1 16 demo_wind [true; true] [false; false] = Ok o ->
  exists g p0 p1, vl_gamma o = [g; g] /\ vl_pressure o = [p0; p1] /\ g < p0 /\ vl_vars o = [demo_vars 0; demo_vars 1] /\ vl_ns o = 1%nat /\ vl_nc o = 1%nat /\
    length (in_cp (vl_inlet o)) = 2%nat /\ length (in_tws (vl_inlet o)) = 2%nat /\ length (in_V (vl_inlet o)) = 2%nat.
Proof.
  intros E. destruct demo_inlet as (ic & IC & EI).
  destruct (vlm_solve_make 2 1 16 demo_panels [false; false] demo_t demo_vars demo_V 1 [true; true] [demo_vars 0; demo_vars 1] ic _ _ eq_refl eq_refl eq_refl EI demo_solved) as (o' & E' & FL).
  assert (o' = o). { unfold Vlm in E. rewrite gor_R, demo_vars_ok in E. unfold bind at 1 in E. rewrite IC in E. unfold bind in E. congruence. } subst o'.
  rewrite (f_gamma _ _ _ _ _ _ _ _ _ _ _ _ _ _ FL), (f_pressure _ _ _ _ _ _ _ _ _ _ _ _ _ _ FL), (f_vars _ _ _ _ _ _ _ _ _ _ _ _ _ _ FL), (f_ns _ _ _ _ _ _ _ _ _ _ _ _ _ _ FL), (f_nc _ _ _ _ _ _ _ _ _ _ _ _ _ _ FL), (f_inlet _ _ _ _ _ _ _ _ _ _ _ _ _ _ FL).
  do 3 eexists. split; [reflexivity|]. split; [reflexivity|]. split; [|repeat (split; [reflexivity|]); unfold InletConditions in IC; cbn [map mapM] in IC; repeat (destruct (get_true_wind_speed_at_h _ _) in IC; [|discriminate IC]); injection IC as <-; auto].
  destruct demo_v0 as (N0 & _ & P0 & _ & S0). pose proof demo_wash as W. set (u := wash _ _ _ _ _ _) in W.
  assert (G : 0 < -3 / (demo_a + demo_b)).
  { destruct demo_ab as [AB _]. unfold Rdiv. replace (-3 * / (demo_a + demo_b)) with (3 * / (- (demo_a + demo_b))) by (field; lra).
    apply Rmult_lt_0_compat; [lra|]. apply Rinv_0_lt_compat. lra. }
  unfold area. rewrite demo_areas. cbn [nth]. unfold pforce. rewrite N0, P0, S0. fold u. unfold demo_V. set (g := -3 / (demo_a + demo_b)) in *. clearbody g. destruct u as [a b c]. cbn [vx] in W. svec.
  nra.
Qed.
Theorem C75_refuted : forall fr h, exists v fig lo hi, Vlm demo_panels 1 1 16 demo_wind [true; true] [false; false] = Ok v /\
  display_panels_xyz_and_winds v fr (vl_inlet v) h false true = Ok fig /\
  String.prefix "SailOpt mode: Panels colored by optimal circulation " (fi_title fig) = true /\
  pi_scale (fi_picture fig) = Some (lo, hi) /\ ~ (forall g, In g (vl_gamma v) -> lo <= g <= hi /\ (In lo (vl_gamma v) /\ In hi (vl_gamma v))).
Proof.
  intros fr h. destruct (demo_Vlm 16) as [v EV]. destruct (demo_pressure v EV) as (g & p0 & p1 & EG & EP & GP & EVV & E1 & E2 & L1 & L2 & L3).
  assert (T : exists fig, display_panels_xyz_and_winds v fr (vl_inlet v) h false true = Ok fig).
  { unfold display_panels_xyz_and_winds. cbv iota zeta. unfold display_panels_xyz. simpl String.eqb. cbv iota zeta. rewrite !EP.
    destruct (py_min_spec [p0; p1]) as (lo & F1 & _); [discriminate|]. destruct (py_max_spec [p0; p1]) as (hi & F2 & _); [discriminate|]. rewrite F1. cbn [bind]. rewrite F2. cbn [bind].
    destruct (tallest_water demo_panels (vl_vars v)) as (m & T & M0 & WS); [discriminate|rewrite EVV; reflexivity| |].
    { rewrite EVV. intros [|[|k]] p q P Q; simpl in P, Q; try discriminate; [| |destruct k; discriminate]; injection P as <-; injection Q as <-; apply panel_vars_mid. }
    pose proof (tallest_unique _ _ _ demo_tallest T) as ->.
    rewrite WS. cbn [bind]. destruct (water_bounds (25/2)) as (N & NW & _); [lra|]. rewrite sea_axes by lia. cbn [bind pi_water]. rewrite E1, E2.
    destruct (C65_arrows R RNum (IZR (rtrunc (11/10 * IZR (rceil (25/2))))) (vl_inlet v) None 1 1 1) as (arrows & D & _); auto.
    { discriminate. }
    rnum. rewrite D. cbn [bind]. eauto. }
  destruct T as [fig D]. destruct (C75_sailopt _ _ _ _ _ _ D) as (TI & lo & hi & SC & I1 & I2 & _). exists v, fig, lo, hi. split; [exact EV|]. split; [exact D|]. split; [exact TI|]. split; [exact SC|].
  rewrite EG. intros A. destruct (A g (or_introl eq_refl)) as (_ & L & HI).
  assert (HG : hi = g) by (destruct HI as [<-|[<-|[]]]; reflexivity).
  (* p0 <= hi *) revert D. unfold display_panels_xyz_and_winds. cbv iota zeta. intros D. apply bind_Ok in D. destruct D as (pic & DP & D).
  apply bind_Ok in D. destruct D as (winds & _ & D). apply Ok_inj in D. subst fig. cbn [fi_picture] in SC.
  unfold display_panels_xyz in DP. simpl String.eqb in DP. cbv iota zeta in DP. apply bind_Ok in DP. destruct DP as (lo' & F1 & DP). apply bind_Ok in DP. destruct DP as (hi' & F2 & DP).
  apply bind_Ok in DP. destruct DP as (w & _ & DP). apply bind_Ok in DP. destruct DP as (a & _ & DP). apply Ok_inj in DP. subst pic. cbn [pi_scale] in SC. injection SC as -> ->.
  rewrite EP in F2. destruct (py_max_spec [p0; p1]) as (hi2 & F3 & _ & M); [discriminate|]. rewrite F2 in F3. injection F3 as <-. pose proof (M p0 (or_introl eq_refl)). lra.
Qed.
Print Assumptions C75_colours.
Print Assumptions C75_sailopt.
Print Assumptions C75_refuted.
Print Assumptions C76_picture.
Print Assumptions C76_parts.
Print Assumptions C76_tall.
Print Assumptions C76_low.
Print Assumptions C76_refuted.
