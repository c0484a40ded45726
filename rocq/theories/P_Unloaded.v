(** C84: sails without load. *)

From Coq Require Import String ZArith Reals List Bool Lra Psatz Lia Arith.
From Verif Require Import Num PyBase RNum CNum Spec M_Rotations M_Csys M_Airfoil M_Panels M_Velocity M_Solve M_Coefs M_Forces M_Winds M_Vlm M_Sail M_Interp M_Hull M_Results M_Runner
  L_List L_Rot L_Csys L_Vel L_Sail L_Sail2 L_Lattice L_Vlm L_Vlm2 L_Demo L_Runner P_Sail P_Interp P_Vlm P_Results P_Tack P_Coefs P_Run P_Scene
  L_ScaleRun P_ScaleRun L_Lift L_Lift2 L_LiftGeo L_LiftRun L_LiftPlot P_LiftRun P_LiftPlot L_Set.
Import ListNotations.
Open Scope R_scope.

(** the inflow of every panel is parallel to the panel *)
Definition along_panels (o : vlm R) : Prop := forall k v n, nth_error (in_V (vl_inlet o)) k = Some v -> nth_error (vl_normals o) k = Some n -> sdot v n = 0.
Definition all_zero (l : list R) : Prop := forall x, In x l -> x = 0.
Definition all_none (l : list (vec R)) : Prop := forall v, In v l -> v = szero.

Lemma wash_zero K t v V g p : (forall l, (l < K)%nat -> g l = 0) -> wash K t v V g p = szero.
Proof.
  intros Z. unfold wash. rewrite (vsumn_ext K _ (fun _ => sscale 0 szero)).
  - rewrite vsumn_scale. svec. vec_eq; ring.
  - intros l L. rewrite Z by exact L. destruct (infl t v V p l). svec. vec_eq; ring.
Qed.
Lemma net_zero gamma le ns k (x : R) : all_zero gamma -> net_circulation gamma le ns k = Ok x -> x = 0.
Proof.
  intros Z E. unfold net_circulation in E. apply bind_Ok in E. destruct E as (l & _ & E). apply bind_Ok in E. destruct E as (g & G & E). apply py_nth_in, Z in G. subst g.
  destruct (_ || _)%bool; [injection E as <-; reflexivity|]. apply bind_Ok in E. destruct E as (g & G & E). apply py_nth_in, Z in G. subst g. injection E as <-. rnum. ring.
Qed.

(** The circulations vanish exactly if the inflow of every panel is parallel to it; then nothing is induced and nothing is loaded. *)
Theorem C84_solver : forall panels nc ns rho w te le o, length te = length panels -> Vlm panels nc ns rho w te le = Ok o ->
  (all_zero (vl_gamma o) <-> along_panels o) /\
  (along_panels o -> vl_V_ctrl o = in_V (vl_inlet o) /\ vl_V_cp o = in_V (vl_inlet o) /\ all_none (vl_V_ind_ctrl o) /\ all_none (vl_V_ind_cp o) /\
     all_none (vl_force o) /\ all_none (vl_lift o) /\ all_none (vl_drag o) /\ all_zero (vl_pressure o) /\ all_zero (vl_pcoef o)).
Proof.
  intros panels nc ns rho w te le o LT E. destruct (Vlm_inv _ _ _ _ _ _ _ _ LT E) as (vars & ic & g & net & CV & LV & IC & LI & _ & SO & FL). cbv zeta in SO, FL.
  set (K := length panels) in *. set (t := fun k => nth k te false) in *. set (v := fun k => nth k vars dpv) in *. set (V := fun k => nth k (in_V ic) szero) in *.
  assert (EI : vl_inlet o = ic) by apply FL. assert (EV : in_V ic = tab K V) by (apply list_tab; exact LI).
  assert (EN : vl_normals o = tab K (fun k => pv_n (v k))). { unfold vl_normals. rewrite (f_vars _ _ _ _ _ _ _ _ _ _ _ _ _ _ FL), map_tab. reflexivity. }
  assert (T : along_panels o <-> forall k, (k < K)%nat -> sdot (V k) (pv_n (v k)) = 0).
  { unfold along_panels. rewrite EI, EV, EN. split.
    - intros A k Hk. apply (A k); rewrite tab_nth_error by exact Hk; reflexivity.
    - intros A k a n Ha Hn. assert (Hk : (k < K)%nat). { apply nth_error_Some_lt in Ha. rewrite tab_length in Ha. exact Ha. }
      rewrite tab_nth_error in Ha, Hn by exact Hk. injection Ha as <-. injection Hn as <-. apply A. exact Hk. }
  assert (G0 : all_zero (vl_gamma o) <-> forall k, (k < K)%nat -> g k = 0).
  { rewrite (f_gamma _ _ _ _ _ _ _ _ _ _ _ _ _ _ FL). unfold all_zero. split.
    - intros A k Hk. apply A. apply (nth_error_In _ k). apply tab_nth_error. exact Hk.
    - intros A x X. apply in_tab in X. destruct X as (k & Hk & ->). apply A. exact Hk. }
  destruct SO as [EQ RG AR NT].
  assert (M : all_zero (vl_gamma o) <-> along_panels o).
  { rewrite G0, T. split.
    - intros Z k Hk. pose proof (EQ k Hk) as Q. rewrite (sumn_ext K _ (fun _ => 0 * 0)) in Q by (intros l L; rewrite (Z l L); ring). rewrite sumn_scale in Q. lra.
    - intros Z. apply RG. intros k Hk. rewrite (EQ k Hk), (Z k Hk). ring. }
  split; [exact M|]. intros A. pose proof (proj2 M A) as GZ. pose proof (proj1 G0 GZ) as Z.
  assert (NZ : forall k, (k < K)%nat -> net k = 0). { intros k Hk. apply (net_zero (tab K g) le ns k); [|apply NT; exact Hk]. rewrite <- (f_gamma _ _ _ _ _ _ _ _ _ _ _ _ _ _ FL). exact GZ. }
  assert (SV : forall p, sadd p szero = p) by (intros [a b c]; svec; vec_eq; ring).
  assert (CZ : forall a b, scross a (sscale 0 b) = szero) by (intros [a1 a2 a3] [b1 b2 b3]; svec; vec_eq; ring).
  assert (Z1 : sscale rho szero = szero) by (svec; vec_eq; ring).
  assert (PF : forall k, (k < K)%nat -> pforce K rho t v V g net k = szero) by (intros k Hk; unfold pforce; rewrite (NZ k Hk), CZ; exact Z1).
  rewrite (f_V_ctrl _ _ _ _ _ _ _ _ _ _ _ _ _ _ FL), (f_V_cp _ _ _ _ _ _ _ _ _ _ _ _ _ _ FL), (f_V_ind_ctrl _ _ _ _ _ _ _ _ _ _ _ _ _ _ FL), (f_V_ind_cp _ _ _ _ _ _ _ _ _ _ _ _ _ _ FL),
    (f_force _ _ _ _ _ _ _ _ _ _ _ _ _ _ FL), (f_lift _ _ _ _ _ _ _ _ _ _ _ _ _ _ FL), (f_drag _ _ _ _ _ _ _ _ _ _ _ _ _ _ FL), (f_pressure _ _ _ _ _ _ _ _ _ _ _ _ _ _ FL), (f_pcoef _ _ _ _ _ _ _ _ _ _ _ _ _ _ FL), EI, EV.
  split; [apply tab_ext; intros k Hk; rewrite wash_zero by exact Z; apply SV|]. split; [apply tab_ext; intros k Hk; rewrite wash_zero by exact Z; apply SV|].
  assert (DZ : forall n, sdot szero n = 0) by (intros [a b c]; svec; ring).
  repeat split; intros x X; apply in_tab in X; destruct X as (k & Hk & ->).
  - apply wash_zero, Z.
  - apply wash_zero, Z.
  - apply PF, Hk.
  - unfold plift. rewrite (NZ k Hk), CZ. exact Z1.
  - unfold pdrag. rewrite (NZ k Hk), CZ. exact Z1.
  - rewrite (PF k Hk), DZ. unfold Rdiv. ring.
  - rewrite (PF k Hk), DZ. unfold Rdiv. ring.
Qed.

(** ** Flat sails *)
Definition untwisted (s : option (@sail_def R)) : Prop := forall d l v, s = Some d -> sd_twist d = Some l -> In v l -> v = 0.
Definition corners (p : panel R) : list (vec R) := [pp1 p; pp2 p; pp3 p; pp4 p].

Lemma coplanar m u v d : m <> szero -> sdot u m = 0 -> sdot v m = 0 -> sdot d m = 0 -> sdot (scross u v) d = 0.
Proof.
  intros M U V D. assert (Q : sscale (sdot (scross u v) d) m = szero).
  { replace (sscale (sdot (scross u v) d) m) with (sadd (sadd (sscale (sdot u m) (scross v d)) (sscale (sdot v m) (scross d u))) (sscale (sdot d m) (scross u v))).
    - rewrite U, V, D. destruct (scross v d), (scross d u), (scross u v). svec. vec_eq; ring.
    - destruct u, v, d, m. svec. vec_eq; ring. }
  destruct (Req_dec (sdot (scross u v) d) 0) as [Z|Z]; [exact Z|]. exfalso. apply M. revert Q. generalize (sdot (scross u v) d) Z. intros x X Q. destruct m as [a b c]. unfold sscale in Q. cbn [vx vy vz] in Q.
  injection Q as Q1 Q2 Q3. assert (forall y, x * y = 0 -> y = 0) as H by (intros y Y; apply Rmult_integral in Y; destruct Y; [contradiction|assumption]).
  unfold szero. rewrite (H a Q1), (H b Q2), (H c Q3). reflexivity.
Qed.
(* the normal of a panel all corners of which are in a plane through the origin that contains [d] *)
Lemma flat_normal gor p A D m d : m <> szero -> (forall q, In q (corners p) -> sdot q m = 0) -> sdot d m = 0 -> sdot d (pv_n (panel_vars gor p A D)) = 0.
Proof.
  intros M P Q. unfold panel_vars. cbv zeta. cbn [pv_n]. tospec.
  assert (SB : forall a b, sdot a m = 0 -> sdot b m = 0 -> sdot (ssub a b) m = 0). { intros [a1 a2 a3] [b1 b2 b3] X Y. revert X Y. destruct m. svec. intros. lra. }
  unfold corners in P. pose proof (coplanar m (ssub (pp3 p) (pp1 p)) (ssub (pp4 p) (pp2 p)) d M ltac:(apply SB; apply P; simpl; auto) ltac:(apply SB; apply P; simpl; auto) Q) as Z.
  revert Z. generalize (scross (ssub (pp3 p) (pp1 p)) (ssub (pp4 p) (pp2 p))). intros n. generalize (snorm n). intros x. destruct n as [a b c], d as [e f g]. vnum. svec. intros Z. unfold Rdiv. 
  transitivity ((a * e + b * f + c * g) * / x); [ring|]. assert (Z1 : a * e + b * f + c * g = 0) by lra. rewrite Z1. ring.
Qed.
Lemma vars_in {F} {NF : Num F} gor nc ns (panels : list (panel F)) te vars : calculate_vlm_variables panels te gor nc ns = Ok vars ->
  forall v, In v vars -> exists p A D, In p panels /\ v = panel_vars gor p A D.
Proof.
  intros E. unfold calculate_vlm_variables in E. cbv zeta in E. destruct (nc * ns =? 0)%nat; [discriminate|]. set (G := (length panels / (nc * ns))%nat) in *.
  apply bind_Ok in E. destruct E as (pss & E1 & E). apply bind_Ok in E. destruct E as (tss & E2 & E). apply bind_Ok in E. destruct E as (vss & E3 & E). destruct (_ =? _)%nat; [|discriminate]. injection E as <-.
  intros v I. apply in_concat in I. destruct I as (vs & I1 & I2). apply In_nth_error in I1. destruct I1 as [k K].
  pose proof (mapM_Forall2 _ _ _ E3) as FF. pose proof (nth_error_Some_lt _ _ _ K) as Hk. rewrite (mapM_length _ _ _ E3) in Hk. destruct (nth_error_ex _ _ Hk) as [[ps ts] C].
  pose proof (Forall2_nth_error _ _ _ _ _ _ FF C K) as Q. cbn [fst snd] in Q. apply nth_error_combine_inv in C. destruct C as [C _]. apply nth_error_In in C.
  assert (PS : forall p, In p ps -> In p panels). { intros p Ip. eapply array_split_in; eassumption. }
  apply In_nth_error in I2. destruct I2 as [j J]. unfold group_vlm_variables in Q.
  pose proof (mapM_Forall2 _ _ _ Q) as F2. pose proof (nth_error_Some_lt _ _ _ J) as Hj. rewrite (mapM_length _ _ _ Q) in Hj. destruct (nth_error_ex _ _ Hj) as [[i p] D].
  pose proof (Forall2_nth_error _ _ _ _ _ _ F2 D J) as Y. cbn [fst snd] in Y. apply nth_error_combine_inv in D. destruct D as [_ D]. apply nth_error_In, PS in D.
  apply bind_Ok in Y. destruct Y as (t & _ & Y). destruct t; [injection Y as <-; eauto|]. apply bind_Ok in Y. destruct Y as (nx & _ & Y). injection Y as <-. eauto.
Qed.

(** the athwartships direction of a heeled yacht, and the direction of its centreline over ground *)
Definition abeam (c : csys R) : vec R := sheel (heel_deg c) (leeway_deg c) (V3 0 1 0).
Definition ahead (lee : R) : vec R := V3 (cos (rad lee)) (sin (rad lee)) 0.
Lemma abeam_ahead c : sdot (ahead (leeway_deg c)) (abeam c) = 0 /\ sdot (ahead (leeway_deg c)) (smirror (abeam c)) = 0 /\ abeam c <> szero /\ smirror (abeam c) <> szero.
Proof.
  pose proof (sheel_rm (heel_deg c) (leeway_deg c)) as RM.
  assert (N : sdot (abeam c) (abeam c) = 1). { unfold abeam. rewrite (rm_dot _ RM). svec. ring. }
  assert (NM : sdot (smirror (abeam c)) (smirror (abeam c)) = 1). { rewrite <- N. destruct (abeam c). svec. ring. }
  assert (Z : sdot szero szero = 0) by (svec; ring).
  split; [|split; [|split]].
  - unfold ahead, abeam, sheel, srot. svec. ring.
  - unfold ahead, abeam, sheel, srot. svec. ring.
  - intros X. rewrite X, Z in N. lra.
  - intros X. rewrite X, Z in NM. lra.
Qed.
Lemma made_plane sp ns nc mode c d name head tack ch tw ca di s : made sp ns nc mode c d name head tack ch tw ca di s -> all_zero ca -> all_zero tw ->
  (forall p q, In p (sl_above s) -> In q (corners p) -> sdot q (abeam c) = 0) /\ (forall p q, In p (sl_under s) -> In q (corners p) -> sdot q (smirror (abeam c)) = 0).
Proof.
  intros [_ _ _ _ G _ E] CZ TZ. assert (BU : built nc ns s) by (do 9 eexists; exact E). destruct (built_layout _ _ _ BU) as [L1 L2 _ _ _ _ _ _].
  assert (NS : (1 <= ns)%nat) by apply G.
  destruct (good_sail_spec _ _ _ _ _ _ _ _ _ _ name G) as (s' & E' & _ & _ & _ & _ & _ & _ & P). rewrite E in E'. injection E' as <-.
  assert (N0 : forall l k, all_zero l -> nth k l 0 = 0). { intros l k Z. destruct (Nat.lt_ge_cases k (length l)) as [K|K]; [apply Z, nth_In, K | apply nth_overflow, K]. }
  assert (SP : forall k i dk, sdot (spoint head tack c ns nc (fun k => nth k ch 0) (fun k => nth k tw 0) (fun k => nth k ca 0) (Some mode) k i dk) (abeam c) = 0).
  { intros k i dk. unfold spoint, angle. rewrite (N0 tw k TZ), rad_0, srot_line_0. unfold hl, abeam. rewrite (rm_dot _ (sheel_rm _ _)).
    unfold zpoint, ssection. cbv zeta. rewrite (N0 ca k CZ). svec. unfold scamber. destruct (Rlt_dec _ _); unfold Rdiv; ring. }
  assert (UP : forall k i, sdot (upoint head tack c ns nc (fun k => nth k ch 0) (fun k => nth k tw 0) (fun k => nth k ca 0) (fun k => nth k di 0) (Some mode) k i) (smirror (abeam c)) = 0).
  { intros k i. unfold upoint. assert (MD : forall a b, sdot (smirror a) (smirror b) = sdot a b) by (intros [a1 a2 a3] [b1 b2 b3]; svec; ring). rewrite MD. apply SP. }
  assert (IX : forall (l : list (panel R)) p, length l = (nc * ns)%nat -> In p l -> exists i j, (i < nc)%nat /\ (j < ns)%nat /\ nth_error l (i * ns + j) = Some p).
  { intros l p LL I. apply In_nth_error in I. destruct I as [k K]. pose proof (nth_error_Some_lt _ _ _ K) as Hk. rewrite LL in Hk. exists (k / ns)%nat, (k mod ns)%nat.
    split; [apply Nat.div_lt_upper_bound; lia|]. split; [apply Nat.mod_upper_bound; lia|]. replace (k / ns * ns + k mod ns)%nat with k; [exact K|]. rewrite (Nat.div_mod k ns) at 1 by lia. lia. }
  split; intros p q I Q.
  - destruct (IX _ _ L1 I) as (i & j & Hi & Hj & K). destruct (P i j Hi Hj) as (PA & _). rewrite PA in K. injection K as <-. unfold corners in Q. cbn [pp1 pp2 pp3 pp4] in Q.
    destruct Q as [<-|[<-|[<-|[<-|[]]]]]; apply SP.
  - destruct (IX _ _ L2 I) as (i & j & Hi & Hj & K). destruct (P i j Hi Hj) as (_ & PU & _). rewrite PU in K. injection K as <-. unfold corners in Q. cbn [pp1 pp2 pp3 pp4] in Q.
    destruct Q as [<-|[<-|[<-|[<-|[]]]]]; apply UP.
Qed.

(** Sails without camber and twist in a wind along the centreline of the yacht, whatever the heel: every inflow is parallel to its panel. *)
Theorem C84_flat : forall sp cd ns nc mode r main jib ref clr rr, (1 <= ns)%nat -> (1 <= nc)%nat -> cos (rad (cd_heel cd)) <> 0 -> In mode twist_modes -> valid_config r main jib ->
  uncambered main -> uncambered jib -> untwisted main -> untwisted jib -> run sp cd (Solver ns nc "linear" mode) r main jib ref clr = Ok rr ->
  (forall v, In v (in_V (vl_inlet (rr_vlm rr))) -> exists a, v = sscale a (ahead (cd_leeway cd))) -> along_panels (rr_vlm rr).
Proof.
  intros sp cd ns nc mode r main jib ref clr rr NS NC HC MO VC UM UJ TM TJ E W. destruct (run_inv _ _ _ _ _ _ _ _ _ E) as (w & EW & EP & EG & EH & EV & EF).
  destruct (set_made _ _ _ _ _ _ _ _ _ _ _ NS NC HC MO VC EG) as [SS MD]. cbn [sv_nc sv_ns] in EV.
  destruct (Vlm_inv _ _ _ _ _ _ _ _ (set_lengths _ _ _ _ _ _ _ EG) EV) as (vars & ic & g & net & CV & LV & IC & LI & _ & _ & FL). cbv zeta in FL.
  set (c := Csys (cd_heel cd) (cd_leeway cd) ref) in *. destruct (abeam_ahead c) as (A1 & A2 & A3 & A4). change (leeway_deg c) with (cd_leeway cd) in A1, A2.
  assert (PL : forall p, In p (ss_panels (rr_set rr)) -> exists m, m <> szero /\ sdot (ahead (cd_leeway cd)) m = 0 /\ forall q, In q (corners p) -> sdot q m = 0).
  { assert (ZD : forall d, main = Some d \/ jib = Some d -> (forall l v, sd_camber d = Some l -> In v l -> v = 0) /\ (forall l v, sd_twist d = Some l -> In v l -> v = 0)).
    { intros d [D|D]; split; intros l v L I; [eapply UM | eapply TM | eapply UJ | eapply TJ]; eassumption. }
    assert (PP : forall s, In s (ss_sails (rr_set rr)) -> (forall p q, In p (sl_above s) -> In q (corners p) -> sdot q (abeam c) = 0) /\ (forall p q, In p (sl_under s) -> In q (corners p) -> sdot q (smirror (abeam c)) = 0)).
    { intros s I. destruct (MD s I) as (d & name & h & t & ch & tw & ca & di & D & M). destruct (ZD d) as [Z1 Z2]; [tauto|]. apply (made_plane _ _ _ _ _ _ _ _ _ _ _ _ _ _ M).
      - destruct (md_ca _ _ _ _ _ _ _ _ _ _ _ _ _ _ M) as (gg & y & _ & Y & _ & _ & _ & X). intros v V. eapply (girths_zero sp gg y); [|exact X|exact V]. intros u U. eapply Z1; eassumption.
      - destruct (md_tw _ _ _ _ _ _ _ _ _ _ _ _ _ _ M) as (gg & y & _ & Y & _ & _ & _ & X). intros v V. eapply (girths_zero sp gg y); [|exact X|exact V]. intros u U. eapply Z2; eassumption. }
    intros p I. revert I SS. generalize (ss_sails (rr_set rr)) PP. intros [|s0 sl] PP' I SS; [discriminate|]. unfold SailSet in SS. apply Ok_inj in SS. rewrite <- SS in I. cbn [ss_panels] in I.
    apply in_app_or in I. destruct I as [I|I]; apply in_concat in I; destruct I as (l & L & I); apply in_map_iff in L; destruct L as (s & <- & L); destruct (PP' s L) as [PA PU];
      [exists (abeam c) | exists (smirror (abeam c))]; (split; [assumption|]); (split; [assumption|]); intros q Q; [eapply PA | eapply PU]; eassumption. }
  intros k v n Hv Hn. apply nth_error_In, W in Hv. destruct Hv as (a & ->). unfold vl_normals in Hn. rewrite (f_vars _ _ _ _ _ _ _ _ _ _ _ _ _ _ FL), map_tab in Hn.
  apply nth_error_In, in_tab in Hn. destruct Hn as (l & Hl & ->).
  assert (IV : In (nth l vars dpv) vars) by (apply nth_In; rewrite LV; exact Hl). destruct (vars_in _ _ _ _ _ _ CV _ IV) as (p & A & D & IP & ->).
  destruct (PL p IP) as (m & M1 & M2 & M3). pose proof (flat_normal (-1) p A D m _ M1 M3 M2) as Z. revert Z. generalize (pv_n (panel_vars (-1) p A D)) (ahead (cd_leeway cd)). intros [n1 n2 n3] [d1 d2 d3]. svec. intros Z.
  transitivity (a * (d1 * n1 + d2 * n2 + d3 * n3)); [ring | rewrite Z; ring].
Qed.
(** In particular head to wind without leeway, for every wind profile. *)
Theorem C84_head_to_wind : forall sp cd ns nc mode r main jib ref clr rr, (1 <= ns)%nat -> (1 <= nc)%nat -> cos (rad (cd_heel cd)) <> 0 -> In mode twist_modes -> valid_config r main jib ->
  uncambered main -> uncambered jib -> untwisted main -> untwisted jib -> run sp cd (Solver ns nc "linear" mode) r main jib ref clr = Ok rr ->
  cd_leeway cd = 0 -> sin (rad (cd_alpha cd)) = 0 -> along_panels (rr_vlm rr).
Proof.
  intros sp cd ns nc mode r main jib ref clr rr NS NC HC MO VC UM UJ TM TJ E LE WA. apply (C84_flat sp cd ns nc mode r main jib ref clr rr NS NC HC MO VC UM UJ TM TJ E). destruct (run_inv _ _ _ _ _ _ _ _ _ E) as (w & EW & EP & EG & EH & EV & EF).
  destruct (Vlm_inv _ _ _ _ _ _ _ _ (set_lengths _ _ _ _ _ _ _ EG) EV) as (vars & ic & g & net & CV & LV & IC & LI & _ & _ & FL). cbv zeta in FL.
  rewrite (f_inlet _ _ _ _ _ _ _ _ _ _ _ _ _ _ FL). unfold InletConditions in IC. apply bind_Ok in IC. destruct IC as (tws & T & IC). injection IC as <-. cbn [in_V].
  intros v I. apply in_map_iff in I. destruct I as (t & <- & I). apply (mapM_all _ (fun t => vy t = 0 /\ vz t = 0) _ _) with (2 := T) in I.
  - destruct t as [a b c]. cbn [vx vy vz] in I. destruct I as [-> ->]. unfold get_app_infs_at_h, ahead. cbn [vx vy vz]. rewrite LE, rad_0, cos_0, sin_0. exists (a + w_sog w)%N_. svec. vec_eq; ring.
  - intros p t' X. unfold get_true_wind_speed_at_h in X. apply bind_Ok in X. destruct X as (s & _ & X). injection X as <-. unfold length_to_xyz_vector, w_alpha. rewrite deg2rad_s.
    replace (w_alpha_deg w) with (cd_alpha cd). 2:{ rewrite (Wind_is _ _ EW). reflexivity. } rnum. cbn [vy vz]. rewrite WA. split; ring.
Qed.

(** ** What such a run reports *)
Lemma vsum_none l : all_none l -> vsum l = szero.
Proof.
  intros Z. rewrite vsum_ssum. induction l as [|a l IH]; [reflexivity|]. rewrite ssum_cons, IH by (intros v V; apply Z; simpl; auto). rewrite (Z a) by (simpl; auto). svec. vec_eq; ring.
Qed.
Lemma firstn_in {A} n (l : list A) a : In a (firstn n l) -> In a l.
Proof. intros I. rewrite <- (firstn_skipn n l). apply in_or_app. auto. Qed.
Lemma moments_none a f : all_none f -> all_none (calc_moments a f).
Proof. intros Z v I. apply zipWith_in in I. destruct I as (x & y & _ & Y & ->). rewrite (Z y Y). destruct x. tospec. svec. vec_eq; ring. Qed.
Lemma rm_none (g : vec R -> vec R) l : rotation_map g -> all_none l -> all_none (map g l).
Proof. intros RM Z v I. apply in_map_iff in I. destruct I as (x & <- & X). rewrite (Z x X). apply rm_zero, RM. Qed.
Lemma dict_rows {A} (P : A -> Prop) (rows : list (string * A)) : (forall q, In q rows -> P (snd q)) -> forall q, In q (py_dict rows) -> P (snd q).
Proof.
  intros H. unfold py_dict. assert (G : forall rows d, (forall q, In q rows -> P (snd q)) -> (forall q, In q d -> P (snd q)) -> forall q, In q (fold_left (fun d r => dict_set d (fst r) (snd r)) rows d) -> P (snd q)).
  { clear. induction rows as [|r rows IH]; intros d H D q Q; [apply D; exact Q|]. cbn [fold_left] in Q. revert q Q. apply IH; [intros q Q; apply H; simpl; auto|].
    assert (R : P (snd r)) by (apply H; simpl; auto). clear H IH. induction d as [|[k x] d IHd]; cbn [dict_set]; intros q Q.
    - destruct Q as [<-|[]]. exact R.
    - destruct (String.eqb k (fst r)); destruct Q as [<-|Q]; try exact R; try (apply D; simpl; auto; fail). apply IHd; [intros z Z; apply D; simpl; auto | exact Q]. }
  apply G; [exact H | intros q []].
Qed.
(** All numbers of the table of integrals are zero; the centre of effort and every curve of both section plots are undefined,
    although the run finishes. *)
Theorem C84_reported : forall sp cd sv r main jib ref clr rr, run sp cd sv r main jib ref clr = Ok rr -> along_panels (rr_vlm rr) ->
  (forall q, In q (integral_table (rr_flow rr) (rr_clr rr)) -> snd q = 0) /\
  fr_coe (chkFl (rr_flow rr)) = undef /\
  ((0 < sv_nc sv)%nat -> (0 < sv_ns sv)%nat -> 0 < cd_rho cd -> (forall u, In u (in_V (vl_inlet (rr_vlm rr))) -> u <> szero) ->
   exists P Q, cli_section_plots (finO (rr_vlm rr)) = Ok (P, Q) /\
     forall i, (i < length (ss_sails (rr_set rr)))%nat -> exists y y', curve P i = Some (repeat None (sv_ns sv), y) /\ curve Q i = Some (repeat None (sv_ns sv), y')).
Proof.
  intros sp cd sv r main jib ref clr rr E A. destruct (run_inv _ _ _ _ _ _ _ _ _ E) as (w & EW & EP & EG & EH & EV & EF).
  destruct (C84_solver _ _ _ _ _ _ _ _ (set_lengths _ _ _ _ _ _ _ EG) EV) as [_ Z]. destruct (Z A) as (_ & _ & _ & _ & ZF & ZL & ZD & _). clear Z.
  set (c := Csys (cd_heel cd) (cd_leeway cd) ref) in *.
  assert (T : fr_F_total (rr_flow rr) = szero /\ fr_M_total (rr_flow rr) = szero /\ fr_F_cl_total (rr_flow rr) = szero /\ fr_M_cl_total (rr_flow rr) = szero /\
    forall t, In t (fr_sails (rr_flow rr)) -> st_F t = szero /\ st_M t = szero).
  { unfold InviscidFlowResults in EF. cbv zeta in EF. apply bind_Ok in EF. destruct EF as (fch & F1 & EF). apply bind_Ok in EF. destruct EF as (rch & R1 & EF). apply Ok_inj in EF. rewrite <- EF.
    cbn [fr_F_total fr_M_total fr_F_cl_total fr_M_cl_total fr_sails].
    set (rr0 := calc_moment_arm_in_shifted_csys _ _) in *.
    assert (AW : forall l, all_none l -> vsum (above_water l) = szero) by (intros l L; apply vsum_none; intros v V; apply L; eapply firstn_in; exact V).
    pose proof (moments_none rr0 _ ZF) as ZM.
    split; [apply AW, ZF|]. split; [apply AW, ZM|].
    split; [apply AW; apply (rm_none (mapply (leeway_rotation_matrix c))); [apply leeway_rm | exact ZF]|].
    split; [apply AW; apply (rm_none (mapply (leeway_rotation_matrix c))); [apply leeway_rm | exact ZM]|].
    intros t I. apply in_map_iff in I. destruct I as ([i sl] & <- & _). cbn [fst snd st_F st_M].
    assert (ZI : all_none (nth i fch [])). { intros v V. apply ZF. destruct (nth_in_or_default i fch []) as [X|X]; [|rewrite X in V; destruct V]. eapply firstn_in. eapply array_split_in; eassumption. }
    split; [apply vsum_none, ZI | apply vsum_none, moments_none, ZI]. }
  destruct T as (T1 & T2 & T3 & T4 & T5). split; [|split].
  - intros q Q. apply in_sort in Q. revert q Q. apply (dict_rows (fun x => x = 0)). unfold integral_rows. destruct (keel_moment (rr_flow rr) (rr_clr rr)) as [mk mkc] eqn:K.
    unfold keel_moment in K. rewrite T1 in K. injection K as K1 K2. assert (Z1 : mk = szero) by (rewrite <- K1; destruct (rr_clr rr); tospec; vnum; svec; vec_eq; ring).
    assert (Z2 : mkc = szero) by (rewrite <- K2, K1, Z1; apply rm_zero, leeway_rm). rewrite Z1, Z2, T1, T2, T3, T4.
    assert (XR : forall n v q, v = szero -> In q (xyz_rows n v) -> snd q = 0). { intros n v q -> Q. destruct Q as [<-|[<-|[<-|[]]]]; reflexivity. }
    assert (CR : forall n v q, v = szero -> In q (cow_rows n v) -> snd q = 0). { intros n v q -> Q. destruct Q as [<-|[<-|[<-|[<-|[]]]]]; cbn [snd vx vy vz szero]; try reflexivity. rnum. ring. }
    assert (SS : vadd szero szero = szero) by (tospec; svec; vec_eq; ring).
    intros q Q. repeat (apply in_app_or in Q; destruct Q as [Q|Q]; [first [apply (XR _ _ _ SS Q) | apply (CR _ _ _ SS Q) | apply (XR _ _ _ eq_refl Q) | apply (CR _ _ _ eq_refl Q)]|]).
    apply in_flat_map in Q. destruct Q as (t & I & Q). destruct (T5 t I) as [TF TM]. apply in_app_or in Q. destruct Q as [Q|Q]; [apply (XR _ _ _ TF Q) | apply (XR _ _ _ TM Q)].
  - unfold chkFl, chk_coe. cbn [fr_coe]. rewrite T1. replace (zerob szero) with true by (symmetry; apply zerob_true; reflexivity). reflexivity.
  - intros NC NS RP NV. destruct (C83_plots _ _ _ _ _ _ _ _ _ E NC NS RP NV) as (p & q & P & Q & _ & E2 & X). exists P, Q. split; [exact E2|]. intros i Hi.
    assert (NB : forall f, all_none f -> ~ bears (sv_nc sv) (sv_ns sv) i f).
    { intros f ZZ (a & b & _ & _ & N). apply N. destruct (nth_in_or_default (cell (sv_nc sv) (sv_ns sv) i a b) f szero) as [I|I]; [apply ZZ, I | exact I]. }
    destruct (X i Hi) as ((x & y & _ & _ & Y) & (x' & y' & _ & _ & Y')). do 2 eexists. split; [apply Y, NB, ZD | apply Y', NB, ZL].
Qed.

(** ** The case: the flat sail of L_Demo head to wind *)
Definition lull_wind : wind R := Wind_ 0 3 4 Flat.
Definition lull_conditions : @conditions R := Conditions 0 0 4 3 0 (Some 0) (Some (1/7)) (Some 10) 1 "flat" None.
Definition lull_V (k : nat) : vec R := V3 7 0 0.
Definition lull_a : R := -7/12/(4*PI).
Definition lull_b : R := 1/24/(4*PI).
Lemma lull_00 : vy (infl demo_t demo_vars lull_V (V3 36 0 (25/2)) 0) = lull_a.
Proof.
  destruct demo_v0 as (_ & _ & _ & R0 & _). unfold infl, influence, demo_t. rewrite R0. cbn [rA rB rC rD]. unfold vortex_horseshoe_v2, lull_V. cbv zeta.
  rewrite (line_val (V3 36 0 (25/2)) (V3 60 0 (11/2)) (V3 12 0 (11/2)) 25 25) by (first [unfold ssub; cbn [vx vy vz]; apply snorm_val; lra | svec; lra]).
  rewrite (line_val (V3 36 0 (25/2)) (V3 12 0 (11/2)) (V3 12 0 (39/2)) 25 25) by (first [unfold ssub; cbn [vx vy vz]; apply snorm_val; lra | svec; lra]).
  rewrite (line_val (V3 36 0 (25/2)) (V3 12 0 (39/2)) (V3 60 0 (39/2)) 25 25) by (first [unfold ssub; cbn [vx vy vz]; apply snorm_val; lra | svec; lra]).
  rewrite !(inf_val (V3 36 0 (25/2)) _ (V3 7 0 0) _ 7 25) by (first [unfold ssub; cbn [vx vy vz]; apply snorm_val; lra]).
  tospec. rnum. svec. unfold lull_a. pose proof PI_RGT_0. field. lra.
Qed.
Lemma lull_01 : vy (infl demo_t demo_vars lull_V (V3 36 0 (25/2)) 1) = lull_b.
Proof.
  destruct demo_v0 as (_ & _ & _ & R0 & _). unfold infl, influence, demo_t. rewrite (mv_ring _ _ demo_v1), R0. cbn [rA rB rC rD]. unfold vortex_horseshoe_v2, lull_V. cbv zeta.
  unfold smirror. cbn [vx vy vz].
  rewrite (line_val (V3 36 0 (25/2)) (V3 60 0 (-(39/2))) (V3 12 0 (-(39/2))) 40 40) by (first [unfold ssub; cbn [vx vy vz]; apply snorm_val; lra | svec; lra]).
  rewrite (line_val (V3 36 0 (25/2)) (V3 12 0 (-(39/2))) (V3 12 0 (-(11/2))) 40 30) by (first [unfold ssub; cbn [vx vy vz]; apply snorm_val; lra | svec; lra]).
  rewrite (line_val (V3 36 0 (25/2)) (V3 12 0 (-(11/2))) (V3 60 0 (-(11/2))) 30 30) by (first [unfold ssub; cbn [vx vy vz]; apply snorm_val; lra | svec; lra]).
  rewrite (inf_val (V3 36 0 (25/2)) (V3 60 0 (-(11/2))) (V3 7 0 0) _ 7 30) by (first [unfold ssub; cbn [vx vy vz]; apply snorm_val; lra]).
  rewrite (inf_val (V3 36 0 (25/2)) (V3 60 0 (-(39/2))) (V3 7 0 0) _ 7 40) by (first [unfold ssub; cbn [vx vy vz]; apply snorm_val; lra]).
  tospec. rnum. svec. unfold lull_b. pose proof PI_RGT_0. field. lra.
Qed.
Definition lull_m (k l : nat) : R := if Nat.eqb k l then lull_a else lull_b.
Lemma lull_acoef k l : (k < 2)%nat -> (l < 2)%nat -> acoef demo_t demo_vars lull_V k l = lull_m k l.
Proof.
  destruct demo_v0 as (N0 & C0 & P0 & R0 & S0). pose proof demo_v1 as M.
  assert (N1 : pv_n (demo_vars 1) = V3 0 1 0) by (rewrite (mv_n _ _ M), N0; svec; vec_eq; ring).
  assert (VV : forall k, lull_V k = smirror (lull_V k)) by (intros; unfold lull_V; svec; vec_eq; ring).
  assert (R1 : Ring (smirror (rD (pv_ring (demo_vars 1)))) (smirror (rC (pv_ring (demo_vars 1)))) (smirror (rB (pv_ring (demo_vars 1)))) (smirror (rA (pv_ring (demo_vars 1)))) = pv_ring (demo_vars 0)).
  { rewrite (mv_ring _ _ M), R0. cbn [rA rB rC rD]. f_equal; svec; vec_eq; ring. }
  assert (I11 : infl demo_t demo_vars lull_V (smirror (V3 36 0 (25/2))) 1 = smirror (infl demo_t demo_vars lull_V (V3 36 0 (25/2)) 0)).
  { unfold infl. rewrite (mv_ring _ _ M), (VV 1%nat). apply influence_mirror. }
  assert (I10 : infl demo_t demo_vars lull_V (smirror (V3 36 0 (25/2))) 0 = smirror (infl demo_t demo_vars lull_V (V3 36 0 (25/2)) 1)).
  { unfold infl. rewrite <- R1, (VV 0%nat). apply influence_mirror. }
  intros Hk Hl. assert (KL : (k = 0 \/ k = 1)%nat) by lia. assert (LL : (l = 0 \/ l = 1)%nat) by lia.
  unfold acoef, lull_m. destruct KL as [-> | ->], LL as [-> | ->]; cbn [Nat.eqb]; rewrite ?(mv_ctr _ _ M), ?N0, ?N1, C0, infl_dot_y, ?I11, ?I10;
    unfold smirror; cbn [vx vy vz]; first [apply lull_00 | apply lull_01].
Qed.
Lemma lull_solved : solved 2 1 demo_panels [false; false] demo_t demo_vars lull_V (fun _ => 0) (fun _ => 0).
Proof.
  assert (AB : lull_a + lull_b < 0 /\ lull_a - lull_b < 0). { unfold lull_a, lull_b. pose proof PI_RGT_0 as P. assert (Q : 0 < / (4 * PI)) by (apply Rinv_0_lt_compat; lra). unfold Rdiv. split; nra. }
  destruct AB as [AB AB']. constructor.
  - intros k Hk. rewrite sumn2. assert (KL : (k = 0 \/ k = 1)%nat) by lia. destruct KL as [-> | ->]; rewrite ?(mv_n _ _ demo_v1), (proj1 demo_v0); unfold lull_V; svec; ring.
  - intros z Z. pose proof (Z 0%nat ltac:(lia)) as Z0. pose proof (Z 1%nat ltac:(lia)) as Z1. rewrite sumn2, !lull_acoef in Z0, Z1 by lia.
    unfold lull_m in *. cbn [Nat.eqb] in *.
    assert (P : z 0%nat + z 1%nat = 0) by nra. assert (M : z 0%nat - z 1%nat = 0) by nra.
    intros l L. assert (LL : (l = 0 \/ l = 1)%nat) by lia. destruct LL as [-> | ->]; lra.
  - rewrite demo_areas. intros a [<-|[<-|[]]]; rewrite ndec_R; change (10 ^ 14)%Z with 100000000000000%Z; lra.
  - intros k Hk. assert (KL : (k = 0 \/ k = 1)%nat) by lia. destruct KL as [-> | ->]; reflexivity.
Qed.
Lemma lull_inlet : exists ic, InletConditions lull_wind (map pv_cp [demo_vars 0; demo_vars 1]) = Ok ic /\ in_V ic = [V3 7 0 0; V3 7 0 0].
Proof.
  eexists. split; [reflexivity|]. cbn [in_V map].
  assert (W : get_app_infs_at_h lull_wind (length_to_xyz_vector lull_wind 3) = V3 7 0 0).
  { unfold get_app_infs_at_h, length_to_xyz_vector, w_alpha, lull_wind. cbn [w_alpha_deg w_sog vx vy vz]. rewrite !deg2rad_s, rad_0. rnum. rewrite cos_0, sin_0. vec_eq; ring. }
  change (w_tws lull_wind) with 3. rewrite W. reflexivity.
Qed.
Lemma lull_Vlm rho : exists o, Vlm demo_panels 1 1 rho lull_wind [true; true] [false; false] = Ok o /\ in_V (vl_inlet o) = [V3 7 0 0; V3 7 0 0].
Proof.
  destruct lull_inlet as (ic & IC & EI).
  destruct (vlm_solve_make 2 1 rho demo_panels [false; false] demo_t demo_vars lull_V 1 [true; true] [demo_vars 0; demo_vars 1] ic _ _ eq_refl eq_refl eq_refl EI lull_solved) as (o & E & FL).
  exists o. split; [unfold Vlm; rewrite gor_R, demo_vars_ok; unfold bind at 1; rewrite IC; exact E|]. rewrite (f_inlet _ _ _ _ _ _ _ _ _ _ _ _ _ _ FL). exact EI.
Qed.
Lemma lull_run spline b clr : exists rr, run spline lull_conditions demo_solver (demo_rig (Some b)) (Some demo_main) None szero clr = Ok rr /\
  in_V (vl_inlet (rr_vlm rr)) = [V3 7 0 0; V3 7 0 0] /\ length (ss_sails (rr_set rr)) = 1%nat.
Proof.
  destruct (demo_sail_set spline (Some b)) as (s & ss & GS & SS & NM & B & P & T & L). destruct (lull_Vlm 1) as (v & EV & EI).
  assert (EV' : Vlm (ss_panels ss) 1 1 1 lull_wind (ss_te ss) (ss_le ss) = Ok v) by (rewrite P, T, L; exact EV).
  destruct (C48_run 1 1 [s] ss 1 lull_wind v (Csys 0 0 szero)) as (fr & EF & _); [intros x [<-|[]]; exact B|exact SS|exact EV'|].
  destruct (hull_ok 1 b (Csys 0 0 szero) clr) as (h & EH & _).
  exists (RunResult ss h v fr). cbn [rr_set rr_vlm rr_flow]. split; [|split; [exact EI|]; apply Ok_inj in SS; rewrite <- SS; reflexivity].
  unfold run. cbn [lull_conditions cd_heel cd_leeway]. replace (Wind _) with (Ok lull_wind) by reflexivity. unfold bind at 1.
  replace (Sail_post_init _ _ _) with (Ok tt) by reflexivity. unfold bind at 1. rewrite GS. unfold bind at 1.
  cbn [demo_rig rg_sheer rg_base]. rewrite EH. unfold bind at 1. cbn [demo_solver sv_nc sv_ns lull_conditions cd_rho]. rewrite EV'. unfold bind at 1. rewrite EF. reflexivity.
Qed.
Example C84_case sp b clr : exists rr, run sp lull_conditions demo_solver (demo_rig (Some b)) (Some demo_main) None szero clr = Ok rr /\
  along_panels (rr_vlm rr) /\ (forall u, In u (in_V (vl_inlet (rr_vlm rr))) -> u <> szero).
Proof.
  destruct (lull_run sp b clr) as (rr & E & EI & _). exists rr. split; [exact E|]. split.
  - apply (C84_head_to_wind sp lull_conditions 1 1 "real_twist" (demo_rig (Some b)) (Some demo_main) None szero clr rr); try (apply le_n); try exact E; try discriminate; try (cbn; auto; fail).
    + cbn. rewrite rad_0, cos_0. lra.
    + apply demo_main_valid.
    + intros d l v D. injection D as <-. cbn. intros L. injection L as <-. cbn. intros [<-|[<-|[]]]; reflexivity.
    + intros d l v D. injection D as <-. cbn. intros L. injection L as <-. cbn. intros [<-|[<-|[]]]; reflexivity.
    + cbn. rewrite rad_0, sin_0. reflexivity.
  - rewrite EI. intros u [<-|[<-|[]]] H; injection H; lra.
Qed.
(** Hence not every finished run of a valid configuration has a defined centre of effort and defined section plots. *)
Theorem C84_defined_refuted : exists sp cd sv r main jib ref clr rr P Q y y', valid_config r main jib /\ run sp cd sv r main jib ref clr = Ok rr /\
  fr_coe (chkFl (rr_flow rr)) = undef /\ cli_section_plots (finO (rr_vlm rr)) = Ok (P, Q) /\ curve P 0 = Some ([None], y) /\ curve Q 0 = Some ([None], y').
Proof.
  set (sp := (fun _ _ y => Ok y) : @spline_oracle R).
  assert (X : exists rr, run sp lull_conditions demo_solver (demo_rig (Some 0)) (Some demo_main) None szero szero = Ok rr /\ along_panels (rr_vlm rr) /\ (forall u, In u (in_V (vl_inlet (rr_vlm rr))) -> u <> szero) /\
    length (ss_sails (rr_set rr)) = 1%nat).
  { destruct (lull_run sp 0 szero) as (rr & E & _ & L). destruct (C84_case sp 0 szero) as (rr' & E' & A & N). rewrite E in E'. apply Ok_inj in E'. subst rr'. exists rr. auto. }
  destruct X as (rr & E & A & N & L). destruct (C84_reported _ _ _ _ _ _ _ _ _ E A) as (_ & C & S).
  destruct S as (P & Q & EP & S); [cbn; lia|cbn; lia|cbn; lra|exact N|]. destruct (S 0%nat) as (y & y' & Y & Y'); [rewrite L; lia|].
  exists sp, lull_conditions, demo_solver, (demo_rig (Some 0)), (Some demo_main), None, szero, szero, rr, P, Q, y, y'.
  split; [apply demo_main_valid|]. split; [exact E|]. split; [exact C|]. split; [exact EP|]. split; [exact Y | exact Y'].
Qed.
Print Assumptions C84_solver.
Print Assumptions C84_flat.
Print Assumptions C84_head_to_wind.
Print Assumptions C84_reported.
Print Assumptions C84_defined_refuted.
