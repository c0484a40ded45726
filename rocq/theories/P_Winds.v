(** Wind profiles, apparent wind and the wind configuration: C25 to C28. *)

From Coq Require Import String ZArith Reals List Bool Lra Psatz Lia.
From Verif Require Import Num PyBase RNum CNum Spec M_Csys M_Winds M_Runner L_List L_Rot L_Vel L_Csys L_Angle.
Import ListNotations.
Open Scope R_scope.

(** ** C25 *)
(** a horizontal wind of speed [s] (negative: reversed) in the direction of [deg] degrees *)
Definition blows (deg s : R) (v : vec R) : Prop := v = V3 (s * cos (rad deg)) (s * sin (rad deg)) 0.
Lemma xyz_blows w s : blows (w_alpha_deg w) s (length_to_xyz_vector w s).
Proof. unfold blows, length_to_xyz_vector, w_alpha. rewrite (deg2rad_s (w_alpha_deg w)). reflexivity. Qed.
Lemma Rpow_1 e : Rpow 1 e = 1.
Proof. unfold Rpow. destruct (Rlt_dec 0 1); [|lra]. unfold Rpower. rewrite ln_1, Rmult_0_r, exp_0. reflexivity. Qed.
Lemma Rpow_nonneg x e : 0 <= Rpow x e.
Proof. unfold Rpow. destruct (Rlt_dec 0 x). - unfold Rpower. left; apply exp_pos. - destruct (Req_EM_T e 0); lra. Qed.
Lemma Rpow_lt x y e : 0 < e -> 0 <= x -> x < y -> Rpow x e < Rpow y e.
Proof.
  intros E X Y. unfold Rpow. destruct (Rlt_dec 0 y); [|lra]. destruct (Rlt_dec 0 x).
  - unfold Rpower. apply exp_increasing. apply Rmult_lt_compat_l; [assumption|]. apply ln_increasing; assumption.
  - destruct (Req_EM_T e 0); [lra|]. unfold Rpower. apply exp_pos.
Qed.

(** every profile blows horizontally in the direction alpha *)
Theorem C25_direction : forall w h v, get_true_wind_speed_at_h w h = Ok v -> exists s, wind_speed_at_h w h = Ok s /\ blows (w_alpha_deg w) s v.
Proof.
  intros w h v E. unfold get_true_wind_speed_at_h in E. destruct (wind_speed_at_h w h) as [s|]; [|discriminate]. unfold bind in E. injection E as <-.
  exists s. split; [reflexivity|]. apply xyz_blows.
Qed.
(** flat: the reference wind at every height *)
Theorem C25_flat : forall al tws sog h, exists v, get_true_wind_speed_at_h (Wind_ al tws sog Flat) h = Ok v /\ blows al tws v.
Proof. intros. eexists. split; [reflexivity|]. apply (xyz_blows (Wind_ al tws sog Flat)). Qed.
(** logarithmic *)
Theorem C25_logarithmic : forall al tws sog r rh, 0 < r < rh ->
  exists s, (forall h, exists v, get_true_wind_speed_at_h (Wind_ al tws sog (Log (Some r) (Some rh))) h = Ok v /\ blows al (s h) v) /\
    s rh = tws /\ s r = 0 /\
    (0 < tws -> forall h h', 0 < h < h' -> s h < s h') /\
    (0 < tws -> forall h, 0 < h < r -> s h < 0).
Proof.
  intros al tws sog r rh RR. set (w := Wind_ al tws sog (Log (Some r) (Some rh))). exists (fun h => tws * (ln (h / r) / ln (rh / r))).
  assert (LP : 0 < ln (rh / r)). { rewrite <- ln_1. apply ln_increasing; [lra|]. apply Rmult_lt_reg_r with r; [lra|]. unfold Rdiv. rewrite Rmult_assoc, Rinv_l by lra. lra. }
  split; [|split; [|split]].
  - intros h. eexists. split; [reflexivity|]. apply (xyz_blows w).
  - field. lra.
  - replace (r / r) with 1 by (field; lra). rewrite ln_1. unfold Rdiv. ring.
  - assert (M : forall h h', 0 < h < h' -> ln (h / r) < ln (h' / r)).
    { intros h h' H. assert (0 < / r) by (apply Rinv_0_lt_compat; lra). apply ln_increasing; unfold Rdiv; nra. }
    assert (I : 0 < / ln (rh / r)) by (apply Rinv_0_lt_compat; assumption).
    split; intros T h.
    + intros h' H. specialize (M h h' H). unfold Rdiv at 2 4. apply Rmult_lt_compat_l; [assumption|]. apply Rmult_lt_compat_r; assumption.
    + intros H. specialize (M h r H). replace (r / r) with 1 in M by (field; lra). rewrite ln_1 in M. unfold Rdiv at 1. assert (ln (h / r) * / ln (rh / r) < 0) by nra. nra.
Qed.
(** exponential *)
Theorem C25_exponential : forall al tws sog e rh wl, 0 < e -> 0 < rh ->
  exists s, (forall h, exists v, get_true_wind_speed_at_h (Wind_ al tws sog (Exp (Some e) (Some rh) (Some wl))) h = Ok v /\ blows al (s h) v) /\
    s (wl + rh) = tws /\
    (0 < tws -> forall h h', wl <= h < h' -> s h < s h') /\
    (0 <= tws -> forall h, wl <= h -> 0 <= s h).
Proof.
  intros al tws sog e rh wl E RH. set (w := Wind_ al tws sog (Exp (Some e) (Some rh) (Some wl))). exists (fun h => tws * Rpow ((h - wl) / rh) e).
  assert (I : 0 < / rh) by (apply Rinv_0_lt_compat; assumption).
  split; [|split; [|split]].
  - intros h. eexists. split; [reflexivity|]. apply (xyz_blows w).
  - replace ((wl + rh - wl) / rh) with 1 by (field; lra). rewrite Rpow_1. ring.
  - intros T h h' H. apply Rmult_lt_compat_l; [assumption|]. apply Rpow_lt; [assumption| |]; unfold Rdiv; nra.
  - intros T h H. apply Rmult_le_pos; [assumption | apply Rpow_nonneg].
Qed.
(** below the reference water level the exponential profile is not defined (NaN), above it is; on checked real numbers *)
Theorem C25_exponential_defined : forall tws al sog e rh wl h, 0 < e -> 0 < rh ->
  exists s, wind_speed_at_h (Wind_ (Some al) (Some tws) (Some sog) (Exp (Some (Some e)) (Some (Some rh)) (Some (Some wl)))) (Some h) = Ok s /\
    (s = None <-> h < wl).
Proof.
  intros tws al sog e rh wl h E RH. eexists. split; [reflexivity|]. cbn [w_tws].
  change (nsub (Some h) (Some wl)) with (Some (h - wl)). rewrite some_div by lra.
  assert (I : 0 < / rh) by (apply Rinv_0_lt_compat; assumption).
  cbn [npow nmul CNum]. unfold lift2, CNum.guard. destruct (Rltb 0 ((h - wl) / rh) || Reqb ((h - wl) / rh) 0 && Rltb 0 e) eqn:B.
  - split; [discriminate|]. intros L. exfalso. assert (N : (h - wl) / rh < 0) by (unfold Rdiv; nra). apply orb_prop in B. destruct B as [B|B].
    + apply Rltb_true in B. lra. + apply andb_prop in B. destruct B as [B _]. apply Reqb_true in B. lra.
  - split; [|reflexivity]. intros _. apply orb_false_elim in B. destruct B as [B1 B2]. apply Rltb_false in B1.
    destruct (Rlt_le_dec h wl) as [L|L]; [assumption|]. exfalso. assert (P : 0 <= (h - wl) / rh) by (unfold Rdiv; nra).
    replace (Reqb ((h - wl) / rh) 0) with true in B2 by (symmetry; apply Reqb_true; lra). replace (Rltb 0 e) with true in B2 by (symmetry; apply Rltb_true; assumption). discriminate.
Qed.
(** with a raised reference water level the report "at reference height" is not the reference wind:
    the report asks for the height above the water, the profile measures from the reference level (winds.py 117, 122) *)
Theorem C25_report_refuted : exists w c rh tws v app awa awa', w_prof w = Exp (Some 1) (Some rh) (Some 1) /\ w_tws w = tws /\ 0 < tws /\
  exp_integral_report w c rh = Ok (v, app, awa, awa') /\ ~ blows (w_alpha_deg w) tws v.
Proof.
  exists (Wind_ 0 8 0 (Exp (Some 1) (Some 10) (Some 1))), (Csys 0 0 szero), 10, 8. do 4 eexists.
  split; [reflexivity|]. split; [reflexivity|]. split; [lra|]. split; [reflexivity|].
  pose proof (xyz_blows (Wind_ 0 8 0 (Exp (Some 1) (Some 10) (Some 1))) (8 * Rpow ((10 - 1) / 10) 1)) as B. intros C. unfold blows in *. cbn [w_alpha_deg w_tws] in *.
  rnum. rewrite C in B. injection B as B _. replace (rad 0) with 0 in B by (unfold rad; ring). rewrite cos_0 in B.
  unfold Rpow in B. destruct (Rlt_dec 0 ((10 - 1) / 10)) as [P|P]; [|lra]. rewrite Rpower_1 in B by assumption. lra.
Qed.

Example C25_case : 0 < 1/20 < 10 /\ 0 < 1428/10000 /\ (exists v, get_true_wind_speed_at_h (Wind_ 50 8 4 (Log (Some (1/20)) (Some 10))) 5 = Ok v) /\
  exists v, get_true_wind_speed_at_h (Wind_ 50 8 4 (Exp (Some (1428/10000)) (Some 10) (Some 0))) 5 = Ok v.
Proof. split; [lra|]. split; [lra|]. split; eexists; reflexivity. Qed.

(** ** C26 *)
(** the apparent wind: true wind at the height of the centre of pressure plus the yacht speed along x *)
Theorem C26_apparent_wind : forall w cps ic, InletConditions w cps = Ok ic ->
  length (in_V ic) = length cps /\ length (in_awa_deg ic) = length cps /\
  forall k p, nth_error cps k = Some p -> exists u V a,
    get_true_wind_speed_at_h w (Rabs (vz p)) = Ok u /\ nth_error (in_tws ic) k = Some u /\
    nth_error (in_V ic) k = Some V /\ V = sadd u (V3 (w_sog w) 0 0) /\ horizontal V /\ nth_error (in_awa_deg ic) k = Some a /\
    (V <> szero -> is_direction (rad a) (vx V) (vy V)).
Proof.
  intros w cps ic E. unfold InletConditions in E. destruct (mapM _ cps) as [tws|] eqn:T; [|discriminate]. unfold bind in E. injection E as <-. cbn [in_V in_tws in_awa_deg].
  rewrite !map_length, (mapM_length _ _ _ T). split; [reflexivity|]. split; [reflexivity|]. intros k p P.
  destruct (mapM_nth _ _ _ _ _ T P) as (u & U & U'). exists u, (get_app_infs_at_h w u), (rad2deg (natan2 (vy (get_app_infs_at_h w u)) (vx (get_app_infs_at_h w u)))). rewrite !nth_error_map, U. cbn [option_map].
  split; [exact U'|]. split; [reflexivity|]. split; [reflexivity|].
  assert (H : horizontal u). { destruct (C25_direction _ _ _ U') as (s & _ & ->). reflexivity. }
  assert (A : get_app_infs_at_h w u = sadd u (V3 (w_sog w) 0 0)). { unfold get_app_infs_at_h. destruct u as [a b c]. rnum. svec. vec_eq; ring. }
  assert (HV : horizontal (get_app_infs_at_h w u)). { unfold horizontal in *. unfold get_app_infs_at_h. exact H. }
  split; [exact A|]. split; [exact HV|]. split; [reflexivity|]. intros N. rewrite (rad_rad2deg (natan2 _ _)). apply atan2_direction.
  set (V := get_app_infs_at_h w u) in *. destruct (Req_dec (vx V) 0) as [X|]; [|auto]. destruct (Req_dec (vy V) 0) as [Y|]; [|auto]. exfalso. apply N.
  unfold horizontal in HV. destruct V as [a b c]. cbn [vx vy vz] in *. subst. reflexivity.
Qed.
(** mirror images in the water plane get the same inflow *)
Theorem C26_mirror : forall w cps ic i j p, InletConditions w cps = Ok ic -> nth_error cps i = Some p -> nth_error cps j = Some (smirror p) ->
  nth_error (in_V ic) i = nth_error (in_V ic) j.
Proof.
  intros w cps ic i j p E I J. unfold InletConditions in E. destruct (mapM _ cps) as [tws|] eqn:T; [|discriminate]. unfold bind in E. injection E as <-. cbn [in_V].
  destruct (mapM_nth _ _ _ _ _ T I) as (u & U & U'). destruct (mapM_nth _ _ _ _ _ T J) as (v & V & V'). rewrite !nth_error_map, U, V.
  assert (Z : nabs (vz (smirror p)) = nabs (vz p)). { destruct p as [px py pz]. cbn [smirror vx vy vz]. rnum. apply Rabs_Ropp. } rewrite Z in V'. congruence.
Qed.
Example C26_case : exists ic, InletConditions (Wind_ 50 8 4 (Log (Some (1/20)) (Some 10))) [V3 1 2 5; V3 1 2 (-5)] = Ok ic.
Proof. eexists. reflexivity. Qed.

(** ** C27 *)
Lemma app_sq V t a : (V + t * cos a) ^ 2 + (t * sin a) ^ 2 = V * V + 2 * V * t * cos a + t * t.
Proof. pose proof (sin2_cos2 a) as S. unfold Rsqr in S. nra. Qed.
Lemma tws_norm w s : 0 <= s -> vnorm (length_to_xyz_vector w s) = s.
Proof.
  intros S. unfold length_to_xyz_vector. set (a := w_alpha w). tospec. unfold snorm. cbn [vx vy vz]. rnum.
  replace (_ + _ + _) with (s * s). - apply sqrt_square; assumption.
  - pose proof (sin2_cos2 a) as T. unfold Rsqr in T. nra.
Qed.
Lemma awa_angle w s (V := w_sog w) (a := rad (w_alpha_deg w)) (r := sqrt (V * V + 2 * V * s * cos a + s * s)) : 0 <= s ->
  get_app_alfa_infs_at_h w (length_to_xyz_vector w s) = a - acos ((V * cos a + s) / r).
Proof.
  intros S. unfold get_app_alfa_infs_at_h. cbv zeta. rewrite tws_norm by assumption. unfold w_alpha. rewrite !(deg2rad_s (w_alpha_deg w)). reflexivity.
Qed.
Section AWA.
Context (V s a : R).
Let r := sqrt (V * V + 2 * V * s * cos a + s * s).
Lemma r_sq : r * r = V * V + 2 * V * s * cos a + s * s.
Proof. apply sqrt_sqrt. rewrite <- app_sq. pose proof (pow2_ge_0 (V + s * cos a)). pose proof (pow2_ge_0 (s * sin a)). lra. Qed.
Lemma r_pos : V + s * cos a <> 0 \/ s * sin a <> 0 -> 0 < r.
Proof.
  intros N. pose proof (sqrt_pos (V * V + 2 * V * s * cos a + s * s)) as P. fold r in P. destruct P as [P|P]; [assumption|]. exfalso.
  pose proof r_sq as Q. rewrite <- app_sq in Q. rewrite <- P in Q.
  pose proof (pow2_ge_0 (V + s * cos a)). pose proof (pow2_ge_0 (s * sin a)). destruct N as [N|N]; apply N; nra.
Qed.
Lemma acos_arg (P : 0 < r) : -1 <= (V * cos a + s) / r <= 1 /\ r * cos (acos ((V * cos a + s) / r)) = V * cos a + s /\
  r * sin (acos ((V * cos a + s) / r)) = Rabs (V * sin a).
Proof.
  pose proof r_sq as Q. pose proof (sin2_cos2 a) as T. unfold Rsqr in T.
  assert (B : -1 <= (V * cos a + s) / r <= 1).
  { assert (X : (V * cos a + s) * (V * cos a + s) <= r * r) by (rewrite Q; nra).
    assert (- r <= V * cos a + s <= r) by (split; nra).
    split; apply Rmult_le_reg_r with r; try assumption; unfold Rdiv; rewrite Rmult_assoc, Rinv_l by lra; lra. }
  split; [exact B|]. rewrite cos_acos, sin_acos by assumption. split; [field; lra|].
  rewrite <- (sqrt_square r) at 1 by lra. rewrite <- sqrt_mult_alt by nra. rewrite <- sqrt_Rsqr_abs. f_equal. unfold Rsqr.
  replace (r * r * (1 - (V * cos a + s) / r * ((V * cos a + s) / r))) with (r * r - (V * cos a + s) * (V * cos a + s)) by (field; lra).
  rewrite Q. nra.
Qed.
End AWA.
Theorem C27_angle : forall w s, 0 <= w_alpha_deg w <= 180 -> 0 <= w_sog w -> 0 <= s ->
  let u := length_to_xyz_vector w s in let app := get_app_infs_at_h w u in app <> szero ->
  is_direction (get_app_alfa_infs_at_h w u) (vx app) (vy app).
Proof.
  intros w s A HV HS u app N. subst u. rewrite awa_angle by assumption. unfold app, get_app_infs_at_h in *.
  pose proof (xyz_blows w s) as B. unfold blows in B. rewrite B in *. cbn [vx vy vz] in *. set (a := rad (w_alpha_deg w)) in *. set (V := w_sog w) in *. rnum.
  set (r := sqrt (V * V + 2 * V * s * cos a + s * s)).
  assert (N' : V + s * cos a <> 0 \/ s * sin a <> 0). { destruct (Req_dec (V + s * cos a) 0) as [X|]; [|auto]. destruct (Req_dec (s * sin a) 0) as [Y|]; [|auto]. exfalso. apply N. unfold szero. vec_eq; lra. }
  pose proof (r_pos V s a N') as RP. destruct (acos_arg V s a RP) as (AB & CA & SA). fold r in RP, AB, CA, SA.
  pose proof PI_RGT_0 as PP. assert (RA : 0 <= a <= PI). { unfold a, rad. split; nra. }
  assert (SN : 0 <= sin a) by (apply sin_ge_0; lra). rewrite Rabs_right in SA by (apply Rle_ge; apply Rmult_le_pos; assumption).
  assert (AC : 0 <= acos ((V * cos a + s) / r) <= PI) by (apply acos_bound).
  set (phi := acos ((V * cos a + s) / r)) in *. clearbody phi.
  assert (HY : sqrt ((s * cos a + V) ^ 2 + (s * sin a) ^ 2) = r). { unfold r. rewrite <- app_sq. do 2 f_equal. f_equal. ring. }
  unfold is_direction. rewrite HY. pose proof (sin2_cos2 a) as T. unfold Rsqr in T.
  assert (C : r * cos (a - phi) = V + s * cos a). { rewrite cos_minus. replace (r * (cos a * cos phi + sin a * sin phi)) with (cos a * (r * cos phi) + sin a * (r * sin phi)) by ring. rewrite CA, SA. nra. }
  assert (S : r * sin (a - phi) = s * sin a). { rewrite sin_minus. replace (r * (sin a * cos phi - cos a * sin phi)) with (sin a * (r * cos phi) - cos a * (r * sin phi)) by ring. rewrite CA, SA. nra. }
  split; [|split; lra]. split; [|lra].
  destruct (Rlt_le_dec (- PI) (a - phi)) as [L|L]; [assumption|]. exfalso. assert (a = 0) by lra. assert (phi = PI) by lra. clearbody a. subst a phi. rewrite cos_0 in CA. rewrite cos_PI in CA. nra.
Qed.
(** for wind from the other side the angle is always wrong *)
Theorem C27_other_side_wrong : forall w s, -180 < w_alpha_deg w < 0 -> 0 < w_sog w -> 0 < s ->
  let u := length_to_xyz_vector w s in let app := get_app_infs_at_h w u in
  ~ is_direction (get_app_alfa_infs_at_h w u) (vx app) (vy app).
Proof.
  intros w s A HV HS u app D. subst u. rewrite awa_angle in D by lra. unfold app, get_app_infs_at_h in *.
  pose proof (xyz_blows w s) as B. unfold blows in B. rewrite B in *. cbn [vx vy vz] in *. set (a := rad (w_alpha_deg w)) in *. set (V := w_sog w) in *. rnum.
  set (r := sqrt (V * V + 2 * V * s * cos a + s * s)) in *.
  pose proof PI_RGT_0 as PP. assert (RA : - PI < a < 0). { unfold a, rad. split; nra. }
  assert (SN : sin a < 0). { rewrite <- (Ropp_involutive a), sin_neg. apply Ropp_lt_cancel. rewrite Ropp_0, Ropp_involutive. apply sin_gt_0; lra. }
  assert (N' : V + s * cos a <> 0 \/ s * sin a <> 0). { right. nra. }
  pose proof (r_pos V s a N') as RP. destruct (acos_arg V s a RP) as (AB & CA & SA). fold r in RP, AB, CA, SA.
  rewrite Rabs_left in SA by nra. set (phi := acos ((V * cos a + s) / r)) in *. clearbody phi.
  assert (HY : sqrt ((s * cos a + V) ^ 2 + (s * sin a) ^ 2) = r). { unfold r. rewrite <- app_sq. do 2 f_equal. f_equal. ring. }
  destruct D as (_ & C & _). rewrite HY in C. rewrite cos_minus in C. replace (r * (cos a * cos phi + sin a * sin phi)) with (cos a * (r * cos phi) + sin a * (r * sin phi)) in C by ring. rewrite CA, SA in C.
  pose proof (sin2_cos2 a) as T. unfold Rsqr in T. assert (T' : V * (sin a * sin a) + V * (cos a * cos a) = V) by (rewrite <- Rmult_plus_distr_l, T; ring).
  assert (Z : V * (sin a * sin a) = 0) by lra. assert (0 < sin a * sin a) by nra. nra.
Qed.
Example C27_case : 0 <= w_alpha_deg (Wind_ 90 3 4 Flat) <= 180 /\ get_app_infs_at_h (Wind_ 90 3 4 Flat) (length_to_xyz_vector (Wind_ 90 3 4 Flat) 3) = V3 4 3 0.
Proof.
  split; [cbn [w_alpha_deg]; lra|]. pose proof (xyz_blows (Wind_ 90 3 4 Flat) 3) as B. unfold blows in B. rewrite B. unfold get_app_infs_at_h. cbn [w_alpha_deg w_sog vx vy vz].
  replace (rad 90) with (PI / 2) by (unfold rad; field). rewrite cos_PI2, sin_PI2. rnum. vec_eq; ring.
Qed.
(** so the formula does not give the direction of the apparent wind for all true wind angles *)
Theorem C27_all_angles_refuted : exists w s, 0 < w_sog w /\ 0 < s /\ get_app_infs_at_h w (length_to_xyz_vector w s) <> szero /\
  ~ is_direction (get_app_alfa_infs_at_h w (length_to_xyz_vector w s)) (vx (get_app_infs_at_h w (length_to_xyz_vector w s))) (vy (get_app_infs_at_h w (length_to_xyz_vector w s))).
Proof.
  exists (Wind_ (-90) 3 4 Flat), 3. cbn [w_sog]. split; [lra|]. split; [lra|]. split; [|apply C27_other_side_wrong; cbn [w_alpha_deg w_sog]; lra].
  pose proof (xyz_blows (Wind_ (-90) 3 4 Flat) 3) as B. unfold blows in B. rewrite B. unfold get_app_infs_at_h. cbn [w_alpha_deg w_sog vx vy vz].
  replace (rad (-90)) with (- (PI / 2)) by (unfold rad; field). rewrite cos_neg, cos_PI2. rnum. intros E. injection E as E _. lra.
Qed.
Example C27_other_side_case : -180 < w_alpha_deg (Wind_ (-90) 3 4 Flat) < 0.
Proof. cbn [w_alpha_deg]. lra. Qed.

(** ** C28: for every number system *)
(** the data a profile needs *)
Definition usable {F} (w : wind F) : Prop :=
  match w_prof w with Flat => True | Log r rh => r <> None /\ rh <> None | Exp e rh wl => e <> None /\ rh <> None /\ wl <> None end.
Theorem C28_logarithmic : forall (F : Type) (NF : Num F) (c : @conditions F), cd_profile c = "logarithmic"%string ->
  (cd_roughness c = None \/ cd_ref_height c = None -> Wind c = Raise (SystemExit 0)) /\
  (forall r rh, cd_roughness c = Some r -> cd_ref_height c = Some rh ->
     Wind c = Ok (Wind_ (cd_alpha c) (cd_tws c) (cd_sog c) (Log (Some r) (Some rh)))).
Proof.
  intros F NF c P. unfold Wind, Wind_post_init, Wind_profile. rewrite P. simpl String.eqb. cbv iota. split.
  - intros [E|E]; rewrite E; simpl; [reflexivity|]. rewrite orb_true_r. reflexivity.
  - intros r rh E E'. rewrite E, E'. reflexivity.
Qed.
(** a complete configuration gives the named profile *)
Theorem C28_complete : forall (F : Type) (NF : Num F) (c : @conditions F) e rh wl,
  cd_exp_coeff c = Some e -> cd_ref_height c = Some rh -> cd_water_level c = Some wl ->
  (cd_profile c = "exponential"%string -> Wind c = Ok (Wind_ (cd_alpha c) (cd_tws c) (cd_sog c) (Exp (Some e) (Some rh) (Some wl)))) /\
  (cd_profile c = "flat"%string -> Wind c = Ok (Wind_ (cd_alpha c) (cd_tws c) (cd_sog c) Flat)).
Proof.
  intros F NF c e rh wl E E' E2. unfold Wind, Wind_post_init, Wind_profile. rewrite E, E', E2. split; intros P; rewrite P; reflexivity.
Qed.
(** an exponential profile without data is accepted; its use at any height is a TypeError *)
Theorem C28_exponential_unchecked : forall (F : Type) (NF : Num F) (c : @conditions F), cd_profile c = "exponential"%string ->
  cd_exp_coeff c = None \/ cd_ref_height c = None ->
  exists w, Wind c = Ok w /\ ~ usable w /\ forall h, get_true_wind_speed_at_h w h = Raise TypeError.
Proof.
  intros F NF c P N. exists (Wind_profile c). unfold Wind, Wind_post_init. rewrite P. simpl String.eqb. simpl andb. cbv iota. split; [reflexivity|].
  unfold Wind_profile. rewrite P. simpl String.eqb. cbv iota. split.
  - unfold usable. cbn [w_prof]. intros (A & B & _). destruct N; contradiction.
  - intros h. unfold get_true_wind_speed_at_h, wind_speed_at_h. cbn [w_prof]. destruct (cd_water_level c); [|reflexivity]. destruct N as [-> | ->]; [|reflexivity].
    destruct (cd_ref_height c); reflexivity.
Qed.
(** an unknown name silently selects the logarithmic profile *)
Theorem C28_unknown_name : forall (F : Type) (NF : Num F) (c : @conditions F),
  cd_profile c <> "logarithmic"%string -> cd_profile c <> "exponential"%string -> cd_profile c <> "flat"%string -> cd_profile c <> "expotentional"%string ->
  Wind c = Ok (Wind_ (cd_alpha c) (cd_tws c) (cd_sog c) (Log (cd_roughness c) (cd_ref_height c))).
Proof.
  intros F NF c A B C D. unfold Wind, Wind_post_init, Wind_profile. apply String.eqb_neq in A, B, C, D. rewrite A, B, C, D. reflexivity.
Qed.
(** the flat profile is rejected when data it does not use is missing *)
Theorem C28_flat_over_checked : forall (F : Type) (NF : Num F) (c : @conditions F), cd_profile c = "flat"%string ->
  cd_exp_coeff c = None \/ cd_ref_height c = None -> Wind c = Raise (SystemExit 0).
Proof.
  intros F NF c P N. unfold Wind, Wind_post_init. rewrite P. simpl String.eqb. cbv iota. destruct N as [-> | ->]; simpl; rewrite ?orb_true_r; reflexivity.
Qed.
(** the only failure is the exit with status 0, and then one of the checked parameters is missing *)
Theorem C28_failures : forall (F : Type) (NF : Num F) (c : @conditions F) e, Wind c = Raise e ->
  e = SystemExit 0 /\ (cd_roughness c = None \/ cd_ref_height c = None \/ cd_exp_coeff c = None).
Proof.
  intros F NF c e. unfold Wind, Wind_post_init. destruct (cd_roughness c), (cd_exp_coeff c), (cd_ref_height c); simpl; rewrite ?andb_false_r, ?andb_true_r;
    repeat match goal with |- context [String.eqb ?a ?b] => destruct (String.eqb a b) end; simpl; intros E; try discriminate; injection E as <-; auto.
Qed.
(* the configuration check as it should be: a missing parameter of the chosen profile or an unknown name is rejected *)
Definition wind_is_checked {F} (NF : Num F) (c : @conditions F) : Prop := forall w, Wind c = Ok w ->
  usable w /\ (cd_profile c = "logarithmic" \/ cd_profile c = "exponential" \/ cd_profile c = "flat")%string.
Definition demo_conditions (p : string) (r e h : option R) : @conditions R := Conditions 5 10 4 8 50 (Some 0) e h 1.2 p r.
Example C28_case : Wind (demo_conditions "logarithmic" None (Some 1) (Some 10)) = Raise (SystemExit 0) /\
  (exists w, Wind (demo_conditions "logarithmic" (Some 1) None (Some 10)) = Ok w) /\
  cd_exp_coeff (demo_conditions "exponential" (Some 1) None (Some 10)) = None /\
  cd_profile (demo_conditions "Flat" None None None) <> "flat"%string.
Proof. split; [reflexivity|]. split; [eexists; reflexivity|]. split; [reflexivity | discriminate]. Qed.

Theorem C28_missing_data_refuted : exists c : @conditions R, cd_profile c = "exponential"%string /\ cd_water_level c <> None /\ cd_ref_height c <> None /\ ~ wind_is_checked _ c.
Proof.
  exists (demo_conditions "exponential" None None (Some 10)). split; [reflexivity|]. split; [discriminate|]. split; [discriminate|]. intros W.
  destruct (C28_exponential_unchecked R RNum (demo_conditions "exponential" None None (Some 10)) eq_refl (or_introl eq_refl)) as (w & E & U & _). apply U. apply (W w E).
Qed.
Theorem C28_unknown_name_refuted : exists c : @conditions R, cd_roughness c <> None /\ cd_exp_coeff c <> None /\ cd_water_level c <> None /\ cd_ref_height c <> None /\ ~ wind_is_checked _ c.
Proof.
  exists (demo_conditions "Flat" (Some 1) (Some 1) (Some 10)). repeat (split; [discriminate|]). intros W.
  destruct (W _ (C28_unknown_name R RNum (demo_conditions "Flat" (Some 1) (Some 1) (Some 10)) ltac:(discriminate) ltac:(discriminate) ltac:(discriminate) ltac:(discriminate))) as [_ [E|[E|E]]]; discriminate.
Qed.

Print Assumptions C25_direction.
Print Assumptions C25_flat.
Print Assumptions C25_logarithmic.
Print Assumptions C25_exponential.
Print Assumptions C25_exponential_defined.
Print Assumptions C25_report_refuted.
Print Assumptions C26_apparent_wind.
Print Assumptions C26_mirror.
Print Assumptions C27_angle.
Print Assumptions C27_other_side_wrong.
Print Assumptions C27_all_angles_refuted.
Print Assumptions C28_missing_data_refuted.
Print Assumptions C28_unknown_name_refuted.
Print Assumptions C28_logarithmic.
Print Assumptions C28_complete.
Print Assumptions C28_exponential_unchecked.
Print Assumptions C28_unknown_name.
Print Assumptions C28_flat_over_checked.
Print Assumptions C28_failures.
