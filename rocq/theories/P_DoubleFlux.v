(** C94: the test that no air flows through the sails, in double arithmetic. *)

From Coq Require Import String ZArith Reals List Bool Lra Psatz Lia.
From Flocq Require Import Core BinarySingleNaN.
From Verif Require Import Num PyBase RNum Spec M_Rotations M_Panels M_Velocity M_Coefs M_Forces M_Winds M_Vlm L_List L_Rot P_Double P_DoubleRun Double L_Double L_Near L_NearRot P_DoubleRot L_NearLine L_NearVel P_DoubleVel.
Import ListNotations.
Open Scope R_scope.

(** ** Specification *)
(** finite coordinates of at most [B] *)
Definition sizes (B : R) (x : double) : Prop := fin x /\ Rabs (val x) <= B.
Definition vsizes (B : R) (v : vec double) : Prop := sizes B (vx v) /\ sizes B (vy v) /\ sizes B (vz v).
(** the velocity at a point: the wind and the contributions of all rings, added exactly *)
Definition exact_velocity (V : vec R) (row : list (vec R)) (g : list R) : vec R :=
  fold_right (fun ag s => sadd (sscale (snd ag) (fst ag)) s) V (combine row g).
(** its component along the normal *)
Definition exact_flux (V : vec double) (row : list (vec double)) (g : list double) (n : vec double) : R :=
  sdot (exact_velocity (vvals V) (map vvals row) (map (fun x => val x) g)) (vvals n).
(** a system with [N] unknowns: wind of at most [W], coefficients of at most [Q], circulations of at most [G] *)
Record flow_of (N : nat) (W Q G : R) (V : list (vec double)) (vind : list (list (vec double))) (g : list double) (normals : list (vec double)) : Prop := {
  fl_N : INR N <= 10000;
  fl_W : 1 / 1000000 <= W <= 1000000;
  fl_Q : 1 / 1000000 <= Q <= 1000000;
  fl_G : 1 / 1000000 <= G <= 1000000;
  fl_V : Forall (vsizes W) V;
  fl_vind : Forall (fun row => length row = N /\ Forall (vsizes Q) row) vind;
  fl_g : length g = N /\ Forall (sizes G) g;
  fl_n : Forall (vsizes (1001 / 1000)) normals }.
(** the rounding error of the flux *)
Definition flux_error (N : nat) (W Q G : R) : R := 5 / 10000000000000000 * (INR N + 6) * (W + INR N * (Q * G)).
(** the entry at the place [i] of every list *)
Definition at_panel (i : nat) (V : list (vec double)) (vind : list (list (vec double))) (normals : list (vec double)) v row n : Prop :=
  nth_error V i = Some v /\ nth_error vind i = Some row /\ nth_error normals i = Some n.

(** ** Proofs *)
Lemma vsizes_near B v : 0 <= B -> vsizes B v -> vnear B v (vvals v) 0.
Proof. intros P ((F1 & B1) & (F2 & B2) & (F3 & B3)). split; [|split]; apply near_exact; assumption. Qed.
Lemma vscale_near e Q G a g : mild Q -> mild G -> vsizes Q a -> sizes G g -> vnear (Q * G) (@vscale _ (Double e) g a) (sscale (val g) (vvals a)) (101 / 100).
Proof.
  intros MQ MG A [FG BG]. pose proof (mild_pos _ MQ). pose proof (mild_pos _ MG). destruct (vsizes_near Q a ltac:(lra) A) as (A1 & A2 & A3). pose proof (near_exact G g FG BG ltac:(lra)) as N.
  assert (K : forall x X, near Q x X 0 -> near (Q * G) (@nmul _ (Double e) g x) (val g * X) (101 / 100)).
  { intros x X NX. rewrite (Rmult_comm Q G). apply (near_up _ _ _ _ _ (near_mul e G Q g x (val g) X 0 0 MG MQ ltac:(fw) ltac:(fw) N NX)); nra. }
  unfold vscale, sscale. split; [|split]; cbn [vx vy vz]; apply K; assumption.
Qed.
Lemma fold_sum X0 l : fold_left sadd l X0 = fold_right sadd X0 l.
Proof. apply fold_symmetric; intros; unfold sadd; cbn [vx vy vz]; f_equal; ring. Qed.
Lemma sum_near e S l L : 1 / 10 ^ 12 <= S <= 10 ^ 12 -> forall n x X, INR (n + length l) <= 10000 -> vnear (INR n * S) x X (101 / 100 * (INR n + 1)) ->
  Forall2 (fun a A => vnear S a A (101 / 100)) l L -> vnear (INR (n + length l) * S) (fold_left (@vadd _ (Double e)) l x) (fold_left sadd L X) (101 / 100 * (INR (n + length l) + 1)).
Proof.
  intros PS n x X LN NX F. revert n x X LN NX. induction F as [|a A l L NA F IH]; intros n x X LN NX; cbn [length fold_left] in *.
  - rewrite Nat.add_0_r. exact NX.
  - rewrite <- Nat.add_succ_comm in *. apply IH; [exact LN|]. rewrite plus_INR, S_INR in LN. rewrite S_INR. pose proof (pos_INR n) as PN. pose proof (pos_INR (length l)) as PL.
    replace ((INR n + 1) * S) with (INR n * S + S) by ring. replace (101 / 100 * (INR n + 1 + 1)) with (101 / 100 * (INR n + 1) + 101 / 100) by ring.
    assert (0 <= INR n * S <= 10000 * 10 ^ 12) by (split; [apply Rmult_le_pos; lra|apply Rmult_le_compat; lra]).
    apply (vnear_add e (INR n * S) S x a X A (101 / 100 * (INR n + 1)) (101 / 100)); try assumption; try (split; lra); try lra. apply mild_wide. lra.
Qed.
Lemma exact_velocity_sum V row g : length row = length g -> exact_velocity V row g = sadd V (fold_left sadd (zipWith (fun a c => sscale c a) row g) (V3 0 0 0)).
Proof.
  intros L. rewrite fold_sum. revert g L. unfold exact_velocity. induction row as [|a row IH]; intros [|c g] L; cbn [length] in L; try discriminate; cbn [combine fold_right zipWith].
  - destruct V as [x y z]. unfold sadd. cbn [vx vy vz]. f_equal; ring.
  - rewrite IH by lia. cbn [fst snd]. unfold sadd. cbn [vx vy vz]. f_equal; ring.
Qed.
Lemma scaled_near e Q G row g : mild Q -> mild G -> length row = length g -> Forall (vsizes Q) row -> Forall (sizes G) g ->
  Forall2 (fun a A => vnear (Q * G) a A (101 / 100)) (zipWith (fun a c => @vscale _ (Double e) c a) row g) (zipWith (fun a c => sscale c a) (map vvals row) (map (fun x => val x) g)).
Proof.
  intros MQ MG L FR FG. revert g L FG. induction FR as [|a row A FR IH]; intros [|c g] L FG; cbn [length] in L; try discriminate; cbn [zipWith map]; constructor.
  - inversion_clear FG. apply vscale_near; assumption.
  - inversion_clear FG. apply IH; [lia|assumption].
Qed.

Theorem C94_flux e N W Q G V vind g normals i v row n : flow_of N W Q G V vind g normals -> at_panel i V vind normals v row n ->
  exists f, f = @vdot _ (Double e) (@vopp _ (Double e) (@vadd _ (Double e) v (@induced_at _ (Double e) row g))) n /\ fin f /\ Rabs (val f + exact_flux v row g n) <= flux_error N W Q G.
Proof.
  intros [HN HW HQ HG FV FI [LG FG] FN] (EV & EI & EN). pose proof (proj1 (Forall_forall _ _) FV v (nth_error_In _ _ EV)) as SV. destruct (proj1 (Forall_forall _ _) FI row (nth_error_In _ _ EI)) as [LR SR]. pose proof (proj1 (Forall_forall _ _) FN n (nth_error_In _ _ EN)) as SN.
  assert (PN : 0 <= INR N) by apply pos_INR.
  assert (HS : 1 / 10 ^ 12 <= Q * G <= 10 ^ 12) by (split; [replace (1 / 10 ^ 12) with (1 / 1000000 * (1 / 1000000)) by lra|replace (10 ^ 12) with (1000000 * 1000000) by lra]; apply Rmult_le_compat; lra).
  assert (LZ : length (zipWith (fun a c => @vscale _ (Double e) c a) row g) = N) by (rewrite zipWith_length, LR, LG; apply Nat.min_id).
  assert (Z0 : vnear (INR 0 * (Q * G)) (@v0 _ (Double e)) (V3 0 0 0) (101 / 100 * (INR 0 + 1))).
  { destruct (dint e 0 ltac:(lia)) as [F0 V0]. cbn [INR]. assert (K : near (0 * (Q * G)) (@nZ _ (Double e) 0) 0 (101 / 100 * (0 + 1))) by (split; [exact F0|]; rewrite V0, Rminus_eq_0, Rabs_R0; lra). split; [|split]; exact K. }
  pose proof (fun H => sum_near e (Q * G) _ _ HS 0 (@v0 _ (Double e)) (V3 0 0 0) H Z0 (scaled_near e Q G row g ltac:(apply mild_wide; lra) ltac:(apply mild_wide; lra) ltac:(lia) SR FG)) as T. rewrite Nat.add_0_l, LZ in T. specialize (T HN). fold (@induced_at _ (Double e) row g) in T.
  set (S := Q * G) in *. assert (HNS : 0 <= INR N * S <= 10000 * 10 ^ 12) by (split; [apply Rmult_le_pos; lra|apply Rmult_le_compat; lra]).
  pose proof (exact_velocity_sum (vvals v) (map vvals row) (map (fun x => val x) g) ltac:(rewrite !map_length; lia)) as EX.
  set (SUM := fold_left sadd _ _) in *. set (k := 101 / 100 * (INR N + 1)) in *. assert (Hk : 0 <= k <= 10102) by (unfold k; lra).
  assert (T1 : vnear W v (vvals v) k) by (apply (vnear_weaken W W v (vvals v) 0 k); [apply vsizes_near; [lra|exact SV]|lra|apply Rmult_le_compat_r; lra]).
  pose proof (vnear_add e W (INR N * S) v _ (vvals v) SUM k k ltac:(apply mild_wide; lra) ltac:(lra) ltac:(lra) ltac:(split; lra) ltac:(split; lra) ltac:(lra) T1 T) as T2.
  set (A := W + INR N * S) in *. assert (HA : 1 / 1000000 <= A <= 10 ^ 17) by (unfold A; lra).
  assert (T3 : vnear A (@vopp _ (Double e) (@vadd _ (Double e) v (@induced_at _ (Double e) row g))) (sscale (-1) (sadd (vvals v) SUM)) (k + 101 / 100)).
  { destruct T2 as (X1 & X2 & X3). unfold vopp, sscale. split; [|split]; cbn [vx vy vz]; (eapply near_at; [apply near_opp; eassumption|lra]). }
  pose proof (near_vdot e A (1001 / 1000) _ n _ (vvals n) (k + 101 / 100) 0 ltac:(apply mild_wide; lra) ltac:(apply mild_wide; lra) ltac:(apply mild_wide; lra) ltac:(apply mild_wide; lra) ltac:(split; lra) ltac:(fw) ltac:(split; lra) T3 (vsizes_near (1001 / 1000) n ltac:(lra) SN)) as (F & _ & E).
  eexists. split; [reflexivity|]. split; [exact F|]. unfold exact_flux. rewrite EX.
  replace (sdot (sscale (-1) (sadd (vvals v) SUM)) (vvals n)) with (- sdot (sadd (vvals v) SUM) (vvals n)) in E by (unfold sdot, sscale; cbn [vx vy vz]; ring).
  match type of E with Rabs (?a - - ?b) <= _ => replace (a + b) with (a - - b) by ring end. eapply Rle_trans; [exact E|]. unfold flux_error. fold S A.
  replace ((k + 101 / 100 + 0 + 101 / 100 + 101 / 100 + 101 / 100) * ((A * (1001 / 1000) + A * (1001 / 1000) + A * (1001 / 1000)) * u)) with ((k + 404 / 100) * (3003 / 1000 * u) * A) by field.
  apply Rmult_le_compat_r; [lra|]. pose proof u_val as UV. assert (U : 3003 / 1000 * u <= 4 / 10000000000000000) by lra. assert (0 <= u) by lra.
  apply (Rle_trans _ ((k + 404 / 100) * (4 / 10000000000000000))); [apply Rmult_le_compat_l; lra|]. unfold k. lra.
Qed.

(** the constants of the test *)
Lemma area_limit : val (dec 1 14) <= 2 / 100000000000000 /\ fin (dec 1 14).
Proof.
  split; [|vm_compute; reflexivity]. rewrite (dec_val 1 14 6338253001141147 (-99)) by (vm_compute; reflexivity). change (bpow radix2 (-99)) with (/ 633825300114114700748351602688). lra.
Qed.
Lemma flux_limit : 999 / 1000000000000000 < val (dec 1 12) < 1001 / 1000000000000000 /\ fin (dec 1 12).
Proof.
  split; [|vm_compute; reflexivity]. rewrite (dec_val 1 12 4951760157141521 (-92)) by (vm_compute; reflexivity). change (bpow radix2 (-92)) with (/ 4951760157141521099596496896). lra.
Qed.
Lemma dabs e x : fin x -> fin (@nabs _ (Double e) x) /\ val (@nabs _ (Double e) x) = Rabs (val x).
Proof. intros F. cbn [nabs Double]. rewrite is_finite_Babs, B2R_Babs. split; [exact F|reflexivity]. Qed.
Lemma dnan e x : fin x -> @nisnan _ (Double e) x = false.
Proof. destruct x; cbn; intros; try reflexivity; discriminate. Qed.

Lemma nth_map_inv {A B} (f : A -> B) l i b : nth_error (map f l) i = Some b -> exists a, nth_error l i = Some a /\ b = f a.
Proof. rewrite nth_error_map. destruct (nth_error l i) as [a|]; cbn [option_map]; [|discriminate]. intros [= <-]. exists a. split; reflexivity. Qed.

Theorem C94_accepts e N W Q G V vind g normals areas : flow_of N W Q G V vind g normals -> length V = length vind -> length normals = length V ->
  Forall (fun a => fin a /\ 2 / 100000000000000 <= val a) areas ->
  (forall i v row n, at_panel i V vind normals v row n -> Rabs (exact_flux v row g n) + flux_error N W Q G <= 999 / 1000000000000000) ->
  @is_no_flux_BC_satisfied _ (Double e) (snd (@calculate_app_fs _ (Double e) V vind g)) areas normals = Ok true.
Proof.
  intros FL L1 L2 FA H. unfold is_no_flux_BC_satisfied. destruct area_limit as [LA FLA]. destruct flux_limit as [LF FLF].
  replace (existsb _ areas) with false.
  2:{ symmetry. apply Bool.not_true_iff_false. intros X. apply existsb_exists in X. destruct X as (a & IA & X). destruct (proj1 (Forall_forall _ _) FA a IA) as [F A]. rewrite dnan in X by exact F. cbn [orb] in X.
      apply (dltb e a (dec 1 14) F FLA) in X. lra. }
  replace (existsb _ (zipWith _ _ _)) with false; [reflexivity|].
  symmetry. apply Bool.not_true_iff_false. intros X. apply existsb_exists in X. destruct X as (f & IF & X). apply In_nth_error in IF. destruct IF as [i EF].
  apply nth_error_zipWith_inv in EF. destruct EF as (w & n & EW & EN & ->). unfold calculate_app_fs in EW. cbn [snd] in EW. apply nth_error_zipWith_inv in EW. destruct EW as (v & ind & EV & EI & ->).
  unfold calc_induced_velocity in EI. apply nth_map_inv in EI. destruct EI as (row & ER & ->).
  pose proof (conj EV (conj ER EN) : at_panel i V vind normals v row n) as AP. destruct (C94_flux e N W Q G V vind g normals i v row n FL AP) as (f & EF & FF & B). specialize (H i v row n AP).
  rewrite <- EF in X. clear EF. rewrite dnan, Bool.orb_false_r in X by exact FF. destruct (dabs e f FF) as [FAB VAB]. apply (dltb e (dec 1 12) _ FLF FAB) in X. rewrite VAB in X.
  revert B H X. generalize (val f) (exact_flux v row g n). intros y z B H X. unfold Rabs in *. repeat destruct Rcase_abs; lra.
Qed.
Theorem C94_refuses e N W Q G V vind g normals areas i v row n : flow_of N W Q G V vind g normals -> at_panel i V vind normals v row n ->
  1001 / 1000000000000000 + flux_error N W Q G <= Rabs (exact_flux v row g n) ->
  @is_no_flux_BC_satisfied _ (Double e) (snd (@calculate_app_fs _ (Double e) V vind g)) areas normals = Raise ValueError.
Proof.
  intros FL AP H. unfold is_no_flux_BC_satisfied. destruct flux_limit as [LF FLF]. destruct (existsb _ areas); [reflexivity|].
  replace (existsb _ (zipWith _ _ _)) with true; [reflexivity|]. symmetry. apply existsb_exists. destruct (C94_flux e N W Q G V vind g normals i v row n FL AP) as (f & EF & FF & B). exists f. destruct AP as (EV & ER & EN). split.
  - apply (nth_error_In _ i). rewrite EF. apply (nth_error_zipWith (fun v n => @vdot _ (Double e) (@vopp _ (Double e) v) n)); [|exact EN]. unfold calculate_app_fs. cbn [snd]. apply nth_error_zipWith; [exact EV|].
    exact (map_nth_error (fun row => @induced_at _ (Double e) row g) i vind ER).
  - apply Bool.orb_true_iff. left. destruct (dabs e f FF) as [FAB VAB]. apply (dltb e (dec 1 12) _ FLF FAB). rewrite VAB. clear EF FF FAB VAB.
    revert B H. generalize (val f) (exact_flux v row g n). intros y z B H. unfold Rabs in *. repeat destruct Rcase_abs; lra.
Qed.

(** the limit does not follow the wind: two sheets 0.2 mm apart are solved in a wind of 0.01 m/s and refused in the same wind at 1024 times the speed, although every number of the second run is a number of the first times a power of two *)
Definition part (a b : Z) : double := Bdiv mode_NE (dZ a) (dZ b).
Definition sheet (y0 y1 : double) : panel double := Panel (V3 (dZ 2) y1 (dZ 1)) (V3 (dZ 0) y0 (dZ 1)) (V3 (dZ 0) y0 (dZ 3)) (V3 (dZ 2) y1 (dZ 3)).
Definition sheets : list (panel double) := [sheet (dZ 0) (dZ 0); sheet (part 1 4096) (part (-1) 8192)].
Definition sheet_run (e : elementary) (V : vec double) : res (vlm double) :=
  @vlm_solve _ (Double e) sheets 1 1 (dZ 1) [true; true] [false; false] (map (fun p => @panel_vars _ (Double e) (@vlm_gor _ (Double e)) p (@aft_A _ (Double e) p) (@aft_D _ (Double e) p)) sheets) (Inlet [] [V; V] [V; V] []).
Theorem C94_scale_refuted : exists slow fast : vec double, vvals fast = sscale 1024 (vvals slow) /\ snorm (vvals fast) <= 11 /\
  forall e, (exists o, sheet_run e slow = Ok o) /\ sheet_run e fast = Raise ValueError.
Proof.
  exists (V3 (part 10 1024) (part 3 1024) (dZ 0)), (dv 10 3 0). destruct (dv_val 10 3 0 ltac:(lia) ltac:(lia) ltac:(lia)) as [_ VF]. rewrite VF. split; [|split].
  - unfold vvals, sscale. cbn [vx vy vz]. rewrite (dZ_val 0) by lia.
    assert (E1 : B2SF (part 10 1024) = SpecFloat.S754_finite false 5629499534213120 (-59)) by (vm_compute; reflexivity). assert (E2 : B2SF (part 3 1024) = SpecFloat.S754_finite false 6755399441055744 (-61)) by (vm_compute; reflexivity).
    rewrite <- (SF2R_B2SF _ _ (part 10 1024)), <- (SF2R_B2SF _ _ (part 3 1024)), E1, E2. unfold SF2R, F2R. cbn [Fnum Fexp cond_Zopp]. change (bpow radix2 (-59)) with (/ 576460752303423488). change (bpow radix2 (-61)) with (/ 2305843009213693952). f_equal; lra.
  - apply norm_le; cbn [vx vy vz]; lra.
  - intros e. split; [|vm_compute; reflexivity].
    assert (K : (match sheet_run e (V3 (part 10 1024) (part 3 1024) (dZ 0)) with Ok _ => true | Raise _ => false end) = true) by (vm_compute; reflexivity).
    destruct (sheet_run e _) as [o|x]; [exists o; reflexivity|discriminate K].
Qed.

(** a panel in the flow (10, 3, 0), its normal along the y axis, and a ring that cancels the flow through it, or falls short of it by a third *)
Example C94_case : flow_of 1 10 3 3 [dv 10 3 0] [[dv 1 1 3]] [dZ (-3)] [dv 0 1 0] /\ at_panel 0 [dv 10 3 0] [[dv 1 1 3]] [dv 0 1 0] (dv 10 3 0) [dv 1 1 3] (dv 0 1 0) /\
  exact_flux (dv 10 3 0) [dv 1 1 3] [dZ (-3)] (dv 0 1 0) = 0 /\ exact_flux (dv 10 3 0) [dv 1 1 3] [dZ (-2)] (dv 0 1 0) = 1 /\ flux_error 1 10 3 3 <= 1 / 10000000000000 /\
  forall e, @is_no_flux_BC_satisfied _ (Double e) (snd (@calculate_app_fs _ (Double e) [dv 10 3 0] [[dv 1 1 3]] [dZ (-3)])) [dZ 4] [dv 0 1 0] = Ok true /\
    @is_no_flux_BC_satisfied _ (Double e) (snd (@calculate_app_fs _ (Double e) [dv 10 3 0] [[dv 1 1 3]] [dZ (-2)])) [dZ 4] [dv 0 1 0] = Raise ValueError.
Proof.
  destruct (dv_val 10 3 0 ltac:(lia) ltac:(lia) ltac:(lia)) as [(F1 & F2 & F3) VF]. destruct (dv_val 1 1 3 ltac:(lia) ltac:(lia) ltac:(lia)) as [(A1 & A2 & A3) VA]. destruct (dv_val 0 1 0 ltac:(lia) ltac:(lia) ltac:(lia)) as [(N1 & N2 & N3) VN].
  destruct (dint ideal (-3) ltac:(lia)) as [G3 W3]. destruct (dint ideal (-2) ltac:(lia)) as [G2 W2]. destruct (dint ideal 4 ltac:(lia)) as [G4 W4]. cbn [nZ Double] in G3, W3, G2, W2, G4, W4.
  assert (S1 : vsizes 10 (dv 10 3 0)) by (split; [|split]; (split; [assumption|]); unfold dv; cbn [vx vy vz]; rewrite dZ_val by lia; unfold Rabs; destruct Rcase_abs; lra).
  assert (S2 : vsizes 3 (dv 1 1 3)) by (split; [|split]; (split; [assumption|]); unfold dv; cbn [vx vy vz]; rewrite dZ_val by lia; unfold Rabs; destruct Rcase_abs; lra).
  assert (S3 : vsizes (1001 / 1000) (dv 0 1 0)) by (split; [|split]; (split; [assumption|]); unfold dv; cbn [vx vy vz]; rewrite dZ_val by lia; unfold Rabs; destruct Rcase_abs; lra).
  assert (FL : forall z, fin (dZ z) -> Rabs (val (dZ z)) <= 3 -> flow_of 1 10 3 3 [dv 10 3 0] [[dv 1 1 3]] [dZ z] [dv 0 1 0]).
  { intros z FZ BZ. split; try lra; try (cbn [INR]; lra); try (constructor; [assumption|constructor]). - constructor; [|constructor]. split; [reflexivity|]. constructor; [assumption|constructor].
    - split; [reflexivity|]. constructor; [|constructor]. split; assumption. }
  assert (B3 : Rabs (val (dZ (-3))) <= 3) by (rewrite W3; unfold Rabs; destruct Rcase_abs; lra). assert (B2 : Rabs (val (dZ (-2))) <= 3) by (rewrite W2; unfold Rabs; destruct Rcase_abs; lra).
  assert (AP : at_panel 0 [dv 10 3 0] [[dv 1 1 3]] [dv 0 1 0] (dv 10 3 0) [dv 1 1 3] (dv 0 1 0)) by (split; [|split]; reflexivity).
  assert (E0 : exact_flux (dv 10 3 0) [dv 1 1 3] [dZ (-3)] (dv 0 1 0) = 0) by (unfold exact_flux; cbn [map]; rewrite VF, VA, VN, W3; unfold exact_velocity, sdot, sadd, sscale; cbn [combine fold_right fst snd vx vy vz]; lra).
  assert (E1 : exact_flux (dv 10 3 0) [dv 1 1 3] [dZ (-2)] (dv 0 1 0) = 1) by (unfold exact_flux; cbn [map]; rewrite VF, VA, VN, W2; unfold exact_velocity, sdot, sadd, sscale; cbn [combine fold_right fst snd vx vy vz]; lra).
  assert (EB : flux_error 1 10 3 3 <= 1 / 10000000000000) by (unfold flux_error; cbn [INR]; lra).
  split; [apply FL; assumption|]. split; [exact AP|]. split; [exact E0|]. split; [exact E1|]. split; [exact EB|]. intros e. split.
  - apply (C94_accepts e 1 10 3 3); [apply FL; assumption|reflexivity|reflexivity|constructor; [|constructor]; split; [exact G4|rewrite W4; lra]|].
    intros [|i] v row n (H1 & H2 & H3); [|destruct i; discriminate]. cbn [nth_error] in H1, H2, H3. injection H1 as <-. injection H2 as <-. injection H3 as <-. rewrite E0, Rabs_R0. lra.
  - apply (C94_refuses e 1 10 3 3 _ _ _ _ _ 0 (dv 10 3 0) [dv 1 1 3] (dv 0 1 0)); [apply FL; assumption|exact AP|]. rewrite E1, Rabs_R1. lra.
Qed.

Print Assumptions C94_flux.
Print Assumptions C94_accepts.
Print Assumptions C94_refuses.
Print Assumptions C94_scale_refuted.
