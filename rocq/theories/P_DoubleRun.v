(** C89, whole runs in double arithmetic. *)

From Coq Require Import String ZArith Reals List Bool Lra Psatz Lia Arith.
From Flocq Require Import Core BinarySingleNaN.
From Verif Require Import Num PyBase RNum Spec M_Airfoil M_Interp M_Csys M_Panels M_Coefs M_Forces M_Winds M_Vlm M_Mesher M_Sail M_Results M_Hull M_Runner L_List L_Mesh L_Airfoil L_Runner P_Interp P_Scene P_Run L_Lattice Double L_Double P_Double.
Import ListNotations.
Open Scope R_scope.

(** ** The numbers a configuration of doubles stands for *)
Definition sail_val (s : @sail_def double) : @sail_def R :=
  SailDef (option_map vals (sd_twist s)) (option_map vals (sd_girths s)) (option_map vals (sd_chords s)) (option_map vals (sd_camber s)) (option_map vals (sd_dist s)).
Definition oval (o : option double) : option R := option_map (fun x : double => val x) o.
Definition rig_val (r : @rig double) : @rig R :=
  Rig (oval (rg_main_luff r)) (oval (rg_jib_luff r)) (oval (rg_height r)) (oval (rg_base r)) (val (rg_sheer r)) (val (rg_boom r)) (val (rg_rake r)) (val (rg_mast_LOA r)) (rg_sails_def r).
Definition conditions_val (c : @conditions double) : @conditions R :=
  Conditions (val (cd_leeway c)) (val (cd_heel c)) (val (cd_sog c)) (val (cd_tws c)) (val (cd_alpha c)) (oval (cd_water_level c)) (oval (cd_exp_coeff c)) (oval (cd_ref_height c)) (val (cd_rho c)) (cd_profile c) (oval (cd_roughness c)).

(** ** A section that the airfoil refuses *)
Lemma mapM_first {A B} (f : A -> res B) x l : forall k a, nth_error l k = Some a -> (forall i b, (i < k)%nat -> nth_error l i = Some b -> exists y, f b = Ok y) -> f a = Raise x -> mapM f l = Raise x.
Proof.
  induction l as [|b l IH]; intros [|k] a K H E; try discriminate; cbn [mapM].
  - injection K as ->. rewrite E. reflexivity.
  - destruct (H 0%nat b ltac:(lia) eq_refl) as [y Y]. rewrite Y. cbn [bind]. rewrite (IH k a K); [reflexivity| |exact E]. intros i c I J. apply (H (S i) c); [lia|exact J].
Qed.
Lemma section_fails {F} `{Num F} head tack c ns nc ch tw name mode ca di k x : length ch = (ns + 1)%nat -> (k <= ns)%nat ->
  (forall i, (i < k)%nat -> exists m d foil, nth_error ca i = Some m /\ nth_error di i = Some d /\ VlmAirfoil m d (nZ 0) (nc + 1) = Ok foil) ->
  (exists m d, nth_error ca k = Some m /\ nth_error di k = Some d /\ VlmAirfoil m d (nZ 0) (nc + 1) = Raise x) -> SailGeometry head tack c ns nc ch tw name mode ca di = Raise x.
Proof.
  intros L1 K OK (m & d & M & D & V). unfold SailGeometry. cbv zeta. assert (X : zero_mesh tack head nc ns ch di ca = Raise x); [|rewrite X; reflexivity].
  unfold zero_mesh, make_airfoil_mesh. cbv zeta. set (le := discrete_segment tack head ns). assert (LE : length le = S ns) by apply segment_length.
  unfold add_chords. rewrite map_length, L1, LE. replace (ns + 1 =? S ns)%nat with true by (symmetry; apply Nat.eqb_eq; lia). cbn [bind].
  set (te := zipWith vadd le _). assert (LT : length te = S ns) by (unfold te; rewrite zipWith_length, map_length; lia).
  assert (AT : forall i, (i <= ns)%nat -> exists p1 p2, nth_error (combine (seq 0 (S ns)) (combine le te)) i = Some (i, (p1, p2))).
  { intros i I. destruct (nth_error_ex le i) as [p1 P1]; [lia|]. destruct (nth_error_ex te i) as [p2 P2]; [lia|]. exists p1, p2. apply nth_error_combine; [apply nth_error_seq; lia | apply nth_error_combine; assumption]. }
  destruct (AT k K) as (p1 & p2 & P). apply (mapM_first _ x _ k _ P).
  - intros i b I Q. destruct (AT i ltac:(lia)) as (q1 & q2 & Q'). rewrite Q' in Q. injection Q as <-. cbn [fst snd]. destruct (OK i I) as (m' & d' & foil & M' & D' & V'). unfold airfoil_section. rewrite (py_nth_nat _ _ _ D'), (py_nth_nat _ _ _ M'). cbn [bind]. rewrite V'. cbn [bind]. eauto.
  - cbn [fst snd]. unfold airfoil_section. rewrite (py_nth_nat _ _ _ D), (py_nth_nat _ _ _ M). cbn [bind]. rewrite V. reflexivity.
Qed.

Lemma run_fails {F} `{Num F} sp cd ns nc mode r s ref clr w g ch tw ca di ch' tw' ca' di' luff k x : Wind cd = Ok w -> Sail_post_init r (Some s) None = Ok tt -> rg_sails_def r = "main"%string -> rg_main_luff r = Some luff ->
  s = SailDef (Some tw) (Some g) (Some ch) (Some ca) (Some di) ->
  (interpolate_girths sp "linear" g ch (ns + 1) = Ok ch' /\ interpolate_girths sp "linear" g tw (ns + 1) = Ok tw' /\ interpolate_girths sp "linear" g ca (ns + 1) = Ok ca' /\ interpolate_girths sp "linear" g di (ns + 1) = Ok di') ->
  length ch' = (ns + 1)%nat -> (k <= ns)%nat ->
  (forall i, (i < k)%nat -> exists m d foil, nth_error ca' i = Some m /\ nth_error di' i = Some d /\ VlmAirfoil m d (nZ 0) (nc + 1) = Ok foil) ->
  (exists m d, nth_error ca' k = Some m /\ nth_error di' k = Some d /\ VlmAirfoil m d (nZ 0) (nc + 1) = Raise x) ->
  run sp cd (Solver ns nc "linear" mode) r (Some s) None ref clr = Raise x.
Proof.
  intros W P SD LU -> (I1 & I2 & I3 & I4) L K OK BAD. unfold run. rewrite W. cbn [bind]. rewrite P. cbn [bind]. unfold get_sail_set. cbn [sv_interp sv_ns sv_nc sv_LLT]. rewrite SD. simpl String.eqb. cbv iota. cbn [orb]. unfold need. cbn [bind].
  cbn [sd_girths sd_chords sd_twist sd_camber sd_dist]. cbn [bind]. rewrite I1, I2, I3, I4, LU. cbn [bind]. unfold make_main_sail. destruct (main_mounting _ _ _) as [h t]. cbn [fa_ns fa_nc].
  rewrite (section_fails _ _ _ _ _ _ _ _ _ _ _ k x); try assumption. reflexivity.
Qed.

(** ** A sail whose data are in range and whose interpolated camber is not *)
Definition dec (n d : Z) : double := Bdiv mode_NE (dZ n) (dZ (10 ^ d)).
Definition full_main : @sail_def double :=
  SailDef (Some [dZ 0; dZ 0; dZ 0]) (Some [dZ 0; dec 2 1; dZ 1]) (Some [dZ 4; dZ 3; dZ 2]) (Some [dec 3 2; dec 3 1; dec 3 1]) (Some [dec 5 1; dec 5 1; dec 5 1]).
Definition full_rig : @rig double := Rig (Some (dZ 12)) None None (Some (dZ 4)) (dZ 1) (dZ 1) (dZ 90) (dZ 0) "main".
Definition full_conditions : @conditions double := Conditions (dZ 5) (dZ 10) (dZ 3) (dZ 6) (dZ 50) (Some (dZ 0)) (Some (dec 1 1)) (Some (dZ 10)) (dZ 1) "flat" None.
Definition lin (e : elementary) (y : list double) : list double :=
  match @interpolate_girths _ (Double e) (fun _ _ _ => Raise TypeError) "linear" [dZ 0; dec 2 1; dZ 1] y 36 with Ok l => l | Raise _ => [] end.
Lemma lin_ok e sp a b c : @interpolate_girths _ (Double e) sp "linear" [dZ 0; dec 2 1; dZ 1] [a; b; c] 36 = Ok (lin e [a; b; c]) /\ length (lin e [a; b; c]) = 36%nat.
Proof.
  split; [reflexivity|]. unfold lin, interpolate_girths. simpl String.eqb. cbv iota. unfold np_interp. cbn [length Nat.eqb negb]. cbv iota. etransitivity; [apply map_length|apply linspace_length].
Qed.
Definition foil_at (e : elementary) (nc k : nat) : res bool :=
  match nth_error (lin e [dec 3 2; dec 3 1; dec 3 1]) k, nth_error (lin e [dec 5 1; dec 5 1; dec 5 1]) k with
  | Some m, Some p => match @VlmAirfoil _ (Double e) m p (@nZ _ (Double e) 0) (nc + 1) with Ok _ => Ok true | Raise x => Raise x end
  | _, _ => Ok false
  end.
Lemma first_seven e : map (foil_at e 4) (seq 0 8) = repeat (Ok true) 7 ++ [Raise (SystemExit 1)].
Proof. vm_compute. reflexivity. Qed.

Lemma dec_val z d m x : (B2SF (dec z d)) = SpecFloat.S754_finite false m x -> val (dec z d) = IZR (Zpos m) * bpow radix2 x.
Proof. intros E. rewrite <- SF2R_B2SF, E. reflexivity. Qed.
Lemma dZ_val z : (Z.abs z <= 2 ^ 53)%Z -> val (dZ z) = IZR z.
Proof. intros H. exact (proj2 (dint (Elementary (fun x => x) (fun x => x) (fun x => x) (fun x => x) (fun x => x) (fun x _ => x) (fun x => x) (fun x _ => x)) z H)). Qed.

Lemma full_valid : valid_config (rig_val full_rig) (Some (sail_val full_main)) None.
Proof.
  assert (V2 : val (dec 2 1) = 3602879701896397 * / 2 ^ 54) by (rewrite (dec_val 2 1 7205759403792794 (-55)) by (vm_compute; reflexivity); change (bpow radix2 (-55)) with (/ 36028797018963968); lra).
  assert (V32 : val (dec 3 2) = 8646911284551352 * / 2 ^ 58) by (rewrite (dec_val 3 2 8646911284551352 (-58)) by (vm_compute; reflexivity); change (bpow radix2 (-58)) with (/ 288230376151711744); lra).
  assert (V3 : val (dec 3 1) = 5404319552844595 * / 2 ^ 54) by (rewrite (dec_val 3 1 5404319552844595 (-54)) by (vm_compute; reflexivity); change (bpow radix2 (-54)) with (/ 18014398509481984); lra).
  assert (V5 : val (dec 5 1) = / 2) by (rewrite (dec_val 5 1 4503599627370496 (-53)) by (vm_compute; reflexivity); change (bpow radix2 (-53)) with (/ 9007199254740992); lra).
  assert (V0 : val (dZ 0) = 0) by (apply dZ_val; lia). assert (V1 : val (dZ 1) = 1) by (apply dZ_val; lia).
  split; [cbn; auto|]. split; [cbn; intros [E|[E|[]]]; discriminate|]. intros _. eexists. split; [reflexivity|]. split.
  - do 5 eexists. do 5 (split; [reflexivity|]). cbn [vals map length]. rewrite V0, V1, V5. assert (B2 : 1 / 10 < val (dec 2 1) < 3 / 10) by lra. assert (B3 : 0 <= val (dec 3 1) <= 3 / 10) by lra. assert (B32 : 0 <= val (dec 3 2) <= 3 / 10) by lra. clear - B2 B3 B32. revert B2 B3 B32. generalize (val (dec 2 1)) (val (dec 3 1)) (val (dec 3 2)). intros x2 x3 x32 B2 B3 B32. split; [discriminate|]. split.
    { intros [|[|[|i]]] a b A B; cbn [nth_error] in A, B; try discriminate; try (injection A as <-; injection B as <-; lra). }
    do 4 (split; [reflexivity|]). split; intros x [<-|[<-|[<-|[]]]]; lra.
  - unfold valid_main_rig, rig_val, full_rig. cbn [rg_rake rg_sheer rg_boom rg_main_luff oval option_map]. rewrite V1, (dZ_val 90), (dZ_val 12) by lia. replace (rad 90) with (PI / 2) by (unfold rad; field). rewrite sin_PI2. split; [lra|]. split; [lra|]. exists 12. split; [reflexivity|lra].
Qed.
Theorem C89_range_exit_refuted : exists cd ns nc r main, valid_conditions (conditions_val cd) /\ valid_config (rig_val r) (Some (sail_val main)) None /\
  forall e sp mode ref clr, @run _ (Double e) sp cd (Solver ns nc "linear" mode) r (Some main) None ref clr = Raise (SystemExit 1).
Proof.
  exists full_conditions, 35%nat, 4%nat, full_rig, full_main. split; [left; repeat split; discriminate|]. split; [exact full_valid|]. intros e sp mode ref clr.
  eapply (@run_fails _ (Double e) sp full_conditions 35 4 mode full_rig full_main ref clr _ [dZ 0; dec 2 1; dZ 1] [dZ 4; dZ 3; dZ 2] [dZ 0; dZ 0; dZ 0] [dec 3 2; dec 3 1; dec 3 1] [dec 5 1; dec 5 1; dec 5 1] (lin e [dZ 4; dZ 3; dZ 2]) (lin e [dZ 0; dZ 0; dZ 0]) (lin e [dec 3 2; dec 3 1; dec 3 1]) (lin e [dec 5 1; dec 5 1; dec 5 1]) (dZ 12) 7); try reflexivity.
  - repeat split; apply lin_ok.
  - lia.
  - intros i I. pose proof (first_seven e) as Q. apply (f_equal (fun l => nth_error l i)) in Q. rewrite nth_error_map, nth_error_app1, nth_error_repeat in Q by (rewrite ?repeat_length; lia). rewrite nth_error_seq in Q by lia. cbn [option_map Nat.add] in Q. unfold foil_at in Q.
    destruct (nth_error (lin e [dec 3 2; _; _]) i) as [m|] eqn:M; [|discriminate Q]. destruct (nth_error (lin e [dec 5 1; _; _]) i) as [d|] eqn:D; [|discriminate Q]. destruct (VlmAirfoil m d _ _) as [foil|x] eqn:V; [|discriminate Q]. exists m, d, foil. auto.
  - pose proof (first_seven e) as Q. apply (f_equal (fun l => nth_error l 7)) in Q. rewrite nth_error_map, nth_error_seq in Q by lia. cbn [option_map Nat.add repeat app nth_error] in Q. unfold foil_at in Q.
    destruct (nth_error (lin e [dec 3 2; _; _]) 7) as [m|] eqn:M; [|discriminate Q]. destruct (nth_error (lin e [dec 5 1; _; _]) 7) as [d|] eqn:D; [|discriminate Q]. exists m, d. split; [reflexivity|]. split; [reflexivity|]. destruct (VlmAirfoil m d _ _) as [foil|x] eqn:V; [discriminate Q|]. congruence.
Qed.

(** ** Concrete cases *)
Lemma lit z d : (Z.abs z <= 2 ^ 53)%Z -> (0 <= d)%Z -> (10 ^ d <= 2 ^ 53)%Z -> fin (dec z d) /\ Rabs (val (dec z d) - IZR z / IZR (10 ^ d)) <= Rabs (IZR z / IZR (10 ^ d)) * u + tiny.
Proof. intros A B C. exact (literal (Elementary (fun x => x) (fun x => x) (fun x => x) (fun x => x) (fun x => x) (fun x _ => x) (fun x => x) (fun x _ => x)) z d A B C). Qed.
Lemma int z : (Z.abs z <= 2 ^ 53)%Z -> fin (dZ z) /\ val (dZ z) = IZR z.
Proof. intros H. exact (dint (Elementary (fun x => x) (fun x => x) (fun x => x) (fun x => x) (fun x => x) (fun x _ => x) (fun x => x) (fun x _ => x)) z H). Qed.
Example C89_case : table [dZ 0; dec 2 1; dZ 1] [dec 3 2; dec 1 1; dec 1 1] 1 /\ table [dZ 0; dec 2 1; dZ 1] [dec 5 1; dec 5 1; dec 5 1] 1 /\
  inside [dec 3 2; dec 1 1; dec 1 1] (3 / 10) /\ inside [dec 5 1; dec 5 1; dec 5 1] (9 / 10).
Proof.
  destruct (int 0 ltac:(lia)) as [F0 V0]. destruct (int 1 ltac:(lia)) as [F1 V1]. destruct (lit 2 1 ltac:(lia) ltac:(lia) ltac:(lia)) as [F2 V2]. destruct (lit 3 2 ltac:(lia) ltac:(lia) ltac:(lia)) as [F3 V3].
  destruct (lit 1 1 ltac:(lia) ltac:(lia) ltac:(lia)) as [F4 V4]. destruct (lit 5 1 ltac:(lia) ltac:(lia) ltac:(lia)) as [F5 V5]. pose proof u_small as US. pose proof tiny_small as TS. pose proof u_pos as UP.
  change (IZR 2 / IZR (10 ^ 1)) with (2 / 10) in V2. change (IZR 3 / IZR (10 ^ 2)) with (3 / 100) in V3. change (IZR 1 / IZR (10 ^ 1)) with (1 / 10) in V4. change (IZR 5 / IZR (10 ^ 1)) with (5 / 10) in V5.
  rewrite Rabs_pos_eq with (x := 2 / 10) in V2 by lra. rewrite Rabs_pos_eq with (x := 3 / 100) in V3 by lra. rewrite Rabs_pos_eq with (x := 1 / 10) in V4 by lra. rewrite Rabs_pos_eq with (x := 5 / 10) in V5 by lra.
  apply Rabs_le_inv in V2, V3, V4, V5. 
  assert (B2 : 19 / 100 <= val (dec 2 1) <= 21 / 100) by lra. assert (B3 : 2 / 100 <= val (dec 3 2) <= 4 / 100) by lra. assert (B4 : 9 / 100 <= val (dec 1 1) <= 11 / 100) by lra. assert (B5 : 49 / 100 <= val (dec 5 1) <= 51 / 100) by lra. clear V2 V3 V4 V5.
  assert (T100 : / 2 ^ 100 <= 1 / 100). { apply Rle_trans with (/ 100); [apply Rinv_le_contravar; [lra|]|lra]. lra. }
  assert (P100 : 1 <= 2 ^ 100) by (apply pow_R1_Rle; lra).
  clear US TS UP. revert F0 V0 F1 V1 F2 F3 F4 F5 B2 B3 B4 B5. generalize (dZ 0) (dZ 1) (dec 2 1) (dec 3 2) (dec 1 1) (dec 5 1). intros d0 d1 d2 d3 d4 d5 F0 V0 F1 V1 F2 F3 F4 F5 B2 B3 B4 B5.
  assert (G : forall i a b, nth_error [d0; d2; d1] i = Some a -> nth_error [d0; d2; d1] (S i) = Some b -> / 2 ^ 100 <= val b - val a).
  { intros [|[|[|[|i]]]] a b A B; cbn [nth_error] in A, B; try discriminate; injection A as <-; injection B as <-; lra. }
  assert (H : forall x, In x [d0; d2; d1] -> fin x /\ 0 <= val x <= 1) by (intros x [<-|[<-|[<-|[]]]]; split; try assumption; lra).
  split; [|split; [|split]].
  - constructor; [reflexivity|discriminate|exact H|exact G| |exact P100]. intros x [<-|[<-|[<-|[]]]]; (split; [assumption|apply Rabs_le; lra]).
  - constructor; [reflexivity|discriminate|exact H|exact G| |exact P100]. intros x [<-|[<-|[<-|[]]]]; (split; [assumption|apply Rabs_le; lra]).
  - intros x [<-|[<-|[<-|[]]]]; lra.
  - intros x [<-|[<-|[<-|[]]]]; lra.
Qed.
Print Assumptions C89_error.
Print Assumptions C89_constant.
Print Assumptions C89_ends.
Print Assumptions C89_margin.
Print Assumptions C89_range_exit_refuted.
