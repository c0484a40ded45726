(** Properties C36 - C39 and C43: the vortex lattice, the linear solver, net circulations. *)

From Coq Require Import String ZArith Reals List Bool Lra Psatz Lia.
From Verif Require Import Num PyBase RNum Spec M_Panels M_Mesher M_Csys M_Sail M_Coefs M_Forces M_Solve
  L_List L_Rot L_Mesh L_Sail L_Lattice L_Solve P_Mesh P_Sail.
Import ListNotations.
Open Scope R_scope.

(** ** C36 *)
Theorem C36_lattice_never_fails : forall (F : Type) (NF : Num F) nc ns (sails : list (sail F)) ss gor,
  (0 < nc)%nat -> (0 < ns)%nat -> (forall s, In s sails -> built nc ns s) -> SailSet sails = Ok ss ->
  exists vars, calculate_vlm_variables (ss_panels ss) (ss_te ss) gor nc ns = Ok vars /\ length vars = length (ss_panels ss).
Proof.
  intros F NF nc ns sails ss gor NC NS B E. destruct (sail_set_flags nc ns sails ss B E) as [L FL].
  destruct (sail_set_groups nc ns sails ss B E) as [N _].
  destruct (vlm_vars_spec gor nc ns (2 * length sails) (ss_panels ss) (ss_te ss)) as (vars & V & LV & _); try assumption; try lia.
  - apply FL. - apply FL. - eauto.
Qed.

(** The mid points of the leading and trailing edge of a panel. *)
Definition mid (a b : vec R) : vec R := slerp a b (1 / 2).
Record panel_vortex (gor : R) (p : panel R) (v : pvars R) : Prop := {
  pvx_cp : pv_cp v = slerp (mid (pp2 p) (pp3 p)) (mid (pp1 p) (pp4 p)) (1 / 4);
  pvx_ctr : pv_ctr v = slerp (mid (pp2 p) (pp3 p)) (mid (pp1 p) (pp4 p)) (3 / 4);
  pvx_B : rB (pv_ring v) = slerp (pp2 p) (pp1 p) (1 / 4);
  pvx_C : rC (pv_ring v) = slerp (pp3 p) (pp4 p) (1 / 4);
  pvx_span : pv_span v = sscale gor (ssub (rC (pv_ring v)) (rB (pv_ring v)));
  (* the diagonals are not parallel *)
  pvx_normal : scross (ssub (pp3 p) (pp1 p)) (ssub (pp4 p) (pp2 p)) <> szero ->
    snorm (pv_n v) = 1 /\ sdot (pv_n v) (ssub (pp3 p) (pp1 p)) = 0 /\ sdot (pv_n v) (ssub (pp4 p) (pp2 p)) = 0 /\
    0 < sdot (pv_n v) (scross (ssub (pp3 p) (pp1 p)) (ssub (pp4 p) (pp2 p))) }.

Lemma ndec75 : @ndec R RNum 75 2 = 3 / 4.
Proof. rewrite ndec_R. change (10 ^ 2)%Z with 100%Z. lra. Qed.
Lemma ndec25 : @ndec R RNum 25 2 = 1 / 4.
Proof. rewrite ndec_R. change (10 ^ 2)%Z with 100%Z. lra. Qed.
Lemma quarter_B_s (p : panel R) : quarter_B p = slerp (pp2 p) (pp1 p) (1 / 4).
Proof. unfold quarter_B, slerp. destruct (pp1 p) as [a b c], (pp2 p) as [x y z]. vnum. svec. vec_eq; field. Qed.
Lemma quarter_C_s (p : panel R) : quarter_C p = slerp (pp3 p) (pp4 p) (1 / 4).
Proof. unfold quarter_C, slerp. destruct (pp3 p) as [a b c], (pp4 p) as [x y z]. vnum. svec. vec_eq; field. Qed.
Lemma aft_A_s (p : panel R) : aft_A p = slerp (pp2 p) (pp1 p) (5 / 4).
Proof. unfold aft_A, slerp. destruct (pp1 p) as [a b c], (pp2 p) as [x y z]. vnum. svec. vec_eq; field. Qed.
Lemma aft_D_s (p : panel R) : aft_D p = slerp (pp3 p) (pp4 p) (5 / 4).
Proof. unfold aft_D, slerp. destruct (pp3 p) as [a b c], (pp4 p) as [x y z]. vnum. svec. vec_eq; field. Qed.
Lemma panel_vars_vortex gor p A D : panel_vortex gor p (panel_vars gor p A D).
Proof.
  constructor.
  - unfold panel_vars, mid, slerp. cbn [pv_cp]. rewrite ndec25. destruct p as [[a b c] [d e f] [g h i] [j k l]]. cbn [pp1 pp2 pp3 pp4]. vnum. svec. vec_eq; field.
  - unfold panel_vars, mid, slerp. cbn [pv_ctr]. rewrite ndec75. destruct p as [[a b c] [d e f] [g h i] [j k l]]. cbn [pp1 pp2 pp3 pp4]. vnum. svec. vec_eq; field.
  - apply quarter_B_s.
  - apply quarter_C_s.
  - unfold panel_vars. cbn [pv_span pv_ring rB rC]. tospec. reflexivity.
  - intros NZ. unfold panel_vars. cbn [pv_n]. tospec.
    set (u := ssub (pp3 p) (pp1 p)) in *. set (w := ssub (pp4 p) (pp2 p)) in *.
    assert (P : 0 < snorm (scross u w)) by (apply snorm_pos; assumption).
    assert (N1 : snorm (sunit (scross u w)) = 1).
    { unfold sunit. rewrite snorm_scale, Rabs_right; [field; lra|]. left. apply Rinv_0_lt_compat. assumption. }
    assert (Q : forall x, sdot (sunit (scross u w)) x = / snorm (scross u w) * sdot (scross u w) x).
    { intros x. unfold sunit. destruct (scross u w), x; svec; ring. }
    repeat split.
    + exact N1.
    + rewrite Q. replace (sdot (scross u w) u) with 0 by (destruct u, w; svec; ring). ring.
    + rewrite Q. replace (sdot (scross u w) w) with 0 by (destruct u, w; svec; ring). ring.
    + rewrite Q. apply Rmult_lt_0_compat; [apply Rinv_0_lt_compat; assumption|].
      rewrite snorm_sqrt in P. destruct (Rlt_le_dec 0 (sdot (scross u w) (scross u w))); [assumption|].
      rewrite sqrt_neg_0 in P by assumption. lra.
Qed.
Theorem C36_lattice_geometry : forall nc ns (sails : list (sail R)) ss gor,
  (0 < nc)%nat -> (0 < ns)%nat -> (forall s, In s sails -> built nc ns s) -> SailSet sails = Ok ss ->
  exists vars, calculate_vlm_variables (ss_panels ss) (ss_te ss) gor nc ns = Ok vars /\ length vars = length (ss_panels ss) /\
    forall k p v, nth_error (ss_panels ss) k = Some p -> nth_error vars k = Some v -> panel_vortex gor p v.
Proof.
  intros nc ns sails ss gor NC NS B E. destruct (sail_set_flags nc ns sails ss B E) as [L FL].
  destruct (sail_set_groups nc ns sails ss B E) as [N _].
  destruct (vlm_vars_spec gor nc ns (2 * length sails) (ss_panels ss) (ss_te ss)) as (vars & V & LV & SP); try assumption; try lia.
  - apply FL. - apply FL.
  - exists vars. split; [assumption|]. split; [assumption|]. intros k p v P Q.
    pose proof (nth_error_Some_lt _ _ _ P) as K. rewrite L in K. destruct (cell_ex nc ns _ k K) as (g & i & j & G1 & I1 & J1 & ->).
    destruct (SP g i j p G1 I1 J1 P) as (A & D & X & _). rewrite Q in X. injection X as ->. apply panel_vars_vortex.
Qed.
Example C36_case : exists s ss, built 3 2 s /\ SailSet [s; s] = Ok ss /\ length (ss_panels (F := R) ss) = 24%nat.
Proof.
  destruct (good_sail_spec _ _ _ _ _ _ _ _ _ _ "sail"%string (proj1 C17_case)) as (s & E & _).
  assert (B : built 3 2 s) by (unfold built; eauto 12). exists s. eexists. split; [exact B|]. split; [reflexivity|].
  apply (sail_set_flags 3 2 [s; s]); [|reflexivity]. intros s' [<-|[<-|[]]]; assumption.
Qed.
Print Assumptions C36_lattice_never_fails.
Print Assumptions C36_lattice_geometry.

(** ** C37.  Ring (i, j) of group g; a group is one sail above or under the water. *)
Theorem C37_watertight : forall (F : Type) (NF : Num F) nc ns (sails : list (sail F)) ss gor,
  (0 < nc)%nat -> (0 < ns)%nat -> (forall s, In s sails -> built nc ns s) -> SailSet sails = Ok ss ->
  exists vars, calculate_vlm_variables (ss_panels ss) (ss_te ss) gor nc ns = Ok vars /\
    forall g i j, (g < 2 * length sails)%nat -> (i < nc)%nat -> (j < ns)%nat -> exists v,
      nth_error vars (cell nc ns g i j) = Some v /\
      (* the ring behind *)
      ((i + 1 < nc)%nat -> exists w, nth_error vars (cell nc ns g (i + 1) j) = Some w /\
         rA (pv_ring v) = rB (pv_ring w) /\ rD (pv_ring v) = rC (pv_ring w)) /\
      (* the neighbour in the row *)
      ((j + 1 < ns)%nat -> exists w, nth_error vars (cell nc ns g i (j + 1)) = Some w /\
         rC (pv_ring v) = rB (pv_ring w) /\ rD (pv_ring v) = rA (pv_ring w)).
Proof.
  intros F NF nc ns sails ss gor NC NS B E. destruct (sail_set_flags nc ns sails ss B E) as [L FL].
  destruct (sail_set_groups nc ns sails ss B E) as [N _].
  destruct (vlm_vars_spec gor nc ns (2 * length sails) (ss_panels ss) (ss_te ss)) as (vars & V & LV & SP); try assumption; try lia.
  - apply FL. - apply FL.
  - exists vars. split; [assumption|]. intros g i j G I J. destruct (sail_set_grid nc ns sails ss g B E G) as [f FP].
    destruct (SP g i j _ G I J (FP i j I J)) as (A & D & X & Y & Z).
    eexists. split; [exact X|]. split.
    + intros I'. destruct (SP g (i + 1)%nat j _ G I' J (FP (i + 1)%nat j I' J)) as (A' & D' & X' & _).
      eexists. split; [exact X'|]. destruct (Z _ (FP (i + 1)%nat j I' J)) as [-> ->]; [lia|]. split; reflexivity.
    + intros J'. destruct (SP g i (j + 1)%nat _ G I J' (FP i (j + 1)%nat I J')) as (A' & D' & X' & Y' & Z').
      eexists. split; [exact X'|]. split; [reflexivity|]. cbn [panel_vars pv_ring rA rD].
      destruct (Nat.eq_dec i (nc - 1)) as [EI|NI].
      * destruct (Y EI) as [_ ->]. destruct (Y' EI) as [-> _]. reflexivity.
      * assert (I' : (i + 1 < nc)%nat) by lia. destruct (Z _ (FP (i + 1)%nat j I' J) NI) as [_ ->].
        destruct (Z' _ (FP (i + 1)%nat (j + 1)%nat I' J') NI) as [-> _]. reflexivity.
Qed.
(** The aft edges of the last row are a quarter panel behind the trailing edge. *)
Theorem C37_trailing_edge : forall nc ns (sails : list (sail R)) ss gor,
  (0 < nc)%nat -> (0 < ns)%nat -> (forall s, In s sails -> built nc ns s) -> SailSet sails = Ok ss ->
  exists vars, calculate_vlm_variables (ss_panels ss) (ss_te ss) gor nc ns = Ok vars /\
    forall g j, (g < 2 * length sails)%nat -> (j < ns)%nat -> exists p v,
      nth_error (ss_panels ss) (cell nc ns g (nc - 1) j) = Some p /\ nth_error vars (cell nc ns g (nc - 1) j) = Some v /\
      ssub (rA (pv_ring v)) (pp1 p) = sscale (1 / 4) (ssub (pp1 p) (pp2 p)) /\
      ssub (rD (pv_ring v)) (pp4 p) = sscale (1 / 4) (ssub (pp4 p) (pp3 p)).
Proof.
  intros nc ns sails ss gor NC NS B E. destruct (sail_set_flags nc ns sails ss B E) as [L FL].
  destruct (sail_set_groups nc ns sails ss B E) as [N _].
  destruct (vlm_vars_spec gor nc ns (2 * length sails) (ss_panels ss) (ss_te ss)) as (vars & V & LV & SP); try assumption; try lia.
  - apply FL. - apply FL.
  - exists vars. split; [assumption|]. intros g j G J. destruct (sail_set_grid nc ns sails ss g B E G) as [f FP].
    assert (I : (nc - 1 < nc)%nat) by lia. pose proof (FP (nc - 1)%nat j I J) as P.
    destruct (SP g (nc - 1)%nat j _ G I J P) as (A & D & X & Y & _). destruct (Y eq_refl) as [-> ->].
    do 2 eexists. split; [exact P|]. split; [exact X|]. unfold panel_vars. cbn [pv_ring rA rD]. rewrite aft_A_s, aft_D_s. cbn [pp1 pp2 pp3 pp4].
    generalize (f (nc - 1 + 1)%nat j) (f (nc - 1)%nat j) (f (nc - 1)%nat (j + 1)%nat) (f (nc - 1 + 1)%nat (j + 1)%nat).
    intros [a b c] [a1 b1 c1] [a2 b2 c2] [a3 b3 c3]. unfold slerp. split; svec; vec_eq; field.
Qed.
Example C37_case : exists s ss, built 3 2 s /\ SailSet [s; s] = Ok ss /\ length (ss_panels (F := R) ss) = 24%nat.
Proof. exact C36_case. Qed.
Print Assumptions C37_watertight.
Print Assumptions C37_trailing_edge.

(** ** C38 *)
Theorem C38_wing_lattice : forall (le_s te_s le_n te_n : vec R) nc ns gor, (1 <= nc)%nat -> (1 <= ns)%nat ->
  exists ps te le, make_panels_from_le_te_points le_s te_s le_n te_n nc ns = Ok (ps, te, le) /\
    calculate_vlm_variables ps te gor nc ns = Ok (simple_vlm_variables ps gor).
Proof.
  intros le_s te_s le_n te_n nc ns gor NC NS.
  destruct (C16_wing_mesh le_s te_s le_n te_n nc ns NC NS) as (ps & te & le & E & L & P & _). cbv zeta in P.
  exists ps, te, le. split; [exact E|].
  assert (LT : length te = (nc * ns)%nat).
  { unfold make_panels_from_le_te_points in E.
    pose proof (point_mesh_rect (discrete_segment le_s te_s nc) (discrete_segment le_n te_n nc) ns) as Q.
    rewrite !segment_length in Q. destruct (panels_spec _ nc ns (Q eq_refl)) as (ps' & te' & le' & E' & _ & L' & _).
    rewrite E in E'. injection E' as _ -> _. exact L'. }
  destruct (vlm_vars_spec gor nc ns 1 ps te) as (vars & V & LV & SP); try assumption; try lia.
  { intros g i j G I J. replace (cell nc ns g i j) with (i * ns + j)%nat by (unfold cell; nia). apply P; assumption. }
  rewrite V. f_equal. apply list_ext; [unfold simple_vlm_variables; rewrite map_length; exact LV|].
  intros k K. rewrite LV in K. destruct (nth_error_ex ps k K) as [p PK]. rewrite L in K.
  destruct (cell_ex nc ns 1 k) as (g & i & j & G & I & J & ->); [lia|].
  destruct (SP g i j p G I J PK) as (A & D & X & Y & Z). rewrite X.
  unfold simple_vlm_variables. rewrite nth_error_map, PK. cbn [option_map]. f_equal.
  destruct (Nat.eq_dec i (nc - 1)) as [EI|NI]; [destruct (Y EI) as [-> ->]; reflexivity|].
  assert (I' : (i + 1 < nc)%nat) by lia. assert (G0 : g = 0%nat) by lia. subst g.
  destruct (P i j I J) as [P1 _]. destruct (P (i + 1)%nat j I' J) as [P2 _].
  change (cell nc ns 0 i j) with (i * ns + j)%nat in *. change (cell nc ns 0 (i + 1) j) with ((i + 1) * ns + j)%nat in *.
  destruct (Z _ P2 NI) as [-> ->]. match type of P1 with _ = Some ?x => assert (EP : p = x) by congruence end. subst p.
  assert (NN : INR nc <> 0) by (apply not_0_INR; lia). assert (NM : INR ns <> 0) by (apply not_0_INR; lia).
  assert (E1 : INR (S (i + 1)%nat) = INR i + 2) by (rewrite S_INR, plus_INR; change (INR 1) with 1; ring).
  assert (E2 : INR (i + 1)%nat = INR i + 1) by (rewrite plus_INR; reflexivity).
  assert (E3 : INR (S i) = INR i + 1) by apply S_INR.
  f_equal.
  - rewrite quarter_B_s, aft_A_s. cbn [pp1 pp2]. rewrite E1, E2, E3.
    set (t := INR j / INR ns). clearbody t. destruct le_s as [a b c], te_s as [a1 b1 c1], le_n as [a2 b2 c2], te_n as [a3 b3 c3].
    unfold sbilinear, slerp. svec. vec_eq; field; assumption.
  - rewrite quarter_C_s, aft_D_s. cbn [pp3 pp4]. rewrite E1, E2, E3.
    set (t := INR (S j) / INR ns). clearbody t. destruct le_s as [a b c], te_s as [a1 b1 c1], le_n as [a2 b2 c2], te_n as [a3 b3 c3].
    unfold sbilinear, slerp. svec. vec_eq; field; assumption.
Qed.
Example C38_case : exists ps te le, make_panels_from_le_te_points (V3 0 0 0) (V3 2 0 0) (V3 1 0 10) (V3 3 0 10) 4 5 = Ok (ps, te, le) /\ length ps = 20%nat.
Proof.
  destruct (C16_wing_mesh (V3 0 0 0) (V3 2 0 0) (V3 1 0 10) (V3 3 0 10) 4 5) as (ps & te & le & E & L & _); try lia. eauto 6.
Qed.
Print Assumptions C38_wing_lattice.

(** ** C39 *)
Theorem C39_linear_solver : forall (A : list (list R)) (b : list R),
  (* a returned vector is the one and only solution *)
  (forall x, solve_eq A b = Ok x -> square A /\ length b = length A /\ forall y, solves A b y <-> y = x) /\
  (* failure is reported as LinAlgError; a square system that fails is singular *)
  (forall e, solve_eq A b = Raise e -> e = LinAlgError /\
     (square A -> length b = length A -> exists z, length z = length A /\ (exists k, In k z /\ k <> 0) /\
        solves A (repeat 0 (length A)) z)) /\
  (* and non-singular square systems are solved *)
  (square A -> length b = length A ->
     (forall z, solves A (repeat 0 (length A)) z -> z = repeat 0 (length A)) -> exists x, solve_eq A b = Ok x).
Proof.
  intros A b.
  assert (RAISE : forall e, solve_eq A b = Raise e -> e = LinAlgError /\
     (square A -> length b = length A -> exists z, length z = length A /\ (exists k, In k z /\ k <> 0) /\
        solves A (repeat 0 (length A)) z)).
  { intros e E. apply solve_eq_raise in E. destruct E as [-> E]. split; [reflexivity|]. intros SQ LB.
    destruct (E SQ LB) as (z & LZ & NZ & Z). exists z. split; [assumption|]. split; [assumption|].
    split; [assumption|]. split; [apply repeat_length|]. intros i row r I J.
    apply nth_error_In, repeat_spec in J. subst r. apply Z. eapply nth_error_In; eauto. }
  split; [apply solve_eq_ok|]. split; [exact RAISE|].
  intros SQ LB U. destruct (solve_eq A b) as [x|e]; [eauto|]. destruct (RAISE e eq_refl) as [_ R].
  destruct (R SQ LB) as (z & LZ & (k & IK & NK) & S). apply U in S. subst z. apply repeat_spec in IK. contradiction.
Qed.
Example C39_case : exists x, solve_eq [[0; 2]; [4; 1]] [6; 11] = Ok x /\ x = [2; 3].
Proof.
  destruct (C39_linear_solver [[0; 2]; [4; 1]] [6; 11]) as (A & _ & B).
  destruct B as [x E].
  - intros row [<-|[<-|[]]]; reflexivity.
  - reflexivity.
  - intros z (L & _ & S). destruct z as [|u [|v [|]]]; try discriminate. simpl.
    specialize (S 0%nat _ _ eq_refl eq_refl) as S0. specialize (S 1%nat _ _ eq_refl eq_refl) as S1.
    unfold srow in *. simpl in *. f_equal; [lra|]. f_equal. lra.
  - exists x. split; [exact E|]. destruct (A x E) as (_ & _ & U). symmetry. apply U.
    split; [reflexivity|]. split; [reflexivity|]. intros [|[|[|i]]] row r I J; simpl in I, J; try discriminate; injection I as <-; injection J as <-; unfold srow; simpl; lra.
Qed.
Print Assumptions C39_linear_solver.

(** ** C43 *)
Theorem C43_net_circulation : forall (F : Type) (NF : Num F) nc ns (sails : list (sail F)) ss (gamma : list F),
  (0 < nc)%nat -> (0 < ns)%nat -> (forall s, In s sails -> built nc ns s) -> SailSet sails = Ok ss ->
  length gamma = length (ss_panels ss) ->
  forall g i j, (g < 2 * length sails)%nat -> (i < nc)%nat -> (j < ns)%nat ->
  exists own, nth_error gamma (cell nc ns g i j) = Some own /\
    (* leading edge: all of it *)
    (i = 0%nat -> net_circulation gamma (ss_le ss) ns (cell nc ns g i j) = Ok own) /\
    (* other rows: minus the panel in front, same strip, same sail *)
    (forall i', i = S i' -> exists front, nth_error gamma (cell nc ns g i' j) = Some front /\
       net_circulation gamma (ss_le ss) ns (cell nc ns g i j) = Ok (nsub own front)).
Proof.
  intros F NF nc ns sails ss gamma NC NS B E LG g i j G I J. destruct (sail_set_flags nc ns sails ss B E) as [L FL].
  apply (net_circulation_spec nc ns (2 * length sails) (ss_te ss)); try assumption. lia.
Qed.
Theorem C43_telescope : forall nc ns (sails : list (sail R)) ss (gamma : list R),
  (0 < nc)%nat -> (0 < ns)%nat -> (forall s, In s sails -> built nc ns s) -> SailSet sails = Ok ss ->
  length gamma = length (ss_panels ss) ->
  forall g j, (g < 2 * length sails)%nat -> (j < ns)%nat ->
  exists nets, mapM (fun i => net_circulation gamma (ss_le ss) ns (cell nc ns g i j)) (seq 0 nc) = Ok nets /\
    nth_error gamma (cell nc ns g (nc - 1) j) = Some (rsum nets).
Proof.
  intros nc ns sails ss gamma NC NS B E LG g j G J.
  pose proof (C43_net_circulation R RNum nc ns sails ss gamma NC NS B E LG g) as N.
  assert (H : forall n, (n < nc)%nat -> exists nets,
    mapM (fun i => net_circulation gamma (ss_le ss) ns (cell nc ns g i j)) (seq 0 (S n)) = Ok nets /\
    nth_error gamma (cell nc ns g n j) = Some (rsum nets)).
  { induction n as [|n IH]; intros Hn.
    - destruct (N 0%nat j G Hn J) as (own & O & Z & _). exists [own]. split.
      + simpl seq. simpl mapM. rewrite (Z eq_refl). reflexivity.
      + rewrite O. unfold rsum. simpl. f_equal. lra.
    - destruct IH as (nets & M & Q); [lia|]. destruct (N (S n) j G Hn J) as (own & O & _ & W).
      destruct (W n eq_refl) as (front & FR & NC'). rewrite Q in FR. injection FR as <-.
      exists (nets ++ [own - rsum nets]). split.
      + replace (S (S n)) with (S n + 1)%nat by lia. rewrite seq_app. apply mapM_app; [exact M|].
        cbn [seq]. cbn [mapM]. change (0 + S n)%nat with (S n). rewrite NC'. reflexivity.
      + rewrite rsum_app, rsum_cons. change (rsum []) with 0. rewrite O. f_equal. lra. }
  destruct (H (nc - 1)%nat ltac:(lia)) as (nets & M & Q). exists nets. replace (S (nc - 1)) with nc in M by lia. auto.
Qed.
Example C43_case : exists s ss, built 3 2 s /\ SailSet [s; s] = Ok ss /\ length (repeat 1 24) = length (ss_panels (F := R) ss).
Proof. destruct C36_case as (s & ss & B & E & L). exists s, ss. rewrite L. auto. Qed.
Print Assumptions C43_net_circulation.
Print Assumptions C43_telescope.
