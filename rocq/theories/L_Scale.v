(** Lemmas about similar lattices: all lengths multiplied by one factor. *)

From Coq Require Import String ZArith Reals List Bool Lra Psatz Lia.
From Verif Require Import Num PyBase RNum Spec M_Panels M_Velocity M_Solve M_Coefs M_Forces M_Winds M_Vlm
  L_List L_Rot L_Vel L_Vel2 L_Solve L_Lattice L_Vlm L_Vlm2.
Import ListNotations.
Open Scope R_scope.

Definition enlarged (k : R) (p : panel R) : panel R := Panel (sscale k (pp1 p)) (sscale k (pp2 p)) (sscale k (pp3 p)) (sscale k (pp4 p)).
Definition ring_scaled (k : R) (r : ring R) : ring R := Ring (sscale k (rA r)) (sscale k (rB r)) (sscale k (rC r)) (sscale k (rD r)).
(** the straight vortex segments of a ring; behind the trailing edge the ring is open *)
Definition segments (te : bool) (r : ring R) : list (vec R * vec R) :=
  [(rA r, rB r); (rB r, rC r); (rC r, rD r)] ++ (if te then [] else [(rD r, rA r)]).
(** the point [p] is in the core of a segment of [r] before the change of scale exactly if it is after it *)
Definition same_core (k : R) (p : vec R) (te : bool) (r : ring R) : Prop :=
  forall a b, In (a, b) (segments te r) -> (in_core p a b <-> in_core (sscale k p) (sscale k a) (sscale k b)).

Section Scale.
Context (k : R) (K : 0 < k).
Lemma sc_sub a b : ssub (sscale k a) (sscale k b) = sscale k (ssub a b).
Proof. destruct a, b; svec; vec_eq; ring. Qed.
Lemma sc_cross a b : scross (sscale k a) (sscale k b) = sscale (k * k) (scross a b).
Proof. destruct a, b; svec; vec_eq; ring. Qed.
Lemma sc_norm a : snorm (sscale k a) = k * snorm a.
Proof. rewrite snorm_scale, Rabs_pos_eq by lra. reflexivity. Qed.
Lemma sc_cross_norm a b : snorm (scross (sscale k a) (sscale k b)) = k * k * snorm (scross a b).
Proof. rewrite sc_cross, snorm_scale, Rabs_pos_eq by nra. reflexivity. Qed.

Lemma line_scale p a b g : (in_core p a b <-> in_core (sscale k p) (sscale k a) (sscale k b)) ->
  vortex_line (sscale k p) (sscale k a) (sscale k b) g = sscale (/ k) (vortex_line p a b g).
Proof.
  intros C. destruct (core_dec p a b) as [I|I].
  - rewrite !vortex_line_core by tauto. svec. vec_eq; ring.
  - rewrite !vortex_line_out by tauto. unfold biot_savart. cbv zeta. rewrite !sc_sub, !sunit_scale, sc_cross by assumption.
    destruct (out_nonzero p a b I) as (_ & _ & NZ).
    set (x := scross _ _) in *. rewrite snorm_scale, Rabs_pos_eq by nra. set (u := ssub (sunit _) _). set (d := ssub b a).
    replace (sdot (sscale k d) u) with (k * sdot d u) by (destruct d, u; svec; ring). generalize (sdot d u). intros q.
    assert (N : snorm x <> 0) by (unfold x in *; lra).
    revert N. generalize (snorm x). intros n N. destruct x. svec. pose proof PI_RGT_0. vec_eq; field; lra.
Qed.
Lemma inf_scale p a r g : vortex_infinite_line (sscale k p) (sscale k a) r g = sscale (/ k) (vortex_infinite_line p a r g).
Proof.
  unfold vortex_infinite_line. cbv zeta. tospec. rewrite sc_sub, sc_norm. set (u := sscale (/ snorm r) r). set (q := ssub p a).
  replace (sdot u (sscale k q)) with (k * sdot u q) by (destruct u, q; svec; ring).
  replace (scross u (sscale k q)) with (sscale k (scross u q)) by (destruct u, q; svec; vec_eq; ring).
  rnum. replace (k * snorm q * (k * snorm q - k * sdot u q)) with (k * k * (snorm q * (snorm q - sdot u q))) by ring.
  rewrite Rinv_mult. generalize (snorm q * (snorm q - sdot u q)). intros n. generalize (/ n). intros m. set (x := scross u q). destruct x. svec. pose proof PI_RGT_0. vec_eq; field; lra.
Qed.
Lemma influence_scale p r te u : same_core k p te r -> influence (-1) (sscale k p) (ring_scaled k r) te u = sscale (/ k) (influence (-1) p r te u).
Proof.
  intros C. unfold influence, ring_scaled. cbn [rA rB rC rD]. unfold same_core, segments in C. destruct te.
  - unfold vortex_horseshoe_v2. cbv zeta. rewrite !line_scale by (apply C; simpl; tauto). rewrite !inf_scale. tospec.
    repeat match goal with |- context [vortex_line ?a ?b ?c ?d] => generalize (vortex_line a b c d); intros ? | |- context [vortex_infinite_line ?a ?b ?c ?d] => generalize (vortex_infinite_line a b c d); intros ? end. vring.
  - unfold vortex_ring. cbv zeta. rewrite !line_scale by (apply C; simpl; tauto). tospec.
    repeat match goal with |- context [vortex_line ?a ?b ?c ?d] => generalize (vortex_line a b c d); intros ? | |- context [vortex_infinite_line ?a ?b ?c ?d] => generalize (vortex_infinite_line a b c d); intros ? end. vring.
Qed.

Record scaled_vars (v w : pvars R) : Prop := {
  sv_n : pv_n w = pv_n v; sv_ctr : pv_ctr w = sscale k (pv_ctr v); sv_cp : pv_cp w = sscale k (pv_cp v);
  sv_ring : pv_ring w = ring_scaled k (pv_ring v); sv_span : pv_span w = sscale k (pv_span v);
  sv_lead : pv_lead w = sscale k (pv_lead v); sv_trail : pv_trail w = sscale k (pv_trail v) }.
Ltac quarter := unfold enlarged, aft_A, aft_D, quarter_B, quarter_C; cbn [pp1 pp2 pp3 pp4]; tospec; rnum; vring.
Lemma quarter_B_sc p : quarter_B (enlarged k p) = sscale k (quarter_B p).
Proof. destruct p as [a b c e]. quarter. Qed.
Lemma quarter_C_sc p : quarter_C (enlarged k p) = sscale k (quarter_C p).
Proof. destruct p as [a b c e]. quarter. Qed.
Lemma aft_A_sc p : aft_A (enlarged k p) = sscale k (aft_A p).
Proof. destruct p as [a b c e]. quarter. Qed.
Lemma aft_D_sc p : aft_D (enlarged k p) = sscale k (aft_D p).
Proof. destruct p as [a b c e]. quarter. Qed.
Lemma panel_vars_sc p A D : scaled_vars (panel_vars (-1) p A D) (panel_vars (-1) (enlarged k p) (sscale k A) (sscale k D)).
Proof.
  constructor; unfold panel_vars; cbv zeta; cbn [pv_n pv_ctr pv_cp pv_ring pv_span pv_lead pv_trail rA rB rC rD]; rewrite ?quarter_B_sc, ?quarter_C_sc; tospec.
  - unfold enlarged; cbn [pp1 pp2 pp3 pp4]. rewrite !sc_sub, sc_cross. set (x := scross _ _). change (sunit (sscale (k * k) x) = sunit x). apply sunit_scale. nra.
  - destruct p as [a b c e]. unfold enlarged; cbn [pp1 pp2 pp3 pp4]. rnum. vring.
  - destruct p as [a b c e]. unfold enlarged; cbn [pp1 pp2 pp3 pp4]. rnum. vring.
  - reflexivity.
  - vring.
  - destruct p as [a b c e]. unfold enlarged; cbn [pp1 pp2 pp3 pp4]. rnum. vring.
  - destruct p as [a b c e]. unfold enlarged; cbn [pp1 pp2 pp3 pp4]. rnum. vring.
Qed.
Lemma panel_area_sc p : panel_area (enlarged k p) = k * k * panel_area p.
Proof. unfold panel_area, enlarged; cbv zeta; cbn [pp1 pp2 pp3 pp4]. tospec. rewrite !sc_sub, !sc_cross_norm. rnum. ring. Qed.
Lemma areas_sc panels : get_panels_area (map (enlarged k) panels) = map (Rmult (k * k)) (get_panels_area panels).
Proof. unfold get_panels_area. rewrite !map_map. apply map_ext. intros p. apply panel_area_sc. Qed.
Lemma vars_sc nc ns G te panels vars : (0 < nc)%nat -> (0 < ns)%nat -> (0 < G)%nat ->
  length panels = (G * (nc * ns))%nat -> length te = (G * (nc * ns))%nat ->
  (forall g i j, (g < G)%nat -> (i < nc)%nat -> (j < ns)%nat -> nth_error te (cell nc ns g i j) = Some (i =? nc - 1)%nat) ->
  calculate_vlm_variables panels te (-1) nc ns = Ok vars ->
  exists vars', calculate_vlm_variables (map (enlarged k) panels) te (-1) nc ns = Ok vars' /\ length vars' = length vars /\
    forall i v, nth_error vars i = Some v -> exists w, nth_error vars' i = Some w /\ scaled_vars v w.
Proof.
  intros NC NS NG LP LT TE CV.
  destruct (vlm_vars_spec (-1) nc ns G panels te NC NS NG LP LT TE) as (vars0 & CV0 & L0 & S0).
  assert (vars0 = vars) by congruence; subst vars0.
  destruct (vlm_vars_spec (-1) nc ns G (map (enlarged k) panels) te NC NS NG ltac:(rewrite map_length; lia) LT TE) as (vars1 & CV1 & L1 & S1).
  exists vars1. split; [assumption|]. rewrite map_length in L1. split; [congruence|].
  intros c v Hv. pose proof (nth_error_Some_lt _ _ _ Hv) as KK. rewrite L0, LP in KK.
  destruct (cell_ex nc ns G c KK) as (g & i & j & G1 & I1 & J1 & ->).
  destruct (nth_error_ex panels (cell nc ns g i j)) as [p P]; [rewrite LP; apply cell_lt; assumption|].
  destruct (S0 g i j p G1 I1 J1 P) as (A & D & X & T & N).
  destruct (S1 g i j (enlarged k p) G1 I1 J1 (map_nth_error _ _ _ P)) as (A' & D' & X' & T' & N').
  exists (panel_vars (-1) (enlarged k p) A' D'). split; [assumption|]. rewrite Hv in X. injection X as ->.
  replace A' with (sscale k A). replace D' with (sscale k D). apply panel_vars_sc.
  all: destruct (Nat.eq_dec i (nc - 1)) as [E|E].
  - rewrite (proj2 (T E)), (proj2 (T' E)). symmetry. apply aft_D_sc.
  - destruct (nth_error_ex panels (cell nc ns g (i + 1) j)) as [q Q]; [rewrite LP; apply cell_lt; lia|].
    destruct (N q Q E) as [_ ->]. destruct (N' (enlarged k q) (map_nth_error _ _ _ Q) E) as [_ ->]. symmetry. apply quarter_C_sc.
  - rewrite (proj1 (T E)), (proj1 (T' E)). symmetry. apply aft_A_sc.
  - destruct (nth_error_ex panels (cell nc ns g (i + 1) j)) as [q Q]; [rewrite LP; apply cell_lt; lia|].
    destruct (N q Q E) as [-> _]. destruct (N' (enlarged k q) (map_nth_error _ _ _ Q) E) as [-> _]. symmetry. apply quarter_B_sc.
Qed.

(** the wind profile with all its heights multiplied *)
Definition stretched (w : wind R) : wind R := Wind_ (w_alpha_deg w) (w_tws w) (w_sog w)
  match w_prof w with Flat => Flat | Log r h => Log (option_map (Rmult k) r) (option_map (Rmult k) h)
  | Exp e h wl => Exp e (option_map (Rmult k) h) (option_map (Rmult k) wl) end.
Lemma div_sc a b : k * a / (k * b) = a / b.
Proof. unfold Rdiv. rewrite Rinv_mult. generalize (/ b). intros. field. lra. Qed.
Lemma wind_sc w h : get_true_wind_speed_at_h (stretched w) (k * h) = get_true_wind_speed_at_h w h.
Proof.
  unfold get_true_wind_speed_at_h, wind_speed_at_h, stretched. destruct w as [al tws sog pr]. cbn [w_prof w_tws w_alpha_deg w_sog].
  destruct pr as [|r rh|e rh wl].
  - reflexivity.
  - destruct r as [r|]; [|reflexivity]. destruct rh as [rh|]; [|reflexivity]. cbn [option_map opt_arg bind]. rnum. rewrite !div_sc. reflexivity.
  - destruct wl as [wl|]; [|reflexivity]. destruct rh as [rh|]; [|reflexivity]. destruct e as [e|]; [|reflexivity]. cbn [option_map opt_arg bind]. rnum.
    replace (k * h - k * wl) with (k * (h - wl)) by ring. rewrite !div_sc. reflexivity.
Qed.
Lemma inlet_sc w cp : InletConditions (stretched w) (map (sscale k) cp) = (do ic <- InletConditions w cp; Ok (Inlet (map (sscale k) cp) (in_tws ic) (in_V ic) (in_awa_deg ic))).
Proof.
  unfold InletConditions. replace (mapM (fun p => get_true_wind_speed_at_h (stretched w) (nabs (vz p))) (map (sscale k) cp))
    with (mapM (fun p => get_true_wind_speed_at_h w (nabs (vz p))) cp).
  - destruct (mapM _ cp); reflexivity.
  - induction cp as [|p cp IH]; [reflexivity|]. cbn [map mapM]. rewrite <- IH. f_equal.
    replace (nabs (vz (sscale k p))) with (k * nabs (vz p)). { symmetry. apply wind_sc. }
    unfold sscale. cbn [vz]. rnum. rewrite Rabs_mult, (Rabs_pos_eq k) by lra. reflexivity.
Qed.
End Scale.
