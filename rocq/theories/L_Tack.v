(** The solver under rigid maps that may reverse orientation ([iso s m]: s = 1 for rotations, s = -1 for reflections).
    Panels keep their order and the order of their corners, so a reflection turns every normal vector round. *)

From Coq Require Import String ZArith Reals List Bool Lra Psatz Lia.
From Verif Require Import Num PyBase RNum Spec M_Panels M_Velocity M_Solve M_Coefs M_Forces M_Winds M_Csys M_Sail M_Vlm
  L_List L_Rot L_Vel L_Vel2 L_Csys L_Sail L_Solve L_Lattice L_Vlm L_Vlm2 P_Sail P_Lattice L_Demo P_Vlm.
Import ListNotations.
Open Scope R_scope.

Section Rigid.
Context (s : R) (m : vec R -> vec R) (d : vec R) (I : iso s m) (Hs : s * s = 1).
Let sub_ a b : m (ssub a b) = ssub (m a) (m b) := iso_sub s m I a b.
Let norm_ a : snorm (m a) = snorm a := iso_norm s m I a.
Let mo_sub_ a b : ssub (motion m d a) (motion m d b) = m (ssub a b) := motion_sub s m I d a b.
Lemma influence_rigid p r te u :
  influence (-1) (motion m d p) (Ring (motion m d (rA r)) (motion m d (rB r)) (motion m d (rC r)) (motion m d (rD r))) te (m u)
  = sscale s (m (influence (-1) p r te u)).
Proof.
  unfold influence. cbn [rA rB rC rD]. destruct te.
  - rewrite (horseshoe2_motion s m I Hs). reflexivity.
  - rewrite (ring_motion s m I Hs). reflexivity.
Qed.
Record rigid_vars (v w : pvars R) : Prop := {
  rv_n : pv_n w = sscale s (m (pv_n v)); rv_ctr : pv_ctr w = motion m d (pv_ctr v); rv_cp : pv_cp w = motion m d (pv_cp v);
  rv_ring : pv_ring w = Ring (motion m d (rA (pv_ring v))) (motion m d (rB (pv_ring v))) (motion m d (rC (pv_ring v))) (motion m d (rD (pv_ring v)));
  rv_span : pv_span w = m (pv_span v) }.
Ltac spread := unfold moved, aft_A, aft_D, quarter_B, quarter_C; cbn [pp1 pp2 pp3 pp4]; tospec; unfold motion;
  do 4 (rewrite ?(iso_add _ _ I), ?(iso_scale _ _ I), ?sub_);
  repeat match goal with |- context [m ?q] => let w := fresh in set (w := m q); clearbody w end;
  rewrite ?ndec_R; change (10 ^ 2)%Z with 100%Z; rnum; svec; vec_eq; field.
Lemma quarter_B_rigid p : quarter_B (moved m d p) = motion m d (quarter_B p).
Proof. destruct p as [a b c e]. spread. Qed.
Lemma quarter_C_rigid p : quarter_C (moved m d p) = motion m d (quarter_C p).
Proof. destruct p as [a b c e]. spread. Qed.
Lemma aft_A_rigid p : aft_A (moved m d p) = motion m d (aft_A p).
Proof. destruct p as [a b c e]. spread. Qed.
Lemma aft_D_rigid p : aft_D (moved m d p) = motion m d (aft_D p).
Proof. destruct p as [a b c e]. spread. Qed.
Lemma norm_s a : snorm (sscale s (m a)) = snorm a.
Proof. rewrite snorm_scale, (abs_s s m I Hs), norm_. ring. Qed.
Lemma panel_vars_rigid p A D : rigid_vars (panel_vars (-1) p A D) (panel_vars (-1) (moved m d p) (motion m d A) (motion m d D)).
Proof.
  constructor; unfold panel_vars; cbv zeta; cbn [pv_n pv_ctr pv_cp pv_ring pv_span rA rB rC rD]; rewrite ?quarter_B_rigid, ?quarter_C_rigid; tospec.
  - unfold moved; cbn [pp1 pp2 pp3 pp4]. rewrite !mo_sub_, !(iso_cross _ _ I), norm_s, (iso_scale _ _ I).
    match goal with |- context [m ?q] => generalize (m q) end. intros [? ? ?]. svec. vec_eq; ring.
  - destruct p as [a b c e]. spread.
  - destruct p as [a b c e]. spread.
  - reflexivity.
  - rewrite mo_sub_, (iso_scale _ _ I). reflexivity.
Qed.
Lemma panel_area_rigid p : panel_area (moved m d p) = panel_area p.
Proof. unfold panel_area, moved; cbv zeta; cbn [pp1 pp2 pp3 pp4]. tospec. rewrite !mo_sub_, !(iso_cross _ _ I), !norm_s. reflexivity. Qed.
Lemma vars_rigid nc ns G te panels vars : (0 < nc)%nat -> (0 < ns)%nat -> (0 < G)%nat ->
  length panels = (G * (nc * ns))%nat -> length te = (G * (nc * ns))%nat ->
  (forall g i j, (g < G)%nat -> (i < nc)%nat -> (j < ns)%nat -> nth_error te (cell nc ns g i j) = Some (i =? nc - 1)%nat) ->
  calculate_vlm_variables panels te (-1) nc ns = Ok vars ->
  exists vars', calculate_vlm_variables (map (moved m d) panels) te (-1) nc ns = Ok vars' /\ length vars' = length vars /\
    forall k v, nth_error vars k = Some v -> exists w, nth_error vars' k = Some w /\ rigid_vars v w.
Proof.
  intros NC NS NG LP LT TE CV.
  destruct (vlm_vars_spec (-1) nc ns G panels te NC NS NG LP LT TE) as (vars0 & CV0 & L0 & S0).
  assert (vars0 = vars) by congruence; subst vars0.
  destruct (vlm_vars_spec (-1) nc ns G (map (moved m d) panels) te NC NS NG ltac:(rewrite map_length; lia) LT TE) as (vars1 & CV1 & L1 & S1).
  exists vars1. split; [assumption|]. rewrite map_length in L1. split; [congruence|].
  intros k v Hv. pose proof (nth_error_Some_lt _ _ _ Hv) as K. rewrite L0, LP in K.
  destruct (cell_ex nc ns G k K) as (g & i & j & G1 & I1 & J1 & ->).
  destruct (nth_error_ex panels (cell nc ns g i j)) as [p P]; [rewrite LP; apply cell_lt; assumption|].
  destruct (S0 g i j p G1 I1 J1 P) as (A & D & X & T & N).
  destruct (S1 g i j (moved m d p) G1 I1 J1 (map_nth_error _ _ _ P)) as (A' & D' & X' & T' & N').
  exists (panel_vars (-1) (moved m d p) A' D'). split; [assumption|]. rewrite Hv in X. injection X as ->.
  replace A' with (motion m d A). replace D' with (motion m d D). apply panel_vars_rigid.
  all: destruct (Nat.eq_dec i (nc - 1)) as [E|E].
  - rewrite (proj2 (T E)), (proj2 (T' E)). symmetry. apply aft_D_rigid.
  - destruct (nth_error_ex panels (cell nc ns g (i + 1) j)) as [q Q]; [rewrite LP; apply cell_lt; lia|].
    destruct (N q Q E) as [_ ->]. destruct (N' (moved m d q) (map_nth_error _ _ _ Q) E) as [_ ->]. symmetry. apply quarter_C_rigid.
  - rewrite (proj1 (T E)), (proj1 (T' E)). symmetry. apply aft_A_rigid.
  - destruct (nth_error_ex panels (cell nc ns g (i + 1) j)) as [q Q]; [rewrite LP; apply cell_lt; lia|].
    destruct (N q Q E) as [-> _]. destruct (N' (moved m d q) (map_nth_error _ _ _ Q) E) as [-> _]. symmetry. apply quarter_B_rigid.
Qed.

(** Circulations and pressures get the factor [s]; velocities and forces are moved. *)
Record rigid_solution (o o' : vlm R) : Prop := {
  rs_panels : vl_panels o' = map (moved m d) (vl_panels o);
  rs_cp : vl_cp o' = map (motion m d) (vl_cp o);
  rs_gamma : vl_gamma o' = map (Rmult s) (vl_gamma o);
  rs_V_ind_ctrl : vl_V_ind_ctrl o' = map m (vl_V_ind_ctrl o);
  rs_V_ctrl : vl_V_ctrl o' = map m (vl_V_ctrl o);
  rs_V_ind_cp : vl_V_ind_cp o' = map m (vl_V_ind_cp o);
  rs_V_cp : vl_V_cp o' = map m (vl_V_cp o);
  rs_force : vl_force o' = map m (vl_force o);
  rs_lift : vl_lift o' = map m (vl_lift o);
  rs_drag : vl_drag o' = map m (vl_drag o);
  rs_pressure : vl_pressure o' = map (Rmult s) (vl_pressure o);
  rs_pcoef : vl_pcoef o' = map (Rmult s) (vl_pcoef o) }.
Lemma iso_zero : m szero = szero.
Proof. replace szero with (sscale 0 szero) at 1 by (svec; vec_eq; ring). rewrite (iso_scale _ _ I). destruct (m szero). svec. vec_eq; ring. Qed.
Lemma dot_s a b : sdot (sscale s (m a)) (sscale s (m b)) = sdot a b.
Proof. rewrite <- (iso_dot _ _ I a b). generalize (m a) (m b). intros [? ? ?] [? ? ?]. svec. replace 1 with (s * s) by assumption. match goal with |- ?l = ?r => transitivity (s * s * r); [ring | rewrite Hs; ring] end. Qed.
Lemma dot_s1 a b : sdot (m a) (sscale s (m b)) = s * sdot a b.
Proof. rewrite <- (iso_dot _ _ I a b). generalize (m a) (m b). intros [? ? ?] [? ? ?]. svec. ring. Qed.
Lemma s_neq : s <> 0.
Proof. intros Z. rewrite Z in Hs. lra. Qed.
Lemma solve_rigid nc ns G panels rho te le vars ic ic' o :
  (0 < nc)%nat -> (0 < ns)%nat -> (0 < G)%nat -> flags nc ns G te le -> length panels = (G * (nc * ns))%nat ->
  calculate_vlm_variables panels te (-1) nc ns = Ok vars ->
  length (in_V ic) = length panels -> in_V ic' = map m (in_V ic) ->
  vlm_solve panels nc ns rho te le vars ic = Ok o ->
  exists vars' o', calculate_vlm_variables (map (moved m d) panels) te (-1) nc ns = Ok vars' /\
    vlm_solve (map (moved m d) panels) nc ns rho te le vars' ic' = Ok o' /\
    map pv_cp vars' = map (motion m d) (map pv_cp vars) /\ rigid_solution o o'.
Proof.
  intros NC NS NG FG LP CV LI EI E.
  destruct (vars_rigid nc ns G te panels vars NC NS NG LP (fl_te_len _ _ _ _ _ FG) (fl_te _ _ _ _ _ FG) CV) as (vars' & CV' & LV' & MV).
  assert (LT : length te = length panels) by (rewrite LP; apply FG).
  pose proof (vlm_vars_length _ _ _ _ _ _ LT CV) as LV.
  set (K := length panels) in *. set (t := fun k => nth k te false). set (v := fun k => nth k vars dpv). set (V := fun k => nth k (in_V ic) szero).
  set (v' := fun k => nth k vars' dpv). set (V' := fun k => m (V k)). set (panels' := map (moved m d) panels).
  assert (ET : te = tab K t) by (apply list_tab; assumption). assert (EV : vars = tab K v) by (apply list_tab; assumption).
  assert (EV' : vars' = tab K v') by (apply list_tab; congruence).
  assert (EI0 : in_V ic = tab K V) by (apply list_tab; assumption).
  assert (EI' : in_V ic' = tab K V') by (rewrite EI, EI0, map_tab; reflexivity).
  assert (MK : forall k, (k < K)%nat -> rigid_vars (v k) (v' k)).
  { intros k Hk. destruct (MV k (v k)) as (w & W & M). { unfold v. apply nth_error_nth'. lia. }
    unfold v'. rewrite (nth_of_error _ _ dpv _ W). exact M. }
  destruct (vlm_solve_inv K ns rho panels le t v V nc te vars ic o eq_refl ET EV EI0 E) as (g & net & [EQ RG AR NT] & FL).
  assert (IN : forall p l, (l < K)%nat -> infl t v' V' (motion m d p) l = sscale s (m (infl t v V p l))).
  { intros p l L. unfold infl, V'. rewrite (rv_ring _ _ (MK l L)). apply influence_rigid. }
  set (g' := fun l => s * g l). set (net' := fun l => s * net l).
  assert (WA : forall p, wash K t v' V' g' (motion m d p) = m (wash K t v V g p)).
  { intros p. unfold wash. rewrite (vsumn_map m) by (first [apply iso_zero | apply (iso_add _ _ I)]). apply vsumn_ext. intros l L. rewrite IN by assumption.
    rewrite (iso_scale _ _ I). unfold g'. generalize (m (infl t v V p l)). intros [? ? ?]. svec.
    vec_eq; match goal with |- ?l = ?r => transitivity (s * s * r); [ring | rewrite Hs; ring] end. }
  assert (AC : forall a b, (a < K)%nat -> (b < K)%nat -> acoef t v' V' a b = acoef t v V a b).
  { intros a b A B. unfold acoef. rewrite (rv_ctr _ _ (MK a A)), (rv_n _ _ (MK a A)), IN by assumption. apply dot_s. }
  assert (AREA : get_panels_area panels' = get_panels_area panels).
  { unfold get_panels_area, panels'. rewrite map_map. apply map_ext. intros p. apply panel_area_rigid. }
  destruct (vlm_solve_make K ns rho panels' le t v' V' nc te vars' ic' g' net') as (o' & E' & FL'); try assumption.
  { unfold panels'. apply map_length. }
  { constructor.
    - intros a A. unfold V'. rewrite (rv_n _ _ (MK a A)), dot_s1. transitivity (s * sumn K (fun l => acoef t v V a l * g l)).
      + rewrite <- sumn_scale. apply sumn_ext. intros l L. rewrite AC by assumption. unfold g'. ring.
      + rewrite (EQ a A). ring.
    - intros z Z. apply RG. intros a A. rewrite <- (Z a A). apply sumn_ext. intros. rewrite AC by assumption. reflexivity.
    - rewrite AREA. assumption.
    - intros a A. unfold g', net'. rewrite <- (map_tab (Rmult s)). apply net_scale. apply NT. assumption. }
  exists vars', o'. split; [exact CV'|]. split; [exact E'|]. split.
  { rewrite EV, EV', !map_tab. apply tab_ext. intros k Hk. apply (rv_cp _ _ (MK k Hk)). }
  destruct FL as [FP _ _ _ _ _ _ FV _ F1 F2 F3 F4 F5 F6 F7 F8 F9 F10]. destruct FL' as [FP' _ _ _ _ _ _ FV' _ F1' F2' F3' F4' F5' F6' F7' F8' F9' F10'].
  assert (CRO : forall k a b, scross (m a) (sscale (s * k) (m b)) = m (scross a (sscale k b))).
  { intros k a b. replace (scross (m a) (sscale (s * k) (m b))) with (sscale (s * k) (scross (m a) (m b))) by (generalize (m a) (m b); intros [? ? ?] [? ? ?]; svec; vec_eq; ring).
    rewrite (iso_cross _ _ I). replace (scross a (sscale k b)) with (sscale k (scross a b)) by (destruct a, b; svec; vec_eq; ring). rewrite (iso_scale _ _ I).
    generalize (m (scross a b)); intros [? ? ?]; svec; vec_eq; match goal with |- ?l = ?r => transitivity (s * s * r); [ring | rewrite Hs; ring] end. }
  assert (FO : forall a, (a < K)%nat -> pforce K rho t v' V' g' net' a = m (pforce K rho t v V g net a)).
  { intros a A. unfold pforce, V', net'. rewrite (rv_cp _ _ (MK a A)), (rv_span _ _ (MK a A)), WA.
    rewrite <- (iso_add _ _ I), CRO, (iso_scale _ _ I). reflexivity. }
  assert (AR2 : forall a, area panels' a = area panels a) by (intros; unfold area; rewrite AREA; reflexivity).
  constructor; [rewrite FP, FP'; reflexivity | unfold vl_cp; rewrite FV, FV' | rewrite F1, F1' | rewrite F2, F2' | rewrite F3, F3' | rewrite F4, F4' | rewrite F5, F5' | rewrite F6, F6' | rewrite F7, F7' | rewrite F8, F8' | rewrite F9, F9' | rewrite F10, F10']; rewrite ?map_tab; apply tab_ext; intros a A.
  - apply (rv_cp _ _ (MK a A)).
  - reflexivity.
  - rewrite (rv_ctr _ _ (MK a A)). apply WA.
  - rewrite (rv_ctr _ _ (MK a A)), WA. unfold V'. symmetry. apply (iso_add _ _ I).
  - rewrite (rv_cp _ _ (MK a A)). apply WA.
  - rewrite (rv_cp _ _ (MK a A)), WA. unfold V'. symmetry. apply (iso_add _ _ I).
  - apply FO. assumption.
  - unfold plift, V', net'. rewrite (rv_span _ _ (MK a A)), CRO, (iso_scale _ _ I). reflexivity.
  - unfold pdrag, net'. rewrite (rv_cp _ _ (MK a A)), (rv_span _ _ (MK a A)), WA, CRO, (iso_scale _ _ I). reflexivity.
  - rewrite FO, AR2, (rv_n _ _ (MK a A)), dot_s1 by assumption. unfold Rdiv. ring.
  - rewrite FO, AR2, (rv_n _ _ (MK a A)), dot_s1 by assumption. unfold V'. rewrite (iso_dot _ _ I). unfold Rdiv. ring.
Qed.
End Rigid.
