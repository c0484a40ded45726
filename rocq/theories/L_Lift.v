(** The program on checked real numbers: every function of the solver gives the checked image of its result on real
    numbers as long as no operation is undefined. *)

From Coq Require Import String ZArith Reals List Bool Lra Psatz Lia Arith.
From Verif Require Import Num PyBase RNum CNum Spec M_Panels M_Velocity M_Solve M_Coefs M_Forces M_Winds M_Vlm
  L_List L_Rot L_Vel L_Vel2 L_Solve L_Vlm L_Vlm2 P_Vel P_Tack L_ScaleRun.
Import ListNotations.
Open Scope R_scope.

(** ** Images *)
Definition finP (p : panel R) : panel (option R) := Panel (fin (pp1 p)) (fin (pp2 p)) (fin (pp3 p)) (fin (pp4 p)).
Definition finR (r : ring R) : ring (option R) := Ring (fin (rA r)) (fin (rB r)) (fin (rC r)) (fin (rD r)).
Definition finV (v : pvars R) : pvars (option R) :=
  PVars (fin (pv_n v)) (fin (pv_ctr v)) (fin (pv_cp v)) (finR (pv_ring v)) (fin (pv_span v)) (fin (pv_lead v)) (fin (pv_trail v)).
Definition finI (i : inlet R) : inlet (option R) :=
  Inlet (map fin (in_cp i)) (map fin (in_tws i)) (map fin (in_V i)) (map Some (in_awa_deg i)).
Definition finW (w : wind R) : wind (option R) :=
  Wind_ (Some (w_alpha_deg w)) (Some (w_tws w)) (Some (w_sog w))
    (match w_prof w with Flat => Flat | Log a b => Log (option_map Some a) (option_map Some b)
     | Exp a b c => Exp (option_map Some a) (option_map Some b) (option_map Some c) end).
Definition finO (o : vlm R) : vlm (option R) :=
  VlmObj (map finP (vl_panels o)) (vl_nc o) (vl_ns o) (Some (vl_rho o)) (vl_te o) (vl_le o) (map Some (vl_areas o))
    (map finV (vl_vars o)) (finI (vl_inlet o)) (map (map Some) (vl_coeff o)) (map (map fin) (vl_vind o)) (map Some (vl_rhs o))
    (map Some (vl_gamma o)) (map fin (vl_V_ind_ctrl o)) (map fin (vl_V_ctrl o)) (map fin (vl_force o)) (map fin (vl_V_cp o))
    (map fin (vl_V_ind_cp o)) (map Some (vl_pressure o)) (map Some (vl_pcoef o)) (map fin (vl_lift o)) (map fin (vl_drag o)).

(** ** Lists *)
Lemma mapM_lift {A B C D} (f : A -> res B) (g : C -> res D) (h : A -> C) (j : B -> D) l :
  (forall a, In a l -> g (h a) = rmap j (f a)) -> mapM g (map h l) = rmap (map j) (mapM f l).
Proof.
  induction l as [|a l IH]; intros H; [reflexivity|]. cbn [map mapM]. rewrite (H a (or_introl eq_refl)).
  destruct (f a) as [b|]; [|reflexivity]. cbn [rmap bind]. rewrite IH by (intros; apply H; right; assumption). destruct (mapM f l); reflexivity.
Qed.
Lemma zip_lift {A B C A' B' C'} (f : A -> B -> C) (f' : A' -> B' -> C') (g : A -> A') (h : B -> B') (k : C -> C') l : forall m,
  (forall a b, In (a, b) (combine l m) -> f' (g a) (h b) = k (f a b)) -> zipWith f' (map g l) (map h m) = map k (zipWith f l m).
Proof.
  induction l as [|a l IH]; intros [|b m] H; try reflexivity. cbn [map zipWith]. rewrite (H a b (or_introl eq_refl)). f_equal. apply IH. intros; apply H; right; assumption.
Qed.
Lemma combine_map2 {A B A' B'} (g : A -> A') (h : B -> B') l : forall m, combine (map g l) (map h m) = map (fun ab => (g (fst ab), h (snd ab))) (combine l m).
Proof. induction l as [|a l IH]; intros [|b m]; try reflexivity. cbn [map combine]. rewrite IH. reflexivity. Qed.
Lemma map_lift {A B A' B'} (f : A -> B) (f' : A' -> B') (g : A -> A') (k : B -> B') l : (forall a, In a l -> f' (g a) = k (f a)) -> map f' (map g l) = map k (map f l).
Proof. intros H. rewrite !map_map. apply map_ext_in. exact H. Qed.
Lemma fold_vadd_fin l : forall a, fold_left vadd (map fin l) (fin a) = fin (fold_left vadd l a).
Proof. induction l as [|b l IH]; intros a; [reflexivity|]. cbn [map fold_left]. rewrite fin_add. apply IH. Qed.
Lemma vsum_fin l : vsum (map fin l) = fin (vsum l).
Proof. unfold vsum. rewrite fin_v0. apply fold_vadd_fin. Qed.
Lemma fold_nadd_some l : forall a, fold_left nadd (map Some l) (Some a) = Some (fold_left nadd l a).
Proof. induction l as [|b l IH]; intros a; [reflexivity|]. cbn [map fold_left]. change (nadd (Some a) (Some b)) with (Some (nadd a b)). apply IH. Qed.
Lemma nsum_some l : nsum (map Some l) = Some (nsum l).
Proof. unfold nsum. change (@nZ (option R) CNum 0) with (Some (@nZ R RNum 0)). apply fold_nadd_some. Qed.
Lemma some_Z n : @nZ (option R) CNum n = Some (@nZ R RNum n).
Proof. reflexivity. Qed.
Lemma some_abs a : nabs (Some a) = Some (nabs a).
Proof. reflexivity. Qed.
Lemma some_opp a : nopp (Some a) = Some (nopp a).
Proof. reflexivity. Qed.
Lemma some_ltb a b : nltb (Some a) (Some b) = nltb a b.
Proof. reflexivity. Qed.
Lemma some_eqb a b : neqb (Some a) (Some b) = neqb a b.
Proof. reflexivity. Qed.
Lemma fin_divZ u n : IZR n <> 0 -> vdivs (fin u) (nZ n) = fin (vdivs u (nZ n)).
Proof. intros N. rewrite some_Z. apply fin_divs. exact N. Qed.

(** ** Panels *)
Lemma area_fin p : panel_area (finP p) = Some (panel_area p).
Proof. unfold panel_area, finP. cbn [pp1 pp2 pp3 pp4]. rewrite !fin_sub, !fin_cross, !fin_norm, some_dec by lia. reflexivity. Qed.
Lemma areas_fin l : get_panels_area (map finP l) = map Some (get_panels_area l).
Proof. unfold get_panels_area. apply map_lift. intros; apply area_fin. Qed.
Lemma quarter_B_fin p : quarter_B (finP p) = fin (quarter_B p).
Proof. unfold quarter_B, finP. cbn [pp1 pp2 pp3 pp4]. rewrite fin_sub, fin_divZ, fin_add by lra. reflexivity. Qed.
Lemma quarter_C_fin p : quarter_C (finP p) = fin (quarter_C p).
Proof. unfold quarter_C, finP. cbn [pp1 pp2 pp3 pp4]. rewrite fin_sub, fin_divZ, fin_add by lra. reflexivity. Qed.
Lemma aft_A_fin p : aft_A (finP p) = fin (aft_A p).
Proof. unfold aft_A, finP. cbn [pp1 pp2 pp3 pp4]. rewrite fin_sub, fin_divZ, fin_add by lra. reflexivity. Qed.
Lemma aft_D_fin p : aft_D (finP p) = fin (aft_D p).
Proof. unfold aft_D, finP. cbn [pp1 pp2 pp3 pp4]. rewrite fin_sub, fin_divZ, fin_add by lra. reflexivity. Qed.
(** the diagonals of the panel are not parallel *)
Definition spread (p : panel R) : Prop := scross (ssub (pp3 p) (pp1 p)) (ssub (pp4 p) (pp2 p)) <> szero.
Lemma panel_vars_fin g p A D : spread p -> panel_vars (Some g) (finP p) (fin A) (fin D) = finV (panel_vars g p A D).
Proof.
  intros S. unfold panel_vars. cbv zeta. rewrite quarter_B_fin, quarter_C_fin. unfold finP. cbn [pp1 pp2 pp3 pp4].
  rewrite !fin_sub, !fin_add, fin_cross, fin_norm, !fin_divZ by lra.
  rewrite fin_divs by (rewrite vnorm_s; tospec; apply Rgt_not_eq, snorm_pos, S).
  rewrite !fin_sub, !some_dec by lia. rewrite !fin_scale, !fin_add. reflexivity.
Qed.
Lemma group_fin g ns grid te : (forall p, In p grid -> spread p) ->
  group_vlm_variables (Some g) ns (map finP grid) te = rmap (map finV) (group_vlm_variables g ns grid te).
Proof.
  intros S. unfold group_vlm_variables. rewrite map_length.
  replace (combine (seq 0 (length grid)) (map finP grid)) with (map (fun q : nat * panel R => (fst q, finP (snd q))) (combine (seq 0 (length grid)) grid))
    by (rewrite <- (map_id (seq 0 (length grid))) at 2; rewrite combine_map2; reflexivity).
  apply mapM_lift. intros [k p] I. cbn [fst snd]. apply in_combine_r in I. specialize (S p I). destruct (py_nth te (Z.of_nat k)) as [[]|]; [| |reflexivity]; cbn [bind].
  - rewrite aft_A_fin, aft_D_fin, panel_vars_fin by assumption. reflexivity.
  - rewrite py_nth_map. destruct (py_nth grid _) as [q|]; [|reflexivity]. cbn [bind rmap]. rewrite quarter_B_fin, quarter_C_fin, panel_vars_fin by assumption. reflexivity.
Qed.
Lemma chunks_in {A} s : forall (l : list A) c a, In c (chunks s l) -> In a c -> In a l.
Proof.
  induction s as [|n s IH]; intros l c a I J; [destruct I|]. cbn [chunks] in I. rewrite <- (firstn_skipn n l). apply in_or_app. destruct I as [<-|I]; [left; assumption | right; eapply IH; eassumption].
Qed.
Lemma array_split_in {A} (l : list A) n cs c a : array_split l n = Ok cs -> In c cs -> In a c -> In a l.
Proof. unfold array_split. destruct n; [discriminate|]. intros E. injection E as <-. apply chunks_in. Qed.
Lemma vars_fin g panels te nc ns : (forall p, In p panels -> spread p) ->
  calculate_vlm_variables (map finP panels) te (Some g) nc ns = rmap (map finV) (calculate_vlm_variables panels te g nc ns).
Proof.
  intros S. unfold calculate_vlm_variables. cbv zeta. rewrite map_length. destruct (_ =? 0)%nat; [reflexivity|].
  rewrite array_split_map. destruct (array_split panels _) as [pss|] eqn:P; [|reflexivity]. cbn [rmap bind].
  destruct (array_split te _) as [tss|]; [|reflexivity]. cbn [bind].
  replace (combine (map (map finP) pss) tss) with (map (fun q : list (panel R) * list bool => (map finP (fst q), snd q)) (combine pss tss))
    by (rewrite <- (map_id tss) at 2; rewrite combine_map2; reflexivity).
  rewrite (mapM_lift (fun a => group_vlm_variables g ns (fst a) (snd a)) _ _ (map finV)).
  - destruct (mapM _ _) as [vss|]; [|reflexivity]. cbn [rmap bind]. destruct (_ =? _)%nat; [|reflexivity]. cbn [rmap]. rewrite concat_map. reflexivity.
  - intros [ps ts] I. cbn [fst snd]. apply group_fin. intros p J. apply S. apply in_combine_l in I. eapply array_split_in; eassumption.
Qed.

(** ** Velocities *)
Definition off_wake (a v p : vec R) : Prop := ~ on_half_line a v p.
Lemma inf_fin p a v g : v <> szero -> off_wake a v p -> vortex_infinite_line (fin p) (fin a) (fin v) (Some g) = fin (vortex_infinite_line p a v g).
Proof. intros V O. apply C35_wake_singularity; assumption. Qed.
Lemma line_fin p a b g : vortex_line (fin p) (fin a) (fin b) (Some g) = fin (vortex_line p a b g).
Proof. apply C30_vortex_line_finite. Qed.
Definition clear_of (p : vec R) (r : ring R) (te : bool) (v : vec R) : Prop := te = true -> v <> szero /\ off_wake (rA r) v p /\ off_wake (rD r) v p.
Lemma influence_fin g p r te v : clear_of p r te v -> influence (Some g) (fin p) (finR r) te (fin v) = fin (influence g p r te v).
Proof.
  intros C. unfold influence, finR. cbn [rA rB rC rD]. destruct te.
  - destruct (C eq_refl) as (V & A & D). unfold vortex_horseshoe_v2. cbv zeta. rewrite !line_fin, some_Z, some_opp, some_mul, !inf_fin, !fin_add by assumption. reflexivity.
  - unfold vortex_ring. cbv zeta. rewrite !line_fin, !fin_add. reflexivity.
Qed.
Definition clear_row (rings : list (ring R)) (te : list bool) (V : list (vec R)) (p : vec R) : Prop :=
  forall r t v, In (r, (t, v)) (combine rings (combine te V)) -> clear_of p r t v.
Lemma row_fin g rings te V p : clear_row rings te V p ->
  influence_row (Some g) (map finR rings) te (map fin V) (fin p) = map fin (influence_row g rings te V p).
Proof.
  intros C. unfold influence_row. replace (combine te (map fin V)) with (map (fun q : bool * vec R => (fst q, fin (snd q))) (combine te V))
    by (rewrite <- (map_id te) at 2; rewrite combine_map2; reflexivity).
  rewrite combine_map2, !map_map. apply map_ext_in. intros [r [t v]] I. cbn [fst snd]. apply influence_fin. apply C. exact I.
Qed.
Lemma coefs_fin g V pts rings normals te : (forall p, In p pts -> clear_row rings te V p) ->
  calc_velocity_coefs (map fin V) (map fin pts) (map finR rings) (map fin normals) te (Some g) =
  (map (map Some) (fst (calc_velocity_coefs V pts rings normals te g)), map (map fin) (snd (calc_velocity_coefs V pts rings normals te g))).
Proof.
  intros C. unfold calc_velocity_coefs. cbn [fst snd].
  rewrite (map_lift (influence_row g rings te V) (influence_row (Some g) (map finR rings) te (map fin V)) fin (map fin)) by (intros p I; apply row_fin, C, I).
  f_equal. apply zip_lift. intros row n _. apply map_lift. intros a _. apply fin_dot.
Qed.
Lemma rhs_fin V n : calculate_RHS (map fin V) (map fin n) = map Some (calculate_RHS V n).
Proof. unfold calculate_RHS. apply zip_lift. intros a b _. rewrite fin_opp. apply fin_dot. Qed.
Lemma induced_fin row g : induced_at (map fin row) (map Some g) = fin (induced_at row g).
Proof. unfold induced_at. rewrite (zip_lift (fun a g => vscale g a) _ fin Some fin) by (intros; apply fin_scale). rewrite fin_v0. apply fold_vadd_fin. Qed.
Lemma app_fin V vind g : calculate_app_fs (map fin V) (map (map fin) vind) (map Some g) =
  (map fin (fst (calculate_app_fs V vind g)), map fin (snd (calculate_app_fs V vind g))).
Proof.
  unfold calculate_app_fs, calc_induced_velocity. cbn [fst snd].
  rewrite (map_lift (fun row => induced_at row g) (fun row => induced_at row (map Some g)) (map fin) fin) by (intros; apply induced_fin).
  f_equal. apply zip_lift. intros; apply fin_add.
Qed.

(** ** The linear system *)
Definition finE (e : eqn (F := R)) : eqn (F := option R) := (map Some (fst e), Some (snd e)).
Lemma hd_some l : hd (nZ 0) (map Some l) = Some (hd (nZ 0) l).
Proof. destruct l; reflexivity. Qed.
Lemma tl_some (l : list R) : tl (map Some l) = map Some (tl l).
Proof. destruct l; reflexivity. Qed.
Lemma lead_some e : lead (finE e) = Some (lead e).
Proof. unfold lead, finE. cbn [fst]. rewrite hd_some. reflexivity. Qed.
Lemma pivot_fin rows : forall best, choose_pivot (finE best) (map finE rows) = (finE (fst (choose_pivot best rows)), map finE (snd (choose_pivot best rows))).
Proof.
  induction rows as [|e rows IH]; intros best; [reflexivity|]. cbn [map choose_pivot]. rewrite !lead_some, some_ltb.
  destruct (nltb (lead best) (lead e)); rewrite IH; destruct (choose_pivot _ rows); reflexivity.
Qed.
Lemma eliminate_fin piv e : hd (nZ 0) (fst piv) <> 0 -> eliminate (finE piv) (finE e) = finE (eliminate piv e).
Proof.
  intros H. unfold eliminate, finE. cbn [fst snd]. rewrite !hd_some, !tl_some, some_div by assumption. f_equal.
  apply zip_lift. intros; reflexivity.
Qed.
Lemma gauss_fin n : forall rows, gauss n (map finE rows) = rmap (map Some) (gauss n rows).
Proof.
  induction n as [|n IH]; intros rows; [reflexivity|]. destruct rows as [|e rows]; [reflexivity|]. cbn [map gauss].
  rewrite pivot_fin. destruct (choose_pivot e rows) as [piv rest]. cbn [fst snd]. unfold finE at 1. cbn [fst]. rewrite hd_some, some_Z, some_eqb.
  destruct (neqb (hd (nZ 0) (fst piv)) (nZ 0)) eqn:E; [reflexivity|]. change (Reqb (hd (nZ 0) (fst piv)) 0 = false) in E. apply Reqb_false in E.
  rewrite (map_lift (eliminate piv) (eliminate (finE piv)) finE finE) by (intros; apply eliminate_fin; assumption).
  rewrite IH. destruct (gauss n (map (eliminate piv) rest)) as [xs|]; [|reflexivity]. cbn [rmap bind].
  unfold finE. cbn [fst snd map]. rewrite hd_some, tl_some. unfold dotl. rewrite (zip_lift nmul nmul Some Some Some) by (intros; reflexivity). rewrite nsum_some, some_sub, some_div by assumption. reflexivity.
Qed.
Lemma solve_fin a b : solve_eq (map (map Some) a) (map Some b) = rmap (map Some) (solve_eq a b).
Proof.
  unfold solve_eq. cbv zeta. rewrite !map_length.
  replace (forallb (fun row => (length row =? length a)%nat) (map (map Some) a)) with (forallb (fun row : list R => (length row =? length a)%nat) a).
  - destruct (_ && _)%bool; [|reflexivity]. rewrite combine_map2. apply gauss_fin.
  - generalize (length a). intros n. induction a as [|r a IH]; [reflexivity|]. cbn [map forallb]. rewrite map_length, IH. reflexivity.
Qed.

(** ** Forces *)
Lemma existsb_lift {A B} (f : A -> bool) (g : B -> bool) (h : A -> B) l : (forall a, g (h a) = f a) -> existsb g (map h l) = existsb f l.
Proof. intros H. induction l as [|a l IH]; [reflexivity|]. cbn [map existsb]. rewrite H, IH. reflexivity. Qed.
Lemma flux_fin V areas n : is_no_flux_BC_satisfied (map fin V) (map Some areas) (map fin n) = is_no_flux_BC_satisfied V areas n.
Proof.
  unfold is_no_flux_BC_satisfied. cbv zeta. rewrite (zip_lift (fun v n => vdot (vopp v) n) _ fin fin Some) by (intros; rewrite fin_opp; apply fin_dot).
  rewrite (existsb_lift (fun a => nisnan a || nltb a (ndec 1 14))%bool) by (intros a; rewrite some_dec by lia; reflexivity).
  rewrite (existsb_lift (fun f => nltb (ndec 1 12) (nabs f) || nisnan f)%bool) by (intros a; rewrite some_dec by lia; reflexivity). reflexivity.
Qed.
Lemma net_fin gamma le ns i : net_circulation (map Some gamma) le ns i = rmap Some (net_circulation gamma le ns i).
Proof.
  unfold net_circulation. cbv zeta. destruct (py_nth le _) as [l|]; [|reflexivity]. cbn [bind]. rewrite !py_nth_map.
  destruct (py_nth gamma (Z.of_nat i)) as [g|]; [|reflexivity]. cbn [bind]. destruct (_ || _)%bool; [reflexivity|]. destruct (py_nth gamma _); reflexivity.
Qed.
Lemma forces_fin rho V spans gamma le ns : panel_forces (Some rho) (map fin V) (map fin spans) (map Some gamma) le ns = rmap (map fin) (panel_forces rho V spans gamma le ns).
Proof.
  unfold panel_forces. rewrite map_length, combine_map2.
  replace (combine (seq 0 (length spans)) (map (fun ab : vec R * vec R => (fin (fst ab), fin (snd ab))) (combine V spans)))
    with (map (fun q : nat * (vec R * vec R) => (fst q, (fin (fst (snd q)), fin (snd (snd q))))) (combine (seq 0 (length spans)) (combine V spans)))
    by (rewrite <- (map_id (seq 0 (length spans))) at 2; rewrite combine_map2; reflexivity).
  apply mapM_lift. intros [i [v s]] _. cbn [fst snd]. rewrite net_fin. destruct (net_circulation gamma le ns i) as [g|]; [|reflexivity].
  cbn [rmap bind]. rewrite fin_scale, fin_cross, fin_scale. reflexivity.
Qed.
Definition fin3 (x : list (vec R) * list (vec R) * list (vec R)) := (map fin (fst (fst x)), map fin (snd (fst x)), map fin (snd x)).
Lemma wrapper_fin V gamma rho cp rings ns normals spans te le name g : (forall p, In p cp -> clear_row rings te V p) ->
  calc_force_wrapper (map fin V) (map Some gamma) (Some rho) (map fin cp) (map finR rings) ns (map fin normals) (map fin spans) te le name (Some g) =
  rmap fin3 (calc_force_wrapper V gamma rho cp rings ns normals spans te le name g).
Proof.
  intros C. unfold calc_force_wrapper. destruct (negb _); [reflexivity|]. rewrite coefs_fin by assumption.
  destruct (calc_velocity_coefs V cp rings normals te g) as [co vi]. cbn [fst snd]. rewrite app_fin. destruct (calculate_app_fs V vi gamma) as [ind at_]. cbn [fst snd].
  replace (if String.eqb name "lift" then map fin V else if String.eqb name "drag" then map fin ind else map fin at_)
    with (map fin (if String.eqb name "lift" then V else if String.eqb name "drag" then ind else at_)) by (destruct (String.eqb name "lift"), (String.eqb name "drag"); reflexivity).
  rewrite forces_fin. destruct (panel_forces _ _ _ _ _ _); reflexivity.
Qed.
Lemma pressure_fin f n a : (forall x, In x a -> x <> 0) -> calc_pressure (map fin f) (map fin n) (map Some a) = map Some (calc_pressure f n a).
Proof.
  intros A. unfold calc_pressure. rewrite combine_map2. apply zip_lift. intros [x y] b I. cbn [fst snd]. apply in_combine_r in I. rewrite fin_dot, some_div by (apply A; assumption). reflexivity.
Qed.
Lemma pcoef_fin p rho V : rho <> 0 -> (forall v, In v V -> v <> szero) -> calc_pressure_coeff (map Some p) (Some rho) (map fin V) = map Some (calc_pressure_coeff p rho V).
Proof.
  intros H A. unfold calc_pressure_coeff. apply zip_lift. intros x v I. apply in_combine_r in I. specialize (A v I). rewrite fin_dot, some_dec, !some_mul by lia.
  rewrite some_div; [reflexivity|]. tospec. rewrite ndec_R. change (10 ^ 1)%Z with 10%Z. rnum.
  assert (sdot v v <> 0). { intros Z. apply A, snorm_zero. apply Rsqr_0_uniq. unfold Rsqr. rewrite snorm_sq. exact Z. }
  intros Z. apply Rmult_integral in Z. destruct Z as [Z|Z]; [|contradiction]. lra.
Qed.
