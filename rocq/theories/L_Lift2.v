(** The wind and the complete solver on checked real numbers: what is defined, what is undefined, what is noticed. *)

From Coq Require Import String ZArith Reals List Bool Lra Psatz Lia Arith Classical.
From Verif Require Import Num PyBase RNum CNum Spec M_Panels M_Velocity M_Solve M_Coefs M_Forces M_Csys M_Winds M_Vlm
  L_List L_Rot L_Vel L_Vel2 L_Solve L_Vlm L_Vlm2 P_Vel P_Tack L_ScaleRun L_Lift.
Import ListNotations.
Open Scope R_scope.

Lemma snorm_0 : snorm szero = 0.
Proof. apply snorm_zero. reflexivity. Qed.

(** ** The wind *)
(** the wind profile is defined at height [h] *)
Definition wind_known (w : wind R) (h : R) : Prop :=
  match w_prof w with
  | Log (Some r) (Some rh) => r <> 0 /\ 0 < h / r /\ 0 < rh / r /\ rh <> r
  | Exp (Some e) (Some rh) (Some wl) => rh <> 0 /\ (0 < (h - wl) / rh \/ h = wl /\ 0 < e)
  | _ => True
  end.
Lemma alpha_some w : w_alpha (finW w) = Some (w_alpha w).
Proof. unfold w_alpha, deg2rad, finW. cbn [w_alpha_deg]. change (@npi (option R) CNum) with (Some PI). rewrite some_Z. rewrite ?some_div, ?some_mul, ?some_div by (try apply not_0_IZR; try discriminate; rnum; lra). reflexivity. Qed.
Lemma some_ln a : 0 < a -> nln (Some a) = Some (ln a).
Proof. intros H. cbn [nln CNum]. unfold guard. apply Rltb_true in H. rewrite H. reflexivity. Qed.
Lemma some_pow a b : 0 < a \/ a = 0 /\ 0 < b -> npow (Some a) (Some b) = Some (Rpow a b).
Proof.
  intros H. cbn [npow CNum]. unfold guard. destruct H as [H|[-> H]].
  - apply Rltb_true in H. rewrite H. reflexivity.
  - apply Rltb_true in H. rewrite H. replace (Reqb 0 0) with true by (symmetry; apply Reqb_true; reflexivity). rewrite orb_true_r. reflexivity.
Qed.
Lemma ln_neq0 a : 0 < a -> a <> 1 -> ln a <> 0.
Proof. intros H N E. apply N. rewrite <- (exp_ln a H), E. apply exp_0. Qed.
Lemma speed_known w h : wind_known w h -> wind_speed_at_h (finW w) (Some h) = rmap Some (wind_speed_at_h w h).
Proof.
  unfold wind_known, wind_speed_at_h, finW. cbn [w_prof w_tws]. destruct (w_prof w) as [|[r|] [rh|]|[e|] [rh|] [wl|]]; cbn [option_map opt_arg bind rmap]; try reflexivity.
  - intros (A & B & C & D). rewrite !some_div by assumption. rewrite !some_ln by assumption. rewrite some_div; [reflexivity|].
    apply ln_neq0; [assumption|]. intros E. apply D. replace rh with (rh / r * r) by (field; assumption). rewrite E. ring.
  - intros (A & B). rewrite some_sub, some_div by assumption. rewrite some_pow; [reflexivity|]. destruct B as [B|[-> B]]; [left; exact B|]. right. split; [|exact B]. rnum. unfold Rdiv. ring.
Qed.
Lemma speed_unknown w h : ~ wind_known w h -> wind_speed_at_h (finW w) (Some h) = Ok None.
Proof.
  unfold wind_known, wind_speed_at_h, finW. cbn [w_prof w_tws]. destruct (w_prof w) as [|[r|] [rh|]|[e|] [rh|] [wl|]]; cbn [option_map opt_arg bind rmap]; try (intros H; exfalso; apply H; exact I).
  - intros H. assert (Q : ndiv (nln (ndiv (Some h) (Some r))) (nln (ndiv (Some rh) (Some r))) = None); [|rewrite Q; reflexivity].
    destruct (Req_dec r 0) as [->|NR]; [rewrite !some_div0; reflexivity|]. rewrite !some_div by assumption.
    destruct (Rlt_dec 0 (h / r)) as [A|A].
    2:{ cbn [nln CNum]. unfold guard at 1. replace (Rltb 0 (h / r)) with false by (symmetry; apply Rltb_false; lra). reflexivity. }
    rewrite some_ln by assumption. destruct (Rlt_dec 0 (rh / r)) as [B|B].
    2:{ cbn [nln CNum]. unfold guard at 1. replace (Rltb 0 (rh / r)) with false by (symmetry; apply Rltb_false; lra). reflexivity. }
    rewrite some_ln by assumption. destruct (Req_dec rh r) as [->|C]; [|exfalso; apply H; tauto].
    replace (r / r) with 1 by (field; assumption). rewrite ln_1. apply some_div0.
  - intros H. assert (Q : npow (ndiv (nsub (Some h) (Some wl)) (Some rh)) (Some e) = None); [|rewrite Q; reflexivity]. rewrite some_sub.
    destruct (Req_dec rh 0) as [->|NR]; [rewrite !some_div0; reflexivity|]. rewrite !some_div by assumption. cbn [npow CNum]. unfold guard.
    change (nsub h wl) with (h - wl). assert (N1 : ~ 0 < (h - wl) / rh) by tauto. replace (Rltb 0 ((h - wl) / rh)) with false by (symmetry; apply Rltb_false; lra).
    cbn [orb]. destruct (Reqb ((h - wl) / rh) 0) eqn:Z; [|reflexivity]. apply Reqb_true in Z.
    replace (Rltb 0 e) with false; [reflexivity|]. symmetry. apply Rltb_false. apply Rnot_lt_le. intros P. apply H. split; [assumption|]. right. split; [|assumption].
    assert (Q : h - wl = (h - wl) / rh * rh) by (field; assumption). rewrite Z in Q. lra.
Qed.
Lemma true_known w h : wind_known w h -> get_true_wind_speed_at_h (finW w) (Some h) = rmap fin (get_true_wind_speed_at_h w h).
Proof.
  intros H. unfold get_true_wind_speed_at_h. rewrite speed_known by assumption. destruct (wind_speed_at_h w h) as [s|]; [|reflexivity]. cbn [rmap bind].
  unfold length_to_xyz_vector. rewrite alpha_some. reflexivity.
Qed.
Lemma true_inv w h T : get_true_wind_speed_at_h (finW w) (Some h) = Ok T ->
  exists t, get_true_wind_speed_at_h w h = Ok t /\ (wind_known w h /\ T = fin t \/ vx T = None).
Proof.
  intros E. destruct (classic (wind_known w h)) as [H|H].
  - rewrite true_known in E by assumption. destruct (get_true_wind_speed_at_h w h) as [t|]; [|discriminate]. injection E as <-. exists t. split; [reflexivity|]. left. split; [assumption|reflexivity].
  - unfold get_true_wind_speed_at_h in E. rewrite speed_unknown in E by assumption. cbn [bind] in E. injection E as <-.
    revert H. unfold wind_known, get_true_wind_speed_at_h, wind_speed_at_h. destruct (w_prof w) as [|[r|] [rh|]|[e|] [rh|] [wl|]]; intros H; try (exfalso; apply H; exact I); cbn [opt_arg bind]; eexists; (split; [reflexivity|]); right; reflexivity.
Qed.
Lemma app_wind_fin w t : get_app_infs_at_h (finW w) (fin t) = fin (get_app_infs_at_h w t).
Proof. reflexivity. Qed.
Lemma rad2deg_some x : rad2deg (Some x) = Some (rad2deg x).
Proof. unfold rad2deg. pose proof PI_RGT_0. change (@npi (option R) CNum) with (Some PI). rewrite some_Z, ?some_mul, ?some_div, ?some_mul by (rnum; lra). reflexivity. Qed.
Lemma inlet_fin w cp : (forall p, In p cp -> wind_known w (Rabs (vz p))) ->
  InletConditions (finW w) (map fin cp) = rmap finI (InletConditions w cp).
Proof.
  intros H. unfold InletConditions.
  rewrite (mapM_lift (fun p => get_true_wind_speed_at_h w (nabs (vz p))) _ fin fin) by (intros p I; exact (true_known w _ (H p I))).
  destruct (mapM _ cp) as [tws|]; [|reflexivity]. cbn [rmap bind]. unfold finI. cbn [in_cp in_tws in_V in_awa_deg]. cbv zeta.
  rewrite (map_lift (get_app_infs_at_h w) _ fin fin) by (intros; apply app_wind_fin).
  rewrite (map_lift (fun v => rad2deg (natan2 (vy v) (vx v))) _ fin Some); [reflexivity|]. intros v _. unfold fin. cbn [vx vy].
  change (natan2 (Some (vy v)) (Some (vx v))) with (Some (natan2 (vy v) (vx v))). apply rad2deg_some.
Qed.
Lemma mapM_of_map {A B C} (f : B -> res C) (h : A -> B) l : mapM f (map h l) = mapM (fun a => f (h a)) l.
Proof. induction l as [|a l IH]; [reflexivity|]. cbn [map mapM]. rewrite IH. reflexivity. Qed.
Lemma mapM_ex {A B C} (f : A -> res B) (g : A -> res C) l bs : mapM f l = Ok bs -> (forall a b, In a l -> f a = Ok b -> exists c, g a = Ok c) -> exists cs, mapM g l = Ok cs.
Proof.
  revert bs. induction l as [|a l IH]; intros bs E H; [exists []; reflexivity|]. cbn [mapM] in E |- *. destruct (f a) as [b|] eqn:FA; [|discriminate]. cbn [bind] in E.
  destruct (mapM f l) as [bs'|] eqn:M; [|discriminate]. destruct (H a b (or_introl eq_refl) FA) as [c ->]. cbn [bind].
  destruct (IH bs' eq_refl ltac:(intros; eapply H; [right; eassumption | eassumption])) as [cs ->]. eexists. reflexivity.
Qed.
Lemma inlet_inv_chk w cp IC : InletConditions (finW w) (map fin cp) = Ok IC ->
  exists ic, InletConditions w cp = Ok ic /\ forall k p, nth_error cp k = Some p -> exists u U, nth_error (in_V ic) k = Some u /\ nth_error (in_V IC) k = Some U /\
    (wind_known w (Rabs (vz p)) /\ U = fin u \/ vx U = None).
Proof.
  intros E.
  assert (X : exists ic, InletConditions w cp = Ok ic).
  { pose proof E as E0. unfold InletConditions in E |- *. destruct (mapM _ (map fin cp)) as [TW|] eqn:M; [|discriminate].
    rewrite mapM_of_map in M. destruct (mapM_ex _ (fun p => get_true_wind_speed_at_h w (nabs (vz p))) _ _ M) as [tws ->]; [|eexists; reflexivity].
    intros p T _ ET. destruct (true_inv w _ T ET) as (t & A & _). exists t. exact A. }
  destruct X as [ic EI]. exists ic. split; [exact EI|]. intros k p P.
  destruct (inlet_nth w cp ic k p EI P) as (u & U1 & U2).
  destruct (inlet_nth (finW w) (map fin cp) IC k (fin p) E) as (T & T1 & T2); [apply map_nth_error; exact P|].
  eexists. eexists. split; [exact U2|]. split; [exact T2|].
  destruct (true_inv w _ T T1) as (t & A & B). change (nabs (vz p)) with (Rabs (vz p)) in U1. change (nabs (vz (fin p))) with (Some (Rabs (vz p))) in T1.
  cbn [fin vz] in *. assert (t = u) by congruence. subst t. destruct B as [[B1 B2]|B].
  - left. split; [exact B1|]. rewrite B2. apply app_wind_fin.
  - right. unfold get_app_infs_at_h. cbn [vx]. rewrite B. reflexivity.
Qed.

(** ** Normals *)
Definition zerob (v : vec R) : bool := (Reqb (vx v) 0 && Reqb (vy v) 0 && Reqb (vz v) 0)%bool.
Lemma zerob_true v : zerob v = true <-> v = szero.
Proof.
  unfold zerob. rewrite !andb_true_iff, !Reqb_true. destruct v as [a b c]. cbn [vx vy vz]. unfold szero. split; [intros [[-> ->] ->]; reflexivity | intros E; injection E; tauto].
Qed.
(** the checked image of a panel's quantities: the normal of a panel with parallel diagonals is undefined *)
Definition chkV (v : pvars R) : pvars (option R) :=
  PVars (if zerob (pv_n v) then undef else fin (pv_n v)) (fin (pv_ctr v)) (fin (pv_cp v)) (finR (pv_ring v)) (fin (pv_span v)) (fin (pv_lead v)) (fin (pv_trail v)).
Lemma chkV_finV v : pv_n v <> szero -> chkV v = finV v.
Proof. intros H. unfold chkV, finV. destruct (zerob (pv_n v)) eqn:Z; [|reflexivity]. apply zerob_true in Z. contradiction. Qed.
Lemma normal_spread g p A D : pv_n (panel_vars g p A D) <> szero <-> spread p.
Proof.
  unfold spread, panel_vars. cbn [pv_n]. tospec. set (c := scross _ _). fold (sunit c). split; intros H E; apply H.
  - rewrite E. unfold sunit, szero, sscale. cbn [vx vy vz]. f_equal; ring.
  - destruct (classic (c = szero)) as [|N]; [assumption|]. exfalso. pose proof (snorm_unit c N) as U. rewrite E, snorm_0 in U. lra.
Qed.
Lemma panel_vars_chk g p A D : panel_vars (Some g) (finP p) (fin A) (fin D) = chkV (panel_vars g p A D).
Proof.
  destruct (classic (spread p)) as [S|S].
  - rewrite panel_vars_fin by assumption. symmetry. apply chkV_finV. apply normal_spread. exact S.
  - unfold chkV. replace (zerob _) with true.
    2:{ symmetry. apply zerob_true. apply NNPP. intros N. apply S. apply normal_spread in N. exact N. }
    unfold panel_vars. cbv zeta. rewrite quarter_B_fin, quarter_C_fin. unfold finP. cbn [pp1 pp2 pp3 pp4].
    rewrite !fin_sub, !fin_add, fin_cross, fin_norm, !fin_divZ by lra.
    apply NNPP in S || (unfold spread in S; apply NNPP in S).
    replace (vnorm (vcross (vsub (pp3 p) (pp1 p)) (vsub (pp4 p) (pp2 p)))) with 0 by (tospec; rewrite S; symmetry; apply snorm_0).
    rewrite fin_divs0. rewrite !fin_sub, !some_dec by lia. rewrite !fin_scale, !fin_add. reflexivity.
Qed.
Lemma group_chk g ns grid te : group_vlm_variables (Some g) ns (map finP grid) te = rmap (map chkV) (group_vlm_variables g ns grid te).
Proof.
  unfold group_vlm_variables. rewrite map_length.
  replace (combine (seq 0 (length grid)) (map finP grid)) with (map (fun q : nat * panel R => (fst q, finP (snd q))) (combine (seq 0 (length grid)) grid))
    by (rewrite <- (map_id (seq 0 (length grid))) at 2; rewrite combine_map2; reflexivity).
  apply mapM_lift. intros [k p] _. cbn [fst snd]. destruct (py_nth te (Z.of_nat k)) as [[]|]; [| |reflexivity]; cbn [bind].
  - rewrite aft_A_fin, aft_D_fin, panel_vars_chk. reflexivity.
  - rewrite py_nth_map. destruct (py_nth grid _) as [q|]; [|reflexivity]. cbn [bind rmap]. rewrite quarter_B_fin, quarter_C_fin, panel_vars_chk. reflexivity.
Qed.
Lemma vars_chk g panels te nc ns :
  calculate_vlm_variables (map finP panels) te (Some g) nc ns = rmap (map chkV) (calculate_vlm_variables panels te g nc ns).
Proof.
  unfold calculate_vlm_variables. cbv zeta. rewrite map_length. destruct (_ =? 0)%nat; [reflexivity|].
  rewrite array_split_map. destruct (array_split panels _) as [pss|] eqn:P; [|reflexivity]. cbn [rmap bind].
  destruct (array_split te _) as [tss|]; [|reflexivity]. cbn [bind].
  replace (combine (map (map finP) pss) tss) with (map (fun q : list (panel R) * list bool => (map finP (fst q), snd q)) (combine pss tss))
    by (rewrite <- (map_id tss) at 2; rewrite combine_map2; reflexivity).
  rewrite (mapM_lift (fun a => group_vlm_variables g ns (fst a) (snd a)) _ _ (map chkV)).
  - destruct (mapM _ _) as [vss|]; [|reflexivity]. cbn [rmap bind]. destruct (_ =? _)%nat; [|reflexivity]. cbn [rmap]. rewrite concat_map. reflexivity.
  - intros [ps ts] _. cbn [fst snd]. apply group_chk.
Qed.

(** ** Velocities *)
Lemma inf_undef p a v g : v = szero \/ on_half_line a v p -> vortex_infinite_line (fin p) (fin a) (fin v) (Some g) = undef.
Proof.
  intros H. destruct (classic (v = szero)) as [->|N].
  - unfold vortex_infinite_line. cbv zeta. rewrite fin_norm. replace (vnorm szero) with 0 by (tospec; symmetry; apply snorm_0). rewrite fin_divs0, fin_sub, fin_norm.
    change (@nmul (option R) CNum (nZ 4) npi) with (Some (4 * PI)). pose proof PI_RGT_0. rewrite some_div by lra. reflexivity.
  - destruct H as [H|H]; [contradiction|]. apply C35_wake_singularity; assumption.
Qed.
Lemma influence_undef g p r te v : ~ clear_of p r te v -> influence (Some g) (fin p) (finR r) te (fin v) = undef.
Proof.
  intros H. destruct te; [|exfalso; apply H; discriminate].
  assert (Q : (v = szero \/ on_half_line (rA r) v p) \/ (v = szero \/ on_half_line (rD r) v p)).
  { apply NNPP. intros N. apply H. intros _. unfold off_wake. split; [intros ->; apply N; left; left; reflexivity|]. split; intros A; apply N; [left; right; exact A | right; right; exact A]. }
  unfold influence, finR. cbn [rA rB rC rD]. unfold vortex_horseshoe_v2. cbv zeta. rewrite !line_fin, some_Z, some_opp, some_mul.
  destruct Q as [Q|Q].
  - rewrite (inf_undef p (rA r) v) by assumption. generalize (vadd (vadd (vadd (fin (vortex_line p (rA r) (rB r) g)) (fin (vortex_line p (rB r) (rC r) g))) (fin (vortex_line p (rC r) (rD r) g))) (vortex_infinite_line (fin p) (fin (rD r)) (fin v) (Some g))).
    intros [[a|] [b|] [c|]]; reflexivity.
  - rewrite (inf_undef p (rD r) v) by assumption. generalize (vortex_infinite_line (fin p) (fin (rA r)) (fin v) (Some (nopp 1 * g)%N_)). intros [[a|] [b|] [c|]]; reflexivity.
Qed.
Lemma fold_strict l : forall a, vx (fold_left vadd l a) <> (None : option R) -> vx a <> None /\ forall u, In u l -> vx u <> None.
Proof.
  induction l as [|b l IH]; intros a H; [split; [exact H | intros u []]|]. cbn [fold_left] in H. apply IH in H. destruct H as [H1 H2].
  assert (X : vx a <> None /\ vx b <> None). { unfold vadd in H1. cbn [vx] in H1. destruct (vx a), (vx b); try (exfalso; apply H1; reflexivity); split; discriminate. }
  destruct X as [X1 X2]. split; [exact X1|]. intros u [<-|I]; [exact X2 | apply H2; exact I].
Qed.
Lemma fold_undef l : forall a, In undef l -> fold_left vadd l a = undef.
Proof.
  induction l as [|b l IH]; intros a I; [destruct I|]. cbn [fold_left]. destruct I as [->|I]; [|apply IH; exact I].
  replace (vadd a undef) with undef by (destruct a as [[x|] [y|] [z|]]; reflexivity).
  clear IH. induction l as [|c l IH]; [reflexivity|]. cbn [fold_left]. replace (vadd undef c) with undef by (destruct c as [[x|] [y|] [z|]]; reflexivity). exact IH.
Qed.
Lemma gauss_length {F} `{Num F} n : forall rows x, gauss n rows = Ok x -> length x = n.
Proof.
  induction n as [|n IH]; intros rows x E; [injection E as <-; reflexivity|]. destruct rows as [|e rows]; [discriminate|]. cbn [gauss] in E.
  destruct (choose_pivot e rows) as [piv rest]. destruct (neqb _ _); [discriminate|]. destruct (gauss n _) as [xs|] eqn:G; [|discriminate]. injection E as <-. cbn [length]. f_equal. eapply IH. exact G.
Qed.
Lemma solve_length {F} `{Num F} a b x : solve_eq a b = Ok x -> length x = length a.
Proof. unfold solve_eq. cbv zeta. destruct (_ && _)%bool; [|discriminate]. apply gauss_length. Qed.
