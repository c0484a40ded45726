(** Property C80: which runs of the solver are free of undefined operations, which undefined operations the solver
    notices and which it passes on. *)

From Coq Require Import String ZArith Reals List Bool Lra Psatz Lia Arith Classical.
From Verif Require Import Num PyBase RNum CNum Spec M_Panels M_Velocity M_Solve M_Coefs M_Forces M_Csys M_Winds M_Vlm
  L_List L_Rot L_Vel L_Vel2 L_Solve L_Lattice L_Vlm L_Vlm2 P_Vel P_Tack L_ScaleRun P_Scene L_Csys L_Demo L_Lift L_Lift2.
Import ListNotations.
Open Scope R_scope.

(** [p] is on one of the two half lines of the wake of some panel at a trailing edge, or the wake of such a panel has no
    direction *)
Definition on_wake (o : vlm R) (p : vec R) : Prop :=
  exists l r v, nth_error (vl_te o) l = Some true /\ nth_error (vl_rings o) l = Some r /\ nth_error (in_V (vl_inlet o)) l = Some v /\
    (v = szero \/ on_half_line (rA r) v p \/ on_half_line (rD r) v p).

(** ** Lemmas *)
Lemma clear_or_not p r v : clear_of p r true v <-> ~ (v = szero \/ on_half_line (rA r) v p \/ on_half_line (rD r) v p).
Proof. unfold clear_of, off_wake. split; [intros H; specialize (H eq_refl); tauto | intros H _; tauto]. Qed.
Lemma wake_row o p : clear_row (vl_rings o) (vl_te o) (in_V (vl_inlet o)) p <-> ~ on_wake o p.
Proof.
  split.
  - intros C (l & r & v & T & R0 & V0 & H). revert H. apply clear_or_not. apply C. apply (nth_error_In _ l). apply nth_error_combine; [exact R0|]. apply nth_error_combine; assumption.
  - intros N r t v I. apply In_nth_error in I. destruct I as [l I]. apply nth_error_combine_inv in I. destruct I as [I1 I]. apply nth_error_combine_inv in I. destruct I as [I2 I3].
    destruct t; [|discriminate]. apply clear_or_not. intros H. apply N. exists l, r, v. tauto.
Qed.
Lemma pf_chk K rho le ns (u : nat -> vec (option R)) (s : nat -> vec R) gamma net : (forall k, (k < K)%nat -> net_circulation gamma le ns k = Ok (net k)) ->
  panel_forces (Some rho) (tab K u) (tab K (fun k => fin (s k))) (map Some gamma) le ns = Ok (tab K (fun k => vscale (Some rho) (vcross (u k) (vscale (Some (net k)) (fin (s k)))))).
Proof.
  intros N. unfold panel_forces. rewrite tab_length. rewrite <- (map_id (seq 0 K)).
  fold (tab K (fun k : nat => k)). rewrite !combine_tab. unfold tab.
  rewrite (mapM_map _ (fun ivs => vscale (Some rho) (vcross (fst (snd ivs)) (vscale (Some (net (fst ivs))) (snd (snd ivs)))))).
  - rewrite map_map. reflexivity.
  - intros a I. apply in_map_iff in I. destruct I as (k & <- & I). apply in_seq in I. cbn [fst snd]. rewrite net_fin, (N k) by lia. reflexivity.
Qed.
Lemma pf_chk_inv K rho le ns (u s : nat -> vec (option R)) gamma f : panel_forces (Some rho) (tab K u) (tab K s) (map Some gamma) le ns = Ok f ->
  exists net, forall k, (k < K)%nat -> net_circulation gamma le ns k = Ok (net k).
Proof.
  intros E. exists (fun k => match net_circulation gamma le ns k with Ok x => x | Raise _ => 0 end). intros k Hk.
  unfold panel_forces in E. rewrite tab_length in E.
  assert (L : nth_error (combine (seq 0 K) (combine (tab K u) (tab K s))) k = Some (k, (u k, s k))).
  { apply nth_error_combine; [apply (nth_error_seq 0); assumption|]. apply nth_error_combine; [exact (tab_nth_error K u k Hk) | exact (tab_nth_error K s k Hk)]. }
  destruct (mapM_nth _ _ _ _ _ E L) as (b & B1 & B2). cbn [fst snd] in B1, B2. rewrite net_fin in B2 || rewrite net_fin in B1.
  destruct (net_circulation gamma le ns k); [reflexivity|]. discriminate.
Qed.
Section Chk.
Context (K : nat) (t : nat -> bool) (v : nat -> pvars R) (V : nat -> vec R).
Definition inflC (p : vec R) (l : nat) : vec (option R) := influence (Some (-1)) (fin p) (finR (pv_ring (v l))) (t l) (fin (V l)).
Definition washC (g : nat -> R) (p : vec R) : vec (option R) := induced_at (tab K (inflC p)) (tab K (fun l => Some (g l))).
Lemma coefsC (c : nat -> vec R) n : 
  snd (calc_velocity_coefs (tab K (fun k => fin (V k))) (tab K (fun k => fin (c k))) (tab K (fun l => finR (pv_ring (v l)))) n (tab K t) (Some (-1)))
  = tab K (fun k => tab K (inflC (c k))).
Proof.
  unfold calc_velocity_coefs. cbn [snd]. rewrite map_tab. apply tab_ext. intros k _. unfold influence_row. rewrite !combine_tab, map_tab. reflexivity.
Qed.
Lemma appC (c : nat -> vec R) g : calculate_app_fs (tab K (fun k => fin (V k))) (tab K (fun k => tab K (inflC (c k)))) (tab K (fun l => Some (g l)))
  = (tab K (fun k => washC g (c k)), tab K (fun k => vadd (fin (V k)) (washC g (c k)))).
Proof. unfold calculate_app_fs, calc_induced_velocity. cbv zeta. rewrite map_tab, zipWith_tab. reflexivity. Qed.
Lemma washC_fin g p : (forall l, (l < K)%nat -> clear_of p (pv_ring (v l)) (t l) (V l)) -> washC g p = fin (wash K t v V g p).
Proof.
  intros C. unfold washC, wash. rewrite <- induced_tab, <- induced_fin, !map_tab. f_equal. apply tab_ext. intros l L. apply influence_fin. apply C. exact L.
Qed.
Lemma washC_undef g p l : (l < K)%nat -> ~ clear_of p (pv_ring (v l)) (t l) (V l) -> washC g p = undef.
Proof.
  intros L C. unfold washC, induced_at. apply fold_undef. rewrite zipWith_tab. apply (nth_error_In _ l). rewrite tab_nth_error by assumption. f_equal.
  unfold inflC. rewrite influence_undef by assumption. reflexivity.
Qed.
Lemma wrapperC gamma g rho ns le net name n : (forall k, (k < K)%nat -> net_circulation gamma le ns k = Ok (net k)) -> gamma = tab K g ->
  In name ["lift"; "drag"; "force_xyz"]%string ->
  calc_force_wrapper (tab K (fun k => fin (V k))) (map Some gamma) (Some rho) (tab K (fun k => fin (pv_cp (v k)))) (tab K (fun k => finR (pv_ring (v k)))) ns n
    (tab K (fun k => fin (pv_span (v k)))) (tab K t) le name (Some (-1)) =
  Ok (tab K (fun k => vscale (Some rho) (vcross (if String.eqb name "lift" then fin (V k) else if String.eqb name "drag" then washC g (pv_cp (v k)) else vadd (fin (V k)) (washC g (pv_cp (v k)))) (vscale (Some (net k)) (fin (pv_span (v k)))))),
      tab K (fun k => vadd (fin (V k)) (washC g (pv_cp (v k)))), tab K (fun k => washC g (pv_cp (v k)))).
Proof.
  intros N EG I. unfold calc_force_wrapper.
  replace (negb (existsb (String.eqb name) ["lift"; "drag"; "force_xyz"]%string)) with false.
  2:{ destruct I as [<-|[<-|[<-|[]]]]; reflexivity. }
  pose proof (coefsC (fun k => pv_cp (v k)) n) as CC. destruct (calc_velocity_coefs _ _ _ _ _ _) as [co vi]. cbn [snd] in CC. rewrite CC.
  replace (map Some gamma) with (tab K (fun l => Some (g l))) by (rewrite EG, map_tab; reflexivity). rewrite appC.
  replace (tab K (fun l => Some (g l))) with (map Some gamma) by (rewrite EG, map_tab; reflexivity).
  destruct I as [<-|[<-|[<-|[]]]].
  - change (String.eqb "lift" "lift") with true. cbv iota. rewrite (pf_chk _ _ _ _ _ (fun k => pv_span (v k)) _ net N). reflexivity.
  - change (String.eqb "drag" "lift") with false. change (String.eqb "drag" "drag") with true. cbv iota. rewrite (pf_chk _ _ _ _ _ (fun k => pv_span (v k)) _ net N). reflexivity.
  - change (String.eqb "force_xyz" "lift") with false. change (String.eqb "force_xyz" "drag") with false. cbv iota. rewrite (pf_chk _ _ _ _ _ (fun k => pv_span (v k)) _ net N). reflexivity.
Qed.
End Chk.
Lemma gorC : @vlm_gor (option R) CNum = Some (-1).
Proof. unfold vlm_gor. rewrite some_Z, some_opp. reflexivity. Qed.
Lemma undef_force rho u (net : R) s : u = undef -> vscale (Some rho) (vcross u (vscale (Some net) (fin s))) = undef.
Proof. intros ->. reflexivity. Qed.
Lemma fin_force rho u net s : vscale (Some rho) (vcross (fin u) (vscale (Some net) (fin s))) = fin (sscale rho (scross u (sscale net s))).
Proof. rewrite fin_scale, fin_cross, fin_scale. tospec. reflexivity. Qed.

(** ** The solver accepts exactly the lattices and winds that are defined up to the circulations *)
Definition clean (panels : list (panel R)) (w : wind R) (o : vlm R) : Prop :=
  (forall p, In p panels -> spread p) /\ (forall p, In p (vl_cp o) -> wind_known w (Rabs (vz p))) /\ (forall p, In p (vl_ctr o) -> ~ on_wake o p).

Lemma accept panels nc ns rho w te le o : length te = length panels -> Vlm panels nc ns rho w te le = Ok o -> clean panels w o ->
  exists O, Vlm (map finP panels) nc ns (Some rho) (finW w) te le = Ok O /\
    vl_gamma O = map Some (vl_gamma o) /\ vl_V_ctrl O = map fin (vl_V_ctrl o) /\ vl_lift O = map fin (vl_lift o) /\
    vl_vars O = map finV (vl_vars o) /\ in_V (vl_inlet O) = map fin (in_V (vl_inlet o)) /\
    forall k p, nth_error (vl_cp o) k = Some p ->
      (~ on_wake o p -> nth_error (vl_V_cp O) k = option_map fin (nth_error (vl_V_cp o) k) /\ nth_error (vl_force O) k = option_map fin (nth_error (vl_force o) k)) /\
      (on_wake o p -> nth_error (vl_V_cp O) k = Some undef /\ nth_error (vl_force O) k = Some undef /\ nth_error (vl_pressure O) k = Some None).
Proof.
  intros LT E (SP & WK & CL). pose proof E as E0.
  destruct (Vlm_inv _ _ _ _ _ _ _ _ LT E) as (vars & ic & g & net & CV & LV & IC & LI & VS & SO & FL).
  set (K := length panels) in *. set (t := fun k => nth k te false) in *. set (v := fun k => nth k vars dpv) in *. set (V := fun k => nth k (in_V ic) szero) in *.
  cbv zeta in SO, FL.
  assert (ET : te = tab K t) by (apply list_tab; exact LT). assert (EVS : vars = tab K v) by (apply list_tab; exact LV). assert (EV : in_V ic = tab K V) by (apply list_tab; exact LI).
  assert (OV : vl_vars o = tab K v) by apply FL. assert (OT : vl_te o = te) by apply FL. assert (OI : vl_inlet o = ic) by apply FL.
  assert (CLR : forall p, ~ on_wake o p -> clear_row (map pv_ring vars) te (in_V ic) p).
  { intros p N. apply wake_row in N. unfold vl_rings in N. rewrite OV, <- EVS, OT, OI in N. exact N. }
  assert (WKV : forall p, In p (map pv_cp vars) -> wind_known w (Rabs (vz p))).
  { intros p I. apply WK. unfold vl_cp. rewrite OV, <- EVS. exact I. }
  assert (CTR : forall p, In p (map pv_ctr vars) -> clear_row (map pv_ring vars) te (in_V ic) p).
  { intros p I. apply CLR, CL. unfold vl_ctr. rewrite OV, <- EVS. exact I. }
  unfold Vlm. rewrite gorC, vars_fin by assumption. rewrite CV. cbn [rmap bind].
  assert (M1 : map pv_cp (map finV vars) = map fin (map pv_cp vars)) by (apply map_lift; reflexivity).
  assert (M2 : map pv_ctr (map finV vars) = map fin (map pv_ctr vars)) by (apply map_lift; reflexivity).
  assert (M3 : map pv_ring (map finV vars) = map finR (map pv_ring vars)) by (apply map_lift; reflexivity).
  assert (M4 : map pv_n (map finV vars) = map fin (map pv_n vars)) by (apply map_lift; reflexivity).
  assert (M5 : map pv_span (map finV vars) = map fin (map pv_span vars)) by (apply map_lift; reflexivity).
  rewrite M1, inlet_fin by assumption. rewrite IC. cbn [rmap bind]. unfold vlm_solve. cbv zeta. rewrite gorC, M1, M2, M3, M4, M5, areas_fin. cbn [finI in_V].
  assert (GR : vl_gamma o = tab K g) by apply FL.
  (* the real run up to the circulations *)
  pose proof VS as VS0. unfold vlm_solve in VS. cbv zeta in VS. rewrite gor_R in VS. rewrite coefs_fin by assumption. rewrite rhs_fin.
  destruct (calc_velocity_coefs (in_V ic) (map pv_ctr vars) (map pv_ring vars) (map pv_n vars) te (-1)) as [co vi] eqn:CO. cbn [fst snd].
  rewrite solve_fin. destruct (solve_eq co (calculate_RHS (in_V ic) (map pv_n vars))) as [gamma|] eqn:SE; [|discriminate]. cbn [bind rmap] in VS |- *.
  rewrite app_fin. destruct (calculate_app_fs (in_V ic) vi gamma) as [vi1 vc1] eqn:AF. cbn [fst snd]. rewrite flux_fin.
  destruct (is_no_flux_BC_satisfied vc1 (get_panels_area panels) (map pv_n vars)) as [b|] eqn:NF; [|discriminate]. cbn [bind] in VS |- *.
  destruct (PyBase.guard b AssertionError) as [u0|] eqn:GD; [|discriminate]. cbn [bind] in VS |- *.
  assert (EG : gamma = tab K g /\ vc1 = vl_V_ctrl o).
  { revert VS. destruct (calc_force_wrapper _ _ _ _ _ _ _ _ _ _ "force_xyz" _) as [[[? ?] ?]|]; [|discriminate]. cbn [bind].
    destruct (calc_force_wrapper _ _ _ _ _ _ _ _ _ _ "lift" _) as [[[? ?] ?]|]; [|discriminate]. cbn [bind].
    destruct (calc_force_wrapper _ _ _ _ _ _ _ _ _ _ "drag" _) as [[[? ?] ?]|]; [|discriminate]. cbn [bind].
    intros Q. apply Ok_inj in Q. rewrite <- GR, <- Q. cbn [vl_gamma vl_V_ctrl]. split; reflexivity. }
  destruct EG as [EG EVC].
  assert (T1 : map fin (in_V ic) = tab K (fun k => fin (V k))) by (rewrite EV; apply map_tab).
  assert (T2 : map fin (map pv_cp vars) = tab K (fun k => fin (pv_cp (v k)))) by (rewrite EVS, !map_tab; reflexivity).
  assert (T3 : map finR (map pv_ring vars) = tab K (fun k => finR (pv_ring (v k)))) by (rewrite EVS, !map_tab; reflexivity).
  assert (T5 : map fin (map pv_span vars) = tab K (fun k => fin (pv_span (v k)))) by (rewrite EVS, !map_tab; reflexivity).
  assert (NT : forall k, (k < K)%nat -> net_circulation gamma le ns k = Ok (net k)) by (rewrite EG; apply SO).
  assert (WR : forall name, In name ["lift"; "drag"; "force_xyz"]%string -> calc_force_wrapper (map fin (in_V ic)) (map Some gamma) (Some rho) (map fin (map pv_cp vars)) (map finR (map pv_ring vars)) ns (map fin (map pv_n vars)) (map fin (map pv_span vars)) te le name (Some (-1)) = _)
    by (intros name I; rewrite T1, T2, T3, T5, ET; exact (wrapperC K t v V gamma g rho ns le net name (map fin (map pv_n vars)) NT EG I)).
  rewrite (WR "force_xyz"%string) by (right; right; left; reflexivity). cbn [bind].
  rewrite (WR "lift"%string) by (left; reflexivity). cbn [bind].
  rewrite (WR "drag"%string) by (right; left; reflexivity). cbn [bind].
  change (String.eqb "lift" "lift") with true. change (String.eqb "force_xyz" "lift") with false. change (String.eqb "force_xyz" "drag") with false. cbv iota.
  eexists. split; [reflexivity|]. cbn [vl_gamma vl_V_ctrl vl_lift vl_vars vl_inlet vl_V_cp vl_force vl_pressure].
  split; [rewrite EG, GR; reflexivity|]. split; [rewrite EVC; reflexivity|].
  split. { replace (vl_lift o) with (tab K (plift rho v V net)) by (symmetry; apply FL). rewrite map_tab. apply tab_ext. intros k _. apply fin_force. }
  split; [rewrite OV, EVS; reflexivity|]. split; [rewrite OI; reflexivity|].
  intros k p P. assert (Hk : (k < K)%nat). { apply nth_error_Some_lt in P. unfold vl_cp in P. rewrite OV, map_tab, tab_length in P. exact P. }
  assert (EP : p = pv_cp (v k)). { unfold vl_cp in P. rewrite OV, map_tab, tab_nth_error in P by exact Hk. congruence. }
  replace (vl_V_cp o) with (tab K (fun k => sadd (V k) (wash K t v V g (pv_cp (v k))))) by (symmetry; apply FL).
  replace (vl_force o) with (tab K (pforce K rho t v V g net)) by (symmetry; apply FL).
  rewrite !tab_nth_error by exact Hk. cbn [option_map]. split; intros W.
  - assert (Q : washC K t v V g (pv_cp (v k)) = fin (wash K t v V g (pv_cp (v k)))).
    { apply washC_fin. intros l L. rewrite <- EP. apply (CLR p W). apply (nth_error_In _ l). apply nth_error_combine; [rewrite EVS, map_tab; exact (tab_nth_error K (fun k => pv_ring (v k)) l L)|].
      apply nth_error_combine; [rewrite ET; exact (tab_nth_error K t l L) | rewrite EV; exact (tab_nth_error K V l L)]. }
    rewrite Q, fin_add. split; [reflexivity|]. rewrite fin_force. reflexivity.
  - assert (Q : washC K t v V g (pv_cp (v k)) = undef).
    { destruct W as (l & r & vv & W1 & W2 & W3 & W4). rewrite OT, ET in W1. unfold vl_rings in W2. rewrite OV, map_tab in W2. rewrite OI, EV in W3.
      assert (L : (l < K)%nat) by (apply nth_error_Some_lt in W1; rewrite tab_length in W1; exact W1).
      rewrite tab_nth_error in W1 by exact L. rewrite tab_nth_error in W2 by exact L. rewrite tab_nth_error in W3 by exact L. injection W1 as W1. injection W2 as W2. injection W3 as W3.
      apply (washC_undef K t v V g _ l L). rewrite W1, W2, W3, <- EP. rewrite clear_or_not. tauto. }
    rewrite Q. split; [reflexivity|]. split; [reflexivity|].
    unfold calc_pressure. rewrite EVS, !map_tab.
    assert (AT : get_panels_area panels = tab K (fun k => nth k (get_panels_area panels) 0)) by (apply list_tab; unfold get_panels_area; rewrite map_length; reflexivity).
    rewrite AT, map_tab, combine_tab, zipWith_tab, tab_nth_error by exact Hk. cbn [fst snd]. rewrite Q. reflexivity.
Qed.

(** ** What the solver notices *)
Lemma mapM_proj {A B C} (f : A -> res B) (j : B -> C) (h : A -> C) l : forall bs, mapM f l = Ok bs -> (forall a b, In a l -> f a = Ok b -> j b = h a) -> map j bs = map h l.
Proof.
  induction l as [|a l IH]; intros bs E H; [injection E as <-; reflexivity|]. cbn [mapM] in E. destruct (f a) as [b|] eqn:FA; [|discriminate]. cbn [bind] in E.
  destruct (mapM f l) as [bs'|] eqn:M; [|discriminate]. injection E as <-. cbn [map]. rewrite (H a b (or_introl eq_refl) FA). f_equal. apply IH; [reflexivity|]. intros; apply H; [right|]; assumption.
Qed.
Lemma map_snd_combine {A B} (l : list A) : forall (m : list B), length l = length m -> map snd (combine l m) = m.
Proof. induction l as [|a l IH]; intros [|b m] E; try discriminate; [reflexivity|]. cbn [combine map snd]. f_equal. apply IH. injection E. tauto. Qed.
Lemma map_fst_combine {A B} (l : list A) : forall (m : list B), length l = length m -> map fst (combine l m) = l.
Proof. induction l as [|a l IH]; intros [|b m] E; try discriminate; [reflexivity|]. cbn [combine map fst]. f_equal. apply IH. injection E. tauto. Qed.
Definition nrm (g : R) (p : panel R) : vec R := pv_n (panel_vars g p szero szero).
Lemma group_normals g ns (grid : list (panel R)) te vars : group_vlm_variables g ns grid te = Ok vars -> map pv_n vars = map (nrm g) grid.
Proof.
  intros E. unfold group_vlm_variables in E. rewrite (mapM_proj _ pv_n (fun kp => nrm g (snd kp)) _ _ E).
  - rewrite <- (map_map snd (nrm g)). rewrite map_snd_combine by (rewrite seq_length; reflexivity). reflexivity.
  - intros [k p] b _. cbn [fst snd]. destruct (py_nth te _) as [[]|]; [| |discriminate]; cbn [bind]; [intros X; injection X as <-; reflexivity|].
    destruct (py_nth grid _); [|discriminate]. cbn [bind]. intros X; injection X as <-; reflexivity.
Qed.
Lemma vars_normals g panels te nc ns vars : length te = length panels -> calculate_vlm_variables panels te g nc ns = Ok vars -> map pv_n vars = map (nrm g) panels.
Proof.
  intros LT E. unfold calculate_vlm_variables in E. destruct (nc * ns =? 0)%nat; [discriminate|].
  set (G := (length panels / (nc * ns))%nat) in *.
  destruct (Nat.eqb_spec (length panels) (G * (nc * ns))) as [LP|LP].
  2:{ revert E. destruct (array_split panels G); [|discriminate]. destruct (array_split te G); [|discriminate].
      unfold bind. destruct (mapM _ _); discriminate. }
  destruct (Nat.eq_dec G 0) as [G0|G0]; [rewrite G0 in E; discriminate|].
  destruct (array_split_groups panels G (nc * ns) ltac:(lia) LP) as (pss & E1 & L1 & C1 & _).
  destruct (array_split_groups te G (nc * ns) ltac:(lia) ltac:(lia)) as (tss & E2 & L2 & _).
  rewrite E1, E2 in E. unfold bind in E. destruct (mapM _ (combine pss tss)) as [vss|] eqn:M; [|discriminate]. injection E as <-.
  rewrite concat_map, (mapM_proj _ (map pv_n) (fun q => map (nrm g) (fst q)) _ _ M) by (intros [ps ts] b _; apply group_normals).
  rewrite <- (map_map fst (map (nrm g))), map_fst_combine by congruence. rewrite <- concat_map, C1. reflexivity.
Qed.
Lemma vdot_strict (u n : vec (option R)) : vdot (vopp u) n <> None -> vx u <> None /\ vx n <> None.
Proof. destruct u as [[a|] b c], n as [[d|] e f]; intros H; split; try discriminate; exfalso; apply H; destruct b, c, e, f; reflexivity. Qed.
Lemma vadd_strict (u n : vec (option R)) : vx (vadd u n) <> None -> vx u <> None /\ vx n <> None.
Proof. destruct u as [[a|] b c], n as [[d|] e f]; intros H; split; try discriminate; exfalso; apply H; reflexivity. Qed.
Lemma vscale_strict k (u : vec (option R)) : vx (vscale k u) <> None -> k <> None /\ vx u <> None.
Proof. destruct u as [[a|] b c], k; intros H; split; try discriminate; exfalso; apply H; reflexivity. Qed.
Lemma is_some (l : list (option R)) : (forall x, In x l -> x <> None) -> exists m, l = map Some m.
Proof.
  induction l as [|x l IH]; intros H; [exists []; reflexivity|]. destruct IH as [m ->]; [intros; apply H; right; assumption|].
  destruct x as [a|]; [exists (a :: m); reflexivity | exfalso; apply (H None); [left|]; reflexivity].
Qed.
Lemma coefs_len {F} `{Num F} V pts rings n te g : length pts = length n -> length (fst (calc_velocity_coefs (F:=F) V pts rings n te g)) = length pts.
Proof. intros L. unfold calc_velocity_coefs. cbn [fst]. rewrite zipWith_length, map_length, L. lia. Qed.

Lemma noticed panels nc ns rho w te le O : length te = length panels -> Vlm (map finP panels) nc ns (Some rho) (finW w) te le = Ok O ->
  exists o, Vlm panels nc ns rho w te le = Ok o /\ clean panels w o.
Proof.
  intros LT E. unfold Vlm in E. rewrite gorC, vars_chk in E.
  destruct (calculate_vlm_variables panels te (-1) nc ns) as [vars|] eqn:CV; [|discriminate]. cbn [rmap bind] in E.
  pose proof (vlm_vars_length _ _ _ _ _ _ LT CV) as LV.
  assert (M1 : map pv_cp (map chkV vars) = map fin (map pv_cp vars)) by (apply map_lift; reflexivity).
  assert (M2 : map pv_ctr (map chkV vars) = map fin (map pv_ctr vars)) by (apply map_lift; reflexivity).
  assert (M3 : map pv_ring (map chkV vars) = map finR (map pv_ring vars)) by (apply map_lift; reflexivity).
  assert (M5 : map pv_span (map chkV vars) = map fin (map pv_span vars)) by (apply map_lift; reflexivity).
  rewrite M1 in E. destruct (InletConditions (finW w) (map fin (map pv_cp vars))) as [IC|] eqn:EIC; [|discriminate]. cbn [bind] in E.
  destruct (inlet_inv_chk w _ IC EIC) as (ic & EI & WI).
  set (K := length panels) in *.
  assert (LIC : length (in_V IC) = K) by (rewrite (inlet_length _ _ _ EIC), !map_length; exact LV).
  assert (LI : length (in_V ic) = K) by (rewrite (inlet_length _ _ _ EI), !map_length; exact LV).
  unfold vlm_solve in E. cbv zeta in E. rewrite gorC, M1, M2, M3, M5, areas_fin in E.
  set (t := fun k => nth k te false). set (v := fun k => nth k vars dpv). set (V := fun k => nth k (in_V ic) szero). set (U := fun k => nth k (in_V IC) undef).
  assert (ET : te = tab K t) by (apply list_tab; exact LT). assert (EVS : vars = tab K v) by (apply list_tab; exact LV).
  assert (EV : in_V ic = tab K V) by (apply list_tab; exact LI). assert (EU : in_V IC = tab K U) by (apply list_tab; exact LIC).
  destruct (calc_velocity_coefs (in_V IC) (map fin (map pv_ctr vars)) (map finR (map pv_ring vars)) (map pv_n (map chkV vars)) te (Some (-1))) as [co vi] eqn:CO.
  destruct (solve_eq co (calculate_RHS (in_V IC) (map pv_n (map chkV vars)))) as [gC|] eqn:SE; [|discriminate]. cbn [bind] in E.
  destruct (calculate_app_fs (in_V IC) vi gC) as [vi1 vc1] eqn:AF.
  destruct (is_no_flux_BC_satisfied vc1 (map Some (get_panels_area panels)) (map pv_n (map chkV vars))) as [b|] eqn:NF; [|discriminate]. cbn [bind] in E.
  destruct (PyBase.guard b AssertionError) as [u0|] eqn:GD; [|discriminate]. cbn [bind] in E.
  destruct (calc_force_wrapper (in_V IC) gC (Some rho) _ _ ns _ _ te le "force_xyz" (Some (-1))) as [[[f1 f2] f3]|] eqn:FW; [|discriminate]. clear E.
  (* the tables *)
  assert (LG : length gC = K).
  { rewrite (solve_length _ _ _ SE). apply (f_equal (fun q => length (fst q))) in CO. cbn [fst] in CO. rewrite <- CO, coefs_len by (rewrite !map_length; reflexivity). rewrite !map_length. exact LV. }
  set (g := fun k => nth k gC None). assert (EG : gC = tab K g) by (apply list_tab; exact LG).
  set (a := fun k l => influence (Some (-1)) (fin (pv_ctr (v k))) (finR (pv_ring (v l))) (t l) (U l)).
  assert (EVI : vi = tab K (fun k => tab K (a k))).
  { apply (f_equal snd) in CO. cbn [snd] in CO. rewrite <- CO. unfold calc_velocity_coefs. cbn [snd]. rewrite EVS, EU, ET, !map_tab. apply tab_ext. intros k _. unfold influence_row. rewrite !combine_tab, map_tab. reflexivity. }
  assert (EVC : vc1 = tab K (fun k => vadd (U k) (induced_at (tab K (a k)) (tab K g)))).
  { apply (f_equal snd) in AF. cbn [snd] in AF. rewrite <- AF. unfold calculate_app_fs, calc_induced_velocity. cbn [snd]. rewrite EVI, EU, EG, map_tab, zipWith_tab. reflexivity. }
  assert (FX : forall k, (k < K)%nat -> vdot (vopp (vadd (U k) (induced_at (tab K (a k)) (tab K g)))) (pv_n (chkV (v k))) <> None).
  { intros k Hk Z. unfold is_no_flux_BC_satisfied in NF. cbv zeta in NF. destruct (existsb _ (map Some _)); [discriminate|].
    replace (existsb _ (zipWith _ vc1 _)) with true in NF; [discriminate|]. symmetry. apply existsb_exists. exists None. split; [|apply orb_true_r].
    rewrite EVC, EVS, !map_tab, zipWith_tab. apply (nth_error_In _ k). rewrite tab_nth_error by exact Hk. f_equal. exact Z. }
  assert (PK : forall k, (k < K)%nat -> vx (U k) <> None /\ vx (pv_n (chkV (v k))) <> None /\ forall l, (l < K)%nat -> g l <> None /\ vx (a k l) <> None).
  { intros k Hk. destruct (vdot_strict _ _ (FX k Hk)) as [X1 X2]. apply vadd_strict in X1. destruct X1 as [X1 X3]. split; [exact X1|]. split; [exact X2|].
    intros l Hl. unfold induced_at in X3. apply fold_strict in X3. destruct X3 as [_ X3]. rewrite zipWith_tab in X3. specialize (X3 (vscale (g l) (a k l))).
    apply vscale_strict. apply X3. apply (nth_error_In _ l). rewrite tab_nth_error by exact Hl. reflexivity. }
  (* the wind *)
  assert (WK : forall k, (k < K)%nat -> wind_known w (Rabs (vz (pv_cp (v k)))) /\ U k = fin (V k)).
  { intros k Hk. destruct (WI k (pv_cp (v k))) as (u & UU & A1 & A2 & A3); [rewrite EVS, map_tab, tab_nth_error by exact Hk; reflexivity|].
    rewrite EV, tab_nth_error in A1 by exact Hk. rewrite EU, tab_nth_error in A2 by exact Hk. injection A1 as <-. injection A2 as <-.
    destruct A3 as [A3|A3]; [exact A3|]. exfalso. destruct (PK k Hk) as (Q & _). exact (Q A3). }
  assert (EUV : in_V IC = map fin (in_V ic)) by (rewrite EU, EV, map_tab; apply tab_ext; intros k Hk; apply WK; exact Hk).
  (* the normals *)
  assert (NZ : forall k, (k < K)%nat -> pv_n (v k) <> szero).
  { intros k Hk Z. destruct (PK k Hk) as (_ & Q & _). apply Q. unfold chkV. cbn [pv_n]. apply zerob_true in Z. rewrite Z. reflexivity. }
  assert (SP : forall p, In p panels -> spread p).
  { intros p I. apply In_nth_error in I. destruct I as [k I]. pose proof (nth_error_Some_lt _ _ _ I) as Hk. fold K in Hk.
    apply (normal_spread (-1) p szero szero). fold (nrm (-1) p). replace (nrm (-1) p) with (pv_n (v k)); [apply NZ; exact Hk|].
    pose proof (vars_normals _ _ _ _ _ _ LT CV) as Q. apply (f_equal (fun l => nth_error l k)) in Q. rewrite (map_nth_error _ _ _ I), EVS, map_tab, tab_nth_error in Q by exact Hk. congruence. }
  assert (EN : map pv_n (map chkV vars) = map fin (map pv_n vars)).
  { rewrite EVS, !map_tab. apply tab_ext. intros k Hk. rewrite chkV_finV by (apply NZ; exact Hk). reflexivity. }
  (* the wakes *)
  assert (CL : forall k l, (k < K)%nat -> (l < K)%nat -> clear_of (pv_ctr (v k)) (pv_ring (v l)) (t l) (V l)).
  { intros k l Hk Hl. apply NNPP. intros N. destruct (PK k Hk) as (_ & _ & P). apply (proj2 (P l Hl)). unfold a. rewrite (proj2 (WK l Hl)), influence_undef by exact N. reflexivity. }
  assert (CR : forall p, In p (map pv_ctr vars) -> clear_row (map pv_ring vars) te (in_V ic) p).
  { intros p I r tt vv J. rewrite EVS, map_tab in I. apply in_tab in I. destruct I as (k & Hk & ->). apply In_nth_error in J. destruct J as [l J].
    apply nth_error_combine_inv in J. destruct J as [J1 J2]. apply nth_error_combine_inv in J2. destruct J2 as [J2 J3].
    assert (Hl : (l < K)%nat) by (rewrite <- LT; eapply nth_error_Some_lt; exact J2).
    rewrite EVS, map_tab, tab_nth_error in J1 by exact Hl. rewrite ET, tab_nth_error in J2 by exact Hl. rewrite EV, tab_nth_error in J3 by exact Hl.
    injection J1 as <-. injection J2 as <-. injection J3 as <-. apply CL; assumption. }
  (* the circulations *)
  destruct (Nat.eq_dec K 0) as [K0|K0].
  { exfalso. unfold calculate_vlm_variables in CV. fold K in CV. rewrite K0 in CV. destruct (nc * ns =? 0)%nat eqn:Z; [discriminate|]. apply Nat.eqb_neq in Z. rewrite Nat.div_0_l in CV by exact Z. discriminate. }
  destruct (is_some gC) as [gamma EGA].
  { intros x I. rewrite EG in I. apply in_tab in I. destruct I as (l & Hl & ->). destruct (PK 0%nat ltac:(lia)) as (_ & _ & P). exact (proj1 (P l Hl)). }
  assert (RO : exists o, vlm_solve panels nc ns rho te le vars ic = Ok o).
  { rewrite EUV, EN in *. rewrite coefs_fin in CO by exact CR. unfold vlm_solve. cbv zeta. rewrite gor_R.
    destruct (calc_velocity_coefs (in_V ic) (map pv_ctr vars) (map pv_ring vars) (map pv_n vars) te (-1)) as [co' vi'] eqn:CO'. cbn [fst snd] in CO. injection CO as <- <-.
    rewrite rhs_fin, solve_fin in SE. destruct (solve_eq co' (calculate_RHS (in_V ic) (map pv_n vars))) as [gamma'|]; [|discriminate]. cbn [rmap bind] in SE |- *. injection SE as SE.
    assert (gamma' = gamma). { apply (f_equal (map (fun x => match x with Some y => y | None => 0 end))) in EGA. rewrite <- SE, !map_map, !map_id in EGA. exact EGA. }
    subst gamma'. rewrite EGA in AF, FW. rewrite app_fin in AF. destruct (calculate_app_fs (in_V ic) vi' gamma) as [vi2 vc2]. cbn [fst snd] in AF. injection AF as <- <-.
    rewrite flux_fin in NF. rewrite NF. cbn [bind]. rewrite GD. cbn [bind].
    assert (NT : exists net, forall k, (k < K)%nat -> net_circulation gamma le ns k = Ok (net k)).
    { revert FW. unfold calc_force_wrapper. destruct (negb _); [discriminate|]. destruct (@calc_velocity_coefs (option R) CNum _ _ _ _ _ _) as [c9 v9] eqn:C9.
      destruct (calculate_app_fs (map fin (in_V ic)) v9 (map Some gamma)) as [w1 w2] eqn:A9. change (String.eqb "force_xyz" "lift") with false. change (String.eqb "force_xyz" "drag") with false. cbv iota.
      assert (L2 : length w2 = K).
      { apply (f_equal snd) in A9. cbn [snd] in A9. apply (f_equal snd) in C9. cbn [snd] in C9. rewrite <- A9, <- C9. unfold calculate_app_fs, calc_induced_velocity, calc_velocity_coefs. cbn [snd].
        rewrite zipWith_length, !map_length. lia. }
      rewrite (list_tab w2 K undef L2). replace (map fin (map pv_span vars)) with (tab K (fun k => fin (pv_span (v k)))) by (rewrite EVS, !map_tab; reflexivity).
      destruct (@panel_forces (option R) CNum _ _ _ _ _ _) as [ff|] eqn:PF; [|discriminate]. intros _. eapply pf_chk_inv. exact PF. }
    destruct NT as [net NT].
    assert (WR : forall name, In name ["lift"; "drag"; "force_xyz"]%string -> exists x, calc_force_wrapper (in_V ic) gamma rho (map pv_cp vars) (map pv_ring vars) ns (map pv_n vars) (map pv_span vars) te le name (-1) = Ok x).
    { intros name I. unfold calc_force_wrapper. replace (negb (existsb (String.eqb name) ["lift"; "drag"; "force_xyz"]%string)) with false by (destruct I as [<-|[<-|[<-|[]]]]; reflexivity).
      destruct (calc_velocity_coefs (in_V ic) (map pv_cp vars) (map pv_ring vars) (map pv_n vars) te (-1)) as [c9 v9] eqn:C9.
      destruct (calculate_app_fs (in_V ic) v9 gamma) as [w1 w2] eqn:A9.
      assert (L9 : length v9 = K) by (apply (f_equal snd) in C9; cbn [snd] in C9; rewrite <- C9; unfold calc_velocity_coefs; cbn [snd]; rewrite !map_length; exact LV).
      assert (L1 : length w1 = K) by (apply (f_equal fst) in A9; cbn [fst] in A9; rewrite <- A9; unfold calculate_app_fs, calc_induced_velocity; cbn [fst]; rewrite map_length; exact L9).
      assert (L2 : length w2 = K) by (apply (f_equal snd) in A9; cbn [snd] in A9; rewrite <- A9; unfold calculate_app_fs, calc_induced_velocity; cbn [snd]; rewrite zipWith_length, map_length; lia).
      set (X := if String.eqb name "lift" then in_V ic else if String.eqb name "drag" then w1 else w2).
      assert (LX : length X = K) by (unfold X; destruct (String.eqb name "lift"), (String.eqb name "drag"); assumption).
      rewrite (list_tab X K szero LX). replace (map pv_span vars) with (tab K (fun k => pv_span (v k))) by (rewrite EVS, map_tab; reflexivity).
      rewrite (panel_forces_tab K ns rho le v _ gamma net NT). eexists. reflexivity. }
    destruct (WR "force_xyz"%string) as [[[x1 x2] x3] ->]; [right; right; left; reflexivity|]. cbn [bind].
    destruct (WR "lift"%string) as [[[y1 y2] y3] ->]; [left; reflexivity|]. cbn [bind].
    destruct (WR "drag"%string) as [[[z1 z2] z3] ->]; [right; left; reflexivity|]. cbn [bind]. eexists. reflexivity. }
  destruct RO as [o RO].
  assert (EO : Vlm panels nc ns rho w te le = Ok o) by (unfold Vlm; rewrite gor_R, CV; cbn [bind]; rewrite EI; cbn [bind]; exact RO).
  exists o. split; [exact EO|].
  destruct (Vlm_inv _ _ _ _ _ _ _ _ LT EO) as (vars' & ic' & g' & net' & CV' & _ & IC' & _ & _ & _ & FL). cbv zeta in FL.
  assert (vars' = vars) by congruence. subst vars'. assert (ic' = ic) by congruence. subst ic'.
  assert (OV : vl_vars o = vars) by (rewrite EVS; apply FL). assert (OT : vl_te o = te) by apply FL. assert (OI : vl_inlet o = ic) by apply FL.
  split; [exact SP|]. split.
  - unfold vl_cp. rewrite OV. intros p I. rewrite EVS, map_tab in I. apply in_tab in I. destruct I as (k & Hk & ->). apply WK. exact Hk.
  - unfold vl_ctr. rewrite OV. intros p I. apply wake_row. unfold vl_rings. rewrite OV, OT, OI. apply CR. exact I.
Qed.

(** ** A run without undefined operations *)
Lemma flux_areas V (areas : list R) n b : is_no_flux_BC_satisfied V areas n = Ok b -> forall a, In a areas -> a <> 0.
Proof.
  unfold is_no_flux_BC_satisfied. cbv zeta. destruct (existsb _ areas) eqn:X; [discriminate|]. intros _ a I Z. subst a.
  enough (T : existsb (fun a => nisnan a || nltb a (ndec 1 14))%bool areas = true) by congruence.
  apply existsb_exists. exists 0. split; [exact I|]. change (Rltb 0 (ndec 1 14) = true). apply Rltb_true. rewrite ndec_R. change (10 ^ 14)%Z with 100000000000000%Z. lra.
Qed.
Lemma vlm_solve_fin panels nc ns rho te le vars ic : rho <> 0 -> (forall v, In v (in_V ic) -> v <> szero) ->
  (forall p, In p (map pv_ctr vars) \/ In p (map pv_cp vars) -> clear_row (map pv_ring vars) te (in_V ic) p) ->
  vlm_solve (map finP panels) nc ns (Some rho) te le (map finV vars) (finI ic) = rmap finO (vlm_solve panels nc ns rho te le vars ic).
Proof.
  intros RH NV CL. unfold vlm_solve. cbv zeta. rewrite gorC, gor_R, areas_fin.
  replace (map pv_cp (map finV vars)) with (map fin (map pv_cp vars)) by (symmetry; apply map_lift; reflexivity).
  replace (map pv_ctr (map finV vars)) with (map fin (map pv_ctr vars)) by (symmetry; apply map_lift; reflexivity).
  replace (map pv_ring (map finV vars)) with (map finR (map pv_ring vars)) by (symmetry; apply map_lift; reflexivity).
  replace (map pv_n (map finV vars)) with (map fin (map pv_n vars)) by (symmetry; apply map_lift; reflexivity).
  replace (map pv_span (map finV vars)) with (map fin (map pv_span vars)) by (symmetry; apply map_lift; reflexivity).
  cbn [finI in_V]. rewrite coefs_fin by (intros; apply CL; left; assumption).
  destruct (calc_velocity_coefs (in_V ic) (map pv_ctr vars) (map pv_ring vars) (map pv_n vars) te (-1)) as [co vi]. cbn [fst snd].
  rewrite rhs_fin, solve_fin. destruct (solve_eq co _) as [gamma|]; [|reflexivity]. cbn [rmap bind].
  rewrite app_fin. destruct (calculate_app_fs (in_V ic) vi gamma) as [v1 v2]. cbn [fst snd]. rewrite flux_fin.
  destruct (is_no_flux_BC_satisfied v2 (get_panels_area panels) (map pv_n vars)) as [b|] eqn:NF; [|reflexivity]. cbn [bind].
  destruct (PyBase.guard b AssertionError); [|reflexivity]. cbn [bind].
  rewrite !wrapper_fin by (intros; apply CL; right; assumption).
  destruct (calc_force_wrapper _ _ _ _ _ _ _ _ _ _ "force_xyz" _) as [[[f1 f2] f3]|]; [|reflexivity]. cbn [rmap bind fin3 fst snd].
  destruct (calc_force_wrapper _ _ _ _ _ _ _ _ _ _ "lift" _) as [[[h1 h2] h3]|]; [|reflexivity]. cbn [rmap bind fin3 fst snd].
  destruct (calc_force_wrapper _ _ _ _ _ _ _ _ _ _ "drag" _) as [[[k1 k2] k3]|]; [|reflexivity]. cbn [rmap bind fin3 fst snd].
  rewrite pressure_fin by (eapply flux_areas; exact NF). rewrite pcoef_fin by assumption. reflexivity.
Qed.

(** * C80 *)
(** On checked numbers the solver returns a result exactly for the lattices and winds of which the panels have a normal,
    the wind profile is defined at all centres of pressure and no control point is on a wake: all other undefined
    operations on the way to the circulations end with an exception. *)
Theorem C80_accepted : forall panels nc ns rho w te le, length te = length panels ->
  (exists O, Vlm (map finP panels) nc ns (Some rho) (finW w) te le = Ok O) <->
  (exists o, Vlm panels nc ns rho w te le = Ok o /\
     (forall p, In p panels -> spread p) /\ (forall p, In p (vl_cp o) -> wind_known w (Rabs (vz p))) /\
     (forall p, In p (vl_ctr o) -> ~ on_wake o p)).
Proof.
  intros panels nc ns rho w te le LT. split.
  - intros [O E]. apply (noticed _ _ _ _ _ _ _ O LT E).
  - intros (o & E & C). destruct (accept _ _ _ _ _ _ _ _ LT E C) as (O & EO & _). exists O. exact EO.
Qed.
(** The result then has the circulations, velocities at the control points, normals, inflow and lift of the run on real
    numbers.  The force on a panel is undefined exactly if its centre of pressure is on a wake: nothing notices this. *)
Theorem C80_result : forall panels nc ns rho w te le O, length te = length panels ->
  Vlm (map finP panels) nc ns (Some rho) (finW w) te le = Ok O ->
  exists o, Vlm panels nc ns rho w te le = Ok o /\
    vl_gamma O = map Some (vl_gamma o) /\ vl_V_ctrl O = map fin (vl_V_ctrl o) /\ vl_lift O = map fin (vl_lift o) /\
    vl_normals O = map fin (vl_normals o) /\ in_V (vl_inlet O) = map fin (in_V (vl_inlet o)) /\
    forall k p, nth_error (vl_cp o) k = Some p ->
      (~ on_wake o p -> nth_error (vl_V_cp O) k = option_map fin (nth_error (vl_V_cp o) k) /\ nth_error (vl_force O) k = option_map fin (nth_error (vl_force o) k)) /\
      (on_wake o p -> nth_error (vl_V_cp O) k = Some undef /\ nth_error (vl_force O) k = Some undef /\ nth_error (vl_pressure O) k = Some None).
Proof.
  intros panels nc ns rho w te le O LT E. destruct (noticed _ _ _ _ _ _ _ O LT E) as (o & EO & C). exists o. split; [exact EO|].
  destruct (accept _ _ _ _ _ _ _ _ LT EO C) as (O' & EO' & A1 & A2 & A3 & A4 & A5 & A6). assert (O' = O) by congruence. subst O'.
  split; [exact A1|]. split; [exact A2|]. split; [exact A3|]. split; [|split; [exact A5 | exact A6]]. unfold vl_normals. rewrite A4. apply map_lift. reflexivity.
Qed.
(** With density and inflow different from zero and the centres of pressure off the wakes too no operation is undefined. *)
Theorem C80_defined : forall panels nc ns rho w te le o, Vlm panels nc ns rho w te le = Ok o -> length te = length panels ->
  rho <> 0 -> (forall p, In p panels -> spread p) -> (forall p, In p (vl_cp o) -> wind_known w (Rabs (vz p))) ->
  (forall v, In v (in_V (vl_inlet o)) -> v <> szero) ->
  (forall p, In p (vl_ctr o) \/ In p (vl_cp o) -> ~ on_wake o p) ->
  Vlm (map finP panels) nc ns (Some rho) (finW w) te le = Ok (finO o).
Proof.
  intros panels nc ns rho w te le o E LT RH SP WK NV CL.
  destruct (Vlm_inv _ _ _ _ _ _ _ _ LT E) as (vars & ic & g & net & CV & LV & IC & LI & VS & _ & FL). cbv zeta in FL.
  assert (OV : vl_vars o = vars). { etransitivity; [apply FL|]. symmetry. apply list_tab. exact LV. }
  assert (OT : vl_te o = te) by apply FL. assert (OI : vl_inlet o = ic) by apply FL.
  unfold Vlm. rewrite gorC, vars_fin by exact SP. rewrite CV. cbn [rmap bind].
  replace (map pv_cp (map finV vars)) with (map fin (map pv_cp vars)) by (symmetry; apply map_lift; reflexivity).
  unfold vl_cp, vl_ctr in *. rewrite OV in *. rewrite inlet_fin by exact WK. rewrite IC. cbn [rmap bind]. rewrite OI in NV.
  rewrite vlm_solve_fin; [rewrite VS; reflexivity | exact RH | exact NV |].
  intros p I. apply CL in I. apply wake_row in I. unfold vl_rings in I. rewrite OV, OT, OI in I. exact I.
Qed.

(** ** A sail with its centre of pressure on the wake of another sail *)
Definition lee_panels : list (panel R) :=
  [Panel (V3 0 36 (-7)) (V3 0 (-12) (-7)) (V3 0 (-12) 7) (V3 0 36 7); Panel (V3 (-100) (-12) 0) (V3 (-100) (-60) 0) (V3 (-100) (-60) 14) (V3 (-100) (-12) 14)].
Definition lee_wind : wind R := Wind_ 0 3 4 Flat.
Definition lee_panel (k : nat) : panel R := nth k lee_panels demo_panel.
Definition lee_vars (k : nat) : pvars R := panel_vars (-1) (lee_panel k) (aft_A (lee_panel k)) (aft_D (lee_panel k)).
Definition lee_V (k : nat) : vec R := V3 7 0 0.
Lemma lee_v0 : pv_n (lee_vars 0) = V3 (-1) 0 0 /\ pv_ctr (lee_vars 0) = V3 0 24 0 /\ pv_cp (lee_vars 0) = V3 0 0 0 /\
  pv_ring (lee_vars 0) = Ring (V3 0 48 (-7)) (V3 0 0 (-7)) (V3 0 0 7) (V3 0 48 7).
Proof.
  unfold lee_vars, lee_panel, lee_panels, panel_vars, quarter_B, quarter_C, aft_A, aft_D. cbv zeta. cbn [nth pv_n pv_ctr pv_cp pv_ring pv_span pp1 pp2 pp3 pp4]. tospec.
  rewrite !ndec_R. change (10 ^ 2)%Z with 100%Z. rnum. split; [|split; [|split]].
  - replace (scross _ _) with (V3 (-(2*14*48)) 0 0) by (svec; vec_eq; field). rewrite (snorm_val (-(2*14*48)) 0 0 (2*14*48)) by lra. svec. vec_eq; field.
  - svec. vec_eq; field.
  - svec. vec_eq; field.
  - f_equal; svec; vec_eq; field.
Qed.
Lemma lee_v1 : pv_n (lee_vars 1) = V3 (-1) 0 0 /\ pv_ctr (lee_vars 1) = V3 (-100) (-24) 7 /\ pv_cp (lee_vars 1) = V3 (-100) (-48) 7 /\
  pv_ring (lee_vars 1) = Ring (V3 (-100) 0 0) (V3 (-100) (-48) 0) (V3 (-100) (-48) 14) (V3 (-100) 0 14).
Proof.
  unfold lee_vars, lee_panel, lee_panels, panel_vars, quarter_B, quarter_C, aft_A, aft_D. cbv zeta. cbn [nth pv_n pv_ctr pv_cp pv_ring pv_span pp1 pp2 pp3 pp4]. tospec.
  rewrite !ndec_R. change (10 ^ 2)%Z with 100%Z. rnum. split; [|split; [|split]].
  - replace (scross _ _) with (V3 (-(2*14*48)) 0 0) by (svec; vec_eq; field). rewrite (snorm_val (-(2*14*48)) 0 0 (2*14*48)) by lra. svec. vec_eq; field.
  - svec. vec_eq; field.
  - svec. vec_eq; field.
  - f_equal; svec; vec_eq; field.
Qed.
Lemma inf_no_x p a g : vx (vortex_infinite_line p a (V3 7 0 0) g) = 0.
Proof.
  rewrite (inf_val p a (V3 7 0 0) g 7 (snorm (ssub p a))); [|apply snorm_val; lra | reflexivity]. svec. ring.
Qed.
Lemma far_line p p1 p2 : vx p1 = vx p2 -> 100 <= Rabs (vx p - vx p1) -> Rabs (vx (vortex_line p p1 p2 (-1))) <= 1 / (200 * PI).
Proof.
  intros E D. pose proof PI_RGT_0 as P. eapply Rle_trans; [apply (Rle_trans _ (snorm (vortex_line p p1 p2 (-1))))|].
  - destruct (vortex_line p p1 p2 (-1)) as [x y z]. unfold snorm. cbn [vx vy vz]. rewrite <- sqrt_Rsqr_abs. apply sqrt_le_1_alt. unfold Rsqr. pose proof (pow2_ge_0 y). pose proof (pow2_ge_0 z). replace (x * x) with (x ^ 2) by ring. lra.
  - apply (proj2 C30_vortex_line_finite p p1 p2 (-1) 100); [lra|]. intros s. eapply Rle_trans; [exact D|]. unfold sdist, snorm.
    rewrite <- sqrt_Rsqr_abs. apply sqrt_le_1_alt. destruct p as [a b c], p1 as [d e f], p2 as [h i j]. cbn [vx] in E. subst h. svec. unfold Rsqr.
    match goal with |- _ <= _ + ?y ^ 2 + ?z ^ 2 => pose proof (pow2_ge_0 y); pose proof (pow2_ge_0 z) end. replace (a - (d + s * (d - d))) with (a - d) by ring. replace ((a - d) * (a - d)) with ((a - d) ^ 2) by ring. lra.
  - rewrite Rabs_left by lra. right. field. lra.
Qed.
Definition lee_a : R := - (1201) / 2100 / (4 * PI).
Definition lee_t (k : nat) : bool := true.
Lemma lee_00 : acoef lee_t lee_vars lee_V 0 0 = lee_a.
Proof.
  destruct lee_v0 as (N0 & C0 & _ & R0). unfold acoef. rewrite N0, C0. unfold infl, influence, lee_t. rewrite R0. cbn [rA rB rC rD]. unfold vortex_horseshoe_v2, lee_V. cbv zeta.
  rewrite (line_val (V3 0 24 0) (V3 0 48 (-7)) (V3 0 0 (-7)) 25 25) by (first [unfold ssub; cbn [vx vy vz]; apply snorm_val; lra | svec; lra]).
  rewrite (line_val (V3 0 24 0) (V3 0 0 (-7)) (V3 0 0 7) 25 25) by (first [unfold ssub; cbn [vx vy vz]; apply snorm_val; lra | svec; lra]).
  rewrite (line_val (V3 0 24 0) (V3 0 0 7) (V3 0 48 7) 25 25) by (first [unfold ssub; cbn [vx vy vz]; apply snorm_val; lra | svec; lra]).
  rewrite !(inf_val (V3 0 24 0) _ (V3 7 0 0) _ 7 25) by (first [unfold ssub; cbn [vx vy vz]; apply snorm_val; lra]).
  tospec. rnum. svec. unfold lee_a. pose proof PI_RGT_0. field. lra.
Qed.
Lemma lee_11 : acoef lee_t lee_vars lee_V 1 1 = lee_a.
Proof.
  destruct lee_v1 as (N0 & C0 & _ & R0). unfold acoef. rewrite N0, C0. unfold infl, influence, lee_t. rewrite R0. cbn [rA rB rC rD]. unfold vortex_horseshoe_v2, lee_V. cbv zeta.
  rewrite (line_val (V3 (-100) (-24) 7) (V3 (-100) 0 0) (V3 (-100) (-48) 0) 25 25) by (first [unfold ssub; cbn [vx vy vz]; apply snorm_val; lra | svec; lra]).
  rewrite (line_val (V3 (-100) (-24) 7) (V3 (-100) (-48) 0) (V3 (-100) (-48) 14) 25 25) by (first [unfold ssub; cbn [vx vy vz]; apply snorm_val; lra | svec; lra]).
  rewrite (line_val (V3 (-100) (-24) 7) (V3 (-100) (-48) 14) (V3 (-100) 0 14) 25 25) by (first [unfold ssub; cbn [vx vy vz]; apply snorm_val; lra | svec; lra]).
  rewrite !(inf_val (V3 (-100) (-24) 7) _ (V3 7 0 0) _ 7 25) by (first [unfold ssub; cbn [vx vy vz]; apply snorm_val; lra]).
  tospec. rnum. svec. unfold lee_a. pose proof PI_RGT_0. field. lra.
Qed.
Lemma far_ring p A B C D : vx A = vx B -> vx B = vx C -> vx C = vx D -> 100 <= Rabs (vx p - vx A) ->
  Rabs (sdot (influence (-1) p (Ring A B C D) true (V3 7 0 0)) (V3 (-1) 0 0)) <= 3 / (200 * PI).
Proof.
  intros E1 E2 E3 H. unfold influence. cbn [rA rB rC rD]. unfold vortex_horseshoe_v2. cbv zeta. tospec.
  pose proof (far_line p A B E1 H) as H1. pose proof (far_line p B C E2 ltac:(rewrite <- E1; exact H)) as H2. pose proof (far_line p C D E3 ltac:(rewrite <- E2, <- E1; exact H)) as H3.
  unfold sdot, sadd. cbn [vx vy vz]. rewrite !inf_no_x. replace (3 / (200 * PI)) with (1 / (200 * PI) + 1 / (200 * PI) + 1 / (200 * PI)) by (unfold Rdiv; ring).
  apply Rabs_def2 in H1 || idtac.
  revert H1 H2 H3. generalize (vx (vortex_line p A B (-1))), (vx (vortex_line p B C (-1))), (vx (vortex_line p C D (-1))), (1 / (200 * PI)).
  intros a b c d H1 H2 H3. repeat match goal with |- context [?x * 0] => rewrite (Rmult_0_r x) end.
  unfold Rabs in *. repeat destruct (Rcase_abs _); lra.
Qed.
Lemma lee_01 : Rabs (acoef lee_t lee_vars lee_V 0 1) <= 3 / (200 * PI).
Proof.
  destruct lee_v0 as (N0 & C0 & _ & _). destruct lee_v1 as (_ & _ & _ & R0). unfold acoef. rewrite N0, C0. unfold infl, lee_t. rewrite R0.
  apply far_ring; try reflexivity. cbn [vx]. rewrite Rabs_right; lra.
Qed.
Lemma lee_10 : Rabs (acoef lee_t lee_vars lee_V 1 0) <= 3 / (200 * PI).
Proof.
  destruct lee_v1 as (N0 & C0 & _ & _). destruct lee_v0 as (_ & _ & _ & R0). unfold acoef. rewrite N0, C0. unfold infl, lee_t. rewrite R0.
  apply far_ring; try reflexivity. cbn [vx]. rewrite Rabs_left; lra.
Qed.
Lemma lee_solved : exists g net, solved 2 1 lee_panels [false; false] lee_t lee_vars lee_V g net.
Proof.
  pose proof lee_00 as A. pose proof lee_11 as A'. pose proof lee_01 as B. pose proof lee_10 as C.
  set (b := acoef lee_t lee_vars lee_V 0 1) in *. set (c := acoef lee_t lee_vars lee_V 1 0) in *.
  assert (D : 0 < lee_a * lee_a - b * c).
  { assert (X : 3 / (200 * PI) < Rabs lee_a).
    { pose proof PI_RGT_0 as P. assert (Q : 0 < / (4 * PI)) by (apply Rinv_0_lt_compat; lra). unfold lee_a. replace (3 / (200 * PI)) with (6 / 100 * / (4 * PI)) by (field; lra).
      unfold Rdiv. unfold Rabs. destruct (Rcase_abs _); nra. }
    assert (Y : Rabs (b * c) < Rabs (lee_a * lee_a)). { rewrite !Rabs_mult. pose proof (Rabs_pos b). pose proof (Rabs_pos c). nra. }
    rewrite (Rabs_right (lee_a * lee_a)) in Y by nra. pose proof (Rle_abs (b * c)). lra. }
  set (d := lee_a * lee_a - b * c) in *.
  exists (fun k => match k with O => 7 * (lee_a - b) / d | _ => 7 * (lee_a - c) / d end), (fun k => match k with O => 7 * (lee_a - b) / d | _ => 7 * (lee_a - c) / d end).
  constructor.
  - intros k Hk. rewrite sumn2. assert (KL : (k = 0 \/ k = 1)%nat) by lia. destruct KL as [-> | ->].
    + rewrite A. fold b. rewrite (proj1 lee_v0). unfold lee_V. svec. unfold d. field. unfold d in D. lra.
    + rewrite A'. fold c. rewrite (proj1 lee_v1). unfold lee_V. svec. unfold d. field. unfold d in D. lra.
  - intros z Z. pose proof (Z 0%nat ltac:(lia)) as Z0. pose proof (Z 1%nat ltac:(lia)) as Z1. rewrite sumn2 in Z0, Z1. rewrite A in Z0. rewrite A' in Z1. fold b in Z0. fold c in Z1.
    assert (P : d * z 0%nat = 0) by (unfold d; transitivity (lee_a * (lee_a * z 0%nat + b * z 1%nat) - b * (c * z 0%nat + lee_a * z 1%nat)); [ring | rewrite Z0, Z1; ring]).
    assert (M : d * z 1%nat = 0) by (unfold d; transitivity (lee_a * (c * z 0%nat + lee_a * z 1%nat) - c * (lee_a * z 0%nat + b * z 1%nat)); [ring | rewrite Z0, Z1; ring]).
    intros l L. assert (LL : (l = 0 \/ l = 1)%nat) by lia. destruct LL as [-> | ->]; [apply Rmult_integral in P; destruct P | apply Rmult_integral in M; destruct M]; lra.
  - assert (AR : get_panels_area lee_panels = [672; 672]).
    { unfold get_panels_area, lee_panels, panel_area. cbn [map]. cbv zeta. cbn [pp1 pp2 pp3 pp4]. tospec. rewrite ndec_R. change (10 ^ 1)%Z with 10%Z. rnum.
      unfold ssub. cbn [vx vy vz]. unfold scross. cbn [vx vy vz]. rewrite !(snorm_val _ _ _ (48*14)) by lra. f_equal; [lra|]. f_equal. lra. }
    rewrite AR. intros a [<-|[<-|[]]]; rewrite ndec_R; change (10 ^ 14)%Z with 100000000000000%Z; lra.
  - intros k Hk. assert (KL : (k = 0 \/ k = 1)%nat) by lia. destruct KL as [-> | ->]; reflexivity.
Qed.
Lemma lee_inlet : exists ic, InletConditions lee_wind (map pv_cp [lee_vars 0; lee_vars 1]) = Ok ic /\ in_V ic = [V3 7 0 0; V3 7 0 0].
Proof.
  eexists. split; [reflexivity|]. cbn [in_V map].
  assert (W : get_app_infs_at_h lee_wind (length_to_xyz_vector lee_wind 3) = V3 7 0 0).
  { unfold get_app_infs_at_h, length_to_xyz_vector, w_alpha, lee_wind. cbn [w_alpha_deg w_sog vx vy vz]. rewrite !deg2rad_s.
    replace (rad 0) with 0 by (unfold rad; field). rnum. rewrite cos_0, sin_0. vec_eq; ring. }
  change (w_tws lee_wind) with 3. rewrite W. reflexivity.
Qed.
Lemma lee_run rho : exists o, Vlm lee_panels 1 1 rho lee_wind [true; true] [false; false] = Ok o /\
  vl_vars o = [lee_vars 0; lee_vars 1] /\ vl_te o = [true; true] /\ in_V (vl_inlet o) = [V3 7 0 0; V3 7 0 0].
Proof.
  destruct lee_inlet as (ic & IC & EI). destruct lee_solved as (g & net & SO).
  destruct (vlm_solve_make 2 1 rho lee_panels [false; false] lee_t lee_vars lee_V 1 [true; true] [lee_vars 0; lee_vars 1] ic _ _ eq_refl eq_refl eq_refl EI SO) as (o & E & FL).
  exists o. split; [|split; [|split]].
  - unfold Vlm. rewrite gor_R. replace (calculate_vlm_variables lee_panels [true; true] (-1) 1 1) with (Ok [lee_vars 0; lee_vars 1]) by reflexivity.
    unfold bind at 1. rewrite IC. exact E.
  - apply FL.
  - apply FL.
  - replace (vl_inlet o) with ic by (symmetry; apply FL). exact EI.
Qed.
Lemma lee_wake o p : vl_vars o = [lee_vars 0; lee_vars 1] -> vl_te o = [true; true] -> in_V (vl_inlet o) = [V3 7 0 0; V3 7 0 0] -> on_wake o p ->
  exists a, In a [V3 0 48 (-7); V3 0 48 7; V3 (-100) 0 0; V3 (-100) 0 14] /\ on_half_line a (V3 7 0 0) p.
Proof.
  intros OV OT OI (l & r & v & _ & W2 & W3 & W4). unfold vl_rings in W2. rewrite OV in W2. rewrite OI in W3.
  destruct lee_v0 as (_ & _ & _ & R0). destruct lee_v1 as (_ & _ & _ & R1). cbn [map] in W2. rewrite R0, R1 in W2.
  destruct l as [|[|[|l]]]; try discriminate; injection W2 as <-; injection W3 as <-; cbn [rA rD] in W4; destruct W4 as [W4|[W4|W4]]; try (injection W4; lra);
    eexists; (split; [|exact W4]); simpl; tauto.
Qed.
(** The claim that a solver that returns has computed defined forces is false: the lattices of two sails, the first with
    its centre of pressure on the wake of the second and its control point off all wakes. *)
Theorem C80_forces_defined_refuted : exists panels nc ns rho w te le o O k,
  length te = length panels /\ rho <> 0 /\ Vlm panels nc ns rho w te le = Ok o /\ (forall v, In v (in_V (vl_inlet o)) -> v <> szero) /\
  Vlm (map finP panels) nc ns (Some rho) (finW w) te le = Ok O /\ (k < length panels)%nat /\ nth_error (vl_force O) k = Some undef.
Proof.
  destruct (lee_run 1) as (o & E & OV & OT & OI). exists lee_panels, 1%nat, 1%nat, 1, lee_wind, [true; true], [false; false], o.
  assert (X : exists O, Vlm (map finP lee_panels) 1 1 (Some 1) (finW lee_wind) [true; true] [false; false] = Ok O).
  { apply C80_accepted; [reflexivity|]. exists o. split; [exact E|]. split; [|split].
    - intros p I. unfold spread. destruct I as [<-|[<-|[]]]; cbn [pp1 pp2 pp3 pp4]; svec; intros Q; injection Q; lra.
    - intros p _. exact I.
    - intros p I W. destruct (lee_wake o p OV OT OI W) as (a & IA & s & _ & Q). unfold vl_ctr in I. rewrite OV in I. cbn [map] in I.
      rewrite (proj1 (proj2 lee_v0)), (proj1 (proj2 lee_v1)) in I.
      destruct I as [<-|[<-|[]]]; destruct IA as [<-|[<-|[<-|[<-|[]]]]]; unfold sadd, sscale in Q; cbn [vx vy vz] in Q; injection Q; lra. }
  destruct X as [O EO]. exists O, 0%nat. split; [reflexivity|]. split; [lra|]. split; [exact E|].
  split. { rewrite OI. intros v [<-|[<-|[]]] Q; injection Q; lra. }
  split; [exact EO|]. split; [simpl; lia|].
  destruct (C80_result lee_panels 1 1 1 lee_wind [true; true] [false; false] O eq_refl EO) as (o' & E' & _ & _ & _ & _ & _ & F). assert (o' = o) by congruence. subst o'.
  apply (F 0%nat (V3 0 0 0)).
  - unfold vl_cp. rewrite OV. cbn [map]. rewrite (proj1 (proj2 (proj2 lee_v0))). reflexivity.
  - exists 1%nat, (Ring (V3 (-100) 0 0) (V3 (-100) (-48) 0) (V3 (-100) (-48) 14) (V3 (-100) 0 14)), (V3 7 0 0).
    rewrite OT. unfold vl_rings. rewrite OV, OI. cbn [map]. destruct lee_v1 as (_ & _ & _ & ->). split; [reflexivity|]. split; [reflexivity|]. split; [reflexivity|].
    right. left. exists (100 / 7). split; [lra|]. cbn [rA]. svec. vec_eq; field.
Qed.
(* the two panels of L_Demo: nothing is undefined *)
Example C80_case : exists o, Vlm demo_panels 1 1 2 demo_wind [true; true] [false; false] = Ok o /\
  Vlm (map finP demo_panels) 1 1 (Some 2) (finW demo_wind) [true; true] [false; false] = Ok (finO o).
Proof.
  destruct (demo_Vlm 2) as (o & E). exists o. split; [exact E|].
  destruct (Vlm_inv demo_panels 1 1 2 demo_wind [true; true] [false; false] o eq_refl E) as (vars & ic & g & net & CV & LV & IC & LI & _ & _ & FL). cbv zeta in FL.
  assert (EVS : vars = [demo_vars 0; demo_vars 1]) by (rewrite demo_vars_ok in CV; congruence).
  assert (OV : vl_vars o = [demo_vars 0; demo_vars 1]). { rewrite <- EVS. etransitivity; [apply FL|]. symmetry. apply list_tab. exact LV. }
  assert (OI : in_V (vl_inlet o) = [V3 4 3 0; V3 4 3 0]).
  { replace (vl_inlet o) with ic by (symmetry; apply FL). destruct demo_inlet as (ic' & IC' & EI'). rewrite EVS in IC. congruence. }
  destruct demo_v0 as (N0 & C0 & P0 & R0 & _). pose proof demo_v1 as M.
  assert (C1 : pv_ctr (demo_vars 1) = V3 36 0 (-(25/2))) by (rewrite (mv_ctr _ _ M), C0; svec; reflexivity).
  assert (P1 : pv_cp (demo_vars 1) = V3 12 0 (-(25/2))) by (rewrite (mv_cp _ _ M), P0; svec; reflexivity).
  assert (R1 : pv_ring (demo_vars 1) = Ring (V3 60 0 (-(39/2))) (V3 12 0 (-(39/2))) (V3 12 0 (-(11/2))) (V3 60 0 (-(11/2)))) by (rewrite (mv_ring _ _ M), R0; reflexivity).
  apply C80_defined; try reflexivity; try assumption; try lra.
  - intros p I. unfold spread. destruct I as [<-|[<-|[]]]; unfold mirrored, demo_panel; cbn [pp1 pp2 pp3 pp4]; svec; intros Q; injection Q; lra.
  - rewrite OI. intros v [<-|[<-|[]]] Q; injection Q; lra.
  - intros p I (l & r & v & _ & W2 & W3 & W4). unfold vl_rings in W2. unfold vl_ctr, vl_cp in I. rewrite OV in W2, I. rewrite OI in W3. cbn [map] in W2, I. rewrite R0, R1 in W2. rewrite C0, C1, P0, P1 in I.
    assert (HZ : vz p = 25/2 \/ vz p = -(25/2)) by (destruct I as [[<-|[<-|[]]]|[<-|[<-|[]]]]; cbn [vz]; lra).
    destruct l as [|[|[|l]]]; try discriminate; injection W2 as <-; injection W3 as <-; cbn [rA rD] in W4;
      (destruct W4 as [W4|[(s & _ & W4)|(s & _ & W4)]]; [injection W4; lra | rewrite W4 in HZ; unfold sadd, sscale in HZ; cbn [vx vy vz] in HZ; destruct HZ; lra | rewrite W4 in HZ; unfold sadd, sscale in HZ; cbn [vx vy vz] in HZ; destruct HZ; lra]).
Qed.
Print Assumptions C80_accepted.
Print Assumptions C80_result.
Print Assumptions C80_defined.
Print Assumptions C80_forces_defined_refuted.
