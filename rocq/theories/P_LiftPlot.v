(** C83: which section plots are defined. *)

From Coq Require Import String ZArith Reals List Bool Lra Psatz Lia Arith Classical.
From Verif Require Import Num PyBase RNum CNum Spec M_Csys M_Panels M_Velocity M_Solve M_Coefs M_Forces M_Winds M_Vlm M_Sail M_Interp M_Runner
  L_List L_Rot L_Vel L_Vlm L_Vlm2 L_Sail L_Sail2 L_Lattice L_Runner P_Tack L_ScaleRun P_ScaleRun P_Coefs P_Vlm P_Run L_Lift L_Lift2 L_LiftGeo L_LiftRun L_LiftPlot P_Scene P_LiftRun.
Import ListNotations.
Open Scope R_scope.

(** some panel of sail [i] (panels above the water) bears a force *)
Definition bears (nc ns i : nat) (force : list (vec R)) : Prop := exists r j, (r < nc)%nat /\ (j < ns)%nat /\ nth (cell nc ns i r j) force szero <> szero.

Lemma wmean_zero n w x : (forall r, (r < n)%nat -> x r = 0) -> wmean n w x = 0.
Proof. intros Z. unfold wmean. rewrite (sumn_ext n _ (fun _ => 0 * 0)) by (intros; rewrite Z by assumption; ring). rewrite sumn_scale. unfold Rdiv. ring. Qed.
Lemma sail_mean_zero nc ns rho areas force wind i : ~ bears nc ns i force -> sail_mean nc ns rho areas force wind i = 0.
Proof.
  intros N. unfold sail_mean. apply wmean_zero. intros j J. unfold section_coef. apply wmean_zero. intros r R0. unfold scoef.
  assert (Z : nth (cell nc ns i r j) force szero = szero) by (apply NNPP; intros X; apply N; exists r, j; auto). rewrite Z, snorm_0. unfold Rdiv. ring.
Qed.
Lemma areas_tab nc ns n (areas : list R) ars sa : (0 < nc)%nat -> (0 < ns)%nat -> (0 < n)%nat -> length areas = (2 * n * (nc * ns))%nat -> np_split areas (2 * n) = Ok ars ->
  mapM (fun i => mapM (fun j => do ar <- strip nc ns 0 j (nth i ars []); Ok (nsum ar)) (seq 0 ns)) (seq 0 n) = Ok sa -> sa = tab n (fun i => tab ns (section_area nc ns areas i)).
Proof.
  intros NC NS N LA E. destruct (split_tab areas n _ 0 N LA) as (ars' & E' & LAS & AS). rewrite E in E'. injection E' as <-.
  assert (C : forall i r j, (j < ns)%nat -> (r < nc)%nat -> (r * ns + j < nc * ns)%nat /\ (i * (nc * ns) + (r * ns + j))%nat = cell nc ns i r j) by (intros; split; [nia | unfold cell; nia]).
  rewrite (mapM_map _ (fun i => tab ns (section_area nc ns areas i))); [intros X; injection X as <-; reflexivity|].
  intros i I. apply in_seq in I. rewrite AS by lia. apply mapM_map. intros j J. apply in_seq in J. rewrite strip_tab by (rewrite ?tab_length; (reflexivity || lia)). cbn [bind]. rewrite nsum_rsum. f_equal.
  unfold section_area. apply sumn_ext. intros r Hr. destruct (C i r j ltac:(lia) Hr) as [C1 C2]. rewrite tab_nth, C2 by assumption. reflexivity.
Qed.
Lemma coefficient_tab ns A c : sail_coefficient (tab ns A) (tab ns c) = wmean ns A c.
Proof. unfold sail_coefficient. rewrite zipWith_tab, !nsum_rsum. reflexivity. Qed.

(** The data of a section plot for a sail are defined exactly if some panel of the sail bears the force in question; if none
    does all of them are undefined.  The heights are always defined. *)
Theorem C83_data : forall nc ns sails ss rho w v, (0 < nc)%nat -> (0 < ns)%nat -> (forall s, In s sails -> built nc ns s) -> SailSet sails = Ok ss ->
  Vlm (ss_panels ss) nc ns rho w (ss_te ss) (ss_le ss) = Ok v -> 0 < rho -> (forall u, In u (in_V (vl_inlet v)) -> u <> szero) ->
  exists heights lift drag LIFT DRAG, section_data v = Ok (heights, lift, drag) /\ section_data (finO v) = Ok (map (map Some) heights, LIFT, DRAG) /\
    length LIFT = length sails /\ length DRAG = length sails /\
    forall i, (i < length sails)%nat -> forall data DATA force, data = lift /\ DATA = LIFT /\ force = vl_lift v \/ data = drag /\ DATA = DRAG /\ force = vl_drag v ->
      (bears nc ns i force -> nth i DATA [] = map Some (nth i data [])) /\
      (~ bears nc ns i force -> nth i DATA [] = repeat None ns).
Proof.
  intros nc ns sails ss rho w v NC NS B E EV RP NV. destruct (run_data _ _ _ _ _ _ _ NC NS B E EV) as (N & LA & PA & GD).
  destruct (sail_set_flags nc ns sails ss B E) as [LP FL]. pose proof (eq_trans (fl_te_len _ _ _ _ _ FL) (eq_sym LP)) as LT.
  destruct (C60_complete_results _ _ _ _ _ _ _ _ LT EV) as (L1 & _ & _ & L2 & _ & _ & L3 & _ & _ & _ & _ & L4 & L5 & _).
  assert (FF : vl_panels v = ss_panels ss /\ vl_ns v = ns /\ vl_nc v = nc /\ vl_rho v = rho).
  { destruct (Vlm_inv _ _ _ _ _ _ _ _ LT EV) as (? & ? & ? & ? & _ & _ & _ & _ & _ & _ & FF). destruct FF. auto. }
  destruct FF as (FP & FN & FC & FR). set (n := length sails) in *.
  destruct (data_fin (vl_panels v) (vl_areas v) (vl_lift v) (vl_drag v) (in_V (vl_inlet v)) (vl_cp v) ns nc rho NS NC (Rgt_not_eq _ _ RP) PA NV) with (1 := eq_trans (f_equal3 (fun a b c => get_data_for_coeff_plot (vl_panels v) (vl_areas v) (vl_lift v) (vl_drag v) (in_V (vl_inlet v)) (vl_cp v) a b c) (eq_sym FN) (eq_sym FC) (eq_sym FR)) GD)
    as (cl & cd & sa & ars & EA & ES & ECL & ECD & EL & ED & GF).
  rewrite FP, LP, groups_of in * by assumption. apply (areas_tab nc ns n (vl_areas v)) in ES; try assumption. subst sa.
  rewrite (get_C_tab _ _ _ _ nc ns n) in ECL by congruence. rewrite (get_C_tab _ _ _ _ nc ns n) in ECD by congruence. injection ECL as <-. injection ECD as <-.
  assert (AR : forall i, (i < n)%nat -> forall r j, (r < nc)%nat -> (j < ns)%nat -> 0 < nth (cell nc ns i r j) (vl_areas v) 0 /\ nth (cell nc ns i r j) (in_V (vl_inlet v)) szero <> szero).
  { intros i I r' j' R' J'. assert (CL : (cell nc ns i r' j' < 2 * n * (nc * ns))%nat) by (apply cell_lt; lia). split; [apply PA, nth_In; lia|]. apply NV, nth_In. rewrite L3. exact CL. }
  do 5 eexists. split; [unfold section_data; rewrite FP; exact GD|]. split.
  { unfold section_data. rewrite cps_fin. unfold finO. cbn [vl_panels vl_areas vl_lift vl_drag vl_inlet vl_ns vl_nc vl_rho finI in_V]. rewrite FP, FN, FC, FR. exact GF. }
  rewrite !map_length, !seq_length. split; [reflexivity|]. split; [reflexivity|]. intros i I data DATA force D.
  assert (X : nth i DATA [] = chk_row (sail_mean nc ns rho (vl_areas v) force (in_V (vl_inlet v)) i) (nth i data [])).
  { assert (TN : forall f : nat -> list (option R), nth i (map f (seq 0 n)) [] = f i) by (intros f; apply (tab_nth n f); exact I).
    destruct D as [(-> & -> & ->)|(-> & -> & ->)]; rewrite TN; unfold sections, plot_rows; rewrite !tab_nth by exact I; rewrite normalized_tab, coefficient_tab; reflexivity. }
  rewrite X. split.
  - intros (r & j & HR & HJ & HF). unfold chk_row. replace (Reqb _ 0) with false; [reflexivity|]. symmetry. apply Reqb_false. apply Rgt_not_eq.
    apply (sail_mean_pos _ _ _ _ _ _ _ r j); try assumption. apply AR. exact I.
  - intros NB. rewrite sail_mean_zero by exact NB. unfold chk_row. replace (Reqb 0 0) with true by (symmetry; apply Reqb_true; reflexivity).
    assert (LR : length (nth i data []) = ns). { destruct D as [(-> & -> & ->)|(-> & -> & ->)]; unfold plot_rows; rewrite tab_nth by exact I; apply tab_length. }
    rewrite <- LR. generalize (nth i data []). induction l as [|a l IH]; [reflexivity|]. cbn [map length repeat]. rewrite IH. reflexivity.
Qed.

(** The two plots of a run.  The plot with the file name section_cl shows the drag data (C53), so its curve for a sail
    is defined exactly if a panel of the sail bears drag, and that of section_cd exactly if one bears lift. *)
Theorem C83_plots : forall sp cd sv r main jib ref clr rr, run sp cd sv r main jib ref clr = Ok rr -> (0 < sv_nc sv)%nat -> (0 < sv_ns sv)%nat ->
  0 < cd_rho cd -> (forall u, In u (in_V (vl_inlet (rr_vlm rr))) -> u <> szero) ->
  exists p q P Q, cli_section_plots (rr_vlm rr) = Ok (p, q) /\ cli_section_plots (finO (rr_vlm rr)) = Ok (P, Q) /\
    forall i, (i < length (ss_sails (rr_set rr)))%nat ->
      (exists x y, curve p i = Some (x, y) /\
         (bears (sv_nc sv) (sv_ns sv) i (vl_drag (rr_vlm rr)) -> curve P i = Some (map Some x, map Some y)) /\
         (~ bears (sv_nc sv) (sv_ns sv) i (vl_drag (rr_vlm rr)) -> curve P i = Some (repeat None (sv_ns sv), map Some y))) /\
      (exists x y, curve q i = Some (x, y) /\
         (bears (sv_nc sv) (sv_ns sv) i (vl_lift (rr_vlm rr)) -> curve Q i = Some (map Some x, map Some y)) /\
         (~ bears (sv_nc sv) (sv_ns sv) i (vl_lift (rr_vlm rr)) -> curve Q i = Some (repeat None (sv_ns sv), map Some y))).
Proof.
  intros sp cd sv r main jib ref clr rr E NC NS RP NV. destruct (run_inv _ _ _ _ _ _ _ _ _ E) as (w & EW & EP & EG & EH & EV & EF).
  destruct (get_sail_set_inv _ _ _ _ _ _ _ EG) as (sails & SS & ESS & I & NM & B). rewrite ESS.
  destruct (C83_data _ _ sails _ _ _ _ NC NS B SS EV RP NV) as (h & l & d & L & D & S1 & S2 & LL & LD & X).
  destruct (C52_plot_data _ _ sails _ _ _ _ NC NS B SS EV) as (h' & l' & d' & S1' & LH & Ll & Ld & _). fold (section_data (rr_vlm rr)) in S1'. rewrite S1 in S1'. injection S1' as <- <- <-.
  assert (N2 : (length h <= 2)%nat).
  { rewrite LH, <- (map_length sl_name), NM. unfold sail_names. destruct (String.eqb _ _); [simpl; lia|]. destruct (String.eqb _ _); simpl; lia. }
  destruct (C53_swapped R RNum _ h l d S1) as (p & q & E1 & _ & _ & _ & _ & C1); [congruence | congruence | exact N2|].
  destruct (C53_swapped (option R) CNum _ _ _ _ S2) as (P & Q & E2 & _ & _ & _ & _ & C2); [rewrite map_length; congruence | rewrite map_length; congruence | rewrite map_length; exact N2|].
  exists p, q, P, Q. split; [exact E1|]. split; [exact E2|]. intros i Hi.
  assert (HI : (i < length h)%nat) by (rewrite LH; exact Hi). destruct (C1 i HI) as [C1p C1q]. destruct (C2 i) as [C2p C2q]; [rewrite map_length; exact HI|]. rewrite nth_map_in in C2p, C2q.
  destruct (X i Hi d D (vl_drag (rr_vlm rr))) as [D1 D2]; [right; auto|]. destruct (X i Hi l L (vl_lift (rr_vlm rr))) as [L1 L2]; [left; auto|].
  split; do 2 eexists; (split; [eassumption|]); split; intros BB.
  - rewrite C2p, D1 by exact BB. reflexivity.
  - rewrite C2p, D2 by exact BB. reflexivity.
  - rewrite C2q, L1 by exact BB. reflexivity.
  - rewrite C2q, L2 by exact BB. reflexivity.
Qed.
(* the lift of a single flat panel is not zero and its section plot is defined *)
Example C83_case : forall sp clr, exists rr P Q x y, run sp demo_conditions demo_solver (demo_rig (Some 4)) (Some demo_main) None szero clr = Ok rr /\
  (0 < sv_nc demo_solver)%nat /\ (0 < sv_ns demo_solver)%nat /\ 0 < cd_rho demo_conditions /\ (forall u, In u (in_V (vl_inlet (rr_vlm rr))) -> u <> szero) /\
  length (ss_sails (rr_set rr)) = 1%nat /\ bears 1 1 0 (vl_lift (rr_vlm rr)) /\ cli_section_plots (finO (rr_vlm rr)) = Ok (P, Q) /\ curve Q 0 = Some (map Some x, map Some y).
Proof.
  intros sp clr. destruct (demo_run sp 4 clr) as (rr & s & E & SS & _ & B & P & EV & _).
  destruct (demo_sail_set sp (Some 4)) as (s' & ss & GS & _ & _ & _ & P' & T & L).
  destruct (run_inv _ _ _ _ _ _ _ _ _ E) as (w & _ & _ & EG & _). cbn [demo_conditions cd_heel cd_leeway] in EG. rewrite EG in GS. apply Ok_inj in GS. subst ss. rewrite P', T, L in EV.
  assert (SL : length (ss_sails (rr_set rr)) = 1%nat). { destruct (get_sail_set_inv _ _ _ _ _ _ _ EG) as (sails & _ & -> & _ & NM & _). rewrite <- (map_length sl_name), NM. reflexivity. }
  destruct (demo_clear _ _ EV) as (_ & NV & _). destruct (demo_lift _ _ EV Rlt_0_1) as (l0 & l1 & LL & LP).
  assert (BL : bears 1 1 0 (vl_lift (rr_vlm rr))). { exists 0%nat, 0%nat. split; [lia|]. split; [lia|]. rewrite LL. simpl. intros Q. rewrite Q in LP. simpl in LP. lra. }
  destruct (C83_plots _ _ _ _ _ _ _ _ _ E) as (p & q & P1 & Q1 & _ & E2 & X); [simpl; lia | simpl; lia | simpl; lra | exact NV|].
  destruct (X 0%nat) as (_ & x & y & _ & Y & _); [rewrite SL; lia|]. exists rr, P1, Q1, x, y. split; [exact E|]. split; [simpl; lia|]. split; [simpl; lia|]. split; [simpl; lra|].
  split; [exact NV|]. split; [exact SL|]. split; [exact BL|]. split; [exact E2|]. apply Y. exact BL.
Qed.
Print Assumptions C83_data.
Print Assumptions C83_plots.
