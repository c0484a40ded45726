(** Forces, moments and the result tables: C46 to C51, C57. *)

From Coq Require Import String ZArith Reals List Bool Lra Psatz Lia Arith.
From Verif Require Import Num PyBase RNum Spec M_Csys M_Panels M_Coefs M_Forces M_Winds M_Vlm M_Sail M_Results
  L_List L_Rot L_Vel L_Csys L_Sail L_Lattice L_Vlm L_Vlm2 L_Angle L_Results L_Demo L_DemoForce P_Sail P_Lattice P_Vlm L_DemoAft.
Import ListNotations.
Open Scope R_scope.

(** ** C46 *)
Lemma arm_above d p : 0 < vz p -> moment_arm d p = ssub p d.
Proof. intros Z. unfold moment_arm. rnum. replace (Rltb 0 (vz p)) with true by (symmetry; apply Rltb_true; assumption). reflexivity. Qed.
Lemma arm_mirror d p : vz p <> 0 -> moment_arm d (smirror p) = smirror (moment_arm d p).
Proof.
  intros Z. destruct p as [x y z], d as [a b c]. unfold moment_arm, smirror. cbn [vx vy vz] in *. rnum. destruct (Rltb 0 z) eqn:E, (Rltb 0 (- z)) eqn:E';
    rewrite ?Rltb_true, ?Rltb_false in *; try lra; vec_eq; ring.
Qed.
(* inversion of the constructor *)
Lemma flow_results_inv (s : sail_set R) c v fr : InviscidFlowResults s c v = Ok fr ->
  fr_csys fr = c /\ fr_F fr = vl_force v /\ fr_F_total fr = ssum (above_water (vl_force v)) /\
  fr_arms fr = map (moment_arm (ref_vec c)) (vl_cp v) /\
  fr_M fr = zipWith scross (map (moment_arm (ref_vec c)) (vl_cp v)) (vl_force v) /\
  fr_M_total fr = ssum (above_water (zipWith scross (map (moment_arm (ref_vec c)) (vl_cp v)) (vl_force v))) /\
  fr_coe fr = determine_vector_from_its_dot_and_cross_product (fr_F_total fr)
    (nsum (above_water (zipWith vdot (map (moment_arm (ref_vec c)) (vl_cp v)) (vl_force v)))) (fr_M_total fr) /\
  fr_F_cl fr = map (mapply (leeway_rotation_matrix c)) (vl_force v) /\ fr_F_cl_total fr = ssum (above_water (fr_F_cl fr)) /\
  fr_M_cl fr = map (mapply (leeway_rotation_matrix c)) (fr_M fr) /\ fr_M_cl_total fr = ssum (above_water (fr_M_cl fr)).
Proof.
  unfold InviscidFlowResults. cbv zeta. destruct (array_split _ _) as [fch|]; [|discriminate]. unfold bind at 1. destruct (array_split _ _) as [rch|]; [|discriminate]. unfold bind.
  intros E. injection E as <-. cbn [fr_csys fr_F fr_F_total fr_arms fr_M fr_M_total fr_coe fr_F_cl fr_F_cl_total fr_M_cl fr_M_cl_total]. rewrite !vsum_ssum.
  assert (Z : forall a b : list (vec R), calc_moments a b = zipWith scross a b).
  { reflexivity. }
  unfold calc_moment_arm_in_shifted_csys, from_xyz_to_centerline_csys. rewrite !Z. repeat split; reflexivity.
Qed.
Theorem C46_moments : forall (s : sail_set R) c v fr, InviscidFlowResults s c v = Ok fr ->
  (forall k p f, nth_error (vl_cp v) k = Some p -> nth_error (vl_force v) k = Some f -> 0 < vz p ->
     nth_error (fr_M fr) k = Some (scross (ssub p (ref_vec c)) f)) /\
  (forall k k' p, nth_error (vl_cp v) k = Some p -> nth_error (vl_cp v) k' = Some (smirror p) -> vz p <> 0 ->
     exists a, nth_error (fr_arms fr) k = Some a /\ nth_error (fr_arms fr) k' = Some (smirror a)) /\
  fr_M_total fr = ssum (firstn (length (fr_M fr) / 2) (fr_M fr)).
Proof.
  intros s c v fr E. destruct (flow_results_inv _ _ _ _ E) as (_ & _ & _ & EA & EM & EMT & _). rewrite EA, EM, EMT. split; [|split].
  - intros k p f P Q Z. rewrite (nth_error_zipWith scross _ _ k (moment_arm (ref_vec c) p) f); [|rewrite nth_error_map, P; reflexivity|assumption]. rewrite arm_above by assumption. reflexivity.
  - intros k k' p P Q Z. rewrite !nth_error_map, P, Q. cbn [option_map]. eexists. split; [reflexivity|]. rewrite arm_mirror by assumption. reflexivity.
  - reflexivity.
Qed.
(** moving the reference point by [d] changes the total moment by -d x F *)
Definition shifted (d : vec R) (c : csys R) : csys R := Csys (heel_deg c) (leeway_deg c) (sadd (ref_vec c) d).
Lemma moment_shift d ref (cps fs : list (vec R)) : length cps = length fs -> (forall p, In p cps -> 0 < vz p) ->
  ssum (zipWith scross (map (moment_arm (sadd ref d)) cps) fs) = ssub (ssum (zipWith scross (map (moment_arm ref) cps) fs)) (scross d (ssum fs)).
Proof.
  revert fs; induction cps as [|p cps IH]; intros [|f fs] L P; simpl in *; try discriminate.
  - unfold szero. destruct d. svec. vec_eq; ring.
  - rewrite IH by (auto; lia). rewrite !arm_above by auto. destruct d as [d1 d2 d3], ref as [a1 a2 a3], p as [x y z], f as [f1 f2 f3].
    set (u := ssum (zipWith _ _ _)). set (w := ssum fs). destruct u as [u1 u2 u3], w as [w1 w2 w3]. svec. vec_eq; ring.
Qed.
Lemma in_firstn {A} (l : list A) n a : In a (firstn n l) -> exists k, (k < n)%nat /\ nth_error l k = Some a.
Proof.
  intros I. apply In_nth_error in I. destruct I as [k K]. pose proof (nth_error_Some_lt _ _ _ K) as L. rewrite firstn_length in L.
  exists k. split; [lia|]. rewrite nth_error_firstn in K by lia. assumption.
Qed.
Theorem C46_shift : forall (s : sail_set R) c d v fr fr', InviscidFlowResults s c v = Ok fr -> InviscidFlowResults s (shifted d c) v = Ok fr' ->
  length (vl_cp v) = length (vl_force v) -> (forall k p, (k < length (vl_cp v) / 2)%nat -> nth_error (vl_cp v) k = Some p -> 0 < vz p) ->
  fr_F_total fr' = fr_F_total fr /\ fr_M_total fr' = ssub (fr_M_total fr) (scross d (fr_F_total fr)).
Proof.
  intros s c d v fr fr' E E' L P. destruct (flow_results_inv _ _ _ _ E) as (_ & _ & EF & _ & _ & EMT & _). destruct (flow_results_inv _ _ _ _ E') as (_ & _ & EF' & _ & _ & EMT' & _).
  rewrite EF', EMT', EMT, EF. split; [reflexivity|]. unfold above_water. rewrite !zipWith_length, !map_length, L, Nat.min_id, !firstn_zipWith, !firstn_map. cbn [shifted ref_vec]. apply moment_shift.
  - rewrite !firstn_length, L. reflexivity.
  - intros p I. apply in_firstn in I. destruct I as (k & K & I). rewrite <- L in K. eauto.
Qed.

(** ** C47 *)
Lemma determine_s f q m : determine_vector_from_its_dot_and_cross_product f q m = sscale (/ sdot f f) (sadd (scross f m) (sscale q f)).
Proof. unfold determine_vector_from_its_dot_and_cross_product. tospec. set (a := sadd _ _). set (b := sdot f f). unfold vdivs. rnum. destruct a as [x y z]. svec. unfold Rdiv. vec_eq; ring. Qed.
Lemma sdot_nz f : f <> szero -> sdot f f <> 0.
Proof. intros N E. apply N. destruct f as [x y z]. unfold szero. svec. assert (x = 0 /\ y = 0 /\ z = 0) as (-> & -> & ->); [|reflexivity]. repeat split; nra. Qed.
Theorem C47_recovers : forall r f, f <> szero -> determine_vector_from_its_dot_and_cross_product f (sdot r f) (scross r f) = r.
Proof.
  intros r f N. rewrite determine_s. apply sdot_nz in N. destruct r as [a b c], f as [x y z]. svec. vec_eq; field; assumption.
Qed.
Theorem C47_any_moment : forall f q m, f <> szero -> let r := determine_vector_from_its_dot_and_cross_product f q m in
  sdot r f = q /\ scross r f = ssub m (sscale (sdot m f / sdot f f) f) /\ (scross r f = m <-> sdot m f = 0).
Proof.
  intros f q m N r. pose proof (sdot_nz f N) as NZ. unfold r. rewrite determine_s. clear r.
  assert (A : sdot (sscale (/ sdot f f) (sadd (scross f m) (sscale q f))) f = q). { destruct f as [x y z], m as [a b c]. svec. field; assumption. }
  assert (B : scross (sscale (/ sdot f f) (sadd (scross f m) (sscale q f))) f = ssub m (sscale (sdot m f / sdot f f) f)).
  { destruct f as [x y z], m as [a b c]. svec. vec_eq; field; assumption. }
  split; [exact A|]. split; [exact B|]. rewrite B. split.
  - intros E. apply (f_equal (fun u => sdot u f)) in E. revert E. destruct f as [x y z], m as [a b c]. svec. intros E.
    assert (T : forall k, k <> 0 -> (a * x + b * y + c * z) / k * k = a * x + b * y + c * z) by (intros; field; assumption). pose proof (T _ NZ). lra.
  - intros ->. destruct f as [x y z], m as [a b c]. svec. unfold Rdiv. vec_eq; ring.
Qed.
(** the reported centre of effort *)
Lemma nsum_rsum (l : list R) : nsum l = rsum l.
Proof.
  unfold nsum. rnum. assert (G : forall l a, fold_left Rplus l a = a + rsum l). { clear. induction l as [|x l IH]; intros a; simpl; [ring|]. rewrite IH. ring. }
  rewrite G. ring.
Qed.
Lemma same_point r (cps fs : list (vec R)) ref : length cps = length fs -> (forall p, In p cps -> moment_arm ref p = r) ->
  ssum (zipWith scross (map (moment_arm ref) cps) fs) = scross r (ssum fs) /\ rsum (zipWith sdot (map (moment_arm ref) cps) fs) = sdot r (ssum fs).
Proof.
  revert fs; induction cps as [|p cps IH]; intros [|f fs] L P; simpl in *; try discriminate.
  - destruct r. unfold szero. svec. split; [vec_eq|]; ring.
  - destruct (IH fs) as [A B]; [lia|auto|]. rewrite A, B, (P p) by auto. set (w := ssum fs). destruct r as [a b c], f as [x y z], w as [w1 w2 w3]. svec. split; [vec_eq|]; ring.
Qed.
Theorem C47_reported : forall (s : sail_set R) c v fr, InviscidFlowResults s c v = Ok fr -> fr_F_total fr <> szero ->
  (scross (fr_coe fr) (fr_F_total fr) = fr_M_total fr <-> sdot (fr_M_total fr) (fr_F_total fr) = 0) /\
  (forall p, 0 < vz p -> length (vl_cp v) = length (vl_force v) -> (forall k q, (k < length (vl_cp v) / 2)%nat -> nth_error (vl_cp v) k = Some q -> q = p) ->
     fr_coe fr = ssub p (ref_vec c)).
Proof.
  intros s c v fr E N. destruct (flow_results_inv _ _ _ _ E) as (_ & _ & EF & _ & _ & EMT & EC & _). split.
  - rewrite EC. apply C47_any_moment. assumption.
  - intros p Z L P. rewrite EC. rewrite <- (C47_recovers (ssub p (ref_vec c)) _ N). f_equal; rewrite ?nsum_rsum, ?EMT, EF.
    all: unfold above_water; rewrite ?zipWith_length, ?map_length, L, ?Nat.min_id, !firstn_zipWith, !firstn_map.
    all: apply same_point; [rewrite !firstn_length, L; reflexivity|].
    all: intros q I; apply in_firstn in I; destruct I as (k & K & I); rewrite <- L in K; rewrite (P k q K I); apply arm_above; assumption.
Qed.

(** ** C48 *)
Lemma above_length {A} (l : list A) n m : length l = (2 * n * m)%nat -> above_water l = firstn (n * m) l.
Proof. intros L. unfold above_water. rewrite L. f_equal. replace (2 * n * m)%nat with (n * m * 2)%nat by lia. apply Nat.div_mul. lia. Qed.
Lemma leeway_spec c p : mapply (leeway_rotation_matrix c) p = srot (V3 0 0 1) (rad (leeway_deg c)) p.
Proof. rewrite leeway_apply. unfold leeway_a. destruct p as [x y z]. unfold srot. svec. vec_eq; ring. Qed.
Lemma group_tab {A} (l : list A) groups n m d g : (forall a, In a groups -> length a = m) -> length groups = n ->
  (forall g a k, nth_error groups g = Some a -> (k < m)%nat -> nth_error a k = nth_error l (g * m + k)) -> (g < n)%nat -> length l = (n * m)%nat ->
  nth g groups [] = tab m (fun q => nth (g * m + q) l d).
Proof.
  intros W LG P G L. destruct (nth_error_ex groups g) as [a A0]; [lia|]. rewrite (nth_of_error _ _ _ _ A0).
  assert (LA : length a = m) by (apply W; eapply nth_error_In; eauto).
  apply list_ext; rewrite ?tab_length; [assumption|]. intros k K. rewrite (P g a k A0), tab_nth_error by lia. apply nth_error_nth'. nia.
Qed.
Theorem C48_totals : forall (s : sail_set R) c v fr n m, InviscidFlowResults s c v = Ok fr ->
  length (ss_sails s) = n -> (0 < n)%nat -> length (vl_force v) = (2 * n * m)%nat -> length (vl_cp v) = (2 * n * m)%nat ->
  let F k := nth k (vl_force v) szero in let M k := nth k (fr_M fr) szero in
  fr_F_total fr = vsumn (n * m) F /\ fr_M_total fr = vsumn (n * m) M /\ length (fr_sails fr) = n /\
  (forall g sl, nth_error (ss_sails s) g = Some sl -> exists t, nth_error (fr_sails fr) g = Some t /\ st_name t = sl_name sl /\
     st_F t = vsumn m (fun q => F (g * m + q)%nat) /\ st_M t = vsumn m (fun q => M (g * m + q)%nat)) /\
  ssum (map st_F (fr_sails fr)) = fr_F_total fr /\ ssum (map st_M (fr_sails fr)) = fr_M_total fr /\
  fr_F_cl_total fr = srot (V3 0 0 1) (rad (leeway_deg c)) (fr_F_total fr) /\
  fr_M_cl_total fr = srot (V3 0 0 1) (rad (leeway_deg c)) (fr_M_total fr).
Proof.
  intros s c v fr n m E LS N LF LC F M. destruct (flow_results_inv _ _ _ _ E) as (_ & _ & EF & _ & EM & EMT & _ & EFC & EFT & EMC & EMT2).
  assert (LM : length (fr_M fr) = (2 * n * m)%nat) by (rewrite EM, zipWith_length, map_length, LF, LC; lia).
  assert (TF : fr_F_total fr = vsumn (n * m) F). { rewrite EF, (above_length _ n m LF). unfold vsumn. f_equal. apply firstn_tab. nia. }
  assert (TM : fr_M_total fr = vsumn (n * m) M). { rewrite EMT, <- EM, (above_length _ n m LM). unfold vsumn. f_equal. apply firstn_tab. nia. }
  assert (SA : length (fr_sails fr) = n /\ forall g sl, nth_error (ss_sails s) g = Some sl -> exists t, nth_error (fr_sails fr) g = Some t /\ st_name t = sl_name sl /\
     st_F t = vsumn m (fun q => F (g * m + q)%nat) /\ st_M t = vsumn m (fun q => M (g * m + q)%nat)).
  { unfold InviscidFlowResults in E. cbv zeta in E.
    assert (H : (length (vl_force v) / 2 = n * m)%nat). { rewrite LF. replace (2 * n * m)%nat with (n * m * 2)%nat by lia. apply Nat.div_mul. lia. }
    rewrite H, LS in E.
    destruct (array_split_groups (firstn (n * m) (vl_force v)) n m N) as (fch & E1 & L1 & _ & W1 & P1). { rewrite firstn_length. nia. }
    destruct (array_split_groups (firstn (n * m) (calc_moment_arm_in_shifted_csys (vl_cp v) (ref_vec c))) n m N) as (rch & E2 & L2 & _ & W2 & P2). { unfold calc_moment_arm_in_shifted_csys. rewrite firstn_length, map_length. nia. }
    rewrite E1 in E. unfold bind at 1 in E. rewrite E2 in E. unfold bind in E. injection E as <-. cbn [fr_sails fr_M] in *.
    split; [rewrite map_length, combine_length, seq_length, LS; lia|]. intros g sl G. assert (GL : (g < n)%nat) by (rewrite <- LS; eapply nth_error_Some_lt; eauto).
    rewrite nth_error_map. assert (CS : nth_error (combine (seq 0 n) (ss_sails s)) g = Some (g, sl)) by (rewrite <- LS; apply (combine_seq_nth _ _ 0%nat); assumption). rewrite CS. cbn [option_map fst snd]. eexists. split; [reflexivity|]. cbn [st_name st_F st_M]. split; [reflexivity|].
    rewrite !vsum_ssum.
    rewrite (group_tab _ fch n m szero g W1 L1 P1 GL) by (rewrite firstn_length; nia).
    rewrite (group_tab _ rch n m szero g W2 L2 P2 GL) by (unfold calc_moment_arm_in_shifted_csys; rewrite firstn_length, map_length; nia).
    assert (NF : forall (l : list (vec R)) q, (q < m)%nat -> length l = (2 * n * m)%nat -> nth (g * m + q) (firstn (n * m) l) szero = nth (g * m + q) l szero).
    { intros l q Q L. apply nth_of_error. rewrite nth_error_firstn by nia. apply nth_error_nth'. nia. }
    split.
    - unfold vsumn. f_equal. apply tab_ext. intros q Q. apply NF; assumption.
    - unfold calc_moments. rewrite zipWith_tab. unfold vsumn. f_equal. apply tab_ext. intros q Q. rewrite !NF by (assumption || (unfold calc_moment_arm_in_shifted_csys; rewrite map_length; assumption)).
      unfold M, calc_moments. destruct (nth_error_ex (vl_cp v) (g * m + q)) as [p P]; [nia|]. destruct (nth_error_ex (vl_force v) (g * m + q)) as [f Q']; [nia|].
      unfold calc_moment_arm_in_shifted_csys. rewrite (nth_of_error _ _ _ _ Q'). rewrite (nth_of_error _ _ szero (moment_arm (ref_vec c) p)) by (rewrite nth_error_map, P; reflexivity).
      symmetry. apply nth_of_error. apply nth_error_zipWith; [rewrite nth_error_map, P; reflexivity | assumption]. }
  destruct SA as [LSA SA]. split; [exact TF|]. split; [exact TM|]. split; [exact LSA|]. split; [exact SA|].
  assert (EX : forall g, (g < n)%nat -> exists t, nth_error (fr_sails fr) g = Some t /\ st_F t = vsumn m (fun q => F (g * m + q)%nat) /\ st_M t = vsumn m (fun q => M (g * m + q)%nat)).
  { intros g G. destruct (nth_error_ex (ss_sails s) g) as [sl SL]; [lia|]. destruct (SA g sl SL) as (t & T & _ & A & B). eauto. }
  split; [|split; [|split]].
  - rewrite TF, vsumn_groups. unfold vsumn at 1. f_equal. apply list_ext; rewrite map_length, ?tab_length; [assumption|]. intros g G. rewrite LSA in G.
    destruct (EX g G) as (t & T & A & B). rewrite nth_error_map, T, tab_nth_error by assumption. simpl. f_equal. assumption.
  - rewrite TM, vsumn_groups. unfold vsumn at 1. f_equal. apply list_ext; rewrite map_length, ?tab_length; [assumption|]. intros g G. rewrite LSA in G.
    destruct (EX g G) as (t & T & A & B). rewrite nth_error_map, T, tab_nth_error by assumption. simpl. f_equal. assumption.
  - rewrite EFT, EFC, EF. unfold above_water. rewrite map_length, firstn_map, <- leeway_spec. symmetry. apply ssum_map.
    + destruct (leeway_rm c) as [RA RS _ _]. replace szero with (sscale 0 szero) by (unfold szero; svec; vec_eq; ring). rewrite RS. destruct (mapply _ szero). svec. vec_eq; ring.
    + intros a b. rewrite <- rm_add with (f := mapply (leeway_rotation_matrix c)) by apply leeway_rm. reflexivity.
  - rewrite EMT2, EMC, EMT, <- EM. unfold above_water. rewrite map_length, firstn_map, <- leeway_spec. symmetry. apply ssum_map.
    + destruct (leeway_rm c) as [RA RS _ _]. replace szero with (sscale 0 szero) by (unfold szero; svec; vec_eq; ring). rewrite RS. destruct (mapply _ szero). svec. vec_eq; ring.
    + intros a b. rewrite <- rm_add with (f := mapply (leeway_rotation_matrix c)) by apply leeway_rm. reflexivity.
Qed.

(** the results of a run exist, and the panels of the g-th sail are those of its geometry *)
Theorem C48_run : forall nc ns sails ss rho w v c, (forall s, In s sails -> built nc ns s) -> SailSet sails = Ok ss ->
  Vlm (ss_panels ss) nc ns rho w (ss_te ss) (ss_le ss) = Ok v ->
  exists fr, InviscidFlowResults ss c v = Ok fr /\ length (fr_sails fr) = length sails /\
    fr_F_total fr = vsumn (length sails * (nc * ns)) (fun k => nth k (vl_force v) szero) /\
    forall g sl, nth_error sails g = Some sl -> exists t, nth_error (fr_sails fr) g = Some t /\ st_name t = sl_name sl /\
      st_F t = vsumn (nc * ns) (fun q => nth (g * (nc * ns) + q) (vl_force v) szero) /\
      st_M t = vsumn (nc * ns) (fun q => nth (g * (nc * ns) + q) (fr_M fr) szero) /\
      forall q, (q < nc * ns)%nat -> nth_error (ss_panels ss) (g * (nc * ns) + q) = nth_error (sl_above sl) q.
Proof.
  intros nc ns sails ss rho w v c B E EV. destruct (sail_set_flags nc ns sails ss B E) as [LP FL]. destruct (sail_set_groups nc ns sails ss B E) as (N & EP & _ & _).
  assert (ES : ss_sails ss = sails) by (destruct sails; [discriminate|]; injection E as <-; reflexivity).
  destruct (C60_complete_results _ _ _ _ _ _ _ _ (eq_trans (fl_te_len _ _ _ _ _ FL) (eq_sym LP)) EV) as (_ & _ & _ & LC & _ & _ & _ & _ & _ & _ & LF & _). rewrite LP in LC, LF.
  assert (X : exists fr, InviscidFlowResults ss c v = Ok fr).
  { unfold InviscidFlowResults. cbv zeta. rewrite ES, LF.
    replace (2 * length sails * (nc * ns) / 2)%nat with (length sails * (nc * ns))%nat by (replace (2 * length sails * (nc * ns))%nat with (length sails * (nc * ns) * 2)%nat by lia; rewrite Nat.div_mul by lia; reflexivity).
    destruct (array_split_groups (firstn (length sails * (nc * ns)) (vl_force v)) (length sails) (nc * ns) N) as (fch & E1 & _); [rewrite firstn_length; nia|].
    destruct (array_split_groups (firstn (length sails * (nc * ns)) (calc_moment_arm_in_shifted_csys (vl_cp v) (ref_vec c))) (length sails) (nc * ns) N) as (rch & E2 & _); [unfold calc_moment_arm_in_shifted_csys; rewrite firstn_length, map_length; nia|].
    rewrite E1. unfold bind at 1. rewrite E2. unfold bind. eexists. reflexivity. }
  destruct X as [fr EF]. exists fr. split; [exact EF|].
  destruct (C48_totals ss c v fr (length sails) (nc * ns) EF) as (T1 & _ & T3 & T4 & _); try assumption; [rewrite ES; reflexivity|].
  split; [exact T3|]. split; [exact T1|]. intros g sl G. rewrite ES in T4. destruct (T4 g sl G) as (t & A1 & A2 & A3 & A4). exists t. repeat (split; [assumption|]).
  intros q Q. rewrite EP. apply concat_groups_nth; [|rewrite nth_error_app1 by (rewrite map_length; eapply nth_error_Some_lt; eauto); rewrite nth_error_map, G; reflexivity|assumption].
  intros a I. apply in_app_or in I. destruct I as [I|I]; apply in_map_iff in I; destruct I as (s & <- & I); [apply (lay_above nc ns)|apply (lay_under nc ns)]; apply built_layout, B; assumption.
Qed.

(** ** C51 *)
Theorem C51_girths : forall (cps : list (vec R)) tack, (exists p, In p cps /\ vz tack < vz p) ->
  exists gs k, cp_to_girths cps tack = Ok gs /\ length gs = length cps /\ 0 < k /\
  forall i p g, nth_error cps i = Some p -> nth_error gs i = Some g ->
    g = k * (vz p - vz tack) /\ g <= 1 /\ (g = 1 <-> forall q, In q cps -> vz q <= vz p) /\ (g = 0 <-> vz p = vz tack).
Proof.
  intros cps tack (p0 & I0 & H0). destruct (py_max_spec (map vz cps)) as (m & E & IM & M). { destruct cps; [destruct I0|discriminate]. }
  unfold cp_to_girths. rewrite E. unfold bind. eexists. exists (/ (m - vz tack)). split; [reflexivity|]. split; [rewrite !map_length; reflexivity|].
  assert (P0 : vz p0 <= m) by (apply M, in_map; assumption). assert (K : 0 < / (m - vz tack)) by (apply Rinv_0_lt_compat; lra). split; [exact K|].
  intros i p g P G. rewrite !nth_error_map, P in G. cbn [option_map] in G. injection G as <-. rnum.
  assert (PM : vz p <= m) by (apply M, in_map; eapply nth_error_In; eauto).
  assert (EG : (vz p - vz tack) / (m - vz tack) = / (m - vz tack) * (vz p - vz tack)) by (unfold Rdiv; ring). rewrite EG.
  assert (Q : / (m - vz tack) * (m - vz tack) = 1) by (field; lra). split; [reflexivity|]. split; [|split; split].
  - rewrite <- Q. apply Rmult_le_compat_l; lra.
  - intros EQ. assert (vz p = m). { rewrite <- Q in EQ. apply Rmult_eq_reg_l in EQ; lra. } subst m. intros q Iq. apply M, in_map. assumption.
  - intros A. apply in_map_iff in IM. destruct IM as (q & <- & Iq). pose proof (A q Iq). replace (vz p) with (vz q) by lra. exact Q.
  - intros EQ. apply Rmult_integral in EQ. destruct EQ; lra.
  - intros ->. ring.
Qed.
Theorem C51_empty : forall tack : vec R, cp_to_girths [] tack = Raise ValueError.
Proof. reflexivity. Qed.

(** ** C49: the rows of the integral table *)
Lemma append_length (a b : string) : String.length (a ++ b) = (String.length a + String.length b)%nat.
Proof. induction a as [|x a IH]; simpl; [reflexivity|]. rewrite IH. reflexivity. Qed.
Lemma append_split a : forall b s t : string, String.length a = String.length b -> (a ++ s = b ++ t)%string -> a = b /\ s = t.
Proof.
  induction a as [|x a IH]; intros [|y b] s t L E; simpl in *; try discriminate; [auto|]. injection E as -> E. destruct (IH b s t) as [-> ->]; auto.
Qed.
Lemma append_suffix (a b s t : string) : String.length s = String.length t -> (a ++ s = b ++ t)%string -> a = b /\ s = t.
Proof. intros L E. apply append_split; [|assumption]. apply (f_equal String.length) in E. rewrite !append_length in E. lia. Qed.
Lemma append_assoc (a b c : string) : ((a ++ b) ++ c = a ++ b ++ c)%string.
Proof. induction a as [|x a IH]; simpl; [reflexivity|]. rewrite IH. reflexivity. Qed.
Definition sail_rows (t : sail_total R) : list (string * R) :=
  xyz_rows ("F_" ++ st_name t ++ "_total_COG") (st_F t) ++ xyz_rows ("M_" ++ st_name t ++ "_total_COG") (st_M t).
Lemma sail_rows_keys t r : In r (sail_rows t) -> exists pre suf, (pre = "F_" \/ pre = "M_")%string /\ (suf = "_total_COG.x" \/ suf = "_total_COG.y" \/ suf = "_total_COG.z")%string /\
  fst r = (pre ++ st_name t ++ suf)%string.
Proof.
  unfold sail_rows, xyz_rows, vrows. intros [<-|[<-|[<-|[<-|[<-|[<-|[]]]]]]]; cbn [fst]; rewrite !append_assoc; do 2 eexists; (split; [|split; [|reflexivity]]); simpl; tauto.
Qed.
Definition fixed_rows (fr : flow_results R) (clr : vec R) : list (string * R) :=
  let '(mk, mk_cl) := keel_moment fr clr in
  xyz_rows "F_sails_total_COG" (fr_F_total fr) ++ xyz_rows "F_sails_total_COW" (fr_F_cl_total fr) ++ xyz_rows "M_sails_total_COG" (fr_M_total fr)
  ++ cow_rows "M_sails_total_COW" (fr_M_cl_total fr) ++ xyz_rows "M_keel_total_COG" mk ++ cow_rows "M_keel_total_COW" mk_cl
  ++ xyz_rows "M_total_COG" (vadd (fr_M_total fr) mk) ++ cow_rows "M_total_COW" (vadd (fr_M_cl_total fr) mk_cl).
Lemma sort_find {A} (key : A -> string) k l :
  find (fun r => String.eqb (key r) k) (sort_by key l) = find (fun r => String.eqb (key r) k) l.
Proof.
  induction l as [|a l IH]; [reflexivity|]. cbn [sort_by fold_right find]. fold (sort_by key l). rewrite <- IH. clear IH.
  generalize (sort_by key l). intros m. induction m as [|b m IH]; [reflexivity|]. cbn [insert_by].
  destruct (String.leb (key a) (key b)) eqn:L; [reflexivity|]. cbn [find]. rewrite IH.
  destruct (String.eqb (key b) k) eqn:B; [|reflexivity]. destruct (String.eqb (key a) k) eqn:A'; [|reflexivity].
  apply String.eqb_eq in B, A'. exfalso. rewrite A', B in L. unfold String.leb in L. pose proof (String.compare_antisym k k) as Q. destruct (String.compare k k); discriminate.
Qed.
Lemma sort_value {A} k (l : list (string * A)) : value_of (sort_by fst l) k = value_of l k.
Proof. unfold value_of. rewrite sort_find. reflexivity. Qed.
Lemma in_sort {A} (key : A -> string) x l : In x (sort_by key l) <-> In x l.
Proof.
  induction l as [|a l IH]; [reflexivity|]. cbn [sort_by fold_right In]. fold (sort_by key l). rewrite <- IH. clear IH.
  generalize (sort_by key l). intros m. induction m as [|b m IH]; [simpl; tauto|]. cbn [insert_by].
  destruct (String.leb (key a) (key b)); simpl in *; tauto.
Qed.
Lemma integral_value fr clr k : value_of (integral_table fr clr) k =
  match value_of (rev (flat_map sail_rows (fr_sails fr))) k with Some v => Some v | None => value_of (rev (fixed_rows fr clr)) k end.
Proof.
  unfold integral_table. rewrite sort_value, py_dict_value.
  assert (E : integral_rows fr clr = fixed_rows fr clr ++ flat_map sail_rows (fr_sails fr)).
  { unfold integral_rows, fixed_rows. destruct (keel_moment fr clr). rewrite <- !app_assoc. reflexivity. }
  rewrite E, rev_app_distr. apply value_of_app.
Qed.
Lemma no_sail_row fr k : (forall t pre suf, In t (fr_sails fr) -> (pre = "F_" \/ pre = "M_")%string -> (suf = "_total_COG.x" \/ suf = "_total_COG.y" \/ suf = "_total_COG.z")%string ->
    (pre ++ st_name t ++ suf)%string <> k) -> value_of (rev (flat_map sail_rows (fr_sails fr))) k = None.
Proof.
  intros H. apply value_of_none. intros r I. apply in_rev, in_flat_map in I. destruct I as (t & T & I). destruct (sail_rows_keys t r I) as (pre & suf & P & S & ->). eauto.
Qed.
Lemma total_row fr clr : vector_of (integral_table fr clr) "M_total_COG" = Some (sadd (fr_M_total fr) (scross clr (sopp (fr_F_total fr)))).
Proof.
  unfold vector_of. rewrite !integral_value. rewrite !no_sail_row; [reflexivity|..].
  all: intros t pre suf _ P S E; apply (f_equal String.length) in E; rewrite !append_length in E; cbn [String.length append] in E; destruct P as [-> | ->], S as [-> | [-> | ->]]; cbn [String.length] in E; lia.
Qed.
Theorem C49_total_moment : forall (s : sail_set R) c d clr v fr fr', InviscidFlowResults s c v = Ok fr -> InviscidFlowResults s (shifted d c) v = Ok fr' ->
  length (vl_cp v) = length (vl_force v) -> (forall k p, (k < length (vl_cp v) / 2)%nat -> nth_error (vl_cp v) k = Some p -> 0 < vz p) ->
  exists T, vector_of (integral_table fr clr) "M_total_COG" = Some T /\
    vector_of (integral_table fr' clr) "M_total_COG" = Some (ssub T (scross d (fr_F_total fr))) /\
    (* what it should be: the keel moment about the same reference point *)
    vector_of (integral_table fr' (ssub clr d)) "M_total_COG" = Some T.
Proof.
  intros s c d clr v fr fr' E E' L P. destruct (C46_shift s c d v fr fr' E E' L P) as [EF EM]. exists (sadd (fr_M_total fr) (scross clr (sopp (fr_F_total fr)))).
  rewrite !total_row, EM, EF. split; [reflexivity|]. set (f := fr_F_total fr). set (m := fr_M_total fr). destruct f as [f1 f2 f3], m as [m1 m2 m3], d as [d1 d2 d3], clr as [c1 c2 c3].
  split; f_equal; svec; vec_eq; ring.
Qed.
(* the demo run with its results about two reference points *)
Lemma demo_results rho c : 0 < rho -> exists s ss v fr f, built 1 1 s /\ SailSet [s] = Ok ss /\ Vlm (ss_panels ss) 1 1 rho demo_wind (ss_te ss) (ss_le ss) = Ok v /\
  InviscidFlowResults ss c v = Ok fr /\ fr_F_total fr = f /\ 0 < vy f /\ vz f = 0 /\ nth_error (vl_force v) 0 = Some f /\ length (vl_force v) = 2%nat /\
  vl_cp v = [V3 12 0 (25/2); V3 12 0 (-(25/2))] /\ sl_name s = "demo"%string /\ sl_tack s = V3 0 0 (11/2) /\
  (forall c', exists fr', InviscidFlowResults ss c' v = Ok fr').
Proof.
  intros RP. destruct demo_sail as (G & s & ss & E & S & E1 & E2 & E3).
  assert (B : built 1 1 s) by (do 9 eexists; exact E).
  assert (BB : forall s', In s' [s] -> built 1 1 s') by (intros s' [<-|[]]; exact B).
  destruct (demo_Vlm rho) as (v & EV). destruct (demo_force rho v EV RP) as (f0 & f1 & u0 & u1 & F & FY & FZ & CP & _).
  assert (EV' : Vlm (ss_panels ss) 1 1 rho demo_wind (ss_te ss) (ss_le ss) = Ok v) by (rewrite E1, E2, E3; exact EV).
  destruct (C48_run 1 1 [s] ss rho demo_wind v c BB S EV') as (fr & EF & _ & FT & _).
  exists s, ss, v, fr, f0. split; [exact B|]. split; [exact S|]. split; [exact EV'|]. split; [exact EF|].
  split. { rewrite FT, F. unfold vsumn, tab. cbn. destruct f0 as [x y z]. svec. vec_eq; ring. }
  split; [exact FY|]. split; [exact FZ|]. rewrite F. split; [reflexivity|]. split; [reflexivity|]. split; [exact CP|].
  split; [|split]. 3: { intros c'. destruct (C48_run 1 1 [s] ss rho demo_wind v c' BB S EV') as (fr' & EF' & _). eauto. }
  all: destruct (good_sail_spec _ _ _ _ _ _ _ _ _ _ "demo"%string G) as (s' & E' & A); rewrite E in E'; injection E' as <-; tauto.
Qed.
Theorem C49_refuted : exists sails ss rho w v c d clr fr fr' T T', (forall s, In s sails -> built 1 1 s) /\ SailSet sails = Ok ss /\
  Vlm (ss_panels ss) 1 1 rho w (ss_te ss) (ss_le ss) = Ok v /\ InviscidFlowResults ss c v = Ok fr /\ InviscidFlowResults ss (shifted d c) v = Ok fr' /\
  vector_of (integral_table fr clr) "M_total_COG" = Some T /\ vector_of (integral_table fr' clr) "M_total_COG" = Some T' /\ T' <> T.
Proof.
  destruct (demo_results 1 (Csys 0 0 szero) Rlt_0_1) as (s & ss & v & fr & f & B & S & EV & EF & FT & FY & FZ & _ & LF & CP & _ & _ & X).
  destruct (X (shifted (V3 0 0 1) (Csys 0 0 szero))) as [fr' EF'].
  destruct (C49_total_moment ss (Csys 0 0 szero) (V3 0 0 1) (V3 0 0 (-1)) v fr fr' EF EF') as (T & T1 & T2 & _).
  - rewrite CP, LF. reflexivity.
  - rewrite CP. intros [|k] p K P; simpl in K; [|lia]. injection P as <-. cbn [vz]. lra.
  - exists [s]. do 10 eexists. eexists. split; [intros s1 [<-|[]]; exact B|]. split; [exact S|]. split; [exact EV|]. split; [exact EF|]. split; [exact EF'|]. split; [exact T1|]. split; [exact T2|].
    intros Q. rewrite FT in Q. apply (f_equal vx) in Q. destruct f as [a b c], T as [t1 t2 t3]. cbn [vy] in FY. unfold ssub, scross in Q. cbn [vx vy vz] in Q. lra.
Qed.

(** ** C61: per-sail rows of the integral table *)
Lemma value_last (l1 l2 : list (string * R)) k v : (forall r, In r l2 -> fst r <> k) -> value_of (rev (l1 ++ (k, v) :: l2)) k = Some v.
Proof.
  intros H. rewrite rev_app_distr. cbn [rev]. rewrite <- app_assoc, value_of_app, value_of_none.
  - unfold value_of. simpl. rewrite String.eqb_refl. reflexivity.
  - intros r I. apply H, in_rev. assumption.
Qed.
Lemma other_sail_key (a b pre pre' suf suf' : string) : (pre = "F_" \/ pre = "M_")%string -> (pre' = "F_" \/ pre' = "M_")%string ->
  (suf = "_total_COG.x" \/ suf = "_total_COG.y" \/ suf = "_total_COG.z")%string -> (suf' = "_total_COG.x" \/ suf' = "_total_COG.y" \/ suf' = "_total_COG.z")%string ->
  (pre ++ a ++ suf)%string = (pre' ++ b ++ suf')%string -> a = b /\ pre = pre' /\ suf = suf'.
Proof.
  intros P P' S S' E. apply append_split in E; [|destruct P as [-> | ->], P' as [-> | ->]; reflexivity]. destruct E as [E1 E2].
  apply append_suffix in E2; [tauto|]. destruct S as [-> | [-> | ->]], S' as [-> | [-> | ->]]; reflexivity.
Qed.
Lemma sail_row_value fr clr g t pre suf v l1 l2 : nth_error (fr_sails fr) g = Some t ->
  (forall g' t', (g < g')%nat -> nth_error (fr_sails fr) g' = Some t' -> st_name t' <> st_name t) ->
  (pre = "F_" \/ pre = "M_")%string -> (suf = "_total_COG.x" \/ suf = "_total_COG.y" \/ suf = "_total_COG.z")%string ->
  sail_rows t = l1 ++ ((pre ++ st_name t ++ suf)%string, v) :: l2 -> (forall r, In r l2 -> fst r <> (pre ++ st_name t ++ suf)%string) ->
  value_of (integral_table fr clr) (pre ++ st_name t ++ suf) = Some v.
Proof.
  intros G D P SU E NI. rewrite integral_value. apply nth_error_split in G as G'. destruct G' as (s1 & s2 & ES & LS). rewrite ES, flat_map_app. cbn [flat_map]. rewrite E, <- !app_assoc. cbn [app]. rewrite app_assoc.
  rewrite value_last; [reflexivity|]. intros r I. apply in_app_or in I. destruct I as [I|I]; [apply NI; assumption|]. apply in_flat_map in I. destruct I as (t' & T & I).
  destruct (sail_rows_keys t' r I) as (pre' & suf' & P' & S' & ->). intros Q. apply other_sail_key in Q; try assumption. destruct Q as [Q _].
  apply In_nth_error in T. destruct T as [j J]. apply (D (g + 1 + j)%nat t'); [lia| |exact Q]. rewrite ES, nth_error_app2 by lia. replace (g + 1 + j - length s1)%nat with (S j) by lia. exact J.
Qed.
Theorem C61_sail_rows : forall fr clr g t, nth_error (fr_sails fr) g = Some t ->
  (forall g' t', (g < g')%nat -> nth_error (fr_sails fr) g' = Some t' -> st_name t' <> st_name t) ->
  vector_of (integral_table fr clr) ("F_" ++ st_name t ++ "_total_COG") = Some (st_F t) /\
  vector_of (integral_table fr clr) ("M_" ++ st_name t ++ "_total_COG") = Some (st_M t).
Proof.
  intros fr clr g t G D.
  assert (K : forall pre pre' suf suf', (pre <> pre' \/ suf <> suf') -> (pre = "F_" \/ pre = "M_")%string -> (pre' = "F_" \/ pre' = "M_")%string ->
     (suf = "_total_COG.x" \/ suf = "_total_COG.y" \/ suf = "_total_COG.z")%string -> (suf' = "_total_COG.x" \/ suf' = "_total_COG.y" \/ suf' = "_total_COG.z")%string ->
     (pre ++ st_name t ++ suf)%string <> (pre' ++ st_name t ++ suf')%string).
  { intros pre pre' suf suf' N P P' S S' Q. apply other_sail_key in Q; try assumption. tauto. }
  unfold vector_of. rewrite !append_assoc. change ("_total_COG" ++ ".x")%string with "_total_COG.x"%string. change ("_total_COG" ++ ".y")%string with "_total_COG.y"%string. change ("_total_COG" ++ ".z")%string with "_total_COG.z"%string.
  assert (R : sail_rows t = [(("F_" ++ st_name t ++ "_total_COG.x")%string, vx (st_F t)); (("F_" ++ st_name t ++ "_total_COG.y")%string, vy (st_F t)); (("F_" ++ st_name t ++ "_total_COG.z")%string, vz (st_F t));
    (("M_" ++ st_name t ++ "_total_COG.x")%string, vx (st_M t)); (("M_" ++ st_name t ++ "_total_COG.y")%string, vy (st_M t)); (("M_" ++ st_name t ++ "_total_COG.z")%string, vz (st_M t))]).
  { intros. unfold sail_rows, xyz_rows, vrows. rewrite !append_assoc. reflexivity. }
  split.
  - rewrite (sail_row_value fr clr g t "F_" "_total_COG.x" (vx (st_F t)) [] _ G D) by (first [tauto | exact R | intros r I; repeat (destruct I as [<-|I]; [cbn [fst]; apply K; [first [left; discriminate | right; discriminate] | tauto ..]|]); destruct I]).
    rewrite (sail_row_value fr clr g t "F_" "_total_COG.y" (vy (st_F t)) [_] _ G D) by (first [tauto | exact R | intros r I; repeat (destruct I as [<-|I]; [cbn [fst]; apply K; [first [left; discriminate | right; discriminate] | tauto ..]|]); destruct I]).
    rewrite (sail_row_value fr clr g t "F_" "_total_COG.z" (vz (st_F t)) [_;_] _ G D) by (first [tauto | exact R | intros r I; repeat (destruct I as [<-|I]; [cbn [fst]; apply K; [first [left; discriminate | right; discriminate] | tauto ..]|]); destruct I]).
    destruct (st_F t); reflexivity.
  - rewrite (sail_row_value fr clr g t "M_" "_total_COG.x" (vx (st_M t)) [_;_;_] _ G D) by (first [tauto | exact R | intros r I; repeat (destruct I as [<-|I]; [cbn [fst]; apply K; [first [left; discriminate | right; discriminate] | tauto ..]|]); destruct I]).
    rewrite (sail_row_value fr clr g t "M_" "_total_COG.y" (vy (st_M t)) [_;_;_;_] _ G D) by (first [tauto | exact R | intros r I; repeat (destruct I as [<-|I]; [cbn [fst]; apply K; [first [left; discriminate | right; discriminate] | tauto ..]|]); destruct I]).
    rewrite (sail_row_value fr clr g t "M_" "_total_COG.z" (vz (st_M t)) [_;_;_;_;_] _ G D) by (first [tauto | exact R | intros r I; repeat (destruct I as [<-|I]; [cbn [fst]; apply K; [first [left; discriminate | right; discriminate] | tauto ..]|]); destruct I]).
    destruct (st_M t); reflexivity.
Qed.
(* the overall rows, unless a sail is called "sails" or "keel" *)
Theorem C61_overall_rows : forall fr clr, 
  ((forall t, In t (fr_sails fr) -> st_name t <> "sails"%string) ->
     vector_of (integral_table fr clr) "F_sails_total_COG" = Some (fr_F_total fr) /\ vector_of (integral_table fr clr) "M_sails_total_COG" = Some (fr_M_total fr)) /\
  ((forall t, In t (fr_sails fr) -> st_name t <> "keel"%string) ->
     vector_of (integral_table fr clr) "M_keel_total_COG" = Some (scross clr (sopp (fr_F_total fr)))) /\
  vector_of (integral_table fr clr) "F_sails_total_COW" = Some (fr_F_cl_total fr) /\
  vector_of (integral_table fr clr) "M_total_COG" = Some (sadd (fr_M_total fr) (scross clr (sopp (fr_F_total fr)))).
Proof.
  intros fr clr.
  assert (K : forall (n : string) pre suf, (forall t, In t (fr_sails fr) -> st_name t <> n) -> (pre = "F_" \/ pre = "M_")%string ->
     (suf = "_total_COG.x" \/ suf = "_total_COG.y" \/ suf = "_total_COG.z")%string -> value_of (rev (flat_map sail_rows (fr_sails fr))) (pre ++ n ++ suf) = None).
  { intros n pre suf D P SU. apply no_sail_row. intros t pre' suf' T P' S' Q. apply other_sail_key in Q; try assumption. apply (D t T). tauto. }
  split; [|split; [|split]].
  - intros D. unfold vector_of. rewrite !integral_value.
    change ("F_sails_total_COG" ++ ".x")%string with ("F_" ++ "sails" ++ "_total_COG.x")%string. change ("F_sails_total_COG" ++ ".y")%string with ("F_" ++ "sails" ++ "_total_COG.y")%string.
    change ("F_sails_total_COG" ++ ".z")%string with ("F_" ++ "sails" ++ "_total_COG.z")%string. change ("M_sails_total_COG" ++ ".x")%string with ("M_" ++ "sails" ++ "_total_COG.x")%string.
    change ("M_sails_total_COG" ++ ".y")%string with ("M_" ++ "sails" ++ "_total_COG.y")%string. change ("M_sails_total_COG" ++ ".z")%string with ("M_" ++ "sails" ++ "_total_COG.z")%string.
    rewrite !K by (first [assumption | tauto]). split; [destruct (fr_F_total fr) eqn:E|destruct (fr_M_total fr) eqn:E]; unfold fixed_rows, keel_moment; rewrite E; reflexivity.
  - intros D. unfold vector_of. rewrite !integral_value.
    change ("M_keel_total_COG" ++ ".x")%string with ("M_" ++ "keel" ++ "_total_COG.x")%string. change ("M_keel_total_COG" ++ ".y")%string with ("M_" ++ "keel" ++ "_total_COG.y")%string.
    change ("M_keel_total_COG" ++ ".z")%string with ("M_" ++ "keel" ++ "_total_COG.z")%string. rewrite !K by (first [assumption | tauto]). reflexivity.
  - unfold vector_of. rewrite !integral_value. rewrite !no_sail_row; [destruct (fr_F_cl_total fr) eqn:E; unfold fixed_rows, keel_moment; rewrite E; reflexivity|..].
    all: intros t pre suf _ P SU Q; rewrite <- append_assoc in Q.
    all: match type of Q with (_ = ?k) => change k with ("F_sails" ++ (substring 7 12 k))%string in Q end; cbn [substring] in Q.
    all: apply append_suffix in Q; [|destruct SU as [-> | [-> | ->]]; reflexivity]; destruct Q as [_ Q]; destruct SU as [-> | [-> | ->]]; discriminate.
  - apply total_row.
Qed.
(* of several sails with the same name only the last is reported *)
Theorem C61_same_name : forall fr clr g g' t t', (g < g')%nat -> nth_error (fr_sails fr) g = Some t -> nth_error (fr_sails fr) g' = Some t' -> st_name t' = st_name t ->
  (forall j u, (g' < j)%nat -> nth_error (fr_sails fr) j = Some u -> st_name u <> st_name t') ->
  vector_of (integral_table fr clr) ("F_" ++ st_name t ++ "_total_COG") = Some (st_F t') /\
  (vector_of (integral_table fr clr) ("F_" ++ st_name t ++ "_total_COG") = Some (st_F t) <-> st_F t = st_F t').
Proof.
  intros fr clr g g' t t' L G G' N D. destruct (C61_sail_rows fr clr g' t' G' D) as [A _]. rewrite N in A. rewrite A. split; [reflexivity|]. split; congruence.
Qed.

(** ** C57 *)
Lemma tan_direction x y : x <> 0 -> is_direction (atan (y / x)) x y <-> 0 < x.
Proof.
  intros N. pose proof (atan_bound (y / x)) as B. pose proof PI_RGT_0.
  assert (C : 0 < cos (atan (y / x))) by (apply cos_gt_0; lra). split.
  - intros (_ & EX & _). assert (S : 0 <= sqrt (x ^ 2 + y ^ 2)) by apply sqrt_pos. destruct (Rtotal_order 0 x) as [L|[L|L]]; [assumption|congruence|]. nra.
  - intros P. pose proof (atan2_direction x y (or_introl N)) as D. replace (atan (y / x)) with (Ratan2 y x); [assumption|].
    unfold Ratan2. destruct (Rlt_dec 0 x); [reflexivity|lra].
Qed.
(** the entry in row [k] of the column [name] *)
Definition column_name (c : column R) : string := match c with NumCol n _ => n | StrCol n _ => n end.
Definition column_length (c : column R) : nat := match c with NumCol _ l => length l | StrCol _ l => length l end.
Definition num_at (t : list (column R)) (name : string) (k : nat) : option R :=
  match find (fun c => String.eqb (column_name c) name) t with Some (NumCol _ l) => nth_error l k | _ => None end.
Definition str_at (t : list (column R)) (name : string) (k : nat) : option string :=
  match find (fun c => String.eqb (column_name c) name) t with Some (StrCol _ l) => nth_error l k | _ => None end.
Definition vec_at (t : list (column R)) (name : string) (k : nat) : option (vec R) :=
  match num_at t (name ++ ".x") k, num_at t (name ++ ".y") k, num_at t (name ++ ".z") k with
  | Some x, Some y, Some z => Some (V3 x y z)
  | _, _, _ => None
  end%string.
Lemma fs_angle s c v fr k u : InviscidFlowResults s c v = Ok fr -> nth_error (vl_V_cp v) k = Some u ->
  num_at (flow_df_full fr) "AWA_fs_COG_deg" k = Some (rad2deg (atan (vy u / vx u))) /\ vec_at (flow_df_full fr) "V_app_fs_COG" k = Some u.
Proof.
  intros E U. unfold InviscidFlowResults in E. cbv zeta in E. destruct (array_split _ _) as [fch|]; [|discriminate]. unfold bind at 1 in E.
  destruct (array_split _ _) as [rch|]; [|discriminate]. unfold bind in E. injection E as <-.
  split.
  - change (nth_error (map rad2deg (map awa_app_fs (vl_V_cp v))) k = Some (rad2deg (atan (vy u / vx u)))). rewrite !nth_error_map, U. reflexivity.
  - change (match nth_error (map vx (vl_V_cp v)) k, nth_error (map vy (vl_V_cp v)) k, nth_error (map vz (vl_V_cp v)) k with Some x, Some y, Some z => Some (V3 x y z) | _, _, _ => None end = Some u).
    rewrite !nth_error_map, U. destruct u; reflexivity.
Qed.
Theorem C57_finite_sail_angle : forall s c v fr k u a, InviscidFlowResults s c v = Ok fr ->
  vec_at (flow_df_full fr) "V_app_fs_COG" k = Some u -> num_at (flow_df_full fr) "AWA_fs_COG_deg" k = Some a -> 
  (0 < vx u -> is_direction (rad a) (vx u) (vy u)) /\
  (vx u < 0 -> ~ is_direction (rad a) (vx u) (vy u) /\ forall th, is_direction th (vx u) (vy u) -> rad a = th + PI \/ rad a = th - PI).
Proof.
  intros s c v fr k u a E VU A. destruct (nth_error (vl_V_cp v) k) as [u'|] eqn:U.
  - destruct (fs_angle _ _ _ _ _ _ E U) as [A' V']. rewrite VU in V'. injection V' as <-. assert (EA : a = rad2deg (atan (vy u / vx u))) by congruence. subst a. rewrite rad_rad2deg. split.
    + intros X. apply tan_direction; lra.
    + intros X. assert (NZ : vx u <> 0) by (apply Rlt_not_eq; assumption). split; [intros D; apply tan_direction in D; lra|]. intros th D.
      pose proof (atan2_direction (vx u) (vy u) (or_introl NZ)) as D2. rewrite (direction_unique th _ _ _ (or_introl NZ) D D2). unfold Ratan2. destruct (Rlt_dec 0 (vx u)); [lra|]. destruct (Rlt_dec (vx u) 0); [|lra]. destruct (Rle_dec 0 (vy u)); [right|left]; ring.
  - exfalso. unfold InviscidFlowResults in E. cbv zeta in E. destruct (array_split _ _) as [fch|]; [|discriminate]. unfold bind at 1 in E.
    destruct (array_split _ _) as [rch|]; [|discriminate]. unfold bind in E. injection E as <-.
    change (nth_error (map rad2deg (map awa_app_fs (vl_V_cp v))) k = Some a) in A. rewrite !nth_error_map, U in A. discriminate.
Qed.

(** a run in a wind from astern: the reported angle is not the direction of the reported velocity *)
Theorem C57_refuted : exists nc ns sails ss rho w v c fr k u a, (forall s, In s sails -> built nc ns s) /\ SailSet sails = Ok ss /\
  Vlm (ss_panels ss) nc ns rho w (ss_te ss) (ss_le ss) = Ok v /\ InviscidFlowResults ss c v = Ok fr /\
  vec_at (flow_df_full fr) "V_app_fs_COG" k = Some u /\ num_at (flow_df_full fr) "AWA_fs_COG_deg" k = Some a /\ ~ is_direction (rad a) (vx u) (vy u).
Proof.
  destruct demo_sail as (G & s & ss & E & S & E1 & E2 & E3).
  assert (BB : forall s', In s' [s] -> built 1 1 s') by (intros s' [<-|[]]; do 9 eexists; exact E).
  destruct (aft_run 1) as (v & u0 & u1 & EV & U & X).
  assert (EV' : Vlm (ss_panels ss) 1 1 1 aft_wind (ss_te ss) (ss_le ss) = Ok v) by (rewrite E1, E2, E3; exact EV).
  destruct (C48_run 1 1 [s] ss 1 aft_wind v (Csys 0 0 szero) BB S EV') as (fr & EF & _).
  destruct (fs_angle ss _ v fr 0 u0 EF) as [A V]; [rewrite U; reflexivity|].
  destruct (C57_finite_sail_angle _ _ _ _ _ _ _ EF V A) as [_ W].
  exists 1%nat, 1%nat, [s]. do 9 eexists. split; [exact BB|]. split; [exact S|]. split; [exact EV'|]. split; [exact EF|]. split; [exact V|]. split; [exact A|].
  apply W, X.
Qed.

(** ** C50 *)
Lemma girths_all (s : sail_set R) c cp n m : length (ss_sails s) = n -> (0 < n)%nat -> (0 < m)%nat -> length cp = (2 * n * m)%nat ->
  let up k := reverse_rotations_with_mirror c (nth k cp szero) in
  let pts g := tab m (fun q => up (g * m + q)%nat) ++ tab m (fun q => up ((g + n) * m + q)%nat) in
  exists gp, get_cp_z_as_girths_all s c cp = Ok (concat gp, concat (tab n pts)) /\ length gp = n /\
    forall g sl, nth_error (ss_sails s) g = Some sl -> exists ga mx, nth_error gp g = Some ga /\ length ga = (2 * m)%nat /\
      In mx (map vz (pts g)) /\ (forall z, In z (map vz (pts g)) -> z <= mx) /\
      forall q, (q < m)%nat -> nth_error ga q = Some ((vz (up (g * m + q)%nat) - vz (sl_tack sl)) / (mx - vz (sl_tack sl))).
Proof.
  intros LS N M LC up pts. unfold get_cp_z_as_girths_all. cbv zeta. rewrite LS.
  destruct (array_split_groups cp (2 * n) m) as (ch & E & L & _ & W & P); [lia|assumption|]. rewrite E. unfold bind at 1.
  assert (PT : forall g, (g < n)%nat -> get_cp_straight_yacht c (nth g ch [] ++ nth (g + n) ch []) = pts g).
  { intros g G. rewrite (group_tab cp ch (2 * n) m szero g W L P), (group_tab cp ch (2 * n) m szero (g + n) W L P) by (assumption || lia).
    unfold get_cp_straight_yacht. rewrite map_app, !map_tab. reflexivity. }
  assert (LP : forall g, length (pts g) = (2 * m)%nat) by (intros; unfold pts; rewrite app_length, !tab_length; lia).
  set (f := fun isl : nat * sail R => _).
  assert (FS : forall g sl, (g < n)%nat -> exists ga mx, f (g, sl) = Ok (ga, pts g) /\ length ga = (2 * m)%nat /\ In mx (map vz (pts g)) /\ (forall z, In z (map vz (pts g)) -> z <= mx) /\
      forall q, (q < m)%nat -> nth_error ga q = Some ((vz (up (g * m + q)%nat) - vz (sl_tack sl)) / (mx - vz (sl_tack sl)))).
  { intros g sl G. destruct (py_max_spec (map vz (pts g))) as (mx & EM & IM & BM).
    { intros Z. apply (f_equal (@length R)) in Z. rewrite map_length, LP in Z. simpl in Z. lia. }
    eexists. exists mx. split.
    - unfold f. cbn [fst snd]. rewrite (PT g G). unfold cp_to_girths. rewrite EM. reflexivity.
    - split; [rewrite !map_length; apply LP|]. split; [exact IM|]. split; [exact BM|]. intros q Q. rewrite !nth_error_map.
      unfold pts at 1. rewrite nth_error_app1, tab_nth_error by (rewrite ?tab_length; assumption). reflexivity. }
  destruct (mapM_total f (combine (seq 0 n) (ss_sails s))) as [parts EP].
  { intros [g sl] I. apply in_combine_l, in_seq in I. destruct (FS g sl) as (ga & mx & A & _); [lia|]. eauto. }
  rewrite EP. unfold bind. pose proof (mapM_length _ _ _ EP) as LL. rewrite combine_length, seq_length, LS, Nat.min_id in LL.
  assert (NP : forall g sl, nth_error (ss_sails s) g = Some sl -> exists ga mx, nth_error parts g = Some (ga, pts g) /\ length ga = (2 * m)%nat /\ In mx (map vz (pts g)) /\ (forall z, In z (map vz (pts g)) -> z <= mx) /\
      forall q, (q < m)%nat -> nth_error ga q = Some ((vz (up (g * m + q)%nat) - vz (sl_tack sl)) / (mx - vz (sl_tack sl)))).
  { intros g sl G. assert (GL : (g < n)%nat) by (rewrite <- LS; eapply nth_error_Some_lt; eauto).
    assert (CS : nth_error (combine (seq 0 n) (ss_sails s)) g = Some (g, sl)) by (rewrite <- LS; apply (combine_seq_nth _ _ 0%nat); assumption).
    destruct (mapM_nth _ _ _ _ _ EP CS) as (b & B1 & B2). destruct (FS g sl GL) as (ga & mx & A & REST). exists ga, mx. split; [|exact REST]. congruence. }
  exists (map fst parts). split; [|split].
  - do 2 f_equal. f_equal. apply list_ext; rewrite ?map_length, ?tab_length; [assumption|]. intros g G. rewrite LL in G.
    destruct (nth_error_ex (ss_sails s) g) as [sl SL]; [lia|]. destruct (NP g sl SL) as (ga & mx & A & _). rewrite nth_error_map, A, tab_nth_error by assumption. reflexivity.
  - rewrite map_length. exact LL.
  - intros g sl G. destruct (NP g sl G) as (ga & mx & A & REST). exists ga, mx. rewrite nth_error_map, A. split; [reflexivity|exact REST].
Qed.
Lemma upright_of c p : 0 < vz p -> sheel (heel_deg c) (leeway_deg c) (reverse_rotations_with_mirror c p) = p.
Proof.
  intros Z. rewrite reverse_above by assumption. unfold sheel. 
  assert (LH : forall q, srot (V3 0 0 1) (rad (leeway_deg c)) (srot (V3 1 0 0) (- rad (heel_deg c)) q) = mapply (leeway_rotation_matrix c) (mapply (heeling_rotation_matrix c) q)).
  { intros q. rewrite leeway_apply, heel_apply. unfold leeway_a, heel_a, srot. rewrite ?cos_neg, ?sin_neg. destruct q as [x y z]. svec. vec_eq; ring. }
  rewrite LH, heel_rheel. rewrite leeway_apply, rleeway_apply. pose proof (sincos1 (leeway_a c)). destruct p as [x y z]; cbv [vx vy vz]. vec_eq; try nsz.
Qed.
Lemma upright_of_under c p : vz p <= 0 -> sheel (- heel_deg c) (leeway_deg c) (reverse_rotations_with_mirror c p) = p.
Proof.
  intros Z. rewrite reverse_below by assumption. unfold sheel. 
  assert (LH : forall q, srot (V3 0 0 1) (rad (leeway_deg c)) (srot (V3 1 0 0) (- rad (- heel_deg c)) q) = mapply (leeway_rotation_matrix c) (mapply (reverse_heeling_rotation_matrix c) q)).
  { intros q. rewrite leeway_apply, rheel_apply. replace (- rad (- heel_deg c)) with (rad (heel_deg c)) by (unfold rad; ring). unfold leeway_a, heel_a, srot. destruct q as [x y z]. svec. vec_eq; ring. }
  rewrite LH, rheel_heel. rewrite leeway_apply, rleeway_apply. pose proof (sincos1 (leeway_a c)). destruct p as [x y z]; cbv [vx vy vz]. vec_eq; try nsz.
Qed.
Lemma flow_results_fields (s : sail_set R) c v fr : InviscidFlowResults s c v = Ok fr ->
  fr_gamma fr = vl_gamma v /\ fr_pressure fr = vl_pressure v /\ fr_V_ind fr = vl_V_ind_cp v /\ fr_V_fs fr = vl_V_cp v /\ fr_awa_fs fr = map awa_app_fs (vl_V_cp v).
Proof.
  unfold InviscidFlowResults. cbv zeta. destruct (array_split _ _) as [fch|]; [|discriminate]. unfold bind at 1. destruct (array_split _ _) as [rch|]; [|discriminate]. unfold bind.
  intros E. injection E as <-. cbn [fr_gamma fr_pressure fr_V_ind fr_V_fs fr_awa_fs]. auto.
Qed.
(** ** C07: the columns of the result tables *)
(** Every reported COW angle is the COG angle minus the leeway, whereas every reported COW force is the COG force turned by plus the leeway. *)
Theorem C07_columns : forall s c v fr k, InviscidFlowResults s c v = Ok fr ->
  (forall a, num_at (flow_df_full fr) "AWA_fs_COG_deg" k = Some a -> num_at (flow_df_full fr) "AWA_fs_COW_deg" k = Some (a - leeway_deg c)) /\
  (forall a, num_at (inlet_df_full (vl_inlet v) c) "AWA_infs_COG_deg" k = Some a -> num_at (inlet_df_full (vl_inlet v) c) "AWA_infs_COW_deg" k = Some (a - leeway_deg c)) /\
  (forall w h tws app a b, exp_integral_report w c h = Ok (tws, app, a, b) -> b = a - leeway_deg c) /\
  (forall r th z, vec_at (flow_df_full fr) "F_sails_COG" k = Some (V3 (r * cos th) (r * sin th) z) ->
     vec_at (flow_df_full fr) "F_sails_COW" k = Some (V3 (r * cos (th + rad (leeway_deg c))) (r * sin (th + rad (leeway_deg c))) z)).
Proof.
  intros s c v fr k E. destruct (flow_results_inv _ _ _ _ E) as (FC & FF & _ & _ & FM & _ & _ & FFC & _). destruct (flow_results_fields _ _ _ _ E) as (_ & _ & _ & _ & FA). repeat split.
  - intros a A. change (nth_error (map rad2deg (fr_awa_fs fr)) k = Some a) in A. change (nth_error (map (fun a => rad2deg a - leeway_deg (fr_csys fr)) (fr_awa_fs fr)) k = Some (a - leeway_deg c)).
    rewrite FC. rewrite nth_error_map in *. destruct (nth_error (fr_awa_fs fr) k); [|discriminate]. cbn [option_map] in *. congruence.
  - intros a A. change (nth_error (in_awa_deg (vl_inlet v)) k = Some a) in A. change (nth_error (map (fun a => a - leeway_deg c) (in_awa_deg (vl_inlet v))) k = Some (a - leeway_deg c)).
    rewrite nth_error_map, A. reflexivity.
  - intros w h tws app a b. unfold exp_integral_report. destruct (get_true_wind_speed_at_h _ _); [|discriminate]. unfold bind. cbv zeta. intros X. injection X as <- <- <- <-. reflexivity.
  - intros r th z. change (match nth_error (map vx (fr_F fr)) k, nth_error (map vy (fr_F fr)) k, nth_error (map vz (fr_F fr)) k with Some x, Some y, Some z => Some (V3 x y z) | _, _, _ => None end = Some (V3 (r * cos th) (r * sin th) z) ->
      match nth_error (map vx (fr_F_cl fr)) k, nth_error (map vy (fr_F_cl fr)) k, nth_error (map vz (fr_F_cl fr)) k with Some x, Some y, Some z => Some (V3 x y z) | _, _, _ => None end = Some (V3 (r * cos (th + rad (leeway_deg c))) (r * sin (th + rad (leeway_deg c))) z)).
    rewrite FFC, FF. rewrite !nth_error_map. destruct (nth_error (vl_force v) k) as [f|]; [|discriminate]. cbn [option_map]. rewrite leeway_apply. intros X.
    assert (F : vx f = r * cos th /\ vy f = r * sin th /\ vz f = z) by (split; [|split]; congruence). destruct F as (X1 & X2 & X3). rewrite cos_plus, sin_plus. cbn [vx vy vz]. unfold leeway_a. rewrite X1, X2, X3. f_equal. vec_eq; ring.
Qed.

Definition half_rows {A} (l : list A) : list A := firstn (length l - length l / 2) l.
Lemma half_length {A} (l : list A) N : length l = (2 * N)%nat -> length (half_rows l) = N.
Proof. intros L. unfold half_rows. rewrite firstn_length, L. replace (2 * N / 2)%nat with N by (rewrite Nat.mul_comm, Nat.div_mul; lia). lia. Qed.
Lemma half_nth {A} (l : list A) N k : length l = (2 * N)%nat -> (k < N)%nat -> nth_error (half_rows l) k = nth_error l k.
Proof. intros L K. unfold half_rows. apply nth_error_firstn. rewrite L. replace (2 * N / 2)%nat with N by (rewrite Nat.mul_comm, Nat.div_mul; lia). lia. Qed.
Lemma half_vec (l : list (vec R)) N k a : length l = (2 * N)%nat -> (k < N)%nat -> nth_error l k = Some a ->
  match nth_error (half_rows (map vx l)) k, nth_error (half_rows (map vy l)) k, nth_error (half_rows (map vz l)) k with Some x, Some y, Some z => Some (V3 x y z) | _, _, _ => None end = Some a.
Proof. intros L K A. rewrite !(half_nth _ N) by (rewrite ?map_length; assumption). rewrite !nth_error_map, A. destruct a; reflexivity. Qed.
Lemma names_nth m (sails : list (sail R)) g sl q : nth_error sails g = Some sl -> (q < m)%nat ->
  nth_error (flat_map (fun sl => repeat (sl_name sl) m) sails) (g * m + q) = Some (sl_name sl).
Proof.
  intros G Q. rewrite flat_map_concat_map. rewrite (concat_groups_nth _ m g (repeat (sl_name sl) m)); [|..].
  - destruct (nth_error (repeat (sl_name sl) m) q) as [a|] eqn:A; [apply nth_error_In, repeat_spec in A; congruence|]. apply nth_error_None in A. rewrite repeat_length in A. lia.
  - intros a I. apply in_map_iff in I. destruct I as (x & <- & _). apply repeat_length.
  - rewrite nth_error_map, G. reflexivity.
  - assumption.
Qed.
Theorem C50_rows : forall nc ns sails ss rho w v c fr, (0 < nc)%nat -> (0 < ns)%nat -> (forall s, In s sails -> built nc ns s) -> SailSet sails = Ok ss ->
  Vlm (ss_panels ss) nc ns rho w (ss_te ss) (ss_le ss) = Ok v -> InviscidFlowResults ss c v = Ok fr ->
  let m := (nc * ns)%nat in let n := length sails in
  exists t up, components_table v c fr ss = Ok t /\
    (forall col, In col t -> column_length col = (n * m)%nat) /\
    (* up k: the centre of pressure k on the upright yacht *)
    (forall k p, nth_error (vl_cp v) k = Some p -> (0 < vz p -> sheel (heel_deg c) (leeway_deg c) (up k) = p) /\ (vz p <= 0 -> sheel (- heel_deg c) (leeway_deg c) (up k) = p)) /\
    forall g sl, nth_error sails g = Some sl ->
      exists top, (exists g' q, (g' = g \/ g' = g + n)%nat /\ (q < m)%nat /\ top = vz (up (g' * m + q)%nat)) /\
      (forall g' q, (g' = g \/ g' = g + n)%nat -> (q < m)%nat -> vz (up (g' * m + q)%nat) <= top) /\
      forall q, (q < m)%nat -> let k := (g * m + q)%nat in
        nth_error (ss_panels ss) k = nth_error (sl_above sl) q /\
        str_at t "sail_name" k = Some (sl_name sl) /\
        num_at t "cp_points_upright.z" k = Some (vz (up k)) /\
        num_at t "girths" k = Some ((vz (up k) - vz (sl_tack sl)) / (top - vz (sl_tack sl))) /\
        exists f p i u x gam pr,
          nth_error (vl_force v) k = Some f /\ vec_at t "F_sails_COG" k = Some f /\
          nth_error (vl_cp v) k = Some p /\ vec_at t "cp_points_COG" k = Some p /\
          nth_error (in_V (vl_inlet v)) k = Some i /\ vec_at t "V_app_infs_COG" k = Some i /\
          nth_error (vl_V_cp v) k = Some u /\ vec_at t "V_app_fs_COG" k = Some u /\
          nth_error (vl_V_ind_cp v) k = Some x /\ vec_at t "V_induced_COG" k = Some x /\
          nth_error (vl_gamma v) k = Some gam /\ num_at t "Circulation_magnitude" k = Some gam /\
          nth_error (vl_pressure v) k = Some pr /\ num_at t "Pressure" k = Some pr /\
          vec_at t "M_sails_COG" k = Some (scross (moment_arm (ref_vec c) p) f) /\
          vec_at t "F_sails_COW" k = Some (srot (V3 0 0 1) (rad (leeway_deg c)) f).
Proof.
  intros nc ns sails ss rho w v c fr NC NS B E EV EF m n. destruct (sail_set_flags nc ns sails ss B E) as [LP FL]. fold m n in LP.
  assert (MP : (0 < m)%nat) by (unfold m; nia).
  assert (ES : ss_sails ss = sails) by (destruct sails; [discriminate|]; injection E as <-; reflexivity).
  assert (N : (0 < n)%nat) by (destruct sails; [discriminate|]; unfold n; simpl; lia).
  destruct (C48_run nc ns sails ss rho w v c B E EV) as (fr0 & EF0 & _ & _ & SP). rewrite EF in EF0. injection EF0 as <-. fold m in SP.
  assert (LT : length (ss_te ss) = length (ss_panels ss)) by (rewrite LP; apply (fl_te_len _ _ _ _ _ FL)).
  destruct (C60_complete_results _ _ _ _ _ _ _ _ LT EV) as (_ & _ & _ & LC & _ & _ & LI & LG & _ & LU & LF & _ & _ & LPR & _).
  destruct (Vlm_inv _ _ _ _ _ _ _ _ LT EV) as (vars & ic & gg & net & CV & LV & IC & LIV & VS & SO & FW).
  assert (LX : length (vl_V_ind_cp v) = length (ss_panels ss)) by (rewrite (f_V_ind_cp _ _ _ _ _ _ _ _ _ _ _ _ _ _ FW), tab_length; reflexivity).
  assert (IL : length (in_cp (vl_inlet v)) = length (ss_panels ss) /\ in_cp (vl_inlet v) = vl_cp v /\ length (in_tws (vl_inlet v)) = length (ss_panels ss) /\ length (in_awa_deg (vl_inlet v)) = length (ss_panels ss)).
  { rewrite (f_inlet _ _ _ _ _ _ _ _ _ _ _ _ _ _ FW). unfold vl_cp. rewrite (f_vars _ _ _ _ _ _ _ _ _ _ _ _ _ _ FW). rewrite <- (list_tab vars _ dpv LV).
    unfold InletConditions in IC. destruct (mapM _ _) as [tws|] eqn:MT; [|discriminate]. unfold bind in IC. injection IC as <-. cbn [in_cp in_tws in_awa_deg].
    apply mapM_length in MT. rewrite !map_length in *. repeat split; congruence. }
  destruct IL as (ILC & ICP & ILT & ILA). set (K := length (ss_panels ss)) in *.
  destruct (flow_results_inv _ _ _ _ EF) as (FC & FF & _ & _ & FM & _ & _ & FFC & _). destruct (flow_results_fields _ _ _ _ EF) as (FG & FP & FI & FS & FAW).
  destruct (girths_all ss c (vl_cp v) n m) as (gp & GA & LGP & GG); [rewrite ES; reflexivity|assumption|assumption|rewrite LC; unfold K; exact LP|].
  set (up := fun k => reverse_rotations_with_mirror c (nth k (vl_cp v) szero)) in *. cbv zeta in GA, GG. set (pts := fun g : nat => _ ++ _) in GA, GG.
  assert (WG : forall a, In a gp -> length a = (2 * m)%nat).
  { intros a I. apply In_nth_error in I. destruct I as [g I]. destruct (nth_error_ex (ss_sails ss) g) as [sl SL]; [rewrite ES; fold n; rewrite <- LGP; eapply nth_error_Some_lt; eauto|].
    destruct (GG g sl SL) as (ga & mx & A & A2 & _). congruence. }
  assert (WP : forall a, In a (tab n pts) -> length a = (2 * m)%nat).
  { intros a I. apply in_tab in I. destruct I as (g & _ & ->). unfold pts. rewrite app_length, !tab_length. lia. }
  destruct (second_groups gp n m N LGP WG) as (gs & _ & GS & LGS & NGS). destruct (second_groups (tab n pts) n m N (tab_length _ _) WP) as (us & US & _ & LUS & NUS).
  destruct (nth_error_ex sails 0) as [sl0 SL]; [exact N|]. assert (SL0 : py_nth sails 0 = Ok sl0) by (apply (py_nth_nat sails 0); assumption).
  eexists. exists up. split.
  { unfold components_table. rewrite GA. unfold bind at 1. unfold get_cp_z_as_girths_all_above. cbv zeta. rewrite ES. fold n. rewrite GS. unfold bind at 2.
    replace (n =? 0)%nat with false by (symmetry; apply Nat.eqb_neq; lia). rewrite LGS, Nat.mul_comm, Nat.div_mul by lia. unfold bind at 1. 
    rewrite US. unfold bind at 1. rewrite SL0. unfold bind. reflexivity. }
  assert (HK : K = (2 * (n * m))%nat) by lia.
  split; [|split].
  - intros col I. apply in_app_or in I. destruct I as [I|I]; [|apply in_app_or in I; destruct I as [I|I]].
    + apply in_map_iff in I. destruct I as (col' & <- & I). assert (X : column_length col' = K).
      { apply in_sort in I. revert I. unfold flow_dict, vcols. rewrite FG, FP, FI, FS, FAW, FF, FM, FFC. simpl.
        intros I. repeat (destruct I as [<-|I]; [cbn [column_length]; rewrite ?map_length, ?zipWith_length, ?map_length; rewrite ?LG, ?LX, ?LU, ?LPR, ?LF, ?LC; try reflexivity; apply Nat.min_id|]). destruct I. }
      destruct col' as [nm l|nm l]; cbn [col_above column_length] in *; apply half_length; congruence.
    + apply in_map_iff in I. destruct I as (col' & <- & I). assert (X : column_length col' = K).
      { apply in_sort in I. revert I. unfold inlet_dict, vcols. simpl.
        intros I. repeat (destruct I as [<-|I]; [cbn [column_length]; rewrite ?map_length; rewrite ?ILC, ?ILT, ?LI, ?ILA; reflexivity|]). destruct I. }
      destruct col' as [nm l|nm l]; cbn [col_above column_length] in *; apply half_length; congruence.
    + destruct I as [<-|[<-|[<-|[]]]]; cbn [column_length].
      * rewrite map_length. exact LUS.
      * exact LGS.
      * rewrite flat_map_concat_map. rewrite (concat_groups_length _ m); [rewrite map_length; reflexivity|]. intros a I. apply in_map_iff in I. destruct I as (x & <- & _). apply repeat_length.
  - intros k p P. unfold up. rewrite (nth_of_error _ _ _ _ P). split; [apply upright_of|apply upright_of_under].
  - intros g sl G. assert (GL : (g < n)%nat) by (eapply nth_error_Some_lt; eauto). assert (G' := G). rewrite <- ES in G'. destruct (GG g sl G') as (ga & top & A1 & A2 & A3 & A4 & A5). exists top.
    split; [|split].
    + apply in_map_iff in A3. destruct A3 as (p & <- & A3). unfold pts in A3. apply in_app_or in A3. destruct A3 as [A3|A3]; apply in_tab in A3; destruct A3 as (q & Q & ->); [exists g, q|exists (g + n)%nat, q]; auto.
    + intros g' q GQ Q. apply A4, in_map. unfold pts. apply in_or_app. destruct GQ as [-> | ->]; [left|right]; apply in_map_iff; exists q; (split; [reflexivity|]); apply in_seq; lia.
    + intros q Q k. assert (KN : (k < n * m)%nat) by (unfold k; nia).
      destruct (SP g sl G) as (t0 & _ & _ & _ & _ & PN). split; [apply PN; assumption|].
      split; [change (nth_error (flat_map (fun sl => repeat (sl_name sl) m) sails) k = Some (sl_name sl)); apply names_nth; assumption|].
      assert (UN : nth_error (concat (every_second us)) k = Some (up k)).
      { unfold k. rewrite (NUS g (pts g) q) by (assumption || (apply tab_nth_error; assumption)). unfold pts. rewrite nth_error_app1, tab_nth_error by (rewrite ?tab_length; assumption). reflexivity. }
      split; [change (nth_error (map vz (concat (every_second us))) k = Some (vz (up k))); rewrite nth_error_map, UN; reflexivity|].
      split; [change (nth_error (concat (every_second gs)) k = Some ((vz (up k) - vz (sl_tack sl)) / (top - vz (sl_tack sl)))); unfold k; rewrite (NGS g ga q) by assumption; apply A5; assumption|].
      destruct (nth_error_ex (vl_force v) k) as [f Hf]; [lia|]. destruct (nth_error_ex (vl_cp v) k) as [p Hp]; [lia|]. destruct (nth_error_ex (in_V (vl_inlet v)) k) as [i Hi]; [lia|].
      destruct (nth_error_ex (vl_V_cp v) k) as [u Hu]; [lia|]. destruct (nth_error_ex (vl_V_ind_cp v) k) as [x Hx]; [lia|]. destruct (nth_error_ex (vl_gamma v) k) as [gam Hg]; [lia|].
      destruct (nth_error_ex (vl_pressure v) k) as [pr Hr]; [lia|]. exists f, p, i, u, x, gam, pr.
      assert (HM : nth_error (fr_M fr) k = Some (scross (moment_arm (ref_vec c) p) f)) by (rewrite FM; apply nth_error_zipWith; [rewrite nth_error_map, Hp; reflexivity|assumption]).
      assert (HC : nth_error (fr_F_cl fr) k = Some (srot (V3 0 0 1) (rad (leeway_deg c)) f)) by (rewrite FFC, nth_error_map, Hf; cbn [option_map]; rewrite leeway_spec; reflexivity).
      rewrite <- FF in Hf. rewrite <- ICP in Hp. rewrite <- FS in Hu. rewrite <- FI in Hx. rewrite <- FG in Hg. rewrite <- FP in Hr. rewrite <- FF in LF. rewrite <- FS in LU. rewrite <- FI in LX. rewrite <- FG in LG. rewrite <- FP in LPR.
      assert (LM : length (fr_M fr) = K) by (rewrite FM, zipWith_length, map_length, LC, <- FF, LF; apply Nat.min_id).
      assert (LFC : length (fr_F_cl fr) = K) by (rewrite FFC, map_length, <- FF; exact LF).
      rewrite HK in *. rewrite <- FF, <- ICP, <- FS, <- FI, <- FG, <- FP.
      split; [exact Hf|]. split; [exact (half_vec _ (n * m) k _ LF KN Hf)|]. split; [exact Hp|]. split; [exact (half_vec _ (n * m) k _ ILC KN Hp)|].
      split; [exact Hi|]. split; [exact (half_vec _ (n * m) k _ LI KN Hi)|]. split; [exact Hu|]. split; [exact (half_vec _ (n * m) k _ LU KN Hu)|].
      split; [exact Hx|]. split; [exact (half_vec _ (n * m) k _ LX KN Hx)|]. split; [exact Hg|]. split; [exact (eq_trans (half_nth _ (n * m) k LG KN) Hg)|].
      split; [exact Hr|]. split; [exact (eq_trans (half_nth _ (n * m) k LPR KN) Hr)|]. split; [exact (half_vec _ (n * m) k _ LM KN HM)|exact (half_vec _ (n * m) k _ LFC KN HC)].
Qed.

(** ** Concrete cases *)
Example C46_case : exists s c d v fr fr', InviscidFlowResults s c v = Ok fr /\ InviscidFlowResults s (shifted d c) v = Ok fr' /\ length (vl_cp v) = length (vl_force v) /\
  (forall k p, (k < length (vl_cp v) / 2)%nat -> nth_error (vl_cp v) k = Some p -> 0 < vz p) /\ scross d (fr_F_total fr) <> szero /\
  exists p, nth_error (vl_cp v) 0 = Some p /\ nth_error (vl_cp v) 1 = Some (smirror p) /\ 0 < vz p.
Proof.
  destruct (demo_results 1 (Csys 0 0 szero) Rlt_0_1) as (s & ss & v & fr & f & B & S & EV & EF & FT & FY & FZ & _ & LF & CP & _ & _ & X).
  destruct (X (shifted (V3 0 0 1) (Csys 0 0 szero))) as [fr' EF']. exists ss, (Csys 0 0 szero), (V3 0 0 1), v, fr, fr'. split; [exact EF|]. split; [exact EF'|]. split; [rewrite CP, LF; reflexivity|].
  split; [rewrite CP; intros [|k] p K P; simpl in K; [injection P as <-; simpl; lra | lia]|]. split.
  - rewrite FT. intros Q. apply (f_equal vx) in Q. destruct f as [a b c]. cbn [vy] in FY. unfold scross, szero in Q. cbn [vx vy vz] in Q. lra.
  - rewrite CP. eexists. split; [reflexivity|]. split; [reflexivity|]. simpl; lra.
Qed.
Example C47_case : exists s c v fr p, InviscidFlowResults s c v = Ok fr /\ fr_F_total fr <> szero /\ 0 < vz p /\ length (vl_cp v) = length (vl_force v) /\
  (forall k q, (k < length (vl_cp v) / 2)%nat -> nth_error (vl_cp v) k = Some q -> q = p).
Proof.
  destruct (demo_results 1 (Csys 0 0 szero) Rlt_0_1) as (s & ss & v & fr & f & B & S & EV & EF & FT & FY & FZ & _ & LF & CP & _). exists ss, (Csys 0 0 szero), v, fr, (V3 12 0 (25/2)). split; [exact EF|].
  split; [rewrite FT; intros Q; rewrite Q in FY; simpl in FY; lra|]. split; [simpl; lra|]. split; [rewrite CP, LF; reflexivity|].
  rewrite CP; intros [|k] p K P; simpl in K; [injection P as <-; reflexivity | lia].
Qed.
Example C47_moment_case : V3 0 2 0 <> szero /\ sdot (V3 1 0 3) (V3 0 2 0) = 0.
Proof. split; [intros Q; apply (f_equal vy) in Q; simpl in Q; lra | svec; ring]. Qed.
Example C48_case : exists nc ns sails ss rho w v c fr, (forall s, In s sails -> built nc ns s) /\ SailSet sails = Ok ss /\ Vlm (ss_panels ss) nc ns rho w (ss_te ss) (ss_le ss) = Ok v /\
  InviscidFlowResults ss c v = Ok fr /\ length (ss_sails ss) = 1%nat /\ length (vl_force v) = (2 * 1 * (nc * ns))%nat /\ length (vl_cp v) = (2 * 1 * (nc * ns))%nat /\ 0 < vy (fr_F_total fr).
Proof.
  destruct (demo_results 1 (Csys 0 0 szero) Rlt_0_1) as (s & ss & v & fr & f & B & S & EV & EF & FT & FY & FZ & _ & LF & CP & _). exists 1%nat, 1%nat, [s]. do 6 eexists.
  split; [intros s1 [<-|[]]; exact B|]. split; [exact S|]. split; [exact EV|]. split; [exact EF|]. injection S as <-. split; [reflexivity|]. split; [exact LF|]. split; [rewrite CP; reflexivity|]. rewrite FT. exact FY.
Qed.
Example C49_case : exists s c d clr v fr fr', InviscidFlowResults s c v = Ok fr /\ InviscidFlowResults s (shifted d c) v = Ok fr' /\ length (vl_cp v) = length (vl_force v) /\
  (forall k p, (k < length (vl_cp v) / 2)%nat -> nth_error (vl_cp v) k = Some p -> 0 < vz p) /\ scross d (fr_F_total fr) <> szero /\ clr = V3 0 0 (-1).
Proof. destruct C46_case as (s & c & d & v & fr & fr' & A & B & C & D & E & _). exists s, c, d, (V3 0 0 (-1)), v, fr, fr'. repeat (split; [assumption|]). reflexivity. Qed.
Example C50_case : exists nc ns sails ss rho w v c fr, (0 < nc)%nat /\ (0 < ns)%nat /\ (forall s, In s sails -> built nc ns s) /\ SailSet sails = Ok ss /\
  Vlm (ss_panels ss) nc ns rho w (ss_te ss) (ss_le ss) = Ok v /\ InviscidFlowResults ss c v = Ok fr /\ sails <> [] /\ exists p, nth_error (vl_cp v) 0 = Some p /\ 0 < vz p.
Proof.
  destruct (demo_results 1 (Csys 0 0 szero) Rlt_0_1) as (s & ss & v & fr & f & B & S & EV & EF & FT & FY & FZ & _ & LF & CP & _). exists 1%nat, 1%nat, [s]. do 6 eexists. split; [lia|]. split; [lia|].
  split; [intros s1 [<-|[]]; exact B|]. split; [exact S|]. split; [exact EV|]. split; [exact EF|]. split; [discriminate|]. rewrite CP. eexists. split; [reflexivity|]. simpl; lra.
Qed.
Example C51_case : exists p, In p [V3 0 0 1; V3 1 0 4; V3 0 1 2] /\ vz (V3 7 7 (1/2)) < vz p.
Proof. exists (V3 1 0 4). simpl. split; [auto | lra]. Qed.
Example C57_case : exists s c v fr u a, InviscidFlowResults s c v = Ok fr /\ vec_at (flow_df_full fr) "V_app_fs_COG" 0 = Some u /\ num_at (flow_df_full fr) "AWA_fs_COG_deg" 0 = Some a /\ 0 < vx u.
Proof.
  destruct demo_sail as (G & s & ss & E & S & E1 & E2 & E3). destruct (demo_Vlm 1) as (v & EV). destruct (demo_force 1 v EV Rlt_0_1) as (f0 & f1 & u0 & u1 & F & FY & FZ & CP & U & UX & _).
  rewrite <- E1, <- E2, <- E3 in EV. destruct (C48_run 1 1 [s] ss 1 demo_wind v (Csys 0 0 szero)) as (fr & EF & _); [intros s1 [<-|[]]; do 9 eexists; exact E|exact S|exact EV|].
  assert (N : nth_error (vl_V_cp v) 0 = Some u0) by (rewrite U; reflexivity). destruct (fs_angle _ _ _ _ _ _ EF N) as [A B]. do 6 eexists. split; [exact EF|]. split; [exact B|]. split; [exact A|]. lra.
Qed.
Definition two_sails (a b : string) : flow_results R :=
  FlowResults (Csys 0 0 szero) [] [] [] [] [] [] (V3 4 6 0) [] [SailTotal a (V3 1 2 0) (V3 0 0 1); SailTotal b (V3 3 4 0) (V3 0 0 2)] [] (V3 0 0 3) szero [] (V3 4 6 0) [] (V3 0 0 3).
Example C61_case : exists t, nth_error (fr_sails (two_sails "jib" "main")) 0 = Some t /\
  (forall g' t', (0 < g')%nat -> nth_error (fr_sails (two_sails "jib" "main")) g' = Some t' -> st_name t' <> st_name t) /\
  (forall t, In t (fr_sails (two_sails "jib" "main")) -> st_name t <> "sails"%string /\ st_name t <> "keel"%string).
Proof.
  eexists. split; [reflexivity|]. split.
  - intros [|[|[|g]]] t' L P; try lia; simpl in P; try discriminate. injection P as <-. discriminate.
  - intros t [<-|[<-|[]]]; split; discriminate.
Qed.
Example C61_same_case : exists t t', nth_error (fr_sails (two_sails "main" "main")) 0 = Some t /\ nth_error (fr_sails (two_sails "main" "main")) 1 = Some t' /\ st_name t' = st_name t /\
  (forall j u, (1 < j)%nat -> nth_error (fr_sails (two_sails "main" "main")) j = Some u -> st_name u <> st_name t') /\ st_F t <> st_F t'.
Proof.
  do 2 eexists. split; [reflexivity|]. split; [reflexivity|]. split; [reflexivity|]. split.
  - intros [|[|[|j]]] u L P; try lia; simpl in P; discriminate.
  - intros Q. apply (f_equal vx) in Q. simpl in Q. lra.
Qed.

Print Assumptions C46_moments. Print Assumptions C46_shift. Print Assumptions C47_recovers. Print Assumptions C47_any_moment. Print Assumptions C47_reported.
Print Assumptions C48_totals. Print Assumptions C48_run. Print Assumptions C49_total_moment. Print Assumptions C49_refuted. Print Assumptions C50_rows.
Print Assumptions C51_girths. Print Assumptions C51_empty. Print Assumptions C57_finite_sail_angle. Print Assumptions C61_sail_rows. Print Assumptions C61_overall_rows. Print Assumptions C61_same_name.
Print Assumptions C57_refuted.
Print Assumptions C07_columns.
