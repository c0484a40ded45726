(** Section coefficients, their plots and the theoretical wing coefficients: C52, C53, C58. *)

From Coq Require Import String ZArith Reals List Bool Lra Psatz Lia Arith.
From Verif Require Import Num PyBase RNum Spec M_Csys M_Panels M_Coefs M_Forces M_Winds M_Vlm M_Sail M_Results M_Runner
  L_List L_Rot L_Vel L_Csys L_Sail L_Lattice L_Vlm L_Vlm2 L_Results L_Demo L_DemoForce P_Sail P_Lattice P_Vlm P_Results.
Import ListNotations.
Open Scope R_scope.

(** ** C52 *)
Lemma strip_tab {A} nc ns (d : A) j l : length l = (nc * ns)%nat -> (j < ns)%nat -> strip nc ns d j l = Ok (tab nc (fun r => nth (r * ns + j) l d)).
Proof.
  intros L J. unfold strip, reshape. rewrite L, Nat.eqb_refl. unfold bind. f_equal. apply list_ext; [rewrite map_length, chunks_length, repeat_length, tab_length; reflexivity|].
  intros r Hr. rewrite map_length, chunks_length, repeat_length in Hr. rewrite nth_error_map, chunks_repeat_nth, tab_nth_error by assumption. cbn [option_map]. f_equal.
  assert (B : (r * ns + j < length l)%nat) by (rewrite L; nia). destruct (nth_error_ex l _ B) as [x X]. rewrite (nth_of_error _ _ d _ X).
  apply nth_of_error. rewrite nth_error_firstn, nth_error_skipn by assumption. exact X.
Qed.
Lemma nsum_rsum (l : list R) : nsum l = rsum l.
Proof.
  unfold nsum. assert (G : forall l a, fold_left nadd l a = a + rsum l).
  { clear. induction l as [|x l IH]; intros a; simpl; [rnum; ring|]. rewrite IH. rnum. unfold rsum. simpl. fold (rsum l). ring. }
  rewrite G. rnum. ring.
Qed.
Lemma half_dec : @ndec R RNum 5 1 = 1 / 2.
Proof. rewrite ndec_R. change (10 ^ 1)%Z with 10%Z. lra. Qed.
Lemma panel_coefficient_s rho f v a : panel_coefficient rho f v a = scoef rho f v a.
Proof. unfold panel_coefficient, scoef. rewrite half_dec. tospec. rnum. f_equal. ring. Qed.
Lemma section_tab nc ns c ar j : length c = (nc * ns)%nat -> length ar = (nc * ns)%nat -> (j < ns)%nat ->
  section_coefficient nc ns c ar j = Ok (wmean nc (fun r => nth (r * ns + j) ar 0) (fun r => nth (r * ns + j) c 0)).
Proof.
  intros LC LA J. unfold section_coefficient. rewrite !strip_tab by assumption. unfold bind. rewrite zipWith_tab, !nsum_rsum. unfold wmean. rnum. do 2 f_equal.
  apply sumn_ext. intros. ring.
Qed.
Lemma split_tab {A} (l : list A) n m d : (0 < n)%nat -> length l = (2 * n * m)%nat ->
  exists ls, np_split l (2 * n) = Ok ls /\ length ls = (2 * n)%nat /\ forall i, (i < 2 * n)%nat -> nth i ls [] = tab m (fun q => nth (i * m + q) l d).
Proof.
  intros N L. rewrite (np_split_exact l (2 * n) m) by (assumption || lia). destruct (array_split_groups l (2 * n) m) as (ls & E & LL & _ & W & NT); [lia|assumption|].
  exists ls. split; [exact E|]. split; [exact LL|]. intros i I. destruct (nth_error_ex ls i) as [a A']; [lia|]. rewrite (nth_of_error _ _ _ _ A').
  pose proof (W a (nth_error_In _ _ A')) as LA. apply list_ext; [rewrite tab_length; exact LA|]. intros q Q. rewrite LA in Q. rewrite tab_nth_error by assumption.
  rewrite (NT i a q A' Q). apply nth_error_nth'. rewrite L. nia.
Qed.
(* the coefficients of all sections *)
Definition sections (nc ns n : nat) (rho : R) (areas : list R) (force wind : list (vec R)) : list (list R) :=
  tab n (fun i => tab ns (fun j => wmean nc (fun r => nth (cell nc ns i r j) areas 0)
    (fun r => scoef rho (nth (cell nc ns i r j) force szero) (nth (cell nc ns i r j) wind szero) (nth (cell nc ns i r j) areas 0)))).
Lemma groups_of nc ns n : (0 < nc)%nat -> (0 < ns)%nat -> (2 * n * (nc * ns) / (ns * nc * 2))%nat = n.
Proof. intros. replace (2 * n * (nc * ns))%nat with (n * (ns * nc * 2))%nat by ring. apply Nat.div_mul. nia. Qed.
Lemma get_C_tab (panels : list (panel R)) areas force wind nc ns n rho : (0 < nc)%nat -> (0 < ns)%nat -> (0 < n)%nat ->
  length panels = (2 * n * (nc * ns))%nat -> length areas = length panels -> length force = length panels -> length wind = length panels ->
  get_C panels areas force wind ns nc rho = Ok (sections nc ns n rho areas force wind).
Proof.
  intros NC NS N LP LA LF LW. rewrite LP in *. unfold get_C. replace (ns * nc * 2 =? 0)%nat with false by (symmetry; apply Nat.eqb_neq; nia).
  rewrite LP, groups_of by assumption. cbv zeta.
  destruct (split_tab wind n _ szero N LW) as (ws & -> & LWS & WS). destruct (split_tab force n _ szero N LF) as (fs & -> & LFS & FS). destruct (split_tab areas n _ 0 N LA) as (ars & -> & LAS & AS).
  unfold bind. unfold sections, tab. apply mapM_map. intros i I. apply in_seq in I. rewrite WS, FS, AS by lia. rewrite combine_tab, zipWith_tab. cbn [fst snd].
  apply mapM_map. intros j J. apply in_seq in J. rewrite section_tab by (rewrite ?tab_length; (reflexivity || lia)). f_equal. unfold wmean.
  assert (C : forall r, (r < nc)%nat -> (r * ns + j < nc * ns)%nat /\ (i * (nc * ns) + (r * ns + j))%nat = cell nc ns i r j) by (intros; split; [nia | unfold cell; nia]).
  f_equal; apply sumn_ext; intros r Hr; destruct (C r Hr) as [C1 C2]; rewrite ?tab_nth, ?panel_coefficient_s, C2 by assumption; reflexivity.
Qed.
Theorem C52_sections : forall (panels : list (panel R)) areas force wind nc ns n rho, (0 < nc)%nat -> (0 < ns)%nat -> (0 < n)%nat ->
  length panels = (2 * n * (nc * ns))%nat -> length areas = length panels -> length force = length panels -> length wind = length panels ->
  exists cs, get_C panels areas force wind ns nc rho = Ok cs /\ length cs = n /\
    forall i row, nth_error cs i = Some row -> length row = ns /\
      forall j x, nth_error row j = Some x ->
        x = wmean nc (fun r => nth (cell nc ns i r j) areas 0)
              (fun r => scoef rho (nth (cell nc ns i r j) force szero) (nth (cell nc ns i r j) wind szero) (nth (cell nc ns i r j) areas 0)).
Proof.
  intros. eexists. split; [apply (get_C_tab _ _ _ _ _ _ n); assumption|]. split; [apply tab_length|].
  intros i row R. apply tab_some in R. destruct R as [I ->]. split; [apply tab_length|]. intros j x X. apply tab_some in X. apply X.
Qed.
Lemma sumn_le n f g : (forall k, (k < n)%nat -> f k <= g k) -> sumn n f <= sumn n g.
Proof.
  unfold sumn, tab. intros H. assert (G : forall l, (forall k, In k l -> (k < n)%nat) -> rsum (map f l) <= rsum (map g l)).
  { induction l as [|a l IH]; intros L; simpl; [lra|]. pose proof (H a (L a (or_introl eq_refl))). pose proof (IH (fun k K => L k (or_intror K))). unfold rsum in *. simpl. lra. }
  apply G. intros k K. apply in_seq in K. lia.
Qed.
Lemma sumn_pos n f : (0 < n)%nat -> (forall k, (k < n)%nat -> 0 < f k) -> 0 < sumn n f.
Proof.
  intros N H. destruct n as [|n]; [lia|]. unfold sumn, tab. simpl. unfold rsum. simpl. fold (rsum (map f (seq 1 n))).
  assert (0 < f 0%nat) by (apply H; lia). enough (0 <= rsum (map f (seq 1 n))) by lra.
  assert (G : forall l, (forall k, In k l -> (k < S n)%nat) -> 0 <= rsum (map f l)).
  { induction l as [|a l IH]; intros L; [unfold rsum; simpl; lra|]. pose proof (H a (L a (or_introl eq_refl))). pose proof (IH (fun k K => L k (or_intror K))). unfold rsum in *. simpl. lra. }
  apply G. intros k K. apply in_seq in K. lia.
Qed.
Lemma wmean_between n w x lo hi : (0 < n)%nat -> (forall r, (r < n)%nat -> 0 < w r) -> (forall r, (r < n)%nat -> lo <= x r <= hi) -> lo <= wmean n w x <= hi.
Proof.
  intros N W X. pose proof (sumn_pos n w N W) as P. unfold wmean.
  assert (L : lo * sumn n w <= sumn n (fun r => w r * x r)). { rewrite <- sumn_scale. apply sumn_le. intros k K. pose proof (W k K). pose proof (X k K). nra. }
  assert (H : sumn n (fun r => w r * x r) <= hi * sumn n w). { rewrite <- sumn_scale. apply sumn_le. intros k K. pose proof (W k K). pose proof (X k K). nra. }
  split.
  - apply Rmult_le_reg_r with (sumn n w); [assumption|]. unfold Rdiv. rewrite Rmult_assoc, Rinv_l by lra. lra.
  - apply Rmult_le_reg_r with (sumn n w); [assumption|]. unfold Rdiv. rewrite Rmult_assoc, Rinv_l by lra. lra.
Qed.
(** no section coefficient is outside the range of the coefficients of the panels of its strip *)
Theorem C52_between : forall (panels : list (panel R)) areas force wind nc ns n rho cs i row j x lo hi, (0 < nc)%nat -> (0 < ns)%nat -> (0 < n)%nat ->
  length panels = (2 * n * (nc * ns))%nat -> length areas = length panels -> length force = length panels -> length wind = length panels ->
  get_C panels areas force wind ns nc rho = Ok cs -> nth_error cs i = Some row -> nth_error row j = Some x ->
  (forall r f v a, (r < nc)%nat -> nth_error force (cell nc ns i r j) = Some f -> nth_error wind (cell nc ns i r j) = Some v -> nth_error areas (cell nc ns i r j) = Some a ->
     0 < a /\ lo <= scoef rho f v a <= hi) ->
  lo <= x <= hi.
Proof.
  intros panels areas force wind nc ns n rho cs i row j x lo hi NC NS N LP LA LF LW E R X B.
  destruct (C52_sections panels areas force wind nc ns n rho NC NS N LP LA LF LW) as (cs' & E' & LC & Q). assert (cs' = cs) by congruence. subst cs'.
  destruct (Q i row R) as [LR Q2]. rewrite (Q2 j x X). apply nth_error_Some_lt in R, X. rewrite LC in R. rewrite LR in X.
  assert (BB : forall r, (r < nc)%nat -> 0 < nth (cell nc ns i r j) areas 0 /\ lo <= scoef rho (nth (cell nc ns i r j) force szero) (nth (cell nc ns i r j) wind szero) (nth (cell nc ns i r j) areas 0) <= hi).
  { intros r Hr. assert (CL : (cell nc ns i r j < 2 * n * (nc * ns))%nat) by (apply cell_lt; lia).
    apply (B r); [assumption| | |]; apply nth_error_nth'; lia. }
  apply wmean_between; [assumption | |]; intros r Hr; apply (BB r Hr).
Qed.
(** in a uniform flow the coefficient of a section is that of its whole area and of the sum of the magnitudes of its forces *)
Theorem C52_uniform : forall (panels : list (panel R)) areas force wind nc ns n rho cs i row j x V, (0 < nc)%nat -> (0 < ns)%nat -> (0 < n)%nat ->
  length panels = (2 * n * (nc * ns))%nat -> length areas = length panels -> length force = length panels -> length wind = length panels ->
  get_C panels areas force wind ns nc rho = Ok cs -> nth_error cs i = Some row -> nth_error row j = Some x ->
  (forall v, In v wind -> v = V) -> (forall a, In a areas -> 0 < a) -> 0 < rho -> V <> szero ->
  x = sumn nc (fun r => snorm (nth (cell nc ns i r j) force szero)) / (1/2 * rho * snorm V ^ 2 * sumn nc (fun r => nth (cell nc ns i r j) areas 0)).
Proof.
  intros panels areas force wind nc ns n rho cs i row j x V NC NS N LP LA LF LW E R X UV PA RP NV.
  destruct (C52_sections panels areas force wind nc ns n rho NC NS N LP LA LF LW) as (cs' & E' & LC & Q). assert (cs' = cs) by congruence. subst cs'.
  destruct (Q i row R) as [LR Q2]. rewrite (Q2 j x X). apply nth_error_Some_lt in R, X. rewrite LC in R. rewrite LR in X.
  assert (CL : forall r, (r < nc)%nat -> (cell nc ns i r j < 2 * n * (nc * ns))%nat) by (intros; apply cell_lt; lia).
  assert (AP : forall r, (r < nc)%nat -> 0 < nth (cell nc ns i r j) areas 0) by (intros r Hr; apply PA, nth_In; specialize (CL r Hr); lia).
  pose proof (snorm_pos V NV) as NP.
  pose proof (sumn_pos nc _ NC AP) as SP. unfold wmean.
  transitivity (sumn nc (fun r => / (1/2 * rho * snorm V ^ 2) * snorm (nth (cell nc ns i r j) force szero)) / sumn nc (fun r => nth (cell nc ns i r j) areas 0)).
  - f_equal. apply sumn_ext. intros r Hr. rewrite (UV (nth (cell nc ns i r j) wind szero)) by (apply nth_In; specialize (CL r Hr); lia).
    unfold scoef. specialize (AP r Hr). field. repeat split; lra.
  - rewrite sumn_scale. field. repeat split; lra.
Qed.
(** *** the data of the section plots *)
(* area of a section *)
Definition section_area (nc ns : nat) (areas : list R) (i j : nat) : R := sumn nc (fun r => nth (cell nc ns i r j) areas 0).
Definition section_coef (nc ns : nat) (rho : R) (areas : list R) (force wind : list (vec R)) (i j : nat) : R :=
  wmean nc (fun r => nth (cell nc ns i r j) areas 0)
    (fun r => scoef rho (nth (cell nc ns i r j) force szero) (nth (cell nc ns i r j) wind szero) (nth (cell nc ns i r j) areas 0)).
Definition section_height (nc ns : nat) (cp : list (vec R)) (i j : nat) : R := sumn nc (fun r => vz (nth (cell nc ns i r j) cp szero)) / INR nc.
(* coefficient of a whole sail *)
Definition sail_mean (nc ns : nat) (rho : R) (areas : list R) (force wind : list (vec R)) (i : nat) : R :=
  wmean ns (section_area nc ns areas i) (section_coef nc ns rho areas force wind i).
Definition plot_rows (nc ns n : nat) (rho : R) (areas : list R) (force wind : list (vec R)) : list (list R) :=
  tab n (fun i => tab ns (fun j => section_coef nc ns rho areas force wind i j / sail_mean nc ns rho areas force wind i)).
Lemma normalized_tab ns A c : normalized_sections (tab ns A) (tab ns c) = tab ns (fun j => c j / wmean ns A c).
Proof.
  unfold normalized_sections, sail_coefficient. cbv zeta. rewrite zipWith_tab, map_tab, !nsum_rsum. apply tab_ext. intros j J. rnum. reflexivity.
Qed.
Lemma get_data_tab (panels : list (panel R)) areas lift drag wind cp nc ns n rho : (0 < nc)%nat -> (0 < ns)%nat -> (0 < n)%nat ->
  length panels = (2 * n * (nc * ns))%nat -> length areas = length panels -> length lift = length panels -> length drag = length panels -> length wind = length panels -> length cp = length panels ->
  get_data_for_coeff_plot panels areas lift drag wind cp ns nc rho =
    Ok (tab n (fun i => tab ns (section_height nc ns cp i)), plot_rows nc ns n rho areas lift wind, plot_rows nc ns n rho areas drag wind).
Proof.
  intros NC NS N LP LA LL LD LW LCP. unfold get_data_for_coeff_plot. rewrite (get_C_tab panels areas lift wind nc ns n), (get_C_tab panels areas drag wind nc ns n) by assumption.
  unfold bind at 1 2. rewrite LP in *. rewrite groups_of by assumption. cbv zeta.
  destruct (split_tab areas n _ 0 N LA) as (ars & -> & LAS & AS). destruct (split_tab cp n _ szero N LCP) as (cps & -> & LCS & CS). unfold bind at 1 2.
  assert (C : forall i r j, (j < ns)%nat -> (r < nc)%nat -> (r * ns + j < nc * ns)%nat /\ (i * (nc * ns) + (r * ns + j))%nat = cell nc ns i r j) by (intros; split; [nia | unfold cell; nia]).
  rewrite (mapM_map _ (fun i => tab ns (section_area nc ns areas i))).
  2:{ intros i I. apply in_seq in I. rewrite AS by lia. apply mapM_map. intros j J. apply in_seq in J. rewrite strip_tab by (rewrite ?tab_length; (reflexivity || lia)). unfold bind. rewrite nsum_rsum. f_equal.
      unfold section_area. apply sumn_ext. intros r Hr. destruct (C i r j ltac:(lia) Hr) as [C1 C2]. rewrite tab_nth, C2 by assumption. reflexivity. }
  unfold bind at 1. rewrite (mapM_map _ (fun i => tab ns (section_height nc ns cp i))).
  2:{ intros i I. apply in_seq in I. rewrite CS by lia. apply mapM_map. intros j J. apply in_seq in J. rewrite map_tab, strip_tab by (rewrite ?tab_length; (reflexivity || lia)). unfold bind. rewrite nsum_rsum. f_equal.
      unfold section_height. rnum. rewrite <- INR_IZR_INZ. f_equal. apply sumn_ext. intros r Hr. destruct (C i r j ltac:(lia) Hr) as [C1 C2]. rewrite tab_nth, C2 by assumption. reflexivity. }
  unfold bind. f_equal. fold (@tab (list R) n (fun i => tab ns (section_area nc ns areas i))). fold (@tab (list R) n (fun i => tab ns (section_height nc ns cp i))).
  f_equal; [f_equal|]; apply map_ext_in; intros i I; apply in_seq in I; unfold sections; rewrite !tab_nth by lia; rewrite normalized_tab; reflexivity.
Qed.
Lemma wmean_normalised n w x : wmean n w x <> 0 -> wmean n w (fun j => x j / wmean n w x) = 1.
Proof.
  intros NZ. set (m := wmean n w x) in *. unfold wmean. rewrite (sumn_ext n _ (fun j => / m * (w j * x j))) by (intros; unfold Rdiv; ring). rewrite sumn_scale.
  unfold Rdiv. rewrite Rmult_assoc. change (sumn n (fun j => w j * x j) * / sumn n w) with m. field. assumption.
Qed.
Lemma wmean_pos n w x k : (forall r, (r < n)%nat -> 0 < w r) -> (forall r, (r < n)%nat -> 0 <= x r) -> (k < n)%nat -> 0 < x k -> 0 < wmean n w x.
Proof.
  intros W X K XK. assert (N : (0 < n)%nat) by lia. pose proof (sumn_pos n w N W) as P. unfold wmean. apply Rdiv_lt_0_compat; [|assumption].
  apply Rlt_le_trans with (sumn n (fun r => if (r =? k)%nat then w k * x k else 0)).
  - unfold sumn, tab. assert (PP : 0 < w k * x k) by (apply Rmult_lt_0_compat; auto). assert (I : In k (seq 0 n)) by (apply in_seq; lia). revert I. generalize (seq 0 n). clear - PP.
    assert (Z : forall l, 0 <= rsum (map (fun r => if (r =? k)%nat then w k * x k else 0) l)).
    { induction l as [|a l IH]; [unfold rsum; simpl; lra|]. unfold rsum in *. simpl. destruct (a =? k)%nat; lra. }
    induction l as [|a l IH]; intros I; [destruct I|]. pose proof (Z l). unfold rsum in *. simpl. destruct I as [-> | I]; [rewrite Nat.eqb_refl; lra|]. specialize (IH I). destruct (a =? k)%nat; lra.
  - apply sumn_le. intros r Hr. destruct (Nat.eqb_spec r k) as [->|_]; [lra|]. apply Rmult_le_pos; [left; auto | auto].
Qed.
Lemma scoef_nonneg rho f v a : 0 < rho -> 0 < a -> v <> szero -> 0 <= scoef rho f v a.
Proof. intros R A V. unfold scoef. pose proof (snorm_pos v V) as P. apply Rmult_le_pos; [apply sqrt_pos|]. left. apply Rinv_0_lt_compat. assert (0 < snorm v ^ 2) by (apply pow_lt; assumption). apply Rmult_lt_0_compat; [nra|assumption]. Qed.
Lemma scoef_pos rho f v a : 0 < rho -> 0 < a -> v <> szero -> f <> szero -> 0 < scoef rho f v a.
Proof. intros R A V N. unfold scoef. pose proof (snorm_pos v V) as P. apply Rdiv_lt_0_compat; [apply snorm_pos; assumption|]. assert (0 < snorm v ^ 2) by (apply pow_lt; assumption). apply Rmult_lt_0_compat; [nra|assumption]. Qed.
Lemma sail_mean_pos nc ns rho areas force wind i r j : (r < nc)%nat -> (j < ns)%nat -> 0 < rho ->
  (forall r j, (r < nc)%nat -> (j < ns)%nat -> 0 < nth (cell nc ns i r j) areas 0 /\ nth (cell nc ns i r j) wind szero <> szero) ->
  nth (cell nc ns i r j) force szero <> szero -> 0 < sail_mean nc ns rho areas force wind i.
Proof.
  intros HR HJ RP H N. unfold sail_mean. apply (wmean_pos ns _ _ j).
  - intros j' J'. apply sumn_pos; [lia|]. intros r' R'. apply (H r' j'); assumption.
  - intros j' J'. unfold section_coef. apply (wmean_between nc _ _ 0 (fold_right Rmax 0 (tab nc (fun r => scoef rho (nth (cell nc ns i r j') force szero) (nth (cell nc ns i r j') wind szero) (nth (cell nc ns i r j') areas 0))))); [lia| |].
    + intros r' R'. apply (H r' j'); assumption.
    + intros r' R'. split; [apply scoef_nonneg; try assumption; apply (H r' j'); assumption|].
      assert (G : forall l x, In x l -> x <= fold_right Rmax 0 l). { induction l as [|a l IH]; intros x I; [destruct I|]. simpl. destruct I as [->|I]; [apply Rmax_l|]. eapply Rle_trans; [apply IH; assumption | apply Rmax_r]. }
      apply G. eapply nth_error_In. apply (tab_nth_error nc (fun r => scoef rho (nth (cell nc ns i r j') force szero) (nth (cell nc ns i r j') wind szero) (nth (cell nc ns i r j') areas 0)) r' R').
  - assumption.
  - unfold section_coef. apply (wmean_pos nc _ _ r).
    + intros r' R'. apply (H r' j); assumption.
    + intros r' R'. apply scoef_nonneg; try assumption; apply (H r' j); assumption.
    + assumption.
    + apply scoef_pos; try assumption; apply (H r j); assumption.
Qed.
(** entry [j] of row [i] *)
Definition at2 {A} (l : list (list A)) (i j : nat) : option A := match nth_error l i with Some row => nth_error row j | None => None end.
Lemma at2_tab {A} n m (f : nat -> nat -> A) i j : (i < n)%nat -> (j < m)%nat -> at2 (tab n (fun i => tab m (f i))) i j = Some (f i j).
Proof. intros I J. unfold at2. rewrite tab_nth_error by assumption. apply tab_nth_error. assumption. Qed.
Lemma run_data nc ns sails ss rho w v : (0 < nc)%nat -> (0 < ns)%nat -> (forall s, In s sails -> built nc ns s) -> SailSet sails = Ok ss ->
  Vlm (ss_panels ss) nc ns rho w (ss_te ss) (ss_le ss) = Ok v ->
  (0 < length sails)%nat /\ length (vl_areas v) = (2 * length sails * (nc * ns))%nat /\ (forall a, In a (vl_areas v) -> 0 < a) /\
  get_data_for_coeff_plot (vl_panels v) (vl_areas v) (vl_lift v) (vl_drag v) (in_V (vl_inlet v)) (vl_cp v) (vl_ns v) (vl_nc v) (vl_rho v) =
    Ok (tab (length sails) (fun i => tab ns (section_height nc ns (vl_cp v) i)),
        plot_rows nc ns (length sails) rho (vl_areas v) (vl_lift v) (in_V (vl_inlet v)), plot_rows nc ns (length sails) rho (vl_areas v) (vl_drag v) (in_V (vl_inlet v))).
Proof.
  intros NC NS B E EV. destruct (sail_set_flags nc ns sails ss B E) as [LP FL]. destruct (sail_set_groups nc ns sails ss B E) as (N & EP & _ & _).
  pose proof (eq_trans (fl_te_len _ _ _ _ _ FL) (eq_sym LP)) as LT.
  destruct (C60_complete_results _ _ _ _ _ _ _ _ LT EV) as (L1 & _ & _ & L2 & _ & _ & L3 & _ & _ & _ & _ & L4 & L5 & _).
  destruct (Vlm_inv _ _ _ _ _ _ _ _ LT EV) as (vars & ic & g & net & CV & LV & IC & LI & VS & SO & FF).
  destruct FF as [FP FN FS FR _ _ FA _ _ _ _ _ _ _ _ _ _ _ _]. split; [assumption|]. split; [rewrite L1; exact LP|]. split.
  - intros a I. rewrite FA in I. pose proof (so_areas _ _ _ _ _ _ _ _ _ SO a I) as Q. rewrite ndec_R in Q. change (10 ^ 14)%Z with 100000000000000%Z in Q. lra.
  - rewrite FP, FN, FS, FR. apply get_data_tab; assumption.
Qed.
Theorem C52_plot_data : forall nc ns sails ss rho w v, (0 < nc)%nat -> (0 < ns)%nat -> (forall s, In s sails -> built nc ns s) -> SailSet sails = Ok ss ->
  Vlm (ss_panels ss) nc ns rho w (ss_te ss) (ss_le ss) = Ok v ->
  exists heights lift drag,
    get_data_for_coeff_plot (vl_panels v) (vl_areas v) (vl_lift v) (vl_drag v) (in_V (vl_inlet v)) (vl_cp v) (vl_ns v) (vl_nc v) (vl_rho v) = Ok (heights, lift, drag) /\
    length heights = length sails /\ length lift = length sails /\ length drag = length sails /\
    forall i sl, nth_error sails i = Some sl ->
      (forall r j, (r < nc)%nat -> (j < ns)%nat -> nth_error (vl_panels v) (cell nc ns i r j) = nth_error (sl_above sl) (r * ns + j)) /\
      (forall j, (j < ns)%nat -> at2 heights i j = Some (section_height nc ns (vl_cp v) i j)) /\
      forall data force, (data, force) = (lift, vl_lift v) \/ (data, force) = (drag, vl_drag v) ->
        (forall j, (j < ns)%nat -> at2 data i j = Some (section_coef nc ns rho (vl_areas v) force (in_V (vl_inlet v)) i j / sail_mean nc ns rho (vl_areas v) force (in_V (vl_inlet v)) i)) /\
        (0 < rho -> (forall u, In u (in_V (vl_inlet v)) -> u <> szero) ->
         (exists r j, (r < nc)%nat /\ (j < ns)%nat /\ nth (cell nc ns i r j) force szero <> szero) ->
         wmean ns (section_area nc ns (vl_areas v) i) (fun j => match at2 data i j with Some y => y | None => 0 end) = 1).
Proof.
  intros nc ns sails ss rho w v NC NS B E EV. destruct (run_data _ _ _ _ _ _ _ NC NS B E EV) as (N & LA & PA & GD).
  destruct (sail_set_flags nc ns sails ss B E) as [LP FL]. pose proof (eq_trans (fl_te_len _ _ _ _ _ FL) (eq_sym LP)) as LT.
  destruct (C60_complete_results _ _ _ _ _ _ _ _ LT EV) as (L1 & _ & _ & L2 & _ & _ & L3 & _).
  destruct (C48_run nc ns sails ss rho w v (Csys 0 0 szero) B E EV) as (fr0 & _ & _ & _ & SP).
  assert (FP : vl_panels v = ss_panels ss). { destruct (Vlm_inv _ _ _ _ _ _ _ _ LT EV) as (? & ? & ? & ? & _ & _ & _ & _ & _ & _ & FF). apply FF. }
  do 3 eexists. split; [exact GD|]. unfold plot_rows. rewrite !tab_length. split; [reflexivity|]. split; [reflexivity|]. split; [reflexivity|].
  intros i sl SL. pose proof (nth_error_Some_lt _ _ _ SL) as I. split; [|split].
  - intros r j Hr Hj. rewrite FP, cell_in by assumption. destruct (SP i sl SL) as (t0 & _ & _ & _ & _ & Q). apply Q. nia.
  - intros j J. apply (at2_tab _ _ (section_height nc ns (vl_cp v))); assumption.
  - intros data force D. assert (AT : forall j, (j < ns)%nat -> at2 data i j = Some (section_coef nc ns rho (vl_areas v) force (in_V (vl_inlet v)) i j / sail_mean nc ns rho (vl_areas v) force (in_V (vl_inlet v)) i)).
    { intros j J. destruct D as [D|D]; injection D as -> ->; apply (at2_tab _ _ (fun i j => _ / _)); assumption. }
    split; [exact AT|]. intros RP UV (r & j & Hr & Hj & FN). unfold wmean.
    assert (M : 0 < sail_mean nc ns rho (vl_areas v) force (in_V (vl_inlet v)) i).
    { apply (sail_mean_pos _ _ _ _ _ _ _ r j); try assumption. intros r' j' R' J'. assert (CL : (cell nc ns i r' j' < 2 * length sails * (nc * ns))%nat) by (apply cell_lt; lia).
      split; [apply PA, nth_In; lia|]. apply UV, nth_In. rewrite L3, LP. exact CL. }
    rewrite (sumn_ext ns _ (fun j => section_area nc ns (vl_areas v) i j * (section_coef nc ns rho (vl_areas v) force (in_V (vl_inlet v)) i j / sail_mean nc ns rho (vl_areas v) force (in_V (vl_inlet v)) i))) by (intros k K; rewrite AT by assumption; reflexivity).
    apply wmean_normalised. change (sail_mean nc ns rho (vl_areas v) force (in_V (vl_inlet v)) i <> 0). lra.
Qed.

(** ** C53, C62: for every number system *)
(** the abscissas and heights of sail [i] in a plot, and its label *)
Definition curve {F} (p : @plot F) (i : nat) : option (list F * list F) := option_map (fun t => (snd (fst t), snd t)) (nth_error (pl_points p) i).
Definition curve_label {F} (p : @plot F) (i : nat) : option string := option_map (fun t => fst (fst t)) (nth_error (pl_points p) i).
Definition section_data {F} {NF : Num F} (v : vlm F) : res (list (list F) * list (list F) * list (list F)) :=
  get_data_for_coeff_plot (vl_panels v) (vl_areas v) (vl_lift v) (vl_drag v) (in_V (vl_inlet v)) (vl_cp v) (vl_ns v) (vl_nc v) (vl_rho v).
Lemma plot_spec {F} (x y : list (list F)) name c : length x = length y -> (length y <= 2)%nat ->
  (name = "lift" /\ c = "section_cl" \/ name = "drag" /\ c = "section_cd")%string ->
  exists p, plot_section_coeff x y name = Ok p /\ pl_file p = c /\ length (pl_points p) = length y /\
    forall i, (i < length y)%nat -> curve p i = Some (nth i x [], nth i y []) /\ curve_label p i = nth_error ["jib"; "main"]%string i.
Proof.
  intros L N H.
  set (pts := tab (length y) (fun i => (nth i ["jib"; "main"]%string ""%string, nth i x [], nth i y []))).
  assert (M : mapM (fun i => do x' <- py_nth x (Z.of_nat i); do y' <- py_nth y (Z.of_nat i); do lb <- py_nth ["jib"; "main"]%string (Z.of_nat i); Ok (lb, x', y')) (seq 0 (length y)) = Ok pts).
  { apply mapM_map. intros i I. apply in_seq in I.
    rewrite (py_nth_nat x i (nth i x [])) by (apply nth_error_nth'; lia). rewrite (py_nth_nat y i (nth i y [])) by (apply nth_error_nth'; lia).
    rewrite (py_nth_nat _ i (nth i ["jib"; "main"]%string ""%string)) by (apply nth_error_nth'; simpl; lia). reflexivity. }
  exists (Plot c pts). split.
  - unfold plot_section_coeff. destruct H as [[-> ->] | [-> ->]]; simpl negb; cbv iota; rewrite M; reflexivity.
  - split; [reflexivity|]. split; [apply tab_length|]. intros i I. unfold curve, curve_label. cbn [pl_points]. unfold pts. rewrite tab_nth_error by assumption. split; [reflexivity|].
    cbn [option_map fst]. symmetry. apply nth_error_nth'. simpl; lia.
Qed.
(** whatever the data, section_cl shows the drag data and section_cd the lift data *)
Theorem C53_swapped : forall (F : Type) (NF : Num F) (v : vlm F) heights lift drag, section_data v = Ok (heights, lift, drag) ->
  length lift = length heights -> length drag = length heights -> (length heights <= 2)%nat ->
  exists p q, cli_section_plots v = Ok (p, q) /\ pl_file p = "section_cl"%string /\ pl_file q = "section_cd"%string /\
    length (pl_points p) = length heights /\ length (pl_points q) = length heights /\
    forall i, (i < length heights)%nat -> curve p i = Some (nth i drag [], nth i heights []) /\ curve q i = Some (nth i lift [], nth i heights []).
Proof.
  intros F NF v h l d E LL LD N. unfold section_data in E. unfold cli_section_plots. rewrite E. unfold bind at 1.
  destruct (plot_spec d h "lift" "section_cl" LD N) as (p & -> & P1 & P2 & P3); [auto|]. destruct (plot_spec l h "drag" "section_cd" LL N) as (q & -> & Q1 & Q2 & Q3); [auto|].
  exists p, q. unfold bind. repeat (split; [first [reflexivity | assumption]|]). intros i I. split; [apply P3 | apply Q3]; assumption.
Qed.
(** every run with one or two sails reaches both plots *)
Theorem C53_run : forall nc ns sails ss rho w v, (0 < nc)%nat -> (0 < ns)%nat -> (forall s, In s sails -> built nc ns s) -> (length sails <= 2)%nat -> SailSet sails = Ok ss ->
  Vlm (ss_panels ss) nc ns rho w (ss_te ss) (ss_le ss) = Ok v ->
  exists heights lift drag p q, section_data v = Ok (heights, lift, drag) /\ cli_section_plots v = Ok (p, q) /\
    pl_file p = "section_cl"%string /\ pl_file q = "section_cd"%string /\ length (pl_points p) = length sails /\ length (pl_points q) = length sails /\
    forall i, (i < length sails)%nat -> curve p i = Some (nth i drag [], nth i heights []) /\ curve q i = Some (nth i lift [], nth i heights []).
Proof.
  intros nc ns sails ss rho w v NC NS B LS E EV. destruct (C52_plot_data nc ns sails ss rho w v NC NS B E EV) as (h & l & d & GD & LH & LL & LD & _).
  destruct (C53_swapped R RNum v h l d GD) as (p & q & P); [congruence..|]. exists h, l, d, p, q. split; [exact GD|]. rewrite LH in P. exact P.
Qed.
(* two strips of one sail: lift forces 1 and 3, drag forces 1 and 1 *)
Definition plot_example : vlm R :=
  let p := demo_panels in let pv := demo_vars 0 in
  VlmObj (p ++ p) 1 2 2 [true; true; true; true] [false; false; false; false] [1; 1; 1; 1] [pv; pv; pv; pv] (Inlet [] [] [V3 1 0 0; V3 1 0 0; V3 1 0 0; V3 1 0 0] [])
    [] [] [] [] [] [] [] [] [] [] [] [V3 0 1 0; V3 0 3 0; szero; szero] [V3 1 0 0; V3 1 0 0; szero; szero].
Lemma snorm_y a : 0 <= a -> snorm (V3 0 a 0) = a.
Proof. intros A. unfold snorm. cbn [vx vy vz]. replace (0 ^ 2 + a ^ 2 + 0 ^ 2) with (a * a) by ring. apply sqrt_square. assumption. Qed.
Lemma snorm_x a : 0 <= a -> snorm (V3 a 0 0) = a.
Proof. intros A. unfold snorm. cbn [vx vy vz]. replace (a ^ 2 + 0 ^ 2 + 0 ^ 2) with (a * a) by ring. apply sqrt_square. assumption. Qed.
Lemma plot_example_data : exists heights, section_data plot_example = Ok (heights, [[1/2; 3/2]], [[1; 1]]) /\ length heights = 1%nat.
Proof.
  eexists. unfold section_data. split; [|shelve].
  rewrite (get_data_tab _ _ _ _ _ _ 1 2 1) by (reflexivity || lia). do 2 f_equal; [f_equal|];
    unfold plot_rows, tab; cbn [map seq]; unfold sail_mean, section_coef, section_area, wmean, sumn, tab; cbn [map seq]; unfold rsum; cbn [fold_right];
    cbn [plot_example vl_areas vl_lift vl_drag vl_inlet vl_rho in_V cell nth Nat.add Nat.mul]; unfold scoef; rewrite ?snorm_y, ?snorm_x by lra; f_equal; f_equal; [field | f_equal; field | field | f_equal; field].
  Unshelve. reflexivity.
Qed.
Theorem C53_refuted : exists (v : vlm R) heights lift drag p q, section_data v = Ok (heights, lift, drag) /\ cli_section_plots v = Ok (p, q) /\
  pl_file p = "section_cl"%string /\ pl_file q = "section_cd"%string /\ curve p 0 <> Some (nth 0 lift [], nth 0 heights []) /\ curve q 0 <> Some (nth 0 drag [], nth 0 heights []).
Proof.
  destruct plot_example_data as (h & E & L). destruct (C53_swapped R RNum plot_example h _ _ E) as (p & q & E2 & P & Q & _ & _ & C); [rewrite L; reflexivity | rewrite L; reflexivity | rewrite L; lia|].
  exists plot_example, h. do 2 eexists. exists p, q. split; [exact E|]. split; [exact E2|]. split; [exact P|]. split; [exact Q|].
  destruct (C 0%nat) as [C1 C2]; [lia|]. rewrite C1, C2. cbn [nth]. split; intros X; injection X as X _; lra.
Qed.

(** ** C58 *)
(** lift slope of a wing: 2 PI for an infinite aspect ratio *)
Definition wing_slope (AR : R) : R := 2 * PI * AR / (AR + 5 / 2).
Theorem C58_coefficients : forall AR deg CL CD, 0 < AR -> get_CL_CD_free_wing AR deg = (CL, CD) ->
  CL = wing_slope AR * rad deg /\ CD = CL ^ 2 / (PI * AR * (4 / 5)) /\ 0 <= CD /\ (CD = 0 <-> deg = 0).
Proof.
  intros AR deg CL CD A E. unfold get_CL_CD_free_wing in E. cbv zeta in E. rewrite deg2rad_s in E. rewrite ndec_R in E. change (10 ^ 1)%Z with 10%Z in E.
  pose proof PI_RGT_0 as P. assert (PA : 0 < PI * AR) by (apply Rmult_lt_0_compat; assumption).
  assert (EL : CL = wing_slope AR * rad deg).
  { injection E as <- _. unfold wing_slope. rnum. field. repeat split; nra. }
  assert (ED : CD = CL ^ 2 / (PI * AR * (4 / 5))). { injection E as <- <-. rnum. field. repeat split; nra. }
  split; [exact EL|]. split; [exact ED|]. rewrite ED. assert (D : 0 < PI * AR * (4 / 5)) by nra. split.
  - apply Rmult_le_pos; [apply pow2_ge_0 | left; apply Rinv_0_lt_compat; assumption].
  - split.
    + intros Z. assert (Z2 : CL ^ 2 = 0). { apply Rmult_integral in Z. destruct Z as [Z|Z]; [assumption|]. apply Rinv_neq_0_compat in Z; [destruct Z | lra]. }
      assert (Z3 : CL = 0) by nra. rewrite EL in Z3. unfold wing_slope, rad in Z3. apply Rmult_integral in Z3. destruct Z3 as [Z3|Z3].
      * exfalso. assert (0 < 2 * PI * AR / (AR + 5/2)) by (apply Rdiv_lt_0_compat; nra). lra.
      * apply Rmult_integral in Z3. destruct Z3; lra.
    + intros ->. rewrite EL. unfold rad. field. repeat split; lra.
Qed.
(** the slope is positive, below that of the section, increases with the aspect ratio and tends to that of the section *)
Theorem C58_slope : forall AR, 0 < AR -> 0 < wing_slope AR < 2 * PI /\ (forall AR', AR < AR' -> wing_slope AR < wing_slope AR') /\
  (forall eps, 0 < eps -> 5 * PI / eps < AR -> 2 * PI - wing_slope AR < eps).
Proof.
  intros AR A. pose proof PI_RGT_0 as P. assert (EQ : forall x, 0 < x -> wing_slope x = 2 * PI - 5 * PI / (x + 5 / 2)) by (intros; unfold wing_slope; field; lra).
  split; [split|split].
  - unfold wing_slope. apply Rdiv_lt_0_compat; nra.
  - rewrite EQ by assumption. assert (0 < 5 * PI / (AR + 5 / 2)) by (apply Rdiv_lt_0_compat; lra). lra.
  - intros AR' L. rewrite !EQ by lra. enough (5 * PI / (AR' + 5 / 2) < 5 * PI / (AR + 5 / 2)) by lra. unfold Rdiv. apply Rmult_lt_compat_l; [lra|]. apply Rinv_lt_contravar; nra.
  - intros eps Ep L. rewrite EQ by assumption. assert (5 * PI < eps * AR). { apply (Rmult_lt_compat_l eps) in L; [|assumption]. replace (eps * (5 * PI / eps)) with (5 * PI) in L by (field; lra). exact L. }
    assert (5 * PI / (AR + 5 / 2) < eps). { apply Rmult_lt_reg_r with (AR + 5 / 2); [lra|]. unfold Rdiv. rewrite Rmult_assoc, Rinv_l by lra. nra. }
    lra.
Qed.
Theorem C58_lift : forall AR deg, 0 < AR -> 0 < deg -> 0 < fst (get_CL_CD_free_wing AR deg) < 2 * PI * rad deg /\
  (forall AR', AR < AR' -> fst (get_CL_CD_free_wing AR deg) < fst (get_CL_CD_free_wing AR' deg)) /\
  (forall eps, 0 < eps -> 5 * PI / eps < AR -> 2 * PI * rad deg - fst (get_CL_CD_free_wing AR deg) < eps * rad deg).
Proof.
  intros AR deg A D. assert (EQ : forall x, 0 < x -> fst (get_CL_CD_free_wing x deg) = wing_slope x * rad deg).
  { intros x X. destruct (get_CL_CD_free_wing x deg) as [CL CD] eqn:E. apply (C58_coefficients x deg CL CD X E). }
  assert (RP : 0 < rad deg). { unfold rad. pose proof PI_RGT_0. apply Rmult_lt_0_compat; lra. }
  destruct (C58_slope AR A) as ([S1 S2] & S3 & S4). rewrite EQ by assumption. split; [nra|]. split.
  - intros AR' L. rewrite EQ by lra. specialize (S3 AR' L). nra.
  - intros eps E L. specialize (S4 eps E L). nra.
Qed.

(** ** Concrete cases *)
Lemma demo_lift rho o : Vlm demo_panels 1 1 rho demo_wind [true; true] [false; false] = Ok o -> 0 < rho -> exists l0 l1, vl_lift o = [l0; l1] /\ 0 < vy l0.
Proof.
  intros E RP. destruct demo_inlet as (ic & IC & EI).
  destruct (vlm_solve_make 2 1 rho demo_panels [false; false] demo_t demo_vars demo_V 1 [true; true] [demo_vars 0; demo_vars 1] ic _ _ eq_refl eq_refl eq_refl EI demo_solved) as (o' & E' & FL).
  assert (o' = o). { unfold Vlm in E. rewrite gor_R, demo_vars_ok in E. unfold bind at 1 in E. rewrite IC in E. unfold bind in E. congruence. } subst o'.
  rewrite (f_lift _ _ _ _ _ _ _ _ _ _ _ _ _ _ FL). do 2 eexists. split; [reflexivity|]. unfold plift. destruct demo_v0 as (_ & _ & _ & _ & S0). rewrite S0. unfold demo_V. svec.
  assert (G : 0 < -3 / (demo_a + demo_b)).
  { destruct demo_ab as [AB _]. unfold Rdiv. replace (-3 * / (demo_a + demo_b)) with (3 * / (- (demo_a + demo_b))) by (field; lra). apply Rmult_lt_0_compat; [lra|]. apply Rinv_0_lt_compat. lra. }
  replace (rho * (0 * (-3 / (demo_a + demo_b) * 0) - 4 * (-3 / (demo_a + demo_b) * -14))) with (rho * (56 * (-3 / (demo_a + demo_b)))) by ring.
  apply Rmult_lt_0_compat; [assumption|]. lra.
Qed.
(* two rows and two strips of one sail: areas 1 2 3 4, forces 1 to 4 N *)
Example C52_case : exists cs row x, get_C (demo_panels ++ demo_panels ++ demo_panels ++ demo_panels) [1; 2; 3; 4; 1; 2; 3; 4]
    [V3 0 1 0; V3 0 2 0; V3 0 3 0; V3 0 4 0; szero; szero; szero; szero] (repeat (V3 1 0 0) 8) 2 2 2 = Ok cs /\ nth_error cs 0 = Some row /\ nth_error row 1 = Some x /\ x = 1 /\
    (forall r f v a, (r < 2)%nat -> nth_error [V3 0 1 0; V3 0 2 0; V3 0 3 0; V3 0 4 0; szero; szero; szero; szero] (cell 2 2 0 r 1) = Some f -> nth_error (repeat (V3 1 0 0) 8) (cell 2 2 0 r 1) = Some v ->
       nth_error [1; 2; 3; 4; 1; 2; 3; 4] (cell 2 2 0 r 1) = Some a -> 0 < a /\ 1 <= scoef 2 f v a <= 1).
Proof.
  eexists. eexists. eexists. split; [apply (get_C_tab _ _ _ _ 2 2 1); (reflexivity || lia)|]. split; [reflexivity|]. split; [reflexivity|]. split.
  - unfold wmean, sumn, tab. cbn [map seq]. unfold rsum. cbn [fold_right cell Nat.add Nat.mul nth repeat]. unfold scoef. rewrite !snorm_y, !snorm_x by lra. field.
  - intros [|[|r]] f v a Hr F V A; [| |lia]; simpl in F, V, A; injection F as <-; injection V as <-; injection A as <-; unfold scoef; rewrite snorm_y, snorm_x by lra; lra.
Qed.
Example C52_run_case : exists nc ns sails ss rho w v, (0 < nc)%nat /\ (0 < ns)%nat /\ (forall s, In s sails -> built nc ns s) /\ (length sails <= 2)%nat /\ SailSet sails = Ok ss /\
  Vlm (ss_panels ss) nc ns rho w (ss_te ss) (ss_le ss) = Ok v /\ 0 < rho /\ (forall u, In u (in_V (vl_inlet v)) -> u <> szero) /\
  (exists r j, (r < nc)%nat /\ (j < ns)%nat /\ nth (cell nc ns 0 r j) (vl_lift v) szero <> szero).
Proof.
  destruct demo_sail as (G & s & ss & E & S & E1 & E2 & E3).
  assert (BB : forall s', In s' [s] -> built 1 1 s') by (intros s' [<-|[]]; do 9 eexists; exact E).
  destruct (demo_Vlm 1) as (v & EV). destruct (demo_force 1 v EV Rlt_0_1) as (f0 & f1 & u0 & u1 & _ & _ & _ & _ & _ & _ & IV). destruct (demo_lift 1 v EV Rlt_0_1) as (l0 & l1 & LL & LP).
  exists 1%nat, 1%nat, [s], ss, 1, demo_wind, v. split; [lia|]. split; [lia|]. split; [exact BB|]. split; [simpl; lia|]. split; [exact S|]. split; [rewrite E1, E2, E3; exact EV|]. split; [lra|]. split.
  - rewrite IV. intros u [<-|[<-|[]]] Q; apply (f_equal vx) in Q; simpl in Q; lra.
  - exists 0%nat, 0%nat. split; [lia|]. split; [lia|]. rewrite LL. simpl. intros Q. rewrite Q in LP. simpl in LP. lra.
Qed.
Example C53_case : exists heights, section_data plot_example = Ok (heights, [[1/2; 3/2]], [[1; 1]]) /\ length heights = 1%nat.
Proof. exact plot_example_data. Qed.
Example C58_case : 0 < 20 /\ 0 < 10 /\ fst (get_CL_CD_free_wing 20 10) = 2 * PI * 20 / (45/2) * rad 10.
Proof.
  split; [lra|]. split; [lra|]. destruct (get_CL_CD_free_wing 20 10) as [CL CD] eqn:E. destruct (C58_coefficients 20 10 CL CD ltac:(lra) E) as (-> & _). unfold wing_slope. simpl. field_simplify. field.
Qed.

Print Assumptions C52_sections.
Print Assumptions C52_between.
Print Assumptions C52_uniform.
Print Assumptions C52_plot_data.
Print Assumptions C53_swapped.
Print Assumptions C53_run.
Print Assumptions C53_refuted.
Print Assumptions C58_coefficients.
Print Assumptions C58_slope.
Print Assumptions C58_lift.
