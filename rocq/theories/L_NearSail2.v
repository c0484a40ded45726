(** Rounding of whole sails. *)

From Coq Require Import String ZArith Reals List Bool Lra Psatz Lia.
From Flocq Require Import Core BinarySingleNaN.
From Verif Require Import Num PyBase RNum Spec M_Airfoil M_Rotations M_Csys M_Mesher M_Panels M_Sail L_List L_Rot L_Csys L_Airfoil L_Mesh L_Sail L_Sail2 P_Double Double L_Double L_Near L_NearRot L_NearLine L_NearMesh L_NearSail.
Import ListNotations.
Open Scope R_scope.

(** the values at the stations of the luff *)
Definition along {A} (ns : nat) (f : nat -> A) : list A := map f (seq 0 (S ns)).
Arguments along : simpl never.
Section Along.
Context {A : Type}.
Lemma along_nth ns (f : nat -> A) k : (k <= ns)%nat -> nth_error (along ns f) k = Some (f k).
Proof. intros. apply nth_error_map_seq. lia. Qed.
Lemma along_length ns (f : nat -> A) : length (along ns f) = S ns.
Proof. unfold along. rewrite map_length, seq_length. reflexivity. Qed.
Lemma along_rev ns (f : nat -> A) : rev (along ns f) = along ns (fun k => f (ns - k)%nat).
Proof.
  apply list_ext; [rewrite rev_length, !along_length; reflexivity|].
  intros i. rewrite rev_length, along_length. intros I.
  rewrite nth_error_rev by (rewrite along_length; assumption). rewrite along_length.
  rewrite !along_nth by lia. do 2 f_equal. lia.
Qed.
Lemma along_list ns (l : list A) d : length l = S ns -> l = along ns (fun k => nth k l d).
Proof. intros H. apply list_ext; [rewrite along_length; exact H|]. intros i I. rewrite along_nth by lia. destruct (nth_error_ex l i I) as [a E]. rewrite E. f_equal. symmetry. apply nth_of_error. exact E. Qed.
End Along.
Lemma spread_along {F} `{Num F} ns nc (tw : nat -> F) : exists l, spread_twist (ns + 1) (nc + 1) (along ns tw) = Ok l /\
  length l = ((ns + 1) * (nc + 1))%nat /\
  forall k i, (k <= ns)%nat -> (i <= nc)%nat -> nth_error l (k * (nc + 1) + i) = Some (tw k).
Proof.
  unfold spread_twist.
  pose proof (along_length ns tw) as SL. pose proof (along_nth ns tw) as SN.
  set (st := along ns tw) in *. clearbody st.
  assert (CR : forall n, length (List.concat (repeat st n)) = (n * (ns + 1))%nat).
  { induction n; simpl; auto. rewrite app_length, SL, IHn. lia. }
  unfold reshape. rewrite CR, Nat.eqb_refl. simpl bind.
  assert (CH : forall n, chunks (repeat (ns + 1)%nat n) (List.concat (repeat st n)) = repeat st n).
  { induction n; simpl; auto. f_equal.
    - rewrite firstn_app, SL. replace (ns + 1 - S ns)%nat with 0%nat by lia. simpl. rewrite app_nil_r.
      apply firstn_all2. lia.
    - rewrite skipn_app, SL. replace (ns + 1 - S ns)%nat with 0%nat by lia.
      rewrite skipn_all2 by (lia). simpl. apply IHn. }
  rewrite CH. eexists. split; [reflexivity|].
  assert (T : transpose (ns + 1) (nZ 0) (repeat st (nc + 1)) = map (fun k => repeat (tw k) (nc + 1)) (seq 0 (ns + 1))).
  { unfold transpose. apply map_ext_in. intros k K. apply in_seq in K.
    replace (map (fun row => nth k row (nZ 0)) (repeat st (nc + 1))) with (repeat (nth k st (nZ 0)) (nc + 1)).
    - f_equal. apply nth_of_error. apply SN. lia.
    - generalize (nc + 1)%nat. induction n as [|n IHn]; simpl; [reflexivity | f_equal; exact IHn]. }
  rewrite T. split.
  - rewrite (concat_const_length _ _ (nc + 1)) by (intros; apply repeat_length). rewrite seq_length. reflexivity.
  - intros k i K I. rewrite (concat_const_nth _ _ (nc + 1) k k) by (intros; try apply repeat_length; try lia; rewrite nth_error_seq by lia; reflexivity).
    apply nth_error_repeat. lia.
Qed.

Section Lists.
Context (e : elementary) (AC : accurate e).
Local Notation D := (Double e).
(** ** One unrotated mesh *)
Lemma ssection_size L (tack head : vec R) t ch m d x : 0 <= L -> Rabs (vx tack) <= L -> Rabs (vz tack) <= L -> Rabs (vx head) <= L -> Rabs (vz head) <= L -> 0 <= t <= 1 -> Rabs ch <= L -> 0 <= m <= 3 / 10 -> 1 / 100 <= d <= 9 / 10 -> 0 <= x <= 1 ->
  Rabs (vx (ssection tack head t ch m d x)) <= 2 * L /\ Rabs (vy (ssection tack head t ch m d x)) <= 3 / 10 * L /\ Rabs (vz (ssection tack head t ch m d x)) <= L /\ snorm (ssection tack head t ch m d x) <= 3 * L.
Proof.
  intros HL TX TZ HX HZ HT HC HM HD RX. pose proof (scamber_size m d x HM HD RX) as SC. unfold ssection, slerp. cbv zeta. destruct tack as [t1 t2 t3], head as [h1 h2 h3]. cbn [vx vy vz sadd sscale ssub] in *.
  assert (Y : Rabs (ch * scamber m d x) <= 3 / 10 * L). { rewrite Rabs_mult. pose proof (Rabs_pos ch). pose proof (Rabs_pos (scamber m d x)). nra. }
  apply abs_2 in TX. apply abs_2 in TZ. apply abs_2 in HX. apply abs_2 in HZ. apply abs_2 in HC.
  assert (X : Rabs (t1 + t * (h1 - t1) + x * ch) <= 2 * L) by (apply Rabs_le; nra).
  assert (Z : Rabs (t3 + t * (h3 - t3)) <= L) by (apply Rabs_le; nra).
  split; [exact X|]. split; [exact Y|]. split; [exact Z|].
  rewrite <- (Rabs_pos_eq (snorm _)) by apply snorm_nonneg. rewrite <- (Rabs_pos_eq (3 * L)) by lra. apply Rsqr_le_abs_0. unfold Rsqr. rewrite snorm_sq. cbn [vx vy vz].
  assert (SQ : forall v b, Rabs v <= b -> v * v <= b * b) by (intros v b' B; pose proof (Rabs_pos v); rewrite <- (Rabs_pos_eq (v * v)) by nra; rewrite Rabs_mult; nra).
  pose proof (SQ _ _ X). pose proof (SQ _ _ Y). pose proof (SQ _ _ Z). nra.
Qed.
Lemma zero_mesh_near L tack head nc ns (ch m d : nat -> double) : size L -> count nc -> count ns -> box L tack -> box L head ->
  (forall k, (k <= ns)%nat -> foil_ok (m k) (d k) /\ fin (ch k) /\ Rabs (val (ch k)) <= L) ->
  exists mesh, @zero_mesh _ D tack head nc ns (along ns ch) (along ns d) (along ns m) = Ok mesh /\ rect mesh (ns + 1) (nc + 1) /\
    forall k i, (k <= ns)%nat -> (i <= nc)%nat -> exists q, mesh_point mesh k i = Some q /\
      (let Q := ssection (vvals tack) (vvals head) (INR k / INR ns) (val (ch k)) (val (m k)) (val (d k)) (INR i / INR nc) in
       vnear (3 * L) q Q 1000 /\ (i = 0%nat -> vnear (2 * L) q Q 13)).
Proof.
  intros HL NC NS BT BH A. assert (HL' := HL). unfold size in HL'. unfold zero_mesh, make_airfoil_mesh.
  set (le := @discrete_segment _ D tack head ns). assert (LE : length le = S ns) by apply segment_length.
  set (cv := map (fun c => V3 c (@nZ _ D 0) (@nZ _ D 0)) (along ns ch)).
  assert (LC : length cv = S ns) by (unfold cv; rewrite map_length; apply along_length).
  unfold add_chords. rewrite LC, LE, Nat.eqb_refl. cbn [bind].
  set (te := zipWith (@vadd _ D) le cv). set (args := combine (seq 0 (S ns)) (combine le te)).
  assert (LT : length te = S ns) by (unfold te; rewrite zipWith_length; lia).
  assert (LA : length args = S ns) by (unfold args; rewrite !combine_length, seq_length; lia).
  set (f := fun a : nat * (vec double * vec double) => @airfoil_section _ D (nc + 1) (along ns d) (along ns m) (fst a) (fst (snd a)) (snd (snd a))).
  assert (ARG : forall k, (k <= ns)%nat -> exists p, vnear L p (slerp (vvals tack) (vvals head) (INR k / INR ns)) 13 /\ nth_error args k = Some (k, (p, @vadd _ D p (V3 (ch k) (@nZ _ D 0) (@nZ _ D 0))))).
  { intros k K. destruct (segment_near e L tack head ns k HL NS K BT BH) as (p & EP & NP). exists p. split; [exact NP|]. unfold args. apply nth_error_combine; [rewrite nth_error_seq by lia; reflexivity|].
    apply nth_error_combine; [exact EP|]. unfold te. apply nth_error_zipWith; [exact EP|]. unfold cv. rewrite nth_error_map, along_nth by assumption. reflexivity. }
  assert (SEC : forall k, (k <= ns)%nat -> exists a sec, nth_error args k = Some a /\ f a = Ok sec /\ length sec = S nc /\ forall i, (i <= nc)%nat -> exists q, nth_error sec i = Some q /\
      (let Q := ssection (vvals tack) (vvals head) (INR k / INR ns) (val (ch k)) (val (m k)) (val (d k)) (INR i / INR nc) in vnear (3 * L) q Q 1000 /\ (i = 0%nat -> vnear (2 * L) q Q 13))).
  { intros k K. destruct (ARG k K) as (p & NP & EA). destruct (A k K) as (FO & FC & BC).
    destruct (section_near e L nc (along ns d) (along ns m) k p _ (@nadd _ D (vy p) (@nZ _ D 0)) (@nadd _ D (vz p) (@nZ _ D 0)) (ch k) (d k) (m k) HL NC (along_nth _ _ _ K) (along_nth _ _ _ K) FO FC BC NP) as (sec & ES & LS & PS).
    exists (k, (p, @vadd _ D p (V3 (ch k) (@nZ _ D 0) (@nZ _ D 0)))), sec. split; [exact EA|]. split; [exact ES|]. split; [exact LS|]. intros i I. destruct (PS i I) as (q & EQ & NX & NY & EZ & Z0). exists q. split; [exact EQ|].
    destruct BT as ((_ & _ & _) & T1 & T2 & T3), BH as ((_ & _ & _) & H1 & H2 & H3). destruct FO as (_ & _ & HM & HD).
    pose proof (frac_bounds k ns ltac:(destruct NS; lia) K) as FK. pose proof (frac_bounds i nc ltac:(destruct NC; lia) I) as FI.
    destruct (ssection_size L (vvals tack) (vvals head) (INR k / INR ns) (val (ch k)) (val (m k)) (val (d k)) (INR i / INR nc) ltac:(lra) T1 T3 H1 H3 FK BC HM HD FI) as (SX & SY & SZ & SN).
    destruct NP as (PX & PY & PZ). intros Q. unfold Q in *. unfold ssection in *. cbv zeta in SX, SY, SZ |- *. cbn [vx vy vz] in SX, SY, SZ. split.
    - split; [|split]; cbn [vx vy vz].
      + apply (near_weaken _ _ _ _ _ _ NX); lra.
      + apply (near_weaken _ _ _ _ _ _ NY); lra.
      + rewrite EZ. apply (near_weaken _ _ _ _ _ _ PZ); lra.
    - intros I0. destruct (Z0 I0) as [S0 Y0]. subst i. cbn [INR] in *. assert (Z : 0 / INR nc = 0) by (unfold Rdiv; ring). rewrite Z in *. assert (C0 : scamber (val (m k)) (val (d k)) 0 = 0). { unfold scamber. destruct (Rlt_dec 0 (val (d k))); [field; lra|lra]. } rewrite C0 in *. split; [|split]; cbn [vx vy vz].
      + apply (near_weaken L _ _ _ 13).
        * apply (near_at _ _ (vx (slerp (vvals tack) (vvals head) (INR k / INR ns)))); [|ring]. exact (same_near _ _ _ _ _ S0 PX).
        * lra.
        * lra.
      + destruct NY as (FY & _ & _). split; [exact FY|]. rewrite Y0, Rmult_0_r, Rminus_0_r, Rabs_R0. pose proof u_pos. split; [lra|]. apply Rmult_le_pos; [lra|]. apply Rmult_le_pos; lra.
      + rewrite EZ. apply (near_weaken _ _ _ _ _ _ PZ); lra. }
  assert (OKM : exists mesh, mapM f args = Ok mesh).
  { assert (OKs : forall a, In a args -> exists s, f a = Ok s).
    { intros a I. apply In_nth_error in I. destruct I as [k I].
      pose proof (nth_error_Some_lt _ _ _ I) as KL. rewrite LA in KL. destruct (SEC k ltac:(lia)) as (a' & s & E & S & _). exists s. congruence. }
    clear - OKs. induction args as [|a l IH]; simpl; [eauto|].
    destruct (OKs a (or_introl eq_refl)) as [s S]. rewrite S. simpl.
    destruct IH as [t T]; [intros; apply OKs; right; assumption|]. rewrite T. simpl. eauto. }
  destruct OKM as [mesh M]. exists mesh. split; [exact M|].
  assert (ROW : forall k, (k <= ns)%nat -> exists row, nth_error mesh k = Some row /\ length row = S nc /\
      forall i, (i <= nc)%nat -> exists q, nth_error row i = Some q /\ (let Q := ssection (vvals tack) (vvals head) (INR k / INR ns) (val (ch k)) (val (m k)) (val (d k)) (INR i / INR nc) in vnear (3 * L) q Q 1000 /\ (i = 0%nat -> vnear (2 * L) q Q 13))).
  { intros k K. destruct (SEC k K) as (a & s & EA & S1 & S2 & S3). destruct (mapM_nth f args mesh k _ M EA) as [row [E1 E2]]. rewrite S1 in E2. apply Ok_inj in E2 as <- || (injection E2 as <-). eauto. }
  pose proof (mapM_length _ _ _ M) as LM. rewrite LA in LM.
  split; [split|].
  - lia.
  - intros row I. apply In_nth_error in I. destruct I as [k I]. pose proof (nth_error_Some_lt _ _ _ I).
    destruct (ROW k ltac:(lia)) as (row' & E & L' & _). rewrite E in I. injection I as <-. lia.
  - intros k i K I. unfold mesh_point. destruct (ROW k K) as (row & E & _ & P). rewrite E. apply P; assumption.
Qed.

(** ** Twisting a flattened mesh *)
Lemma deqb x y : fin x -> fin y -> @neqb _ D x y = true -> val x = val y.
Proof. intros X Y. cbn [neqb Double]. rewrite Beqb_correct by assumption. case Req_bool_spec; [auto|discriminate]. Qed.
Lemma rotate_le_near pts p1 p2 tw : length pts = length tw -> tw <> [] -> (forall t, In t tw -> fin t) ->
  exists out, @rotate_points_around_le _ D pts p1 p2 tw = Ok out /\ length out = length pts /\
    forall n p t, nth_error pts n = Some p -> nth_error tw n = Some t -> exists t', fin t' /\ val t' = val t /\ exists r, nth_error out n = Some r /\ turned e p1 p2 (@deg2rad _ D t') p r.
Proof.
  intros LN NE FT. destruct tw as [|t0 tw]; [contradiction|]. unfold rotate_points_around_le. change (py_nth (t0 :: tw) 0) with (py_nth (t0 :: tw) (Z.of_nat 0)). rewrite (py_nth_nat (t0 :: tw) 0 t0 eq_refl). cbn [bind].
  destruct (forallb _ _) eqn:E.
  - eexists. split; [reflexivity|]. unfold rotate_points_around_arbitrary_axis. split; [destruct (_ <=? _)%nat; rewrite map_length; reflexivity|]. intros n p t P T. rewrite forallb_forall in E. pose proof (E t (nth_error_In _ _ T)) as Q.
    exists t0. split; [apply FT; left; reflexivity|]. split; [symmetry; apply deqb; [apply FT; eapply nth_error_In; eassumption|apply FT; left; reflexivity|exact Q]|]. unfold turned. destruct (_ <=? _)%nat; rewrite nth_error_map, P; eexists; (split; [reflexivity|auto]).
  - eexists. split; [reflexivity|]. rewrite zipWith_length. split; [lia|]. intros n p t P T. exists t. split; [apply FT; eapply nth_error_In; eassumption|]. split; [reflexivity|]. erewrite nth_error_zipWith by eassumption. eexists. split; [reflexivity|left; reflexivity].
Qed.
Lemma twist_mesh_near L l ns nc (flat : list (vec double)) twl (tw : nat -> double) (P : nat -> nat -> vec R) a b : size L -> L / 1000 <= l -> l <= snorm (across (ssub b a)) -> snorm a <= 2 * L -> snorm b <= 2 * L ->
  length flat = ((ns + 1) * (nc + 1))%nat -> length twl = ((ns + 1) * (nc + 1))%nat ->
  (forall k i, (k <= ns)%nat -> (i <= nc)%nat -> exists q, nth_error flat (k * (nc + 1) + i) = Some q /\ vnear (3 * L) q (P k i) 15280 /\ snorm (P k i) <= 3 * L /\ (i = 0%nat -> vnear (2 * L) q (P k i) 6397)) ->
  (forall k i, (k <= ns)%nat -> (i <= nc)%nat -> exists t, nth_error twl (k * (nc + 1) + i) = Some t /\ angle_ok t /\ t = tw k) ->
  P 0%nat 0%nat = a -> P ns 0%nat = b -> (forall k, (k <= ns)%nat -> exists t, 0 <= t <= 1 /\ P k 0%nat = slerp a b t) ->
  exists flat', @twist_mesh _ D (nc + 1) flat twl = Ok flat' /\ length flat' = ((ns + 1) * (nc + 1))%nat /\
    forall k i, (k <= ns)%nat -> (i <= nc)%nat -> exists r, nth_error flat' (k * (nc + 1) + i) = Some r /\ vfin r /\ snorm (ssub (vvals r) (srot_line a b (rad (val (tw k))) (P k i))) <= 1 / 1000000000 * (L * (L / l)).
Proof.
  intros HL Hl LU SA SB LF LT HP HT HA HB SL. unfold twist_mesh. set (luff := every_nth (nc + 1) (@v0 _ D) flat).
  destruct (every_nth_spec (nc + 1) (@v0 _ D) flat (ns + 1) ltac:(lia) LF) as [LL LN]. fold luff in LL, LN.
  destruct (HP 0%nat 0%nat ltac:(lia) ltac:(lia)) as (p1 & E1 & _ & _ & N1). destruct (HP ns 0%nat ltac:(lia) ltac:(lia)) as (p2 & E2 & _ & _ & N2). specialize (N1 eq_refl). specialize (N2 eq_refl). rewrite HA in N1. rewrite HB in N2.
  assert (I0 : nth_error luff 0 = Some p1) by (rewrite LN by lia; exact E1).
  assert (I1 : nth_error luff ns = Some p2) by (rewrite LN by lia; rewrite <- E2; f_equal; lia).
  replace (-1)%Z with (- Z.of_nat 1)%Z by reflexivity.
  rewrite (py_nth_neg luff 1 p2) by (try lia; rewrite LL; replace (ns + 1 - 1)%nat with ns by lia; assumption).
  cbn [bind]. change 0%Z with (Z.of_nat 0). rewrite (py_nth_nat luff 0 p1 I0). cbn [bind].
  assert (FT : forall t, In t twl -> fin t). { intros t I. apply In_nth_error in I. destruct I as [n I]. pose proof (nth_error_Some_lt _ _ _ I) as NLT. rewrite LT in NLT. destruct (divmod_lt n (ns + 1) (nc + 1) NLT) as (D1 & D2 & Q). destruct (HT (n / (nc + 1))%nat (n mod (nc + 1))%nat ltac:(lia) ltac:(lia)) as (t' & T1 & T2 & _). rewrite <- Q in T1. assert (t = t') by congruence. subst t'. apply T2. }
  destruct (rotate_le_near flat p1 p2 twl ltac:(lia) ltac:(intros Z; rewrite Z in LT; simpl in LT; lia) FT) as (tr & ETR & LTR & PTR). rewrite ETR. cbn [bind]. rewrite LF in LTR.
  assert (TR : forall k i, (k <= ns)%nat -> (i <= nc)%nat -> exists q r, nth_error flat (k * (nc + 1) + i) = Some q /\ nth_error tr (k * (nc + 1) + i) = Some r /\ vfin r /\ snorm (ssub (vvals r) (srot_line a b (rad (val (tw k))) (P k i))) <= 1 / 1000000000 * (L * (L / l)) /\ (i = 0%nat -> @vclose _ D r q = true)).
  { intros k i K I. destruct (HP k i K I) as (q & EQ & NQ & SQ & NQ0). destruct (HT k i K I) as (t & ET & [Ft Bt] & Tt). destruct (PTR _ _ _ EQ ET) as (t' & Ft' & Vt & r & ER & TR). assert (NA : near 8 (@deg2rad _ D t') (rad (val (tw k))) 4) by (rewrite <- Tt, <- Vt; apply near_angle; [exact Ft'|rewrite Vt; exact Bt]).
    exists q, r. split; [exact EQ|]. split; [exact ER|].
    destruct (twist_point e AC L l HL Hl a b SA SB LU p1 p2 N1 N2 q (P k i) NQ SQ _ _ NA r TR) as [R1 R2]. split; [exact R1|]. split; [exact R2|].
    intros I00. subst i. destruct (SL k K) as (s & HS & PS). apply (twist_stays e AC L l HL Hl a b SA SB LU p1 p2 N1 N2 q (P k 0%nat) NQ SQ _ _ NA r TR s HS). rewrite <- PS. apply NQ0. reflexivity. }
  destruct (every_nth_spec (nc + 1) (@v0 _ D) tr (ns + 1) ltac:(lia) LTR) as [LL' LN'].
  assert (CL : @all_close _ D (every_nth (nc + 1) (@v0 _ D) tr) luff = true).
  { unfold all_close. apply forallb_forall. intros [x y] IN. apply In_nth_error in IN. destruct IN as [k IN]. pose proof (nth_error_Some_lt _ _ _ IN) as KL. rewrite combine_length, LL', LL in KL.
    destruct (TR k 0%nat ltac:(lia) ltac:(lia)) as (q & r & EQ & ER & _ & _ & C). rewrite Nat.add_0_r in EQ, ER. cbn [fst snd].
    rewrite (nth_error_combine _ _ k r q) in IN by (first [rewrite LN' by lia; exact ER|rewrite LN by lia; exact EQ]). injection IN as <- <-. apply C. reflexivity. }
  rewrite CL. exists tr. split; [reflexivity|]. split; [exact LTR|]. intros k i K I. destruct (TR k i K I) as (q & r & _ & ER & R1 & R2 & _). exists r. auto.
Qed.
End Lists.
