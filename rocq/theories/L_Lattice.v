(** Lemmas about the vortex lattice: indices of panels, rings and flags. *)

From Coq Require Import ZArith Reals List Bool Lra Psatz Lia.
From Verif Require Import Num PyBase RNum Spec M_Panels M_Mesher M_Sail M_Coefs M_Forces L_List L_Sail.
Import ListNotations.

(** ** Cells *)
Lemma cell_in nc ns g i j : (i < nc)%nat -> (j < ns)%nat -> cell nc ns g i j = (g * (nc * ns) + (i * ns + j))%nat.
Proof. intros. unfold cell. nia. Qed.
Lemma cell_lt nc ns G g i j : (g < G)%nat -> (i < nc)%nat -> (j < ns)%nat -> (cell nc ns g i j < G * (nc * ns))%nat.
Proof.
  intros. rewrite cell_in by assumption. assert (K : (i * ns + j < nc * ns)%nat) by nia.
  set (m := (nc * ns)%nat) in *. set (k := (i * ns + j)%nat) in *. clearbody m k. nia.
Qed.
Lemma cell_next nc ns g i j : (cell nc ns g i j + ns = cell nc ns g (i + 1) j)%nat.
Proof. unfold cell. nia. Qed.
Lemma cell_ex nc ns G k : (k < G * (nc * ns))%nat -> exists g i j, (g < G /\ i < nc /\ j < ns /\ k = cell nc ns g i j)%nat.
Proof.
  intros K. destruct (divmod_lt k G (nc * ns) K) as (A & B & C). destruct (divmod_lt (k mod (nc * ns)) nc ns B) as (D & E & H).
  exists (k / (nc * ns))%nat, (k mod (nc * ns) / ns)%nat, ((k mod (nc * ns)) mod ns)%nat. repeat split; try assumption.
  rewrite cell_in by assumption. lia.
Qed.

Lemma concat_groups_length {A} (l : list (list A)) n : (forall a, In a l -> length a = n) -> length (concat l) = (length l * n)%nat.
Proof.
  intros H. rewrite <- (map_id l) at 1. apply concat_const_length. assumption.
Qed.
Lemma concat_groups_nth {A} (l : list (list A)) n g a k : (forall a, In a l -> length a = n) ->
  nth_error l g = Some a -> (k < n)%nat -> nth_error (concat l) (g * n + k) = nth_error a k.
Proof.
  intros H E K. rewrite <- (map_id l) at 1. apply (concat_const_nth (fun a => a)); assumption.
Qed.
Lemma mapM_total {A B} (f : A -> res B) l : (forall a, In a l -> exists b, f a = Ok b) -> exists bs, mapM f l = Ok bs.
Proof.
  induction l as [|a l IH]; intros H; [exists []; reflexivity|].
  destruct (H a (or_introl eq_refl)) as [b B']. destruct IH as [bs BS]; [intros; apply H; right; assumption|].
  exists (b :: bs). simpl. rewrite B', BS. reflexivity.
Qed.
Lemma nth_error_same {A B} (l : list A) (m : list B) i a : nth_error l i = Some a -> length m = length l -> exists b, nth_error m i = Some b.
Proof. intros E L. apply nth_error_ex. rewrite L. eapply nth_error_Some_lt; eauto. Qed.

(** ** Splitting into groups *)
Lemma array_split_groups {A} (l : list A) G m : (0 < G)%nat -> length l = (G * m)%nat ->
  exists groups, array_split l G = Ok groups /\ length groups = G /\ concat groups = l /\
    (forall a, In a groups -> length a = m) /\
    forall g a k, nth_error groups g = Some a -> (k < m)%nat -> nth_error a k = nth_error l (g * m + k).
Proof.
  intros G0 L. destruct G as [|G']; [lia|]. set (G := S G') in *. exists (chunks (repeat m G) l).
  assert (E : array_split l G = Ok (chunks (repeat m G) l)).
  { unfold array_split, G. cbv zeta. fold G.
    rewrite L. replace (G * m)%nat with (m * G)%nat by lia. rewrite Nat.div_mul, Nat.mod_mul by lia. rewrite Nat.sub_0_r. reflexivity. }
  assert (C : concat (chunks (repeat m G) l) = l) by (apply chunks_repeat_concat; assumption).
  assert (W : forall a, In a (chunks (repeat m G) l) -> length a = m).
  { intros a I. apply In_nth_error in I. destruct I as [g I].
    assert (GL : (g < G)%nat) by (apply nth_error_Some_lt in I; rewrite chunks_length, repeat_length in I; assumption).
    rewrite (chunks_repeat_nth m G g l GL) in I. injection I as <-. rewrite firstn_length, skipn_length. nia. }
  split; [exact E|]. split; [rewrite chunks_length, repeat_length; reflexivity|]. split; [exact C|]. split; [exact W|].
  intros g a k I K. rewrite <- C at 1. symmetry. apply concat_groups_nth; assumption.
Qed.

Section AnyNum.
Context {F : Type} {NF : Num F}.

(** ** The lattice of one group and of all groups *)
Lemma group_vlm_spec gor nc ns (grid : list (panel F)) te : (0 < nc)%nat -> (0 < ns)%nat ->
  length grid = (nc * ns)%nat ->
  (forall i j, (i < nc)%nat -> (j < ns)%nat -> nth_error te (i * ns + j) = Some (i =? nc - 1)%nat) ->
  exists vars, group_vlm_variables gor ns grid te = Ok vars /\ length vars = (nc * ns)%nat /\
    forall i j p, (i < nc)%nat -> (j < ns)%nat -> nth_error grid (i * ns + j) = Some p ->
      exists A D, nth_error vars (i * ns + j) = Some (panel_vars gor p A D) /\
        (i = nc - 1 -> A = aft_A p /\ D = aft_D p)%nat /\
        (forall q, nth_error grid (i * ns + j + ns) = Some q -> i <> (nc - 1)%nat -> A = quarter_B q /\ D = quarter_C q).
Proof.
  intros NC NS L T. unfold group_vlm_variables.
  set (f := fun kp : nat * panel F => _).
  assert (LC : length (combine (seq 0 (length grid)) grid) = (nc * ns)%nat) by (rewrite combine_length, seq_length; lia).
  assert (V : forall i j p, (i < nc)%nat -> (j < ns)%nat -> nth_error grid (i * ns + j) = Some p ->
    exists A D, f ((i * ns + j)%nat, p) = Ok (panel_vars gor p A D) /\
        (i = nc - 1 -> A = aft_A p /\ D = aft_D p)%nat /\
        (forall q, nth_error grid (i * ns + j + ns) = Some q -> i <> (nc - 1)%nat -> A = quarter_B q /\ D = quarter_C q)).
  { intros i j p I J P. unfold f. cbn [fst snd]. rewrite (py_nth_nat _ _ _ (T i j I J)). unfold bind at 1.
    destruct (Nat.eqb_spec i (nc - 1)) as [E|E].
    - exists (aft_A p), (aft_D p). split; [reflexivity|]. split; [auto|]. intros q Q N. contradiction.
    - destruct (nth_error_ex grid (i * ns + j + ns)) as [q Q]; [rewrite L; nia|].
      rewrite <- Nat2Z.inj_add, (py_nth_nat _ _ _ Q). unfold bind at 1.
      exists (quarter_B q), (quarter_C q). split; [reflexivity|]. split; [intros; contradiction|].
      intros q' Q' _. rewrite Q in Q'. injection Q' as <-. auto. }
  assert (CE : forall k p, nth_error grid k = Some p -> nth_error (combine (seq 0 (length grid)) grid) k = Some (k, p)).
  { intros k p P. apply nth_error_combine; [|assumption]. apply nth_error_seq. eapply nth_error_Some_lt; eauto. }
  destruct (mapM_total f (combine (seq 0 (length grid)) grid)) as [vars E].
  { intros [k p] I. apply In_nth_error in I. destruct I as [k' I]. apply nth_error_combine_inv in I. destruct I as [I1 I2].
    pose proof (nth_error_Some_lt _ _ _ I2) as K. rewrite nth_error_seq in I1 by assumption. injection I1 as <-. simpl in *.
    rewrite L in K. destruct (divmod_lt k' nc ns K) as (X & Y & Z). rewrite Z in I2 |- *.
    destruct (V _ _ _ X Y I2) as (A & D & W & _). eauto. }
  exists vars. split; [exact E|]. split; [rewrite (mapM_length _ _ _ E); assumption|].
  intros i j p I J P. destruct (V i j p I J P) as (A & D & W & Q). exists A, D. split; [|exact Q].
  destruct (mapM_nth _ _ _ _ _ E (CE _ _ P)) as (b & B1 & B2). congruence.
Qed.

Lemma vlm_vars_spec gor nc ns G (panels : list (panel F)) te : (0 < nc)%nat -> (0 < ns)%nat -> (0 < G)%nat ->
  length panels = (G * (nc * ns))%nat -> length te = (G * (nc * ns))%nat ->
  (forall g i j, (g < G)%nat -> (i < nc)%nat -> (j < ns)%nat -> nth_error te (cell nc ns g i j) = Some (i =? nc - 1)%nat) ->
  exists vars, calculate_vlm_variables panels te gor nc ns = Ok vars /\ length vars = length panels /\
    forall g i j p, (g < G)%nat -> (i < nc)%nat -> (j < ns)%nat -> nth_error panels (cell nc ns g i j) = Some p ->
      exists A D, nth_error vars (cell nc ns g i j) = Some (panel_vars gor p A D) /\
        (i = nc - 1 -> A = aft_A p /\ D = aft_D p)%nat /\
        (forall q, nth_error panels (cell nc ns g (i + 1) j) = Some q -> i <> (nc - 1)%nat -> A = quarter_B q /\ D = quarter_C q).
Proof.
  intros NC NS NG LP LT T.
  destruct (array_split_groups panels G (nc * ns) NG LP) as (pss & E1 & L1 & C1 & W1 & N1).
  destruct (array_split_groups te G (nc * ns) NG LT) as (tss & E2 & L2 & C2 & W2 & N2).
  set (f := fun a : list (panel F) * list bool => group_vlm_variables gor ns (fst a) (snd a)).
  assert (GS : forall g ps ts, nth_error pss g = Some ps -> nth_error tss g = Some ts ->
    exists vars, f (ps, ts) = Ok vars /\ length vars = (nc * ns)%nat /\
    forall i j p, (i < nc)%nat -> (j < ns)%nat -> nth_error ps (i * ns + j) = Some p ->
      exists A D, nth_error vars (i * ns + j) = Some (panel_vars gor p A D) /\
        (i = nc - 1 -> A = aft_A p /\ D = aft_D p)%nat /\
        (forall q, nth_error ps (i * ns + j + ns) = Some q -> i <> (nc - 1)%nat -> A = quarter_B q /\ D = quarter_C q)).
  { intros g ps ts P Q. apply group_vlm_spec; try assumption.
    - apply W1. eapply nth_error_In; eauto.
    - intros i j I J. rewrite (N2 g ts _ Q) by nia. rewrite <- cell_in by assumption. apply T; try assumption.
      rewrite <- L2. eapply nth_error_Some_lt; eauto. }
  destruct (mapM_total f (combine pss tss)) as [vss E3].
  { intros [ps ts] I. apply In_nth_error in I. destruct I as [g I]. apply nth_error_combine_inv in I. destruct I as [I1 I2].
    destruct (GS g ps ts I1 I2) as (v & V & _). eauto. }
  assert (L3 : length vss = G) by (rewrite (mapM_length _ _ _ E3), combine_length; lia).
  assert (W3 : forall v, In v vss -> length v = (nc * ns)%nat).
  { intros v I. apply In_nth_error in I. destruct I as [g I].
    destruct (nth_error_ex pss g) as [ps P]; [apply nth_error_Some_lt in I; lia|].
    destruct (nth_error_ex tss g) as [ts Q]; [apply nth_error_Some_lt in I; lia|].
    destruct (GS g ps ts P Q) as (v' & V1 & V2 & _).
    destruct (mapM_nth _ _ _ _ _ E3 (nth_error_combine _ _ _ _ _ P Q)) as (b & B1 & B2). congruence. }
  exists (concat vss).
  assert (NZ : (nc * ns <> 0)%nat) by nia.
  assert (KG : (length panels / (nc * ns) = G)%nat) by (rewrite LP; apply Nat.div_mul; assumption).
  split; [|split].
  - unfold calculate_vlm_variables. cbv zeta. destruct (Nat.eqb_spec (nc * ns) 0); [contradiction|]. rewrite KG, E1. unfold bind at 1. rewrite E2. unfold bind at 1.
    fold f. rewrite E3. unfold bind at 1. rewrite LP, Nat.eqb_refl. reflexivity.
  - rewrite (concat_groups_length _ _ W3), L3, LP. reflexivity.
  - intros g i j p HG I J P.
    destruct (nth_error_ex pss g) as [ps PS]; [lia|]. destruct (nth_error_ex tss g) as [ts TS]; [lia|].
    destruct (GS g ps ts PS TS) as (v & V1 & V2 & V3).
    destruct (mapM_nth _ _ _ _ _ E3 (nth_error_combine _ _ _ _ _ PS TS)) as (b & B1 & B2).
    assert (b = v) by congruence. subst b. rewrite cell_in in P by assumption.
    rewrite <- (N1 g ps (i * ns + j)%nat PS) in P by nia. destruct (V3 i j p I J P) as (A & D & X & Y & Z).
    exists A, D. split; [|split; [exact Y|]].
    + rewrite cell_in by assumption. rewrite (concat_groups_nth vss (nc * ns) g v) by (assumption || nia). exact X.
    + intros q Q N. apply Z; [|assumption]. rewrite (N1 g ps) by (assumption || nia).
      rewrite <- Q. f_equal. unfold cell. nia.
Qed.

(** ** Sail sets *)
Lemma built_layout nc ns s : built nc ns s -> sail_layout nc ns s.
Proof. intros (h & t & c & ch & tw & nm & md & cb & ds & E). eapply sail_geometry_layout; exact E. Qed.

Lemma sail_set_groups nc ns (sails : list (sail F)) ss : (forall s, In s sails -> built nc ns s) -> SailSet sails = Ok ss ->
  (0 < length sails)%nat /\
  ss_panels ss = concat (map sl_above sails ++ map sl_under sails) /\
  ss_te ss = concat (map sl_te sails ++ map sl_te sails) /\
  ss_le ss = concat (map sl_le sails ++ map sl_le sails).
Proof.
  intros B E. destruct sails as [|s sails]; [discriminate|]. injection E as <-. split; [simpl; lia|].
  cbn [ss_panels ss_te ss_le]. rewrite !concat_app. auto.
Qed.
Lemma sail_set_flags nc ns (sails : list (sail F)) ss : (forall s, In s sails -> built nc ns s) -> SailSet sails = Ok ss ->
  length (ss_panels ss) = (2 * length sails * (nc * ns))%nat /\ flags nc ns (2 * length sails) (ss_te ss) (ss_le ss).
Proof.
  intros B E. destruct (sail_set_groups nc ns sails ss B E) as (N & E1 & E2 & E3). rewrite E1, E2, E3.
  assert (LAY : forall s, In s sails -> sail_layout nc ns s) by (intros; apply built_layout, B; assumption).
  assert (AL : forall (X : Type) (f g : sail F -> list X) (P : list X -> Prop),
     (forall s, In s sails -> P (f s) /\ P (g s)) -> forall a, In a (map f sails ++ map g sails) -> P a).
  { intros X f g P H a I. apply in_app_or in I. destruct I as [I|I]; apply in_map_iff in I; destruct I as (s & <- & I); apply H; assumption. }
  assert (L1 : forall a, In a (map sl_above sails ++ map sl_under sails) -> length a = (nc * ns)%nat).
  { apply AL. intros s I. split; [apply (lay_above nc ns), LAY | apply (lay_under nc ns), LAY]; assumption. }
  assert (L2 : forall a, In a (map sl_te sails ++ map sl_te sails) -> length a = (nc * ns)%nat).
  { apply AL. intros s I. split; apply (lay_te_len nc ns), LAY; assumption. }
  assert (L3 : forall a, In a (map sl_le sails ++ map sl_le sails) -> length a = (nc * ns)%nat).
  { apply AL. intros s I. split; apply (lay_le_len nc ns), LAY; assumption. }
  assert (LL : forall (X : Type) (f g : sail F -> X), length (map f sails ++ map g sails) = (2 * length sails)%nat).
  { intros. rewrite app_length, !map_length. lia. }
  split; [rewrite (concat_groups_length _ _ L1), LL; reflexivity|].
  constructor.
  - rewrite (concat_groups_length _ _ L2), LL. reflexivity.
  - rewrite (concat_groups_length _ _ L3), LL. reflexivity.
  - intros g i j G I J. rewrite cell_in by assumption.
    destruct (nth_error_ex (map sl_te sails ++ map sl_te sails) g) as [a A]; [rewrite LL; assumption|].
    rewrite (concat_groups_nth _ (nc * ns) g a) by (assumption || nia).
    apply nth_error_In in A. revert a A. apply AL. intros s S. split; apply (lay_te nc ns s); auto.
  - intros g i j G I J. rewrite cell_in by assumption.
    destruct (nth_error_ex (map sl_le sails ++ map sl_le sails) g) as [a A]; [rewrite LL; assumption|].
    rewrite (concat_groups_nth _ (nc * ns) g a) by (assumption || nia).
    apply nth_error_In in A. revert a A. apply AL. intros s S. split; apply (lay_le nc ns s); auto.
Qed.
Lemma sail_set_grid nc ns (sails : list (sail F)) ss g : (forall s, In s sails -> built nc ns s) -> SailSet sails = Ok ss ->
  (g < 2 * length sails)%nat -> exists f, forall i j, (i < nc)%nat -> (j < ns)%nat ->
    nth_error (ss_panels ss) (cell nc ns g i j) = Some (Panel (f (i + 1) j) (f i j) (f i (j + 1)) (f (i + 1) (j + 1)))%nat.
Proof.
  intros B E GL. destruct (sail_set_groups nc ns sails ss B E) as (N & E1 & _). rewrite E1.
  assert (LAY : forall s, In s sails -> sail_layout nc ns s) by (intros; apply built_layout, B; assumption).
  destruct (nth_error_ex (map sl_above sails ++ map sl_under sails) g) as [a A]; [rewrite app_length, !map_length; lia|].
  assert (L1 : forall a, In a (map sl_above sails ++ map sl_under sails) -> length a = (nc * ns)%nat).
  { intros b I. apply in_app_or in I. destruct I as [I|I]; apply in_map_iff in I; destruct I as (s & <- & I);
      [apply (lay_above nc ns), LAY | apply (lay_under nc ns), LAY]; assumption. }
  assert (X : exists f, forall i j, (i < nc)%nat -> (j < ns)%nat ->
    nth_error a (i * ns + j) = Some (Panel (f (i + 1) j) (f i j) (f i (j + 1)) (f (i + 1) (j + 1)))%nat).
  { apply nth_error_In, in_app_or in A. destruct A as [I|I]; apply in_map_iff in I; destruct I as (s & <- & I).
    - apply (lay_grid_above nc ns s). auto. - apply (lay_grid_under nc ns s). auto. }
  destruct X as [f X]. exists f. intros i j I J. rewrite cell_in by assumption.
  rewrite (concat_groups_nth _ (nc * ns) g a) by (assumption || nia). auto.
Qed.

(** ** Net circulation *)
Lemma le_first nc ns G (te le : list bool) : flags nc ns G te le -> (0 < G)%nat -> (0 < nc)%nat -> (0 < ns)%nat ->
  existsb (fun b => b) le = (2 <=? nc)%nat.
Proof.
  intros FL HG NC NS. destruct (Nat.leb_spec 2 nc) as [L|L].
  - apply existsb_exists. exists true. split; [|reflexivity]. apply (nth_error_In _ (cell nc ns 0 0 0)).
    rewrite (fl_le _ _ _ _ _ FL) by lia. destruct (Nat.leb_spec 2 nc); [reflexivity | lia].
  - apply not_true_is_false. intros T. apply existsb_exists in T. destruct T as (b & I & ->).
    apply In_nth_error in I. destruct I as [k I]. pose proof (nth_error_Some_lt _ _ _ I) as K. rewrite (fl_le_len _ _ _ _ _ FL) in K.
    destruct (cell_ex nc ns G k K) as (g & i & j & A & B & C & ->). rewrite (fl_le _ _ _ _ _ FL) in I by assumption.
    destruct (Nat.leb_spec 2 nc); [lia|]. rewrite andb_false_r in I. discriminate.
Qed.
Lemma net_circulation_spec nc ns G te le (gamma : list F) g i j : flags nc ns G te le -> length gamma = (G * (nc * ns))%nat ->
  (g < G)%nat -> (i < nc)%nat -> (j < ns)%nat ->
  exists gk, nth_error gamma (cell nc ns g i j) = Some gk /\
    (i = 0%nat -> net_circulation gamma le ns (cell nc ns g i j) = Ok gk) /\
    (forall i', i = S i' -> exists gu, nth_error gamma (cell nc ns g i' j) = Some gu /\
       net_circulation gamma le ns (cell nc ns g i j) = Ok (nsub gk gu)).
Proof.
  intros FL L HG I J. destruct (nth_error_ex gamma (cell nc ns g i j)) as [gk K]; [rewrite L; apply cell_lt; assumption|].
  exists gk. split; [exact K|]. unfold net_circulation. cbv zeta.
  rewrite (py_nth_nat _ _ _ (fl_le _ _ _ _ _ FL g i j HG I J)), (py_nth_nat _ _ _ K). unfold bind at 1 2 4 5.
  rewrite (le_first nc ns G te le FL) by lia. split.
  - intros ->. rewrite Nat.eqb_refl. destruct (2 <=? nc)%nat; reflexivity.
  - intros i' ->. destruct (nth_error_ex gamma (cell nc ns g i' j)) as [gu U]; [rewrite L; apply cell_lt; lia|].
    exists gu. split; [exact U|]. destruct (Nat.leb_spec 2 nc); [|lia]. simpl.
    replace (Z.of_nat (cell nc ns g (S i') j) - Z.of_nat ns)%Z with (Z.of_nat (cell nc ns g i' j)) by (unfold cell; nia).
    rewrite (py_nth_nat _ _ _ U). reflexivity.
Qed.
End AnyNum.
