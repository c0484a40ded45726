(** Section coefficients and their plots on checked real numbers. *)

From Coq Require Import String ZArith Reals List Bool Lra Psatz Lia Arith.
From Verif Require Import Num PyBase RNum CNum Spec M_Panels M_Velocity M_Solve M_Coefs M_Forces M_Winds M_Vlm M_Runner
  L_List L_Rot L_Vel L_Vlm L_Vlm2 P_Tack L_ScaleRun P_ScaleRun L_Lift L_Lift2 L_LiftGeo.
Import ListNotations.
Open Scope R_scope.

Lemma mapM_same {A B D} (f : A -> res B) (g : A -> res D) (j : B -> D) l : (forall a, In a l -> g a = rmap j (f a)) -> mapM g l = rmap (map j) (mapM f l).
Proof. intros E. rewrite <- (map_id l) at 1. apply (mapM_lift f g (fun a => a) j). exact E. Qed.
Lemma coefficient_fin rho f w a : rho <> 0 -> w <> szero -> a <> 0 -> panel_coefficient (Some rho) (fin f) (fin w) (Some a) = Some (panel_coefficient rho f w a).
Proof.
  intros R0 W A. unfold panel_coefficient. rewrite some_dec by lia. rewrite !fin_norm, !some_mul. apply some_div. rewrite ndec_R. change (10 ^ 1)%Z with 10%Z. tospec. rnum.
  assert (snorm w <> 0) by (intros X; apply W, snorm_zero, X). repeat apply Rmult_integral_contrapositive_currified; try assumption; lra.
Qed.
Lemma strip_map {A B} (g : A -> B) nc ns d j l : strip nc ns (g d) j (map g l) = rmap (map g) (strip nc ns d j l).
Proof.
  unfold strip. rewrite reshape_map. destruct (reshape nc ns l) as [rows|]; [|reflexivity]. cbn [rmap bind]. f_equal. rewrite !map_map. apply map_ext. intros row. apply map_nth.
Qed.
Lemma products_some u v : zipWith nmul (map Some u) (map Some v) = map Some (zipWith nmul u v).
Proof. apply zip_lift. reflexivity. Qed.
Lemma section_fin nc ns c areas j : (forall ar, strip nc ns 0 j areas = Ok ar -> nsum ar <> 0) ->
  section_coefficient nc ns (map Some c) (map Some areas) j = rmap Some (section_coefficient nc ns c areas j).
Proof.
  intros A. unfold section_coefficient. change (@nZ (option R) CNum 0) with (Some (@nZ R RNum 0)). rewrite !strip_map. change (@nZ R RNum 0) with 0. destruct (strip nc ns 0 j c) as [cs|]; [|reflexivity]. cbn [rmap bind].
  destruct (strip nc ns 0 j areas) as [ar|]; [|reflexivity]. cbn [rmap bind]. f_equal. rewrite products_some, !nsum_some. apply some_div. apply A. reflexivity.
Qed.
Lemma reshape_in {A} nc ns (l : list A) rows row : reshape nc ns l = Ok rows -> In row rows -> forall a, In a row -> In a l.
Proof.
  unfold reshape. destruct (_ =? _)%nat; [|discriminate]. intros E. injection E as <-. intros I a J. apply (chunks_in _ l row a I J).
Qed.
Lemma fold_pos l : forall s : R, 0 <= s -> (forall a, In a l -> 0 < a) -> s <= fold_left nadd l s /\ (l <> [] -> s < fold_left nadd l s).
Proof.
  induction l as [|a l IH]; intros s S P; [split; [simpl; lra | contradiction]|]. cbn [fold_left]. pose proof (P a (or_introl eq_refl)) as PA.
  destruct (IH (nadd s a)) as [L _]; [rnum; lra | intros b I; apply P; right; exact I|]. change (nadd s a) with (s + a) in *. split; [lra | intros _; lra].
Qed.
Lemma nsum_pos l : l <> [] -> (forall a, In a l -> 0 < a) -> 0 < nsum l.
Proof. intros N P. unfold nsum. change (@nZ R RNum 0) with 0. apply (fold_pos l 0); [lra | exact P | exact N]. Qed.
(** a strip of positive areas *)
Lemma strip_pos nc ns j (areas : list R) ar : (0 < nc)%nat -> (j < ns)%nat -> (forall a, In a areas -> 0 < a) -> strip nc ns 0 j areas = Ok ar -> 0 < nsum ar.
Proof.
  intros NC J P. unfold strip, reshape. destruct (Nat.eqb_spec (length areas) (nc * ns)) as [L|]; [|discriminate]. cbn [bind]. intros E. apply (f_equal (fun r => match r with Ok x => x | Raise _ => [] end)) in E. subst ar.
  apply nsum_pos.
  - intros X. apply (f_equal (@length R)) in X. rewrite map_length, chunks_length, repeat_length in X. simpl in X. lia.
  - intros a I. apply in_map_iff in I. destruct I as (row & <- & I). apply P. apply (chunks_in _ _ _ _ I). apply nth_In.
    apply In_nth_error in I. destruct I as [r I]. assert (R0 : (r < nc)%nat). { apply nth_error_Some_lt in I. rewrite chunks_length, repeat_length in I. exact I. }
    rewrite chunks_repeat_nth in I by exact R0. injection I as <-. rewrite firstn_length, skipn_length, L. nia.
Qed.
Lemma nth_map_in {A B} (f : A -> B) i l : nth i (map (map f) l) [] = map f (nth i l []).
Proof. change (@nil B) with (map f []). apply map_nth. Qed.
Lemma np_split_in {A} (l : list A) n cs i a : np_split l n = Ok cs -> In a (nth i cs []) -> In a l.
Proof.
  intros E I. assert (E' : array_split l n = Ok cs) by (unfold np_split in E; destruct n; [discriminate|]; destruct (_ =? 0)%nat; [exact E | discriminate]).
  destruct (Nat.lt_ge_cases i (length cs)) as [L|L]; [|rewrite nth_overflow in I by exact L; destruct I]. apply (array_split_in l n cs (nth i cs []) a E'); [apply nth_In; exact L | exact I].
Qed.
Lemma get_C_fin panels areas force wind ns nc rho : rho <> 0 -> (forall a, In a areas -> 0 < a) -> (forall v, In v wind -> v <> szero) ->
  get_C (map finP panels) (map Some areas) (map fin force) (map fin wind) ns nc (Some rho) = rmap (map (map Some)) (get_C panels areas force wind ns nc rho).
Proof.
  intros R0 PA NV. unfold get_C. destruct (Nat.eqb_spec (ns * nc * 2) 0) as [|NZ]; [reflexivity|]. cbv zeta. rewrite map_length, !np_split_map. set (k := (length panels / (ns * nc * 2))%nat).
  destruct (np_split wind (2 * k)) as [ws|] eqn:EW; [|reflexivity]. cbn [rmap bind]. destruct (np_split force (2 * k)) as [fs|] eqn:EF; [|reflexivity]. cbn [rmap bind].
  destruct (np_split areas (2 * k)) as [as_|] eqn:EA; [|reflexivity]. cbn [rmap bind]. apply mapM_same. intros i _. rewrite !nth_map_in. apply mapM_same. intros j J. apply in_seq in J.
  assert (Z : zipWith (fun fw a => panel_coefficient (Some rho) (fst fw) (snd fw) a) (combine (map fin (nth i fs [])) (map fin (nth i ws []))) (map Some (nth i as_ [])) =
    map Some (zipWith (fun fw a => panel_coefficient rho (fst fw) (snd fw) a) (combine (nth i fs []) (nth i ws [])) (nth i as_ []))).
  { rewrite combine_map2. apply zip_lift. intros [f v] a I. cbn [fst snd]. pose proof (in_combine_r _ _ _ _ I) as IA. apply in_combine_l in I. apply in_combine_r in I.
    apply coefficient_fin; [exact R0 | apply NV; apply (np_split_in _ _ _ _ _ EW I) | apply Rgt_not_eq, PA; apply (np_split_in _ _ _ _ _ EA IA)]. }
  rewrite Z. apply section_fin. intros ar S. apply Rgt_not_eq. apply (strip_pos nc ns j (nth i as_ [])); [nia | lia | | exact S]. intros a I. apply PA. apply (np_split_in _ _ _ _ _ EA I).
Qed.
(** the normalised sections of a sail: undefined if the coefficient of the sail vanishes *)
Definition chk_row (m : R) (row : list R) : list (option R) := if Reqb m 0 then map (fun _ => None) row else map Some row.
Lemma normalized_fin sa c : sa <> [] -> (forall a, In a sa -> 0 < a) -> normalized_sections (map Some sa) (map Some c) = chk_row (sail_coefficient sa c) (normalized_sections sa c).
Proof.
  intros N P. unfold normalized_sections. cbv zeta. unfold sail_coefficient at 1. rewrite products_some, !nsum_some.
  rewrite some_div by (apply Rgt_not_eq, nsum_pos; assumption). fold (sail_coefficient sa c). change (nsum (zipWith nmul sa c) / nsum sa)%R with (sail_coefficient sa c).
  unfold chk_row. destruct (Reqb (sail_coefficient sa c) 0) eqn:Z.
  - apply Reqb_true in Z. rewrite Z, !map_map. apply map_ext. intros x. apply some_div0.
  - apply Reqb_false in Z. apply map_lift. intros x _. apply some_div. exact Z.
Qed.
Lemma data_fin panels areas lift drag wind cp ns nc rho : (0 < ns)%nat -> (0 < nc)%nat -> rho <> 0 -> (forall a, In a areas -> 0 < a) -> (forall v, In v wind -> v <> szero) ->
  forall h l d, get_data_for_coeff_plot panels areas lift drag wind cp ns nc rho = Ok (h, l, d) ->
  exists cl cd sa ars, np_split areas (2 * (length panels / (ns * nc * 2))) = Ok ars /\
    mapM (fun i => mapM (fun j => do ar <- strip nc ns 0 j (nth i ars []); Ok (nsum ar)) (seq 0 ns)) (seq 0 (length panels / (ns * nc * 2))) = Ok sa /\
    get_C panels areas lift wind ns nc rho = Ok cl /\ get_C panels areas drag wind ns nc rho = Ok cd /\
        l = map (fun i => normalized_sections (nth i sa []) (nth i cl [])) (seq 0 (length panels / (ns * nc * 2))) /\ d = map (fun i => normalized_sections (nth i sa []) (nth i cd [])) (seq 0 (length panels / (ns * nc * 2))) /\
    get_data_for_coeff_plot (map finP panels) (map Some areas) (map fin lift) (map fin drag) (map fin wind) (map fin cp) ns nc (Some rho) =
    Ok (map (map Some) h, map (fun i => chk_row (sail_coefficient (nth i sa []) (nth i cl [])) (normalized_sections (nth i sa []) (nth i cl []))) (seq 0 (length panels / (ns * nc * 2))),
        map (fun i => chk_row (sail_coefficient (nth i sa []) (nth i cd [])) (normalized_sections (nth i sa []) (nth i cd []))) (seq 0 (length panels / (ns * nc * 2)))).
Proof.
  intros NS NC R0 PA NV h l d. unfold get_data_for_coeff_plot. rewrite !get_C_fin by assumption.
  destruct (get_C panels areas lift wind ns nc rho) as [cl|]; [|discriminate]. cbn [rmap bind]. destruct (get_C panels areas drag wind ns nc rho) as [cd|]; [|discriminate]. cbn [rmap bind].
  cbv zeta. rewrite map_length, !np_split_map. set (k := (length panels / (ns * nc * 2))%nat).
  destruct (np_split areas (2 * k)) as [as_|] eqn:EA; [|discriminate]. cbn [rmap bind]. destruct (np_split cp (2 * k)) as [cps|]; [|discriminate]. cbn [rmap bind].
  change (@nZ (option R) CNum 0) with (Some 0). change (@nZ R RNum 0) with 0.
  rewrite (mapM_same (fun i => mapM (fun j => do ar <- strip nc ns 0 j (nth i as_ []); Ok (nsum ar)) (seq 0 ns))
    (fun i => mapM (fun j => do ar <- strip nc ns (Some 0) j (nth i (map (map Some) as_) []); Ok (nsum ar)) (seq 0 ns)) (map Some)).
  2:{ intros i _. apply mapM_same. intros j _. rewrite nth_map_in, strip_map. destruct (strip nc ns 0 j (nth i as_ [])); [|reflexivity]. cbn [rmap bind]. rewrite nsum_some. reflexivity. }
  rewrite (mapM_same (fun i => mapM (fun j => do zs <- strip nc ns 0 j (map vz (nth i cps [])); Ok (nsum zs / @nZ R RNum (Z.of_nat nc))%N_) (seq 0 ns))
    (fun i => mapM (fun j => do zs <- strip nc ns (Some 0) j (map vz (nth i (map (map fin) cps) [])); Ok (nsum zs / @nZ (option R) CNum (Z.of_nat nc))%N_) (seq 0 ns)) (map Some)).
  2:{ intros i _. apply mapM_same. intros j _. rewrite nth_map_in, (map_lift vz vz fin Some), strip_map by reflexivity. destruct (strip nc ns 0 j (map vz (nth i cps []))); [|reflexivity]. cbn [rmap bind].
      rewrite nsum_some, some_Z, some_div; [reflexivity|]. rnum. apply not_0_IZR. lia. }
  destruct (mapM _ (seq 0 k)) as [sa|] eqn:ES; [|discriminate]. cbn [rmap bind]. match goal with |- context [rmap (map (map Some)) ?m] => destruct m as [hs|] end; [|discriminate]. cbn [rmap bind].
  intros E. injection E as <- <- <-. exists cl, cd, sa, as_. split; [reflexivity|]. split; [exact ES|]. repeat (split; [reflexivity|]). f_equal.
  assert (SA : forall i, In i (seq 0 k) -> nth i sa [] <> [] /\ forall a, In a (nth i sa []) -> 0 < a).
  { intros i I. apply in_seq in I. destruct (mapM_nth _ _ _ i i ES) as (row & HR & ER); [rewrite (nth_error_nth' _ 0%nat) by (rewrite seq_length; lia); rewrite seq_nth by lia; reflexivity|].
    rewrite (nth_of_error _ _ [] _ HR). split.
    - intros X. subst row. apply mapM_length in ER. rewrite seq_length in ER. simpl in ER. lia.
    - intros a IA. apply In_nth_error in IA. destruct IA as [j IA]. assert (J : (j < ns)%nat) by (apply nth_error_Some_lt in IA; rewrite (mapM_length _ _ _ ER), seq_length in IA; exact IA).
      destruct (mapM_nth _ _ _ j j ER) as (a' & HA & EAr); [rewrite (nth_error_nth' _ 0%nat) by (rewrite seq_length; lia); rewrite seq_nth by lia; reflexivity|]. rewrite HA in IA. injection IA as ->.
      destruct (strip nc ns 0 j (nth i as_ [])) as [ar|] eqn:ST; [|discriminate]. cbn [bind] in EAr. injection EAr as <-. apply (strip_pos nc ns j _ _ NC J) in ST; [exact ST|].
      intros b IB. apply PA. apply (np_split_in _ _ _ _ _ EA IB). }
  f_equal; [f_equal|]; apply map_ext_in; intros i I; rewrite !nth_map_in; destruct (SA i I) as [S1 S2]; apply normalized_fin; assumption.
Qed.
