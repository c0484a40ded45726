(** Lemmas about the solver stage. *)

From Coq Require Import String ZArith Reals List Bool Lra Psatz Lia Permutation.
From Verif Require Import Num PyBase RNum Spec M_Panels M_Velocity M_Solve M_Coefs M_Forces M_Winds M_Vlm
  L_List L_Rot L_Solve L_Lattice.
Import ListNotations.
Open Scope R_scope.

(** ** Tabulated lists *)
Section Tab.
Context {A B C : Type}.
Lemma tab_length n (f : nat -> A) : length (tab n f) = n.
Proof. unfold tab. rewrite map_length, seq_length. reflexivity. Qed.
Lemma tab_nth_error n (f : nat -> A) k : (k < n)%nat -> nth_error (tab n f) k = Some (f k).
Proof. intros K. unfold tab. apply nth_error_map_seq. assumption. Qed.
Lemma tab_nth n (f : nat -> A) k d : (k < n)%nat -> nth k (tab n f) d = f k.
Proof. intros K. apply nth_of_error. apply tab_nth_error. assumption. Qed.
Lemma tab_ext n (f g : nat -> A) : (forall k, (k < n)%nat -> f k = g k) -> tab n f = tab n g.
Proof. intros H. apply map_ext_in. intros k I. apply in_seq in I. apply H. lia. Qed.
Lemma tab_inj n (f g : nat -> A) : tab n f = tab n g -> forall k, (k < n)%nat -> f k = g k.
Proof.
  intros E k K. assert (X : nth_error (tab n f) k = nth_error (tab n g) k) by congruence.
  rewrite !tab_nth_error in X by assumption. congruence.
Qed.
Lemma list_tab (l : list A) n d : length l = n -> l = tab n (fun k => nth k l d).
Proof.
  intros L. apply list_ext; [rewrite tab_length; assumption|]. intros k K. rewrite tab_nth_error by lia. apply nth_error_nth'. assumption.
Qed.
Lemma in_tab n (f : nat -> A) a : In a (tab n f) -> exists k, (k < n)%nat /\ a = f k.
Proof. intros I. apply in_map_iff in I. destruct I as (k & <- & I). apply in_seq in I. exists k. split; [lia | reflexivity]. Qed.
End Tab.
Lemma map_tab {A B} (g : A -> B) n f : map g (tab n f) = tab n (fun k => g (f k)).
Proof. unfold tab. apply map_map. Qed.
Lemma zipWith_tab {A B C} (g : A -> B -> C) n f h : zipWith g (tab n f) (tab n h) = tab n (fun k => g (f k) (h k)).
Proof.
  apply list_ext; [rewrite zipWith_length, !tab_length; lia|]. intros k K.
  rewrite zipWith_length, !tab_length in K. rewrite tab_nth_error by lia.
  apply nth_error_zipWith; apply tab_nth_error; lia.
Qed.
Lemma combine_tab {A B} n (f : nat -> A) (h : nat -> B) : combine (tab n f) (tab n h) = tab n (fun k => (f k, h k)).
Proof.
  apply list_ext; [rewrite combine_length, !tab_length; lia|]. intros k K.
  rewrite combine_length, !tab_length in K. rewrite tab_nth_error by lia.
  apply nth_error_combine; apply tab_nth_error; lia.
Qed.

(** ** Sums *)
Lemma sumn_ext n f g : (forall k, (k < n)%nat -> f k = g k) -> sumn n f = sumn n g.
Proof. intros H. unfold sumn. f_equal. apply tab_ext. assumption. Qed.
Lemma sumn_scale n k f : sumn n (fun l => k * f l) = k * sumn n f.
Proof. unfold sumn. rewrite <- rsum_map_mult. rewrite map_tab. reflexivity. Qed.
Lemma rsum_add l : forall (f g : nat -> R), rsum (map (fun k => f k + g k) l) = rsum (map f l) + rsum (map g l).
Proof. induction l as [|a l IH]; intros f g; [simpl; change (rsum []) with 0; lra|]. cbn [map]. rewrite !rsum_cons, IH. lra. Qed.
Lemma sumn_add n f g : sumn n (fun l => f l + g l) = sumn n f + sumn n g.
Proof. apply rsum_add. Qed.
Lemma sumn_zero n : sumn n (fun _ => 0) = 0.
Proof.
  transitivity (sumn n (fun _ => 0 * 0)); [apply sumn_ext; intros; ring|]. rewrite (sumn_scale n 0 (fun _ => 0)). ring.
Qed.
Lemma rsum_perm l m : Permutation l m -> rsum l = rsum m.
Proof. induction 1; rewrite ?rsum_cons; try reflexivity; try congruence; lra. Qed.
Lemma sigma_perm n (s : nat -> nat) : (forall k, (k < n)%nat -> (s k < n)%nat) -> (forall k, (k < n)%nat -> s (s k) = k) ->
  Permutation (tab n s) (seq 0 n).
Proof.
  intros B I. apply NoDup_Permutation_bis.
  - apply (proj2 (NoDup_nth_error (tab n s))). intros i j L E. rewrite tab_length in L. rewrite tab_nth_error in E by assumption.
    assert (J : (j < n)%nat) by (pose proof (nth_error_Some_lt (tab n s) j (s i) (eq_sym E)) as Q; rewrite tab_length in Q; exact Q).
    rewrite tab_nth_error in E by assumption. injection E as E. rewrite <- (I i L), <- (I j J), E. reflexivity.
  - rewrite tab_length, seq_length. lia.
  - intros a Q. apply in_tab in Q. destruct Q as (k & K & ->). apply in_seq. pose proof (B k K). lia.
Qed.
Lemma sumn_sigma n s f : (forall k, (k < n)%nat -> (s k < n)%nat) -> (forall k, (k < n)%nat -> s (s k) = k) ->
  sumn n (fun l => f (s l)) = sumn n f.
Proof.
  intros B I. unfold sumn. apply rsum_perm. unfold tab. rewrite <- (map_map s f (seq 0 n)).
  apply Permutation_map. apply sigma_perm; assumption.
Qed.

Lemma ssum_vx l : vx (ssum l) = rsum (map vx l).
Proof. induction l as [|a l IH]; [reflexivity|]. cbn [map]. rewrite rsum_cons, <- IH. reflexivity. Qed.
Lemma ssum_vy l : vy (ssum l) = rsum (map vy l).
Proof. induction l as [|a l IH]; [reflexivity|]. cbn [map]. rewrite rsum_cons, <- IH. reflexivity. Qed.
Lemma ssum_vz l : vz (ssum l) = rsum (map vz l).
Proof. induction l as [|a l IH]; [reflexivity|]. cbn [map]. rewrite rsum_cons, <- IH. reflexivity. Qed.
Lemma fold_vadd l : forall a, fold_left vadd l a = sadd a (ssum l).
Proof.
  induction l as [|b l IH]; intros a; simpl.
  - destruct a; vec_eq; simpl; lra.
  - rewrite IH. change (fold_right sadd szero l) with (ssum l). destruct a as [a1 a2 a3], b as [b1 b2 b3], (ssum l) as [x y z]. vnum. svec. vec_eq; ring.
Qed.
Lemma vsum_ssum (l : list (vec R)) : vsum l = ssum l.
Proof. unfold vsum. rewrite fold_vadd. destruct (ssum l) as [x y z]. vnum. svec. vec_eq; ring. Qed.
Lemma ssum_cons a l : ssum (a :: l) = sadd a (ssum l).
Proof. reflexivity. Qed.
Lemma vsumn_ext n f g : (forall k, (k < n)%nat -> f k = g k) -> vsumn n f = vsumn n g.
Proof. intros H. unfold vsumn. f_equal. apply tab_ext. assumption. Qed.
Lemma vsumn_comp n f : vsumn n f = V3 (sumn n (fun k => vx (f k))) (sumn n (fun k => vy (f k))) (sumn n (fun k => vz (f k))).
Proof.
  unfold vsumn, sumn. rewrite <- (map_tab vx n f), <- (map_tab vy n f), <- (map_tab vz n f), <- ssum_vx, <- ssum_vy, <- ssum_vz.
  destruct (ssum (tab n f)); reflexivity.
Qed.
Lemma vsumn_sigma n s f : (forall k, (k < n)%nat -> (s k < n)%nat) -> (forall k, (k < n)%nat -> s (s k) = k) ->
  vsumn n (fun l => f (s l)) = vsumn n f.
Proof.
  intros B I. rewrite !vsumn_comp. f_equal;
  [apply (sumn_sigma n s (fun k => vx (f k))) | apply (sumn_sigma n s (fun k => vy (f k))) | apply (sumn_sigma n s (fun k => vz (f k)))]; assumption.
Qed.
(* a linear map of a sum *)
Lemma ssum_map (m : vec R -> vec R) l : m szero = szero -> (forall a b, m (sadd a b) = sadd (m a) (m b)) -> m (ssum l) = ssum (map m l).
Proof. intros Z A. induction l as [|a l IH]; [exact Z|]. cbn [map]. rewrite !ssum_cons, A, IH. reflexivity. Qed.
Lemma vsumn_map (m : vec R -> vec R) n f : m szero = szero -> (forall a b, m (sadd a b) = sadd (m a) (m b)) -> m (vsumn n f) = vsumn n (fun k => m (f k)).
Proof. intros Z A. unfold vsumn. rewrite (ssum_map m) by assumption. rewrite map_tab. reflexivity. Qed.
Lemma vsumn_dot n f v : sdot (vsumn n f) v = sumn n (fun k => sdot (f k) v).
Proof.
  rewrite vsumn_comp. unfold sdot at 1. cbn [vx vy vz].
  rewrite !(Rmult_comm _ (vx v)), !(Rmult_comm _ (vy v)), !(Rmult_comm _ (vz v)), <- !sumn_scale, <- !sumn_add.
  apply sumn_ext. intros. unfold sdot. ring.
Qed.
Lemma vsumn_scale n k f : vsumn n (fun l => sscale k (f l)) = sscale k (vsumn n f).
Proof. symmetry. apply (vsumn_map (sscale k)); [svec; vec_eq; ring|]. intros [a b c] [d e g]; svec; vec_eq; ring. Qed.

(** ** Linear systems on tabulated data *)
Lemma srow_tab n f g : srow (tab n f) (tab n g) = sumn n (fun k => f k * g k).
Proof. unfold srow. rewrite combine_tab, map_tab. reflexivity. Qed.
Definition matrix (n : nat) (a : nat -> nat -> R) : list (list R) := tab n (fun k => tab n (a k)).
Lemma matrix_square n a : square (matrix n a).
Proof. intros row I. apply in_tab in I. destruct I as (k & K & ->). unfold matrix. rewrite !tab_length. reflexivity. Qed.
Lemma solves_tab n a b x : solves (matrix n a) (tab n b) (tab n x) <-> forall k, (k < n)%nat -> sumn n (fun l => a k l * x l) = b k.
Proof.
  unfold solves, matrix. rewrite !tab_length. split.
  - intros (_ & _ & S) k K. rewrite <- srow_tab. apply (S k); [exact (tab_nth_error n (fun k => tab n (a k)) k K) | apply tab_nth_error; assumption].
  - intros H. split; [reflexivity|]. split; [reflexivity|]. intros i row r I J.
    assert (K : (i < n)%nat) by (apply nth_error_Some_lt in I; rewrite tab_length in I; assumption).
    rewrite tab_nth_error in I by assumption. rewrite tab_nth_error in J by assumption. injection I as <-. injection J as <-. rewrite srow_tab. apply H. assumption.
Qed.
Definition regular (n : nat) (a : nat -> nat -> R) : Prop :=
  forall z, (forall k, (k < n)%nat -> sumn n (fun l => a k l * z l) = 0) -> forall l, (l < n)%nat -> z l = 0.
Lemma solve_tab n a b x : solve_eq (matrix n a) (tab n b) = Ok x ->
  exists fx, x = tab n fx /\ (forall k, (k < n)%nat -> sumn n (fun l => a k l * fx l) = b k) /\ regular n a.
Proof.
  intros E. pose proof (solve_eq_solves _ _ _ E) as S.
  assert (L : length x = n) by (destruct S as (L & _); unfold matrix in L; rewrite tab_length in L; assumption).
  rewrite (list_tab x n 0 L) in E, S |- *. set (fx := fun k => nth k x 0) in *. exists fx. split; [reflexivity|].
  pose proof (proj1 (solves_tab _ _ _ _) S) as S'. split; [exact S'|].
  intros z Z l Hl. assert (Y : solves (matrix n a) (tab n b) (tab n (fun l => fx l + z l))).
  { apply solves_tab. intros k K. rewrite <- (S' k K), <- (Rplus_0_r (sumn n (fun l => a k l * fx l))), <- (Z k K), <- sumn_add.
    apply sumn_ext. intros; ring. }
  apply (solve_eq_unique _ _ _ _ E) in Y. pose proof (tab_inj _ _ _ Y l Hl) as Q. simpl in Q. lra.
Qed.
Lemma solve_tab_make n a b fx : (forall k, (k < n)%nat -> sumn n (fun l => a k l * fx l) = b k) -> regular n a ->
  solve_eq (matrix n a) (tab n b) = Ok (tab n fx).
Proof.
  intros S R. destruct (solve_eq (matrix n a) (tab n b)) as [x|e] eqn:E.
  - f_equal. symmetry. apply (solve_eq_unique _ _ _ _ E). apply solves_tab. assumption.
  - exfalso. apply solve_eq_raise in E. destruct E as [_ E]. destruct (E (matrix_square n a)) as (z & L & (k & I & N) & Z); [unfold matrix; rewrite !tab_length; reflexivity|].
    unfold matrix in L. rewrite tab_length in L. rewrite (list_tab z n 0 L) in I, Z. apply in_tab in I. destruct I as (i & Hi & ->).
    apply N. apply (R (fun k => nth k z 0)); [|assumption]. intros k K. rewrite <- srow_tab. apply Z.
    apply (nth_error_In _ k). exact (tab_nth_error n (fun k => tab n (a k)) k K).
Qed.

(** ** Velocities *)
Lemma induced_tab n f g : induced_at (tab n f) (tab n g) = vsumn n (fun l => sscale (g l) (f l)).
Proof.
  unfold induced_at. rewrite zipWith_tab, fold_vadd. change (tab n (fun k => vscale (g k) (f k))) with (tab n (fun k => sscale (g k) (f k))).
  fold (vsumn n (fun k => sscale (g k) (f k))). generalize (vsumn n (fun k => sscale (g k) (f k))).
  intros [x y z]. vnum. svec. vec_eq; ring.
Qed.

(** ** One solver run, index by index *)
Section Run.
Context (K : nat) (ns : nat) (rho : R) (panels : list (panel R)) (le : list bool)
        (t : nat -> bool) (v : nat -> pvars R) (V : nat -> vec R).
(* velocity at [p] of vortex [l] with unit circulation *)
Definition infl (p : vec R) (l : nat) : vec R := influence (-1) p (pv_ring (v l)) (t l) (V l).
(* velocity at [p] of all vortices with circulations [g] *)
Definition wash (g : nat -> R) (p : vec R) : vec R := vsumn K (fun l => sscale (g l) (infl p l)).
Definition acoef (k l : nat) : R := sdot (infl (pv_ctr (v k)) l) (pv_n (v k)).
Definition area (k : nat) : R := nth k (get_panels_area panels) 0.
Definition pforce (g net : nat -> R) (k : nat) : vec R :=
  sscale rho (scross (sadd (V k) (wash g (pv_cp (v k)))) (sscale (net k) (pv_span (v k)))).
Definition plift (net : nat -> R) (k : nat) : vec R := sscale rho (scross (V k) (sscale (net k) (pv_span (v k)))).
Definition pdrag (g net : nat -> R) (k : nat) : vec R :=
  sscale rho (scross (wash g (pv_cp (v k))) (sscale (net k) (pv_span (v k)))).

Record solved (g net : nat -> R) : Prop := {
  so_eqs : forall k, (k < K)%nat -> sumn K (fun l => acoef k l * g l) = - sdot (V k) (pv_n (v k));
  so_regular : regular K acoef;
  so_areas : forall a, In a (get_panels_area panels) -> ndec 1 14 <= a;
  so_net : forall k, (k < K)%nat -> net_circulation (tab K g) le ns k = Ok (net k) }.
Record flow (nc : nat) (te : list bool) (ic : inlet R) (g net : nat -> R) (o : vlm R) : Prop := {
  f_panels : vl_panels o = panels; f_nc : vl_nc o = nc; f_ns : vl_ns o = ns; f_rho : vl_rho o = rho;
  f_te : vl_te o = te; f_le : vl_le o = le; f_areas : vl_areas o = get_panels_area panels;
  f_vars : vl_vars o = tab K v; f_inlet : vl_inlet o = ic;
  f_gamma : vl_gamma o = tab K g;
  f_V_ind_ctrl : vl_V_ind_ctrl o = tab K (fun k => wash g (pv_ctr (v k)));
  f_V_ctrl : vl_V_ctrl o = tab K (fun k => sadd (V k) (wash g (pv_ctr (v k))));
  f_V_ind_cp : vl_V_ind_cp o = tab K (fun k => wash g (pv_cp (v k)));
  f_V_cp : vl_V_cp o = tab K (fun k => sadd (V k) (wash g (pv_cp (v k))));
  f_force : vl_force o = tab K (pforce g net);
  f_lift : vl_lift o = tab K (plift net);
  f_drag : vl_drag o = tab K (pdrag g net);
  f_pressure : vl_pressure o = tab K (fun k => sdot (pforce g net k) (pv_n (v k)) / area k);
  f_pcoef : vl_pcoef o = tab K (fun k => sdot (pforce g net k) (pv_n (v k)) / area k / (1 / 2 * rho * sdot (V k) (V k))) }.

Lemma wash_dot g k : sdot (wash g (pv_ctr (v k))) (pv_n (v k)) = sumn K (fun l => acoef k l * g l).
Proof. unfold wash. rewrite vsumn_dot. apply sumn_ext. intros l L. unfold acoef. destruct (infl _ l), (pv_n (v k)); svec; ring. Qed.

Lemma coefs_tab (c : nat -> vec R) :
  calc_velocity_coefs (tab K V) (tab K c) (tab K (fun l => pv_ring (v l))) (tab K (fun l => pv_n (v l))) (tab K t) (-1)
  = (matrix K (fun k l => sdot (infl (c k) l) (pv_n (v k))), tab K (fun k => tab K (infl (c k)))).
Proof.
  unfold calc_velocity_coefs. cbv zeta.
  assert (E : map (influence_row (-1) (tab K (fun l => pv_ring (v l))) (tab K t) (tab K V)) (tab K c) = tab K (fun k => tab K (infl (c k)))).
  { rewrite map_tab. apply tab_ext. intros k _. unfold influence_row. rewrite !combine_tab, map_tab. reflexivity. }
  rewrite E, zipWith_tab. f_equal. unfold matrix. apply tab_ext. intros k _. rewrite map_tab. reflexivity.
Qed.
Lemma app_fs_tab (c : nat -> vec R) g : calculate_app_fs (tab K V) (tab K (fun k => tab K (infl (c k)))) (tab K g)
  = (tab K (fun k => wash g (c k)), tab K (fun k => sadd (V k) (wash g (c k)))).
Proof.
  unfold calculate_app_fs, calc_induced_velocity. cbv zeta. rewrite map_tab.
  assert (E : tab K (fun k => induced_at (tab K (infl (c k))) (tab K g)) = tab K (fun k => wash g (c k))).
  { apply tab_ext. intros k _. apply induced_tab. }
  rewrite E, zipWith_tab. reflexivity.
Qed.
Lemma panel_forces_tab (u : nat -> vec R) (gamma : list R) net : (forall k, (k < K)%nat -> net_circulation gamma le ns k = Ok (net k)) ->
  panel_forces rho (tab K u) (tab K (fun k => pv_span (v k))) gamma le ns = Ok (tab K (fun k => sscale rho (scross (u k) (sscale (net k) (pv_span (v k)))))).
Proof.
  intros N. unfold panel_forces. rewrite tab_length. change (seq 0 K) with (map (fun k => k) (seq 0 K)) || rewrite <- (map_id (seq 0 K)).
  fold (tab K (fun k : nat => k)). rewrite !combine_tab. unfold tab. 
  rewrite (mapM_map _ (fun ivs => sscale rho (scross (fst (snd ivs)) (sscale (net (fst ivs)) (snd (snd ivs)))))).
  - rewrite map_map. reflexivity.
  - intros a I. apply in_map_iff in I. destruct I as (k & <- & I). apply in_seq in I. cbn [fst snd]. rewrite (N k) by lia. unfold bind. tospec. reflexivity.
Qed.
Lemma panel_forces_inv (u : nat -> vec R) (gamma : list R) f : 
  panel_forces rho (tab K u) (tab K (fun k => pv_span (v k))) gamma le ns = Ok f ->
  exists net, forall k, (k < K)%nat -> net_circulation gamma le ns k = Ok (net k).
Proof.
  intros E. exists (fun k => match net_circulation gamma le ns k with Ok x => x | Raise _ => 0 end). intros k Hk.
  unfold panel_forces in E. rewrite tab_length in E.
  assert (L : nth_error (combine (seq 0 K) (combine (tab K u) (tab K (fun k => pv_span (v k))))) k = Some (k, (u k, pv_span (v k)))).
  { apply nth_error_combine; [apply (nth_error_seq 0); assumption|]. apply nth_error_combine; [exact (tab_nth_error K u k Hk) | exact (tab_nth_error K (fun k => pv_span (v k)) k Hk)]. }
  destruct (mapM_nth _ _ _ _ _ E L) as (b & B1 & B2). cbn [fst snd] in B1, B2.
  destruct (net_circulation gamma le ns k); [reflexivity|]. unfold bind in B1, B2. congruence.
Qed.
Lemma gor_R : (@vlm_gor R RNum) = -1.
Proof. unfold vlm_gor. rnum. lra. Qed.

Lemma vlm_solve_make nc te vars ic g net : length panels = K -> te = tab K t -> vars = tab K v -> in_V ic = tab K V ->
  solved g net -> exists o, vlm_solve panels nc ns rho te le vars ic = Ok o /\ flow nc te ic g net o.
Proof.
  intros LP -> -> EV [EQ RG AR NT].
  eexists. split.
  - unfold vlm_solve. cbv zeta. rewrite EV, !map_tab, gor_R.
    rewrite coefs_tab. unfold calculate_RHS. rewrite zipWith_tab.
    assert (RH : tab K (fun k => vdot (vopp (V k)) (pv_n (v k))) = tab K (fun k => - sdot (V k) (pv_n (v k)))).
    { apply tab_ext. intros k _. destruct (V k) as [a b c], (pv_n (v k)) as [x y z]. vnum. svec. ring. }
    rewrite RH. change (fun k l => sdot (infl (pv_ctr (v k)) l) (pv_n (v k))) with acoef.
    rewrite (solve_tab_make K acoef _ g EQ RG). unfold bind at 1. rewrite app_fs_tab.
    assert (NF : is_no_flux_BC_satisfied (tab K (fun k => sadd (V k) (wash g (pv_ctr (v k))))) (get_panels_area panels) (tab K (fun k => pv_n (v k))) = Ok true).
    { unfold is_no_flux_BC_satisfied. rewrite zipWith_tab. cbv zeta.
      replace (existsb _ (get_panels_area panels)) with false.
      2:{ symmetry. apply not_true_is_false. intros X. apply existsb_exists in X. destruct X as (a & I & X).
          change (Rltb a (ndec 1 14) = true) in X. apply Rltb_true in X. pose proof (AR a I). lra. }
      replace (existsb _ (tab K _)) with false; [reflexivity|].
      symmetry. apply not_true_is_false. intros X. apply existsb_exists in X. destruct X as (a & I & X).
      apply in_tab in I. destruct I as (k & Hk & ->).
      assert (Z : vdot (vopp (sadd (V k) (wash g (pv_ctr (v k))))) (pv_n (v k)) = 0).
      { pose proof (EQ k Hk) as Q. rewrite <- wash_dot in Q. revert Q.
        generalize (wash g (pv_ctr (v k))). intros [a b c]. destruct (V k) as [d e f], (pv_n (v k)) as [x y z]. vnum. svec. lra. }
      rewrite Z in X. change (Rltb (ndec 1 12) (Rabs 0) || false = true)%bool in X. rewrite orb_false_r, Rabs_R0 in X. apply Rltb_true in X.
      rewrite ndec_R in X. change (10 ^ 12)%Z with 1000000000000%Z in X. lra. }
    rewrite NF. unfold bind at 1. unfold guard at 1. unfold bind at 1.
    unfold calc_force_wrapper. rewrite !coefs_tab, !app_fs_tab.
    change (negb (existsb (String.eqb "force_xyz") ["lift"; "drag"; "force_xyz"]%string)) with false.
    change (negb (existsb (String.eqb "lift") ["lift"; "drag"; "force_xyz"]%string)) with false.
    change (negb (existsb (String.eqb "drag") ["lift"; "drag"; "force_xyz"]%string)) with false.
    cbv iota. change (String.eqb "force_xyz" "lift") with false. change (String.eqb "force_xyz" "drag") with false.
    change (String.eqb "lift" "lift") with true. change (String.eqb "drag" "lift") with false. change (String.eqb "drag" "drag") with true. cbv iota.
    rewrite !(panel_forces_tab _ _ net NT). unfold bind. reflexivity.
  - assert (AT : get_panels_area panels = tab K area).
    { apply list_tab. unfold get_panels_area. rewrite map_length. assumption. }
    assert (PR : calc_pressure (tab K (pforce g net)) (tab K (fun k => pv_n (v k))) (get_panels_area panels) =
       tab K (fun k => sdot (pforce g net k) (pv_n (v k)) / area k)).
    { unfold calc_pressure. rewrite AT, combine_tab, zipWith_tab. reflexivity. }
    constructor; cbn [vl_panels vl_nc vl_ns vl_rho vl_te vl_le vl_areas vl_vars vl_inlet vl_gamma vl_V_ind_ctrl vl_V_ctrl vl_force vl_V_cp vl_V_ind_cp vl_pressure vl_pcoef vl_lift vl_drag]; try reflexivity.
    + exact PR.
    + etransitivity; [apply (f_equal (fun p => calc_pressure_coeff p rho (tab K V)) PR)|].
      unfold calc_pressure_coeff. rewrite zipWith_tab. apply tab_ext. intros k _. rewrite ndec_R. change (10 ^ 1)%Z with 10%Z. tospec. rnum.
      replace (5 / 10) with (1 / 2) by lra. reflexivity.
Qed.
Lemma vlm_solve_inv nc te vars ic o : length panels = K -> te = tab K t -> vars = tab K v -> in_V ic = tab K V ->
  vlm_solve panels nc ns rho te le vars ic = Ok o -> exists g net, solved g net /\ flow nc te ic g net o.
Proof.
  intros LP ET EVS EV E. assert (S : exists g net, solved g net).
  { revert E. rewrite ET, EVS. unfold vlm_solve. cbv zeta. rewrite EV, !map_tab, gor_R, coefs_tab. unfold calculate_RHS. rewrite zipWith_tab.
    assert (RH : tab K (fun k => vdot (vopp (V k)) (pv_n (v k))) = tab K (fun k => - sdot (V k) (pv_n (v k)))).
    { apply tab_ext. intros k _. destruct (V k) as [a b c], (pv_n (v k)) as [x y z]. vnum. svec. ring. }
    rewrite RH. change (fun k l => sdot (infl (pv_ctr (v k)) l) (pv_n (v k))) with acoef.
    destruct (solve_eq (matrix K acoef) _) as [gamma|] eqn:SE; [|discriminate]. unfold bind at 1.
    destruct (solve_tab _ _ _ _ SE) as (g & -> & EQ & RG). rewrite app_fs_tab.
    destruct (is_no_flux_BC_satisfied _ _ _) as [b|] eqn:NF; [|discriminate]. unfold bind at 1.
    destruct (guard b AssertionError) as [u|]; [|discriminate]. unfold bind at 1.
    unfold calc_force_wrapper at 1. rewrite coefs_tab, app_fs_tab.
    change (negb (existsb (String.eqb "force_xyz") ["lift"; "drag"; "force_xyz"]%string)) with false.
    cbv iota. change (String.eqb "force_xyz" "lift") with false. change (String.eqb "force_xyz" "drag") with false. cbv iota.
    destruct (panel_forces rho _ _ (tab K g) le ns) as [f|] eqn:PF; [|discriminate]. intros _.
    apply panel_forces_inv in PF. destruct PF as [net N]. exists g, net. constructor; try assumption.
    intros a I. unfold is_no_flux_BC_satisfied in NF. cbv zeta in NF.
    destruct (existsb _ (get_panels_area panels)) eqn:X; [discriminate|].
    destruct (Rle_lt_dec (ndec 1 14) a) as [|L]; [assumption|]. exfalso.
    assert (T : existsb (fun a => nisnan a || nltb a (ndec 1 14))%bool (get_panels_area panels) = true).
    { apply existsb_exists. exists a. split; [assumption|]. change (Rltb a (ndec 1 14) = true). apply Rltb_true. assumption. }
    rewrite T in X. discriminate. }
  destruct S as (g & net & S). exists g, net. split; [assumption|].
  destruct (vlm_solve_make nc te vars ic g net LP ET EVS EV S) as (o' & E' & FL). congruence.
Qed.
End Run.
