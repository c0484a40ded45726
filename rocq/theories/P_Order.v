(** C95: the order of the sails. *)

From Coq Require Import String ZArith Reals List Bool Lra Psatz Lia Permutation.
From Verif Require Import Num PyBase RNum Spec M_Panels M_Velocity M_Solve M_Coefs M_Forces M_Winds M_Csys M_Sail M_Vlm M_Results
  L_List L_Rot L_Vel L_Vel2 L_Csys L_Sail L_Solve L_Lattice L_Vlm L_Vlm2 P_Sail P_Lattice L_Demo P_Vlm P_Results L_DemoTwo.
Import ListNotations.
Open Scope R_scope.

(** ** Specification *)
(** [p] rearranges the numbers below [G], [q] undoes it *)
Record shuffle (G : nat) (p q : nat -> nat) : Prop := {
  sh_p : forall g, (g < G)%nat -> (p g < G)%nat; sh_q : forall g, (g < G)%nat -> (q g < G)%nat;
  sh_pq : forall g, (g < G)%nat -> p (q g) = g; sh_qp : forall g, (g < G)%nat -> q (p g) = g }.
(** group [g] of [l'] is group [p g] of [l] *)
Definition regrouped (nc ns G : nat) (p : nat -> nat) {A} (l l' : list A) : Prop := length l' = length l /\
  forall g i j, (g < G)%nat -> (i < nc)%nat -> (j < ns)%nat -> nth_error l' (cell nc ns g i j) = nth_error l (cell nc ns (p g) i j).
(** the same flow, with the panels listed in another order *)
Record same_flow (nc ns G : nat) (p : nat -> nat) (o o' : vlm R) : Prop := {
  sf_V : regrouped nc ns G p (in_V (vl_inlet o)) (in_V (vl_inlet o'));
  sf_vars : regrouped nc ns G p (vl_vars o) (vl_vars o');
  sf_gamma : regrouped nc ns G p (vl_gamma o) (vl_gamma o');
  sf_V_ind_ctrl : regrouped nc ns G p (vl_V_ind_ctrl o) (vl_V_ind_ctrl o');
  sf_V_ctrl : regrouped nc ns G p (vl_V_ctrl o) (vl_V_ctrl o');
  sf_V_ind_cp : regrouped nc ns G p (vl_V_ind_cp o) (vl_V_ind_cp o');
  sf_V_cp : regrouped nc ns G p (vl_V_cp o) (vl_V_cp o');
  sf_force : regrouped nc ns G p (vl_force o) (vl_force o');
  sf_lift : regrouped nc ns G p (vl_lift o) (vl_lift o');
  sf_drag : regrouped nc ns G p (vl_drag o) (vl_drag o');
  sf_pressure : regrouped nc ns G p (vl_pressure o) (vl_pressure o');
  sf_pcoef : regrouped nc ns G p (vl_pcoef o) (vl_pcoef o');
  sf_induced : forall x, induced o' x = induced o x }.

(** ** Proofs *)
Lemma shuffle_perm n s t : shuffle n s t -> Permutation (tab n s) (seq 0 n).
Proof.
  intros [B _ _ I]. apply NoDup_Permutation_bis.
  - apply (proj2 (NoDup_nth_error (tab n s))). intros i j L E. rewrite tab_length in L. rewrite tab_nth_error in E by assumption.
    assert (J : (j < n)%nat) by (pose proof (nth_error_Some_lt (tab n s) j (s i) (eq_sym E)) as Q; rewrite tab_length in Q; exact Q).
    rewrite tab_nth_error in E by assumption. injection E as E. rewrite <- (I i L), <- (I j J), E. reflexivity.
  - rewrite tab_length, seq_length. lia.
  - intros a Q. apply in_tab in Q. destruct Q as (k & K & ->). apply in_seq. pose proof (B k K). lia.
Qed.
Lemma sumn_shuffle n s t f : shuffle n s t -> sumn n (fun l => f (s l)) = sumn n f.
Proof. intros S. unfold sumn. apply rsum_perm. unfold tab. rewrite <- (map_map s f (seq 0 n)). apply Permutation_map. apply (shuffle_perm n s t S). Qed.
Lemma vsumn_shuffle n s t f : shuffle n s t -> vsumn n (fun l => f (s l)) = vsumn n f.
Proof.
  intros S. rewrite !vsumn_comp. f_equal;
  [apply (sumn_shuffle n s t (fun k => vx (f k))) | apply (sumn_shuffle n s t (fun k => vy (f k))) | apply (sumn_shuffle n s t (fun k => vz (f k)))]; assumption.
Qed.
Lemma shuffle_inv n s t : shuffle n s t -> shuffle n t s. Proof. intros [? ? ? ?]. constructor; assumption. Qed.
(* the panels follow their groups *)
Definition follow (nc ns : nat) (p : nat -> nat) (k : nat) : nat := let m := (nc * ns)%nat in cell nc ns (p (k / m)%nat) (k mod m / ns) ((k mod m) mod ns).
Lemma follow_cell nc ns p g i j : (i < nc)%nat -> (j < ns)%nat -> follow nc ns p (cell nc ns g i j) = cell nc ns (p g) i j.
Proof.
  intros I J. unfold follow. cbv zeta. rewrite (cell_in nc ns g i j I J).
  assert (K : (i * ns + j < nc * ns)%nat) by nia.
  rewrite (Nat.add_comm (g * (nc * ns))), Nat.div_add, (Nat.div_small (i * ns + j)), Nat.mod_add by lia.
  rewrite (Nat.mod_small (i * ns + j)) by assumption. rewrite (Nat.add_comm (i * ns)), Nat.div_add, (Nat.div_small j), Nat.mod_add by lia.
  rewrite (Nat.mod_small j) by assumption. reflexivity.
Qed.
Lemma follow_shuffle nc ns G p q : shuffle G p q -> shuffle (G * (nc * ns)) (follow nc ns p) (follow nc ns q).
Proof.
  intros [P Q PQ QP]. constructor; intros k K; destruct (cell_ex nc ns G k K) as (g & i & j & G0 & I0 & J0 & ->); rewrite ?follow_cell by assumption.
  - apply cell_lt; auto.
  - apply cell_lt; auto.
  - rewrite PQ by assumption. reflexivity.
  - rewrite QP by assumption. reflexivity.
Qed.
Lemma regrouped_tab {A} nc ns G p q (l : list A) f l' : shuffle G p q -> l = tab (G * (nc * ns)) f -> regrouped nc ns G p l l' <-> l' = tab (G * (nc * ns)) (fun k => f (follow nc ns p k)).
Proof.
  intros S ->. set (K := (G * (nc * ns))%nat). split.
  - intros [L H]. rewrite tab_length in L. apply list_ext; [rewrite tab_length; exact L|]. intros k Hk. rewrite L in Hk. destruct (cell_ex nc ns G k Hk) as (g & i & j & G0 & I0 & J0 & ->).
    rewrite H by assumption. rewrite !tab_nth_error, follow_cell; try assumption; [reflexivity|]. apply cell_lt; auto. apply (sh_p _ _ _ S); assumption.
  - intros ->. split; [rewrite !tab_length; reflexivity|]. intros g i j G0 I0 J0. rewrite !tab_nth_error, follow_cell; try assumption; [reflexivity| |]; apply cell_lt; auto. apply (sh_p _ _ _ S); assumption.
Qed.
Lemma vars_regrouped nc ns G te (panels panels' : list (panel R)) vars p q : (0 < nc)%nat -> (0 < ns)%nat -> (0 < G)%nat -> shuffle G p q ->
  length panels = (G * (nc * ns))%nat -> length te = (G * (nc * ns))%nat ->
  (forall g i j, (g < G)%nat -> (i < nc)%nat -> (j < ns)%nat -> nth_error te (cell nc ns g i j) = Some (i =? nc - 1)%nat) ->
  regrouped nc ns G p panels panels' -> calculate_vlm_variables panels te (-1) nc ns = Ok vars ->
  exists vars', calculate_vlm_variables panels' te (-1) nc ns = Ok vars' /\ regrouped nc ns G p vars vars'.
Proof.
  intros NC NS NG SH LP LT TE [LR RP] CV.
  destruct (vlm_vars_spec (-1) nc ns G panels te NC NS NG LP LT TE) as (vars0 & CV0 & L0 & S0). assert (vars0 = vars) by congruence; subst vars0.
  destruct (vlm_vars_spec (-1) nc ns G panels' te NC NS NG ltac:(lia) LT TE) as (vars1 & CV1 & L1 & S1).
  exists vars1. split; [assumption|]. split; [congruence|]. intros g i j HG I J. pose proof (sh_p _ _ _ SH g HG) as HP.
  destruct (nth_error_ex panels (cell nc ns (p g) i j)) as [x X]; [rewrite LP; apply cell_lt; assumption|].
  destruct (S0 (p g) i j x HP I J X) as (A & D & Y & T & N). pose proof X as X'. rewrite <- RP in X' by assumption.
  destruct (S1 g i j x HG I J X') as (A' & D' & Y' & T' & N'). rewrite Y, Y'.
  destruct (Nat.eq_dec i (nc - 1)) as [E|E].
  - destruct (T E) as [-> ->]. destruct (T' E) as [-> ->]. reflexivity.
  - destruct (nth_error_ex panels (cell nc ns (p g) (i + 1) j)) as [z Z]; [rewrite LP; apply cell_lt; lia|]. pose proof Z as Z'. rewrite <- RP in Z' by (assumption || lia).
    destruct (N z Z E) as [-> ->]. destruct (N' z Z' E) as [-> ->]. reflexivity.
Qed.
Lemma inlet_regrouped nc ns G p q w cp cp' ic : shuffle G p q -> length cp = (G * (nc * ns))%nat -> regrouped nc ns G p cp cp' -> InletConditions w cp = Ok ic ->
  exists ic', InletConditions w cp' = Ok ic' /\ regrouped nc ns G p (in_V ic) (in_V ic').
Proof.
  intros SH LC [LR RC] E. pose proof (inlet_length _ _ _ E) as LI.
  assert (Q : forall g i j, (g < G)%nat -> (i < nc)%nat -> (j < ns)%nat -> exists x u, nth_error cp' (cell nc ns g i j) = Some x /\ get_true_wind_speed_at_h w (nabs (vz x)) = Ok u /\ nth_error (in_V ic) (cell nc ns (p g) i j) = Some (get_app_infs_at_h w u)).
  { intros g i j HG I J. pose proof (sh_p _ _ _ SH g HG) as HP. destruct (nth_error_ex cp (cell nc ns (p g) i j)) as [x X]; [rewrite LC; apply cell_lt; assumption|].
    destruct (inlet_nth w cp ic _ x E X) as (u & U & V). exists x, u. rewrite RC by assumption. auto. }
  destruct (mapM_total (fun p => get_true_wind_speed_at_h w (nabs (vz p))) cp') as [tws TW].
  { intros a I. apply In_nth_error in I. destruct I as [k K]. pose proof (nth_error_Some_lt _ _ _ K) as HK. rewrite LR, LC in HK. destruct (cell_ex nc ns G k HK) as (g & i & j & G0 & I0 & J0 & ->).
    destruct (Q g i j G0 I0 J0) as (x & u & X & U & _). rewrite X in K. injection K as ->. exists u. exact U. }
  unfold InletConditions at 1. rewrite TW. cbn [bind]. eexists. split; [reflexivity|]. set (ic' := Inlet _ _ _ _). assert (E' : InletConditions w cp' = Ok ic') by (unfold InletConditions; rewrite TW; reflexivity).
  pose proof (inlet_length _ _ _ E') as LI'. split; [congruence|]. intros g i j HG I J. destruct (Q g i j HG I J) as (x & u & X & U & V). destruct (inlet_nth w cp' ic' _ x E' X) as (u' & U' & V'). rewrite V, V'. congruence.
Qed.
Lemma regrouped_map {A B} nc ns G p (f : A -> B) l l' : regrouped nc ns G p l l' -> regrouped nc ns G p (map f l) (map f l').
Proof. intros [L H]. split; [rewrite !map_length; exact L|]. intros g i j HG I J. rewrite !nth_error_map, H by assumption. reflexivity. Qed.

Theorem C95_solver : forall nc ns G p q panels panels' rho w te le o, (0 < nc)%nat -> (0 < ns)%nat -> (0 < G)%nat -> shuffle G p q ->
  flags nc ns G te le -> length panels = (G * (nc * ns))%nat -> regrouped nc ns G p panels panels' ->
  Vlm panels nc ns rho w te le = Ok o -> exists o', Vlm panels' nc ns rho w te le = Ok o' /\ same_flow nc ns G p o o'.
Proof.
  intros nc ns G p q panels panels' rho w te le o NC NS NG SH FG LP RP E. assert (LT : length te = length panels) by (rewrite LP; apply FG).
  destruct (Vlm_inv _ _ _ _ _ _ _ _ LT E) as (vars & ic & g & net & CV & LV & IC & LI & _ & SO & FL).
  pose proof (flow_induced ns rho panels le vars nc te ic g net o) as FI. specialize (fun p => FI p LV FL).
  destruct (vars_regrouped nc ns G te panels panels' vars p q NC NS NG SH LP (fl_te_len _ _ _ _ _ FG) (fl_te _ _ _ _ _ FG) RP CV) as (vars' & CV' & RV).
  destruct (inlet_regrouped nc ns G p q w (map pv_cp vars) (map pv_cp vars') ic SH ltac:(rewrite map_length; lia) (regrouped_map _ _ _ _ pv_cp _ _ RV) IC) as (ic' & IC' & RI).
  set (t := fun k => nth k te false) in *. set (v := fun k => nth k vars dpv) in *. set (V := fun k => nth k (in_V ic) szero) in *.
  pose proof (follow_shuffle nc ns G p q SH) as SF. set (K := length panels) in *. assert (HK : K = (G * (nc * ns))%nat) by exact LP. rewrite <- HK in SF. set (s := follow nc ns p) in *.
  assert (EV : vars = tab K v) by (apply list_tab; assumption). assert (EI0 : in_V ic = tab K V) by (apply list_tab; assumption). assert (ET : te = tab K t) by (apply list_tab; assumption).
  assert (EV' : vars' = tab K (fun k => v (s k))) by (rewrite HK in EV |- *; apply (regrouped_tab nc ns G p q vars v vars' SH EV); exact RV).
  assert (EI' : in_V ic' = tab K (fun k => V (s k))) by (rewrite HK in EI0 |- *; apply (regrouped_tab nc ns G p q _ V _ SH EI0); exact RI).
  assert (TS : forall k, (k < K)%nat -> t (s k) = t k).
  { intros k Hk. rewrite HK in Hk. destruct (cell_ex nc ns G k Hk) as (g0 & i & j & G0 & I0 & J0 & ->). unfold s. rewrite follow_cell by assumption. unfold t.
    rewrite (nth_of_error _ _ _ _ (fl_te _ _ _ _ _ FG g0 i j G0 I0 J0)). rewrite (nth_of_error _ _ _ _ (fl_te _ _ _ _ _ FG (p g0) i j (sh_p _ _ _ SH g0 G0) I0 J0)). reflexivity. }
  assert (SL := sh_p _ _ _ SF). destruct SO as [EQ RG AR NT].
  set (v' := fun k => v (s k)) in *. set (V' := fun k => V (s k)) in *. set (g' := fun k => g (s k)). set (net' := fun k => net (s k)).
  assert (IN : forall x l, (l < K)%nat -> infl t v' V' x l = infl t v V x (s l)) by (intros x l L; unfold infl; rewrite TS by assumption; reflexivity).
  assert (WA : forall x, wash K t v' V' g' x = wash K t v V g x).
  { intros x. unfold wash. rewrite <- (vsumn_shuffle K s _ (fun l => sscale (g l) (infl t v V x l)) SF). apply vsumn_ext. intros l L. rewrite IN by assumption. reflexivity. }
  assert (AC : forall a b, (b < K)%nat -> acoef t v' V' a b = acoef t v V (s a) (s b)) by (intros a b B; unfold acoef; rewrite IN by assumption; reflexivity).
  assert (LP' : length panels' = K) by (destruct RP as [L _]; exact L).
  assert (AREA : forall k, (k < K)%nat -> area panels' k = area panels (s k)).
  { intros k Hk. rewrite HK in Hk. destruct (cell_ex nc ns G k Hk) as (g0 & i & j & G0 & I0 & J0 & ->). unfold s. rewrite follow_cell by assumption.
    destruct (nth_error_ex panels (cell nc ns (p g0) i j)) as [x X]; [fold K; rewrite HK; apply cell_lt; try assumption; apply (sh_p _ _ _ SH); assumption|]. pose proof X as X'. rewrite <- (proj2 RP g0 i j) in X' by assumption.
    unfold area, get_panels_area. rewrite (nth_of_error _ _ 0 _ (map_nth_error panel_area _ _ X)), (nth_of_error _ _ 0 _ (map_nth_error panel_area _ _ X')). reflexivity. }
  assert (NT' : forall k, (k < K)%nat -> net_circulation (tab K g') le ns k = Ok (net' k)).
  { intros k Hk. pose proof (NT (s k) (SL k Hk)) as N1. unfold net'. assert (Hk' := Hk). rewrite HK in Hk'. destruct (cell_ex nc ns G k Hk') as (g0 & i & j & G0 & I0 & J0 & ->).
    pose proof (sh_p _ _ _ SH g0 G0) as G1. unfold s in N1 |- *. rewrite follow_cell in N1 |- * by assumption. fold s.
    destruct (net_circulation_spec nc ns G te le (tab K g) (p g0) i j FG ltac:(rewrite tab_length; exact HK) G1 I0 J0) as (x & X1 & X2 & X3).
    destruct (net_circulation_spec nc ns G te le (tab K g') g0 i j FG ltac:(rewrite tab_length; exact HK) G0 I0 J0) as (y & Y1 & Y2 & Y3).
    destruct (tab_some _ _ _ _ X1) as [BX ->]. destruct (tab_some _ _ _ _ Y1) as [BY ->].
    assert (C0 : g' (cell nc ns g0 i j) = g (cell nc ns (p g0) i j)) by (unfold g', s; rewrite follow_cell by assumption; reflexivity).
    destruct i as [|i].
    - specialize (X2 eq_refl). specialize (Y2 eq_refl). congruence.
    - destruct (X3 i eq_refl) as (x' & X4 & X5). destruct (Y3 i eq_refl) as (y' & Y4 & Y5).
      destruct (tab_some _ _ _ _ X4) as [BX' ->]. destruct (tab_some _ _ _ _ Y4) as [BY' ->].
      assert (C1 : g' (cell nc ns g0 i j) = g (cell nc ns (p g0) i j)) by (unfold g', s; rewrite follow_cell by lia; reflexivity).
      congruence. }
  destruct (vlm_solve_make K ns rho panels' le t v' V' nc te vars' ic' g' net' LP' ET EV' EI') as (o' & VS' & FL').
  { constructor; [| | |exact NT'].
    - intros a A. unfold V' at 2, v' at 2. rewrite <- (EQ (s a) (SL a A)), <- (sumn_shuffle K s _ (fun l => acoef t v V (s a) l * g l) SF). apply sumn_ext. intros l L. rewrite AC by assumption. reflexivity.
    - intros z Z l L. destruct SF as [_ SQ PQ QP]. set (r := follow nc ns q) in *.
      assert (R0 : z (r (s l)) = 0).
      { apply (RG (fun l => z (r l))); [|apply SL; assumption]. intros k Hk. rewrite <- (sumn_shuffle K s r (fun l => acoef t v V k l * z (r l))) by (constructor; assumption).
        rewrite <- (Z (r k) (SQ k Hk)). apply sumn_ext. intros b B. rewrite AC, PQ, QP by assumption. reflexivity. }
      rewrite QP in R0 by assumption. exact R0.
    - intros a I. apply In_nth_error in I. destruct I as [k HA]. assert (Hk : (k < K)%nat) by (apply nth_error_Some_lt in HA; unfold get_panels_area in HA; rewrite map_length in HA; lia).
      replace a with (area panels' k) by (unfold area; apply nth_of_error; exact HA). rewrite AREA by assumption. apply AR. apply nth_In. unfold get_panels_area. rewrite map_length. apply SL. exact Hk. }
  exists o'. split. { unfold Vlm. rewrite gor_R, CV'. cbn [bind]. rewrite IC'. cbn [bind]. exact VS'. }
  assert (FI2 : forall x, induced o' x = induced o x).
  { intros x. rewrite FI, <- WA. unfold induced, wash. rewrite (f_panels _ _ _ _ _ _ _ _ _ _ _ _ _ _ FL'), LP'. apply vsumn_ext. intros l L.
    rewrite (f_gamma _ _ _ _ _ _ _ _ _ _ _ _ _ _ FL'), (f_te _ _ _ _ _ _ _ _ _ _ _ _ _ _ FL'), (f_inlet _ _ _ _ _ _ _ _ _ _ _ _ _ _ FL'), EI'.
    unfold vl_rings. rewrite (f_vars _ _ _ _ _ _ _ _ _ _ _ _ _ _ FL'), map_tab, !tab_nth by assumption. reflexivity. }
  assert (TAB : forall A (f : nat -> A) l l', l = tab K f -> l' = tab K (fun k => f (s k)) -> regrouped nc ns G p l l').
  { intros A f l l' E1 E2. rewrite HK in E1, E2. apply (regrouped_tab nc ns G p q l f l' SH E1). exact E2. }
  assert (FO : forall a, (a < K)%nat -> pforce K rho t v' V' g' net' a = pforce K rho t v V g net (s a)) by (intros a A; unfold pforce; rewrite WA; reflexivity).
  destruct FL as [_ _ _ _ _ _ _ F0 FIN F1 F2 F3 F4 F5 F6 F7 F8 F9 F10]. destruct FL' as [_ _ _ _ _ _ _ F0' FIN' F1' F2' F3' F4' F5' F6' F7' F8' F9' F10'].
  constructor; [| | | | | | | | | | | |exact FI2].
  - rewrite FIN, FIN'. exact RI.
  - apply (TAB _ v); assumption.
  - apply (TAB _ g); assumption.
  - apply (TAB _ _ _ _ F2). rewrite F2'. apply tab_ext. intros k Hk. apply WA.
  - apply (TAB _ _ _ _ F3). rewrite F3'. apply tab_ext. intros k Hk. rewrite WA. reflexivity.
  - apply (TAB _ _ _ _ F4). rewrite F4'. apply tab_ext. intros k Hk. apply WA.
  - apply (TAB _ _ _ _ F5). rewrite F5'. apply tab_ext. intros k Hk. rewrite WA. reflexivity.
  - apply (TAB _ _ _ _ F6). rewrite F6'. apply tab_ext. exact FO.
  - apply (TAB _ _ _ _ F7). rewrite F7'. apply tab_ext. reflexivity.
  - apply (TAB _ _ _ _ F8). rewrite F8'. apply tab_ext. intros k Hk. unfold pdrag. rewrite WA. reflexivity.
  - apply (TAB _ _ _ _ F9). rewrite F9'. apply tab_ext. intros k Hk. rewrite FO, AREA by assumption. reflexivity.
  - apply (TAB _ _ _ _ F10). rewrite F10'. apply tab_ext. intros k Hk. rewrite FO, AREA by assumption. reflexivity.
Qed.

(** *** Sail sets *)
(** the sails [sails'] are the sails [sails] in another order *)
Definition reordered {A} (p q : nat -> nat) (sails sails' : list A) : Prop := shuffle (length sails) p q /\ length sails' = length sails /\ forall h, nth_error sails' h = nth_error sails (if (h <? length sails)%nat then p h else h).
Lemma reordered_exists {A} (l l' : list A) : Permutation l l' -> exists p q, reordered p q l l'.
Proof.
  intros P. assert (X : exists p q, (forall h, p (q h) = h) /\ (forall h, q (p h) = h) /\ (forall h, (h < length l)%nat -> (p h < length l)%nat) /\ (forall h, (h < length l)%nat -> (q h < length l)%nat) /\ length l' = length l /\ forall h, nth_error l' h = nth_error l (p h)).
  { induction P as [|a l l' P IH|a b l|l l' l'' P1 IH1 P2 IH2].
    - exists (fun h => h), (fun h => h). auto 6.
    - destruct IH as (p & q & A1 & A2 & A3 & A4 & A5 & A6). exists (fun h => match h with O => O | S h => S (p h) end), (fun h => match h with O => O | S h => S (q h) end). cbn [length].
      split; [intros [|h]; auto|]. split; [intros [|h]; auto|]. split; [intros [|h] Q; [lia|apply -> Nat.succ_lt_mono; apply A3; lia]|]. split; [intros [|h] Q; [lia|apply -> Nat.succ_lt_mono; apply A4; lia]|]. split; [auto|]. intros [|h]; [reflexivity|apply A6].
    - set (f := fun h => match h with O => 1%nat | S O => O | S (S h) => S (S h) end). exists f, f. cbn [length].
      split; [intros [|[|h]]; reflexivity|]. split; [intros [|[|h]]; reflexivity|]. split; [intros [|[|h]] Q; cbn [f]; lia|]. split; [intros [|[|h]] Q; cbn [f]; lia|]. split; [reflexivity|]. intros [|[|h]]; reflexivity.
    - destruct IH1 as (p & q & A1 & A2 & A3 & A4 & A5 & A6). destruct IH2 as (p' & q' & B1 & B2 & B3 & B4 & B5 & B6). exists (fun h => p (p' h)), (fun h => q' (q h)). rewrite A5 in B3, B4.
      split; [intros h; rewrite B1; apply A1|]. split; [intros h; rewrite A2; apply B2|]. split; [auto|]. split; [auto|]. split; [lia|]. intros h. rewrite B6. apply A6. }
  destruct X as (p & q & A1 & A2 & A3 & A4 & A5 & A6). exists p, q. split; [constructor; auto|]. split; [exact A5|]. intros h. destruct (Nat.ltb_spec h (length l)) as [H|H]; [apply A6|].
  rewrite (proj2 (nth_error_None l' h)), (proj2 (nth_error_None l h)) by lia. reflexivity.
Qed.
(** above the water and below *)
Definition both (n : nat) (p : nat -> nat) (g : nat) : nat := if (g <? n)%nat then p g else (n + p (g - n))%nat.
Lemma both_shuffle n p q : shuffle n p q -> shuffle (2 * n) (both n p) (both n q).
Proof.
  assert (X : forall p q, shuffle n p q -> forall g, (g < 2 * n)%nat -> (both n p g < 2 * n)%nat /\ both n q (both n p g) = g).
  { clear. intros p q [P Q PQ QP] g G. unfold both. destruct (Nat.ltb_spec g n) as [H|H].
    - pose proof (P g H) as B. destruct (Nat.ltb_spec (p g) n) as [_|?]; [|lia]. split; [lia|auto].
    - pose proof (P (g - n)%nat ltac:(lia)) as B. destruct (Nat.ltb_spec (n + p (g - n)%nat) n) as [?|_]; [lia|]. split; [lia|]. replace (n + p (g - n)%nat - n)%nat with (p (g - n)%nat) by lia. rewrite QP; lia. }
  intros S. pose proof (X p q S) as X1. pose proof (X q p (shuffle_inv _ _ _ S)) as X2. constructor; intros g G; [apply X1|apply X2|apply X2|apply X1]; exact G.
Qed.
Lemma regrouped_concat {A B} nc ns p q (sails sails' : list A) (f f' : A -> list B) : reordered p q sails sails' -> (forall s, In s sails -> length (f s) = (nc * ns)%nat /\ length (f' s) = (nc * ns)%nat) ->
  regrouped nc ns (2 * length sails) (both (length sails) p) (concat (map f sails ++ map f' sails)) (concat (map f sails' ++ map f' sails')).
Proof.
  intros (SH & L & R) LEN. set (n := length sails) in *.
  assert (IN : forall s, In s sails' -> In s sails).
  { intros s I. apply In_nth_error in I. destruct I as [h H]. rewrite R in H. apply (nth_error_In _ _ H). }
  assert (AL : forall l, (forall s, In s l -> In s sails) -> forall a, In a (map f l ++ map f' l) -> length a = (nc * ns)%nat).
  { intros l HL a I. apply in_app_or in I. destruct I as [I|I]; apply in_map_iff in I; destruct I as (s & <- & I); apply LEN, HL; exact I. }
  pose proof (AL sails (fun s I => I)) as A1. pose proof (AL sails' IN) as A2.
  split; [rewrite (concat_groups_length _ _ A1), (concat_groups_length _ _ A2), !app_length, !map_length, L; reflexivity|].
  intros g i j HG I J. rewrite !cell_in by assumption. assert (K : (i * ns + j < nc * ns)%nat) by nia.
  assert (NTH : forall l x, (x < 2 * length l)%nat -> length l = n -> nth_error (map f l ++ map f' l) x = if (x <? n)%nat then option_map f (nth_error l x) else option_map f' (nth_error l (x - n))).
  { intros l x HX HL. destruct (Nat.ltb_spec x n) as [H|H].
    - rewrite nth_error_app1 by (rewrite map_length; lia). apply nth_error_map.
    - rewrite nth_error_app2 by (rewrite map_length; lia). rewrite map_length, HL. apply nth_error_map. }
  assert (EQ : nth_error (map f sails' ++ map f' sails') g = nth_error (map f sails ++ map f' sails) (both n p g)).
  { pose proof (sh_p _ _ _ (both_shuffle n p q SH) g HG) as BG. rewrite (NTH sails' g), (NTH sails (both n p g)) by (fold n; lia). unfold both. destruct (Nat.ltb_spec g n) as [H|H].
    - pose proof (sh_p _ _ _ SH g H). destruct (Nat.ltb_spec (p g) n) as [_|?]; [|lia]. rewrite R. destruct (Nat.ltb_spec g n); [reflexivity|lia].
    - destruct (Nat.ltb_spec (n + p (g - n)%nat) n) as [?|_]; [lia|]. rewrite R. destruct (Nat.ltb_spec (g - n) n); [|lia]. do 2 f_equal. lia. }
  destruct (nth_error_ex (map f sails' ++ map f' sails') g) as [a HA]; [rewrite app_length, !map_length; lia|]. pose proof HA as HB. rewrite EQ in HB.
  rewrite (concat_groups_nth _ (nc * ns) g a _ A2 HA K), (concat_groups_nth _ (nc * ns) (both n p g) a _ A1 HB K). reflexivity.
Qed.
Lemma flags_unique nc ns G te le te' le' : flags nc ns G te le -> flags nc ns G te' le' -> te = te' /\ le = le'.
Proof.
  intros [A1 A2 A3 A4] [B1 B2 B3 B4]. split; (apply list_ext; [congruence|]; intros k K); [rewrite A1 in K|rewrite A2 in K]; destruct (cell_ex nc ns G k K) as (g & i & j & G0 & I0 & J0 & ->); [rewrite A3, B3|rewrite A4, B4]; auto.
Qed.
Theorem C95_sail_sets : forall nc ns sails sails' ss rho w o, (0 < nc)%nat -> (0 < ns)%nat -> (forall s, In s sails -> built nc ns s) -> Permutation sails sails' ->
  SailSet sails = Ok ss -> Vlm (ss_panels ss) nc ns rho w (ss_te ss) (ss_le ss) = Ok o ->
  exists ss' o' p q, SailSet sails' = Ok ss' /\ Vlm (ss_panels ss') nc ns rho w (ss_te ss') (ss_le ss') = Ok o' /\
    reordered p q sails sails' /\ regrouped nc ns (2 * length sails) (both (length sails) p) (ss_panels ss) (ss_panels ss') /\ same_flow nc ns (2 * length sails) (both (length sails) p) o o'.
Proof.
  intros nc ns sails sails' ss rho w o NC NS B P E V. destruct (reordered_exists _ _ P) as (p & q & RO).
  assert (B' : forall s, In s sails' -> built nc ns s) by (intros s I; apply B; apply (Permutation_in _ (Permutation_sym P)); exact I).
  destruct (sail_set_groups nc ns sails ss B E) as (N & E1 & _). destruct (sail_set_flags nc ns sails ss B E) as [LP FG].
  assert (E' : exists ss', SailSet sails' = Ok ss'). { destruct sails' as [|s sails']; [destruct RO as (_ & L & _); cbn [length] in L; lia|]. eexists. reflexivity. }
  destruct E' as [ss' E']. destruct (sail_set_groups nc ns sails' ss' B' E') as (N' & E1' & _). destruct (sail_set_flags nc ns sails' ss' B' E') as [LP' FG'].
  assert (L : length sails' = length sails) by (destruct RO as (_ & L & _); exact L). rewrite L in *.
  assert (RG : regrouped nc ns (2 * length sails) (both (length sails) p) (ss_panels ss) (ss_panels ss')).
  { rewrite E1, E1'. apply (regrouped_concat nc ns p q sails sails' sl_above sl_under RO). intros s I. pose proof (built_layout nc ns s (B s I)) as LY. split; [apply (lay_above nc ns), LY|apply (lay_under nc ns), LY]. }
  destruct (flags_unique _ _ _ _ _ _ _ FG FG') as [ET EL].
  destruct (C95_solver nc ns (2 * length sails) (both (length sails) p) (both (length sails) q) (ss_panels ss) (ss_panels ss') rho w (ss_te ss) (ss_le ss) o NC NS ltac:(lia) (both_shuffle _ _ _ (proj1 RO)) FG LP RG V) as (o' & V' & SF).
  exists ss', o', p, q. split; [exact E'|]. rewrite <- ET, <- EL. split; [exact V'|]. split; [exact RO|]. split; [exact RG|]. exact SF.
Qed.

(** *** Forces and moments *)
Lemma ssum_perm (l m : list (vec R)) : Permutation l m -> ssum l = ssum m.
Proof. induction 1 as [|a l l' P IH|a b l|l l' l'' _ IH1 _ IH2]; rewrite ?ssum_cons; [reflexivity|rewrite IH; reflexivity| |congruence]. unfold sadd. cbn [vx vy vz]. f_equal; ring. Qed.
Lemma nsum_perm (l m : list R) : Permutation l m -> nsum l = nsum m.
Proof. intros P. rewrite !nsum_rsum. apply rsum_perm. exact P. Qed.
Lemma regrouped_perm {A} nc ns G p q (l l' : list A) : shuffle G p q -> length l = (G * (nc * ns))%nat -> regrouped nc ns G p l l' -> Permutation l l'.
Proof.
  intros SH L R. destruct l as [|d l0]; [destruct l' as [|? ?]; [constructor|destruct R as [X _]; discriminate X]|]. set (l := d :: l0) in *.
  assert (X : exists f, l = tab (G * (nc * ns)) f) by (exists (fun k => nth k l d); apply list_tab; exact L). destruct X as [f E]. pose proof (proj1 (regrouped_tab nc ns G p q l f l' SH E) R) as E'. clearbody l. subst l l'. symmetry. unfold tab.
  rewrite <- (map_map (follow nc ns p) f (seq 0 _)). apply Permutation_map. apply (shuffle_perm _ _ _ (follow_shuffle nc ns G p q SH)).
Qed.
Lemma above_regrouped {A} nc ns n p q (l l' : list A) : shuffle n p q -> length l = (2 * n * (nc * ns))%nat -> regrouped nc ns (2 * n) (both n p) l l' ->
  length (above_water l) = (n * (nc * ns))%nat /\ regrouped nc ns n p (above_water l) (above_water l').
Proof.
  intros SH L [L' R]. unfold above_water. rewrite L', L. replace (2 * n * (nc * ns))%nat with (n * (nc * ns) * 2)%nat by lia. rewrite Nat.div_mul by lia. set (K := (n * (nc * ns))%nat).
  split; [rewrite firstn_length; lia|]. split; [rewrite !firstn_length; lia|]. intros g i j HG I J. pose proof (sh_p _ _ _ SH g HG) as HP.
  rewrite !nth_error_firstn by (apply cell_lt; assumption). rewrite R by (assumption || lia). unfold both. destruct (Nat.ltb_spec g n); [reflexivity|lia].
Qed.
Lemma regrouped_zip {A B C} nc ns G p q (f : A -> B -> C) l l' m m' : shuffle G p q -> length l = (G * (nc * ns))%nat -> length m = (G * (nc * ns))%nat ->
  regrouped nc ns G p l l' -> regrouped nc ns G p m m' -> regrouped nc ns G p (zipWith f l m) (zipWith f l' m').
Proof.
  intros SH L M [L' R] [M' S]. split; [rewrite !zipWith_length; lia|]. intros g i j HG I J. pose proof (sh_p _ _ _ SH g HG) as HP.
  destruct (nth_error_ex l (cell nc ns (p g) i j)) as [a X]; [rewrite L; apply cell_lt; assumption|]. destruct (nth_error_ex m (cell nc ns (p g) i j)) as [b Y]; [rewrite M; apply cell_lt; assumption|].
  rewrite (nth_error_zipWith f l m _ a b X Y). apply nth_error_zipWith; [rewrite R|rewrite S]; assumption.
Qed.
Lemma groups_regrouped {A} nc ns n p q (l l' : list A) ch ch' : (0 < n)%nat -> shuffle n p q -> length l = (n * (nc * ns))%nat -> regrouped nc ns n p l l' -> array_split l n = Ok ch -> array_split l' n = Ok ch' ->
  forall h, (h < n)%nat -> nth h ch' [] = nth (p h) ch [].
Proof.
  intros N SH L [L' R] E E' h H. pose proof (sh_p _ _ _ SH h H) as HP.
  destruct (array_split_groups l n (nc * ns) N L) as (g1 & X1 & X2 & _ & X3 & X4). assert (g1 = ch) by congruence. subst g1.
  destruct (array_split_groups l' n (nc * ns) N ltac:(lia)) as (g1 & Y1 & Y2 & _ & Y3 & Y4). assert (g1 = ch') by congruence. subst g1.
  destruct (nth_error_ex ch (p h)) as [a HA]; [lia|]. destruct (nth_error_ex ch' h) as [b HB]; [lia|]. rewrite (nth_of_error _ _ [] _ HA), (nth_of_error _ _ [] _ HB).
  pose proof (X3 a (nth_error_In _ _ HA)) as LA. pose proof (Y3 b (nth_error_In _ _ HB)) as LB. apply list_ext; [lia|]. intros k K. rewrite LB in K. rewrite (X4 _ _ _ HA K), (Y4 _ _ _ HB K).
  destruct (divmod_lt k nc ns K) as (D1 & D2 & D3). rewrite D3.
  specialize (R h (k / ns)%nat (k mod ns)%nat H D1 D2). rewrite !cell_in in R by assumption. exact R.
Qed.
(** the sums reported for a run *)
Record same_results (n : nat) (p : nat -> nat) (fr fr' : flow_results R) : Prop := {
  sr_F : fr_F_total fr' = fr_F_total fr; sr_M : fr_M_total fr' = fr_M_total fr; sr_coe : fr_coe fr' = fr_coe fr;
  sr_F_cl : fr_F_cl_total fr' = fr_F_cl_total fr; sr_M_cl : fr_M_cl_total fr' = fr_M_cl_total fr;
  sr_keel : forall clr, keel_moment fr' clr = keel_moment fr clr;
  sr_totals : forall h, (h < n)%nat -> nth_error (fr_sails fr') h = nth_error (fr_sails fr) (p h) }.

Theorem C95_results : forall nc ns sails sails' ss ss' p q c o o' fr, (0 < nc)%nat -> (0 < ns)%nat -> reordered p q sails sails' -> SailSet sails = Ok ss -> SailSet sails' = Ok ss' ->
  length (vl_force o) = (2 * length sails * (nc * ns))%nat -> length (vl_vars o) = (2 * length sails * (nc * ns))%nat -> same_flow nc ns (2 * length sails) (both (length sails) p) o o' ->
  InviscidFlowResults ss c o = Ok fr -> exists fr', InviscidFlowResults ss' c o' = Ok fr' /\ same_results (length sails) p fr fr'.
Proof.
  intros nc ns sails sails' ss ss' p q c o o' fr NC NS RO ES ES' LF LV SF E. set (n := length sails) in *. destruct RO as (SH & LS & RS). fold n in SH, LS, RS.
  assert (SS : ss_sails ss = sails /\ ss_sails ss' = sails' /\ (0 < n)%nat).
  { unfold n. clear - ES ES'. destruct sails as [|a l]; [discriminate|]. destruct sails' as [|a' l']; [discriminate|]. injection ES as <-. injection ES' as <-. cbn [ss_sails length]. split; [reflexivity|]. split; [reflexivity|lia]. }
  destruct SS as (S1 & S2 & N). pose proof (both_shuffle n p q SH) as BS.
  set (r := calc_moment_arm_in_shifted_csys (vl_cp o) (ref_vec c)). set (r' := calc_moment_arm_in_shifted_csys (vl_cp o') (ref_vec c)).
  assert (LR : length r = (2 * n * (nc * ns))%nat) by (unfold r, calc_moment_arm_in_shifted_csys, vl_cp; rewrite !map_length; exact LV).
  pose proof (sf_force _ _ _ _ _ _ SF) as RF.
  assert (RR : regrouped nc ns (2 * n) (both n p) r r') by (apply regrouped_map, regrouped_map; apply (sf_vars _ _ _ _ _ _ SF)).
  assert (RM : regrouped nc ns (2 * n) (both n p) (calc_moments r (vl_force o)) (calc_moments r' (vl_force o'))) by (apply (regrouped_zip nc ns (2 * n) _ _ vcross _ _ _ _ BS); assumption).
  assert (LM : length (calc_moments r (vl_force o)) = (2 * n * (nc * ns))%nat) by (unfold calc_moments; rewrite zipWith_length; lia).
  assert (TOT : forall l l' : list (vec R), length l = (2 * n * (nc * ns))%nat -> regrouped nc ns (2 * n) (both n p) l l' -> vsum (above_water l') = vsum (above_water l)).
  { intros l l' L R. destruct (above_regrouped nc ns n p q l l' SH L R) as [LA RA]. rewrite !vsum_ssum. symmetry. apply ssum_perm. apply (regrouped_perm nc ns n p q _ _ SH LA RA). }
  destruct (above_regrouped nc ns n p q _ _ SH LF RF) as [LFA RFA]. destruct (above_regrouped nc ns n p q _ _ SH LR RR) as [LRA RRA].
  pose proof (proj1 RF) as LF'. pose proof (proj1 RR) as LR'.
  unfold InviscidFlowResults in E. cbv zeta in E. fold r in E. rewrite S1 in E. fold n in E.
  replace (firstn (length (vl_force o) / 2) r) with (above_water r) in E by (unfold above_water; congruence). change (firstn (length (vl_force o) / 2) (vl_force o)) with (above_water (vl_force o)) in E.
  destruct (array_split_groups (above_water (vl_force o)) n (nc * ns) N LFA) as (fch & EF & LFC & _). destruct (array_split_groups (above_water r) n (nc * ns) N LRA) as (rch & ER & LRC & _).
  rewrite EF in E. cbn [bind] in E. rewrite ER in E. cbn [bind] in E. injection E as <-.
  destruct (array_split_groups (above_water (vl_force o')) n (nc * ns) N ltac:(rewrite (proj1 RFA); exact LFA)) as (fch' & EF' & LFC' & _). destruct (array_split_groups (above_water r') n (nc * ns) N ltac:(rewrite (proj1 RRA); exact LRA)) as (rch' & ER' & LRC' & _).
  unfold InviscidFlowResults. cbv zeta. fold r'. rewrite S2, LS.
  replace (firstn (length (vl_force o') / 2) r') with (above_water r') by (unfold above_water; do 2 f_equal; lia). change (firstn (length (vl_force o') / 2) (vl_force o')) with (above_water (vl_force o')).
  rewrite EF'. cbn [bind]. rewrite ER'. cbn [bind]. eexists. split; [reflexivity|].
  assert (T1 : vsum (above_water (vl_force o')) = vsum (above_water (vl_force o))) by (apply TOT; assumption).
  assert (T2 : vsum (above_water (calc_moments r' (vl_force o'))) = vsum (above_water (calc_moments r (vl_force o)))) by (apply TOT; assumption).
  assert (T3 : nsum (above_water (zipWith vdot r' (vl_force o'))) = nsum (above_water (zipWith vdot r (vl_force o)))).
  { assert (LZ : length (zipWith vdot r (vl_force o)) = (2 * n * (nc * ns))%nat) by (rewrite zipWith_length; lia).
    destruct (above_regrouped nc ns n p q _ _ SH LZ (regrouped_zip nc ns (2 * n) _ _ vdot _ _ _ _ BS LR LF RR RF)) as [LA RA]. symmetry. apply nsum_perm. apply (regrouped_perm nc ns n p q _ _ SH LA RA). }
  constructor; cbn [fr_F_total fr_M_total fr_coe fr_F_cl_total fr_M_cl_total fr_sails].
  - exact T1.
  - exact T2.
  - rewrite T1, T2, T3. reflexivity.
  - apply TOT; [unfold from_xyz_to_centerline_csys; rewrite map_length; exact LF|apply regrouped_map; exact RF].
  - apply TOT; [unfold from_xyz_to_centerline_csys; rewrite map_length; exact LM|apply regrouped_map; exact RM].
  - intros clr. unfold keel_moment. cbn [fr_F_total fr_csys]. rewrite T1. reflexivity.
  - intros h H. pose proof (sh_p _ _ _ SH h H) as HP. destruct (nth_error_ex sails (p h) HP) as [s X].
    assert (X' : nth_error sails' h = Some s) by (rewrite RS; destruct (Nat.ltb_spec h n); [exact X|lia]).
    rewrite (map_nth_error _ _ _ (nth_error_combine _ _ _ _ _ (nth_error_seq 0 n h H) X')), (map_nth_error _ _ _ (nth_error_combine _ _ _ _ _ (nth_error_seq 0 n (p h) HP) X)). cbn [fst snd plus].
    rewrite (groups_regrouped nc ns n p q _ _ fch fch' N SH LFA RFA EF EF' h H), (groups_regrouped nc ns n p q _ _ rch rch' N SH LRA RRA ER ER' h H). reflexivity.
Qed.

(** *** Whole runs *)
Theorem C95_order : forall nc ns sails sails' ss rho w c o fr, (0 < nc)%nat -> (0 < ns)%nat -> (forall s, In s sails -> built nc ns s) -> Permutation sails sails' ->
  SailSet sails = Ok ss -> Vlm (ss_panels ss) nc ns rho w (ss_te ss) (ss_le ss) = Ok o -> InviscidFlowResults ss c o = Ok fr ->
  exists ss' o' fr' p q, SailSet sails' = Ok ss' /\ Vlm (ss_panels ss') nc ns rho w (ss_te ss') (ss_le ss') = Ok o' /\ InviscidFlowResults ss' c o' = Ok fr' /\
    reordered p q sails sails' /\ same_flow nc ns (2 * length sails) (both (length sails) p) o o' /\ same_results (length sails) p fr fr'.
Proof.
  intros nc ns sails sails' ss rho w c o fr NC NS B P E V R.
  destruct (C95_sail_sets nc ns sails sails' ss rho w o NC NS B P E V) as (ss' & o' & p & q & E' & V' & RO & _ & SF).
  destruct (sail_set_flags nc ns sails ss B E) as [LP FL].
  destruct (C60_complete_results _ _ _ _ _ _ _ _ (eq_trans (fl_te_len _ _ _ _ _ FL) (eq_sym LP)) V) as (_ & _ & _ & LC & _ & _ & _ & _ & _ & _ & LF & _). rewrite LP in LC, LF. unfold vl_cp in LC. rewrite map_length in LC.
  destruct (C95_results nc ns sails sails' ss ss' p q c o o' fr NC NS RO E E' LF LC SF R) as (fr' & R' & SR).
  exists ss', o', fr', p, q. auto 6.
Qed.
(* one order is refused if and only if the other is *)
Theorem C95_refusals : forall nc ns sails sails' ss ss' rho w, (0 < nc)%nat -> (0 < ns)%nat -> (forall s, In s sails -> built nc ns s) -> Permutation sails sails' ->
  SailSet sails = Ok ss -> SailSet sails' = Ok ss' ->
  (exists e, Vlm (ss_panels ss) nc ns rho w (ss_te ss) (ss_le ss) = Raise e) <-> (exists e, Vlm (ss_panels ss') nc ns rho w (ss_te ss') (ss_le ss') = Raise e).
Proof.
  assert (X : forall nc ns sails sails' ss ss' rho w, (0 < nc)%nat -> (0 < ns)%nat -> (forall s, In s sails -> built nc ns s) -> Permutation sails sails' -> SailSet sails = Ok ss -> SailSet sails' = Ok ss' ->
    (exists e, Vlm (ss_panels ss') nc ns rho w (ss_te ss') (ss_le ss') = Raise e) -> exists e, Vlm (ss_panels ss) nc ns rho w (ss_te ss) (ss_le ss) = Raise e).
  { intros nc ns sails sails' ss ss' rho w NC NS B P E E' (e & R). destruct (Vlm (ss_panels ss) nc ns rho w (ss_te ss) (ss_le ss)) as [o|e1] eqn:V; [exfalso|eauto].
    destruct (C95_sail_sets nc ns sails sails' ss rho w o NC NS B P E V) as (ss2 & o' & _ & _ & E2 & V' & _). assert (ss2 = ss') by congruence. subst ss2. congruence. }
  intros nc ns sails sails' ss ss' rho w NC NS B P E E'. split; [|apply (X nc ns sails sails'); assumption].
  apply (X nc ns sails' sails); try assumption; [|apply Permutation_sym; exact P]. intros s I. apply B, (Permutation_in _ (Permutation_sym P)), I.
Qed.

(** ** Concrete case: two different sails, listed in both orders *)
Example C95_case : exists s1 s2 ss o fr, built 1 1 s1 /\ built 1 1 s2 /\ s1 <> s2 /\ SailSet [s1; s2] = Ok ss /\
  Vlm (ss_panels ss) 1 1 1 demo_wind (ss_te ss) (ss_le ss) = Ok o /\ InviscidFlowResults ss (Csys 0 0 szero) o = Ok fr /\
  exists ss' o' fr', SailSet [s2; s1] = Ok ss' /\ Vlm (ss_panels ss') 1 1 1 demo_wind (ss_te ss') (ss_le ss') = Ok o' /\ InviscidFlowResults ss' (Csys 0 0 szero) o' = Ok fr' /\
    fr_F_total fr' = fr_F_total fr /\ nth_error (fr_sails fr') 0 = nth_error (fr_sails fr) 1 /\ nth_error (fr_sails fr') 1 = nth_error (fr_sails fr) 0.
Proof.
  destruct two_sails as (s1 & s2 & B1 & B2 & D & _ & _ & ss & SS & EP & ET & EL). destruct (two_Vlm 1) as [o O]. rewrite <- EP, <- ET, <- EL in O.
  assert (B : forall s, In s [s1; s2] -> built 1 1 s) by (intros s [<-|[<-|[]]]; assumption).
  destruct (C48_run 1 1 [s1; s2] ss 1 demo_wind o (Csys 0 0 szero) B SS O) as (fr & FR & _).
  exists s1, s2, ss, o, fr. repeat (split; [assumption|]).
  destruct (C95_order 1 1 [s1; s2] [s2; s1] ss 1 demo_wind (Csys 0 0 szero) o fr ltac:(lia) ltac:(lia) B (perm_swap s2 s1 []) SS O FR) as (ss' & o' & fr' & p & q & E' & V' & R' & (SH & _ & RO) & _ & SR).
  exists ss', o', fr'. split; [exact E'|]. split; [exact V'|]. split; [exact R'|]. split; [exact (sr_F _ _ _ _ SR)|].
  pose proof (RO 0%nat) as R0. pose proof (RO 1%nat) as R1. cbn in R0, R1.
  assert (P0 : p 0%nat = 1%nat). { pose proof (sh_p _ _ _ SH 0%nat ltac:(cbn; lia)) as L. cbn in L. destruct (p 0%nat) as [|[|]]; [cbn in R0; congruence|reflexivity|lia]. }
  assert (P1 : p 1%nat = 0%nat). { pose proof (sh_p _ _ _ SH 1%nat ltac:(cbn; lia)) as L. cbn in L. destruct (p 1%nat) as [|[|]]; [reflexivity|cbn in R1; congruence|lia]. }
  pose proof (sr_totals _ _ _ _ SR 0%nat ltac:(cbn; lia)) as T0. pose proof (sr_totals _ _ _ _ SR 1%nat ltac:(cbn; lia)) as T1. rewrite P0 in T0. rewrite P1 in T1. split; assumption.
Qed.
Print Assumptions C95_solver.
Print Assumptions C95_sail_sets.
Print Assumptions C95_results.
Print Assumptions C95_order.
Print Assumptions C95_refusals.
