(** Lemmas about the solver stage: lengths, inflow, scaling, motions and mirror images. *)

From Coq Require Import String ZArith Reals List Bool Lra Psatz Lia.
From Verif Require Import Num PyBase RNum Spec M_Panels M_Velocity M_Solve M_Coefs M_Forces M_Winds M_Vlm
  L_List L_Rot L_Vel L_Vel2 L_Solve L_Lattice L_Vlm.
Import ListNotations.
Open Scope R_scope.

Section Len.
Context {F : Type} {NF : Num F}.
Lemma group_vars_length gor ns (grid : list (panel F)) te vars : group_vlm_variables gor ns grid te = Ok vars -> length vars = length grid.
Proof. intros E. apply mapM_length in E. rewrite E, combine_length, seq_length. lia. Qed.
Lemma vlm_vars_length (panels : list (panel F)) te gor nc ns vars : length te = length panels ->
  calculate_vlm_variables panels te gor nc ns = Ok vars -> length vars = length panels.
Proof.
  intros LT E. unfold calculate_vlm_variables in E. destruct (nc * ns =? 0)%nat; [discriminate|].
  set (G := (length panels / (nc * ns))%nat) in *.
  destruct (Nat.eqb_spec (length panels) (G * (nc * ns))) as [LP|LP].
  2:{ revert E. destruct (array_split panels G); [|discriminate]. destruct (array_split te G); [|discriminate].
      unfold bind. destruct (mapM _ _); discriminate. }
  destruct (Nat.eq_dec G 0) as [G0|G0]; [rewrite G0 in E; discriminate|].
  destruct (array_split_groups panels G (nc * ns) ltac:(lia) LP) as (pss & E1 & L1 & _ & A1 & _).
  destruct (array_split_groups te G (nc * ns) ltac:(lia) ltac:(lia)) as (tss & E2 & L2 & _).
  rewrite E1, E2 in E. unfold bind in E. destruct (mapM _ (combine pss tss)) as [vss|] eqn:M; [|discriminate]. injection E as <-.
  rewrite (concat_groups_length vss (nc * ns)).
  - rewrite (mapM_length _ _ _ M), combine_length. lia.
  - intros a I. apply In_nth_error in I. destruct I as [k I]. pose proof (mapM_Forall2 _ _ _ M) as FF.
    pose proof (nth_error_Some_lt _ _ _ I) as Hk. rewrite (mapM_length _ _ _ M) in Hk.
    destruct (nth_error_ex _ _ Hk) as [[p t] C]. pose proof (Forall2_nth_error _ _ _ _ _ _ FF C I) as Q. cbn [fst snd] in Q.
    rewrite (group_vars_length _ _ _ _ _ Q). apply nth_error_combine_inv in C. apply A1. apply (nth_error_In _ k). apply C.
Qed.
Lemma inlet_length w (cp : list (vec F)) ic : InletConditions w cp = Ok ic -> length (in_V ic) = length cp.
Proof.
  intros E. unfold InletConditions in E. destruct (mapM _ cp) as [tws|] eqn:M; [|discriminate]. injection E as <-. cbn [in_V].
  rewrite map_length. apply (mapM_length _ _ _ M).
Qed.
(* every entry of the inflow is computed from the centre of pressure of its own panel *)
Lemma inlet_nth w (cp : list (vec F)) ic k p : InletConditions w cp = Ok ic -> nth_error cp k = Some p ->
  exists u, get_true_wind_speed_at_h w (nabs (vz p)) = Ok u /\ nth_error (in_V ic) k = Some (get_app_infs_at_h w u).
Proof.
  intros E P. unfold InletConditions in E. destruct (mapM _ cp) as [tws|] eqn:M; [|discriminate]. injection E as <-. cbn [in_V].
  destruct (mapM_nth _ _ _ _ _ M P) as (b & B1 & B2). exists b. split; [assumption|]. apply map_nth_error. assumption.
Qed.
End Len.

Definition dpv : pvars R := PVars szero szero szero (Ring szero szero szero szero) szero szero szero.

Lemma Vlm_inv panels nc ns rho w te le o : length te = length panels -> Vlm panels nc ns rho w te le = Ok o ->
  exists vars ic g net, calculate_vlm_variables panels te (-1) nc ns = Ok vars /\ length vars = length panels /\
    InletConditions w (map pv_cp vars) = Ok ic /\ length (in_V ic) = length panels /\
    vlm_solve panels nc ns rho te le vars ic = Ok o /\
    let K := length panels in let t k := nth k te false in let v k := nth k vars dpv in let V k := nth k (in_V ic) szero in
    solved K ns panels le t v V g net /\ flow K ns rho panels le t v V nc te ic g net o.
Proof.
  intros LT E. unfold Vlm in E. rewrite gor_R in E. destruct (calculate_vlm_variables _ _ _ _ _) as [vars|] eqn:CV; [|discriminate]. unfold bind at 1 in E.
  destruct (InletConditions _ _) as [ic|] eqn:IC; [|discriminate]. unfold bind in E.
  pose proof (vlm_vars_length _ _ _ _ _ _ LT CV) as LV. pose proof (inlet_length _ _ _ IC) as LI. rewrite map_length, LV in LI.
  destruct (vlm_solve_inv (length panels) ns rho panels le (fun k => nth k te false) (fun k => nth k vars dpv) (fun k => nth k (in_V ic) szero) nc te vars ic o) as (g & net & SO & FL); try assumption; try reflexivity.
  1-3: apply list_tab; assumption.
  exists vars, ic, g, net. split; [reflexivity|]. split; [exact LV|]. split; [first [exact IC | reflexivity]|]. split; [exact LI|]. split; [exact E|]. cbv zeta. split; [exact SO | exact FL].
Qed.

(** ** Inflow scaled by a positive factor *)
Lemma sunit_scale k a : 0 < k -> sunit (sscale k a) = sunit a.
Proof.
  intros K. destruct (Req_dec (snorm a) 0) as [Z|Z].
  - apply snorm_zero in Z. subst a. replace (sscale k szero) with szero by (svec; vec_eq; ring). reflexivity.
  - unfold sunit. rewrite snorm_scale, Rabs_pos_eq by lra. rewrite Rinv_mult. destruct a as [x y z]. unfold sscale. cbn [vx vy vz].
    vec_eq; field; lra.
Qed.
Lemma inf_direction p a r g k : 0 < k -> vortex_infinite_line p a (sscale k r) g = vortex_infinite_line p a r g.
Proof.
  intros K. unfold vortex_infinite_line. cbv zeta. tospec.
  change (sscale (/ snorm (sscale k r)) (sscale k r)) with (sunit (sscale k r)). rewrite sunit_scale by assumption. reflexivity.
Qed.
Lemma influence_direction gor p r te u k : 0 < k -> influence gor p r te (sscale k u) = influence gor p r te u.
Proof.
  intros K. unfold influence. destruct te; [|reflexivity]. unfold vortex_horseshoe_v2. cbv zeta. rewrite !inf_direction by assumption. reflexivity.
Qed.
Lemma py_nth_map {A B} (f : A -> B) l z : py_nth (map f l) z = match py_nth l z with Ok a => Ok (f a) | Raise e => Raise e end.
Proof.
  unfold py_nth. rewrite map_length. destruct (_ || _)%bool; [reflexivity|].
  rewrite nth_error_map. destruct (nth_error l _); reflexivity.
Qed.
Lemma net_scale gamma le ns i k x : net_circulation gamma le ns i = Ok x -> net_circulation (map (Rmult k) gamma) le ns i = Ok (k * x).
Proof.
  unfold net_circulation. rewrite !py_nth_map. destruct (py_nth le _) as [l|]; [|discriminate]. unfold bind.
  destruct (py_nth gamma (Z.of_nat i)) as [g|]; [|discriminate]. destruct (l || _)%bool; [congruence|].
  destruct (py_nth gamma _) as [g'|]; [|discriminate]. intros E. injection E as <-. f_equal. rnum. ring.
Qed.

(** ** Mirror images and motions of the influence *)
Lemma influence_mirror gor p r te u : influence gor (smirror p) (Ring (smirror (rD r)) (smirror (rC r)) (smirror (rB r)) (smirror (rA r))) te (smirror u)
  = smirror (influence gor p r te u).
Proof.
  assert (Z : forall q, smirror q = motion smirror szero q) by (intros [x y z]; unfold motion; svec; vec_eq; ring).
  unfold influence. cbn [rA rB rC rD]. destruct te.
  - rewrite (Z p), (Z (rA r)), (Z (rB r)), (Z (rC r)), (Z (rD r)).
    rewrite (horseshoe2_motion (-1) smirror iso_mirror ltac:(lra)), horseshoe2_reversed.
    destruct (vortex_horseshoe_v2 _ _ _ _ _ _ _). svec; vec_eq; ring.
  - rewrite (Z p), (Z (rA r)), (Z (rB r)), (Z (rC r)), (Z (rD r)).
    rewrite (ring_motion (-1) smirror iso_mirror ltac:(lra)), ring_reversed.
    destruct (vortex_ring _ _ _ _ _ _). svec; vec_eq; ring.
Qed.
Lemma influence_motion m d p r te u : rotation_map m ->
  influence (-1) (motion m d p) (Ring (motion m d (rA r)) (motion m d (rB r)) (motion m d (rC r)) (motion m d (rD r))) te (m u)
  = m (influence (-1) p r te u).
Proof.
  intros RM. assert (O : forall a, sscale 1 a = a) by (intros [x y z]; svec; vec_eq; ring).
  unfold influence. cbn [rA rB rC rD]. destruct te.
  - rewrite (horseshoe2_motion 1 m (iso_rotation m RM) ltac:(lra)). apply O.
  - rewrite (ring_motion 1 m (iso_rotation m RM) ltac:(lra)). apply O.
Qed.

(** ** Panels and their vortices under mirror images and motions *)
Record mirror_vars (v w : pvars R) : Prop := {
  mv_n : pv_n w = smirror (pv_n v); mv_ctr : pv_ctr w = smirror (pv_ctr v); mv_cp : pv_cp w = smirror (pv_cp v);
  mv_ring : pv_ring w = Ring (smirror (rD (pv_ring v))) (smirror (rC (pv_ring v))) (smirror (rB (pv_ring v))) (smirror (rA (pv_ring v)));
  mv_span : pv_span w = sopp (smirror (pv_span v)) }.
Record moved_vars (m : vec R -> vec R) (d : vec R) (v w : pvars R) : Prop := {
  mo_n : pv_n w = m (pv_n v); mo_ctr : pv_ctr w = motion m d (pv_ctr v); mo_cp : pv_cp w = motion m d (pv_cp v);
  mo_ring : pv_ring w = Ring (motion m d (rA (pv_ring v))) (motion m d (rB (pv_ring v))) (motion m d (rC (pv_ring v))) (motion m d (rD (pv_ring v)));
  mo_span : pv_span w = m (pv_span v) }.
Definition mirrored (p : panel R) : panel R := Panel (smirror (pp4 p)) (smirror (pp3 p)) (smirror (pp2 p)) (smirror (pp1 p)).
Definition moved (m : vec R -> vec R) (d : vec R) (p : panel R) : panel R :=
  Panel (motion m d (pp1 p)) (motion m d (pp2 p)) (motion m d (pp3 p)) (motion m d (pp4 p)).
Lemma normal_mirror p : scross (ssub (smirror (pp2 p)) (smirror (pp4 p))) (ssub (smirror (pp1 p)) (smirror (pp3 p)))
  = smirror (scross (ssub (pp3 p) (pp1 p)) (ssub (pp4 p) (pp2 p))).
Proof. destruct p as [[? ? ?] [? ? ?] [? ? ?] [? ? ?]]; cbn [pp1 pp2 pp3 pp4]. svec. vec_eq; ring. Qed.
Ltac corners p := destruct p as [[? ? ?] [? ? ?] [? ? ?] [? ? ?]]; cbn [pp1 pp2 pp3 pp4]; rewrite ?ndec_R;
  change (10 ^ 2)%Z with 100%Z; rnum; unfold motion; svec.
Lemma panel_vars_mirror gor p A D : mirror_vars (panel_vars gor p A D) (panel_vars gor (mirrored p) (smirror D) (smirror A)).
Proof.
  constructor; unfold panel_vars, mirrored, quarter_B, quarter_C; cbv zeta; cbn [pv_n pv_ctr pv_cp pv_ring pv_span pp1 pp2 pp3 pp4 rA rB rC rD]; tospec.
  - rewrite normal_mirror. set (x := scross _ _). rewrite (iso_norm (-1) smirror iso_mirror). destruct x; svec; vec_eq; ring.
  - corners p. vec_eq; field.
  - corners p. vec_eq; field.
  - f_equal; corners p; vec_eq; field.
  - corners p. vec_eq; field.
Qed.
Section Motion.
Context (m : vec R -> vec R) (d : vec R) (RM : rotation_map m).
Lemma m_sub a b : m (ssub a b) = ssub (m a) (m b).
Proof. apply (iso_sub 1), iso_rotation, RM. Qed.
Lemma m_sunit a : sunit (m a) = m (sunit a).
Proof. apply (iso_unit 1), iso_rotation, RM. Qed.
Lemma m_snorm a : snorm (m a) = snorm a.
Proof. apply (iso_norm 1), iso_rotation, RM. Qed.
Lemma mo_sub a b : ssub (motion m d a) (motion m d b) = m (ssub a b).
Proof. apply (motion_sub 1), iso_rotation, RM. Qed.
Ltac spread := unfold moved, aft_A, aft_D, quarter_B, quarter_C; cbn [pp1 pp2 pp3 pp4]; tospec; unfold motion;
  do 4 (rewrite ?(rm_add m RM), ?(rm_scale m RM), ?m_sub);
  repeat match goal with |- context [m ?q] => let w := fresh in set (w := m q); clearbody w end;
  rewrite ?ndec_R; change (10 ^ 2)%Z with 100%Z; rnum; svec; vec_eq; field.
Lemma quarter_B_moved p : quarter_B (moved m d p) = motion m d (quarter_B p).
Proof. destruct p as [a b c e]. spread. Qed.
Lemma quarter_C_moved p : quarter_C (moved m d p) = motion m d (quarter_C p).
Proof. destruct p as [a b c e]. spread. Qed.
Lemma aft_A_moved p : aft_A (moved m d p) = motion m d (aft_A p).
Proof. destruct p as [a b c e]. spread. Qed.
Lemma aft_D_moved p : aft_D (moved m d p) = motion m d (aft_D p).
Proof. destruct p as [a b c e]. spread. Qed.
Lemma panel_vars_moved p A D : moved_vars m d (panel_vars (-1) p A D) (panel_vars (-1) (moved m d p) (motion m d A) (motion m d D)).
Proof.
  constructor; unfold panel_vars; cbv zeta; cbn [pv_n pv_ctr pv_cp pv_ring pv_span rA rB rC rD]; rewrite ?quarter_B_moved, ?quarter_C_moved; tospec.
  - unfold moved; cbn [pp1 pp2 pp3 pp4]. rewrite !mo_sub, (rm_cross m RM), m_snorm, (rm_scale m RM). reflexivity.
  - destruct p as [a b c e]. spread.
  - destruct p as [a b c e]. spread.
  - reflexivity.
  - rewrite mo_sub, (rm_scale m RM). reflexivity.
Qed.
Lemma panel_area_moved p : panel_area (moved m d p) = panel_area p.
Proof. unfold panel_area, moved; cbv zeta; cbn [pp1 pp2 pp3 pp4]. tospec. rewrite !mo_sub, !(rm_cross m RM), !m_snorm. reflexivity. Qed.
Lemma vars_moved nc ns G te panels vars : (0 < nc)%nat -> (0 < ns)%nat -> (0 < G)%nat ->
  length panels = (G * (nc * ns))%nat -> length te = (G * (nc * ns))%nat ->
  (forall g i j, (g < G)%nat -> (i < nc)%nat -> (j < ns)%nat -> nth_error te (cell nc ns g i j) = Some (i =? nc - 1)%nat) ->
  calculate_vlm_variables panels te (-1) nc ns = Ok vars ->
  exists vars', calculate_vlm_variables (map (moved m d) panels) te (-1) nc ns = Ok vars' /\ length vars' = length vars /\
    forall k v, nth_error vars k = Some v -> exists w, nth_error vars' k = Some w /\ moved_vars m d v w.
Proof.
  intros NC NS NG LP LT TE CV.
  destruct (vlm_vars_spec (-1) nc ns G panels te NC NS NG LP LT TE) as (vars0 & CV0 & L0 & S0).
  assert (vars0 = vars) by congruence; subst vars0.
  destruct (vlm_vars_spec (-1) nc ns G (map (moved m d) panels) te NC NS NG ltac:(rewrite map_length; lia) LT TE) as (vars1 & CV1 & L1 & S1).
  exists vars1. split; [assumption|]. rewrite map_length in L1. split; [congruence|].
  intros k v Hv. pose proof (nth_error_Some_lt _ _ _ Hv) as K. rewrite L0, LP in K.
  destruct (cell_ex nc ns G k K) as (g & i & j & G1 & I1 & J1 & ->).
  destruct (nth_error_ex panels (cell nc ns g i j)) as [p P]; [rewrite LP; apply cell_lt; assumption|].
  destruct (S0 g i j p G1 I1 J1 P) as (A & D & X & T & N).
  destruct (S1 g i j (moved m d p) G1 I1 J1 (map_nth_error _ _ _ P)) as (A' & D' & X' & T' & N').
  exists (panel_vars (-1) (moved m d p) A' D'). split; [assumption|]. rewrite Hv in X. injection X as ->.
  replace A' with (motion m d A). replace D' with (motion m d D). apply panel_vars_moved.
  all: destruct (Nat.eq_dec i (nc - 1)) as [E|E].
  - rewrite (proj2 (T E)), (proj2 (T' E)). symmetry. apply aft_D_moved.
  - destruct (nth_error_ex panels (cell nc ns g (i + 1) j)) as [q Q]; [rewrite LP; apply cell_lt; lia|].
    destruct (N q Q E) as [_ ->]. destruct (N' (moved m d q) (map_nth_error _ _ _ Q) E) as [_ ->]. symmetry. apply quarter_C_moved.
  - rewrite (proj1 (T E)), (proj1 (T' E)). symmetry. apply aft_A_moved.
  - destruct (nth_error_ex panels (cell nc ns g (i + 1) j)) as [q Q]; [rewrite LP; apply cell_lt; lia|].
    destruct (N q Q E) as [-> _]. destruct (N' (moved m d q) (map_nth_error _ _ _ Q) E) as [-> _]. symmetry. apply quarter_B_moved.
Qed.
End Motion.

(** ** Lattices whose second half is the mirror image of the first *)
Definition mirror_lattice (nc ns n : nat) (panels : list (panel R)) : Prop :=
  length panels = (2 * n * (nc * ns))%nat /\
  forall g i j, (g < n)%nat -> (i < nc)%nat -> (j < ns)%nat -> exists p,
    nth_error panels (cell nc ns g i j) = Some p /\ nth_error panels (cell nc ns (n + g) i (ns - 1 - j)) = Some (mirrored p).
Definition other (n g : nat) : nat := if (g <? n)%nat then (n + g)%nat else (g - n)%nat.
Definition opposite (nc ns n k : nat) : nat :=
  let m := (nc * ns)%nat in cell nc ns (other n (k / m)) (k mod m / ns) (ns - 1 - (k mod m) mod ns).
Lemma opposite_cell nc ns n g i j : (i < nc)%nat -> (j < ns)%nat -> opposite nc ns n (cell nc ns g i j) = cell nc ns (other n g) i (ns - 1 - j).
Proof.
  intros I J. unfold opposite. cbv zeta. rewrite (cell_in nc ns g i j I J).
  assert (K : (i * ns + j < nc * ns)%nat) by nia.
  rewrite (Nat.add_comm (g * (nc * ns))), Nat.div_add, (Nat.div_small (i * ns + j)), Nat.mod_add by lia.
  rewrite (Nat.mod_small (i * ns + j)) by assumption. rewrite (Nat.add_comm (i * ns)), Nat.div_add, (Nat.div_small j), Nat.mod_add by lia.
  rewrite (Nat.mod_small j) by assumption. reflexivity.
Qed.
Lemma other_lt n g : (g < 2 * n)%nat -> (other n g < 2 * n)%nat.
Proof. unfold other. destruct (Nat.ltb_spec g n); lia. Qed.
Lemma other_other n g : (g < 2 * n)%nat -> other n (other n g) = g.
Proof. intros. unfold other. destruct (Nat.ltb_spec g n). - destruct (Nat.ltb_spec (n + g) n); lia. - destruct (Nat.ltb_spec (g - n) n); lia. Qed.
Lemma opposite_lt nc ns n k : (k < 2 * n * (nc * ns))%nat -> (opposite nc ns n k < 2 * n * (nc * ns))%nat.
Proof.
  intros K. destruct (cell_ex nc ns (2 * n) k K) as (g & i & j & G & I & J & ->). rewrite opposite_cell by assumption.
  apply cell_lt; [apply other_lt; assumption | assumption | lia].
Qed.
Lemma opposite_inv nc ns n k : (k < 2 * n * (nc * ns))%nat -> opposite nc ns n (opposite nc ns n k) = k.
Proof.
  intros K. destruct (cell_ex nc ns (2 * n) k K) as (g & i & j & G & I & J & ->). rewrite !opposite_cell by (try assumption; lia).
  rewrite other_other by assumption. f_equal. lia.
Qed.
Lemma mirrored_mirrored p : mirrored (mirrored p) = p.
Proof. destruct p as [[? ? ?] [? ? ?] [? ? ?] [? ? ?]]. unfold mirrored; cbn [pp1 pp2 pp3 pp4]. f_equal; svec; vec_eq; ring. Qed.
Lemma mirror_lattice_opposite nc ns n panels k p : mirror_lattice nc ns n panels -> nth_error panels k = Some p ->
  nth_error panels (opposite nc ns n k) = Some (mirrored p).
Proof.
  intros [L M] P. pose proof (nth_error_Some_lt _ _ _ P) as K. rewrite L in K.
  destruct (cell_ex nc ns (2 * n) k K) as (g & i & j & G & I & J & ->). rewrite opposite_cell by assumption. unfold other.
  destruct (Nat.ltb_spec g n) as [H|H].
  - destruct (M g i j H I J) as (q & Q1 & Q2). rewrite P in Q1. injection Q1 as <-. assumption.
  - destruct (M (g - n)%nat i (ns - 1 - j)%nat ltac:(lia) I ltac:(lia)) as (q & Q1 & Q2).
    replace (n + (g - n))%nat with g in Q2 by lia. replace (ns - 1 - (ns - 1 - j))%nat with j in Q2 by lia.
    rewrite P in Q2. injection Q2 as ->. rewrite mirrored_mirrored. assumption.
Qed.
Lemma aft_D_mirrored p : aft_D (mirrored p) = smirror (aft_A p).
Proof. unfold mirrored, aft_A, aft_D; cbn [pp1 pp2 pp3 pp4]; tospec; corners p; vec_eq; field. Qed.
Lemma aft_A_mirrored p : aft_A (mirrored p) = smirror (aft_D p).
Proof. unfold mirrored, aft_A, aft_D; cbn [pp1 pp2 pp3 pp4]; tospec; corners p; vec_eq; field. Qed.
Lemma quarter_B_mirrored p : quarter_B (mirrored p) = smirror (quarter_C p).
Proof. unfold mirrored, quarter_B, quarter_C; cbn [pp1 pp2 pp3 pp4]; tospec; corners p; vec_eq; field. Qed.
Lemma quarter_C_mirrored p : quarter_C (mirrored p) = smirror (quarter_B p).
Proof. unfold mirrored, quarter_B, quarter_C; cbn [pp1 pp2 pp3 pp4]; tospec; corners p; vec_eq; field. Qed.
Lemma panel_area_mirrored p : panel_area (mirrored p) = panel_area p.
Proof.
  unfold panel_area, mirrored; cbv zeta; cbn [pp1 pp2 pp3 pp4]. tospec. rewrite ndec_R. change (10 ^ 1)%Z with 10%Z. rnum.
  assert (X : forall a b c e, snorm (scross (ssub (smirror a) (smirror b)) (ssub (smirror c) (smirror e))) = snorm (scross (ssub e c) (ssub b a))).
  { intros. unfold snorm. f_equal. dv. svec. ring. }
  rewrite !X. ring.
Qed.
Lemma vars_mirror nc ns n te le panels vars : (0 < nc)%nat -> (0 < ns)%nat -> (0 < n)%nat ->
  mirror_lattice nc ns n panels -> flags nc ns (2 * n) te le ->
  calculate_vlm_variables panels te (-1) nc ns = Ok vars ->
  forall k v, nth_error vars k = Some v -> exists w, nth_error vars (opposite nc ns n k) = Some w /\ mirror_vars v w.
Proof.
  intros NC NS NG ML FL CV k v Hv. pose proof (proj1 ML) as LP.
  destruct (vlm_vars_spec (-1) nc ns (2 * n) panels te NC NS ltac:(lia) LP (fl_te_len _ _ _ _ _ FL) (fl_te _ _ _ _ _ FL)) as (vars0 & CV0 & L0 & S0).
  assert (vars0 = vars) by congruence; subst vars0.
  pose proof (nth_error_Some_lt _ _ _ Hv) as K. rewrite L0, LP in K.
  destruct (cell_ex nc ns (2 * n) k K) as (g & i & j & G1 & I1 & J1 & ->).
  destruct (nth_error_ex panels (cell nc ns g i j)) as [p P]; [rewrite LP; apply cell_lt; assumption|].
  pose proof (mirror_lattice_opposite _ _ _ _ _ _ ML P) as P'. rewrite opposite_cell in P' |- * by assumption.
  pose proof (other_lt n g G1) as G2. assert (J2 : (ns - 1 - j < ns)%nat) by lia.
  destruct (S0 g i j p G1 I1 J1 P) as (A & D & X & T & N).
  destruct (S0 (other n g) i (ns - 1 - j)%nat (mirrored p) G2 I1 J2 P') as (A' & D' & X' & T' & N').
  exists (panel_vars (-1) (mirrored p) A' D'). split; [assumption|]. rewrite Hv in X. injection X as ->.
  replace A' with (smirror D). replace D' with (smirror A). apply panel_vars_mirror.
  all: destruct (Nat.eq_dec i (nc - 1)) as [E|E].
  1: rewrite (proj1 (T E)), (proj2 (T' E)); symmetry; apply aft_D_mirrored.
  2: rewrite (proj2 (T E)), (proj1 (T' E)); symmetry; apply aft_A_mirrored.
  all: destruct (nth_error_ex panels (cell nc ns g (i + 1) j)) as [q Q]; [rewrite LP; apply cell_lt; lia|].
  all: pose proof (mirror_lattice_opposite _ _ _ _ _ _ ML Q) as Q'; rewrite opposite_cell in Q' by (assumption || lia).
  all: destruct (N q Q E) as [-> ->]; destruct (N' (mirrored q) Q' E) as [-> ->].
  - symmetry. apply quarter_C_mirrored.
  - symmetry. apply quarter_B_mirrored.
Qed.
