(** A run with two sails: the flat sail of L_Demo and the same sail one kilometre astern. *)

From Coq Require Import String ZArith Reals List Bool Lra Psatz Lia.
From Verif Require Import Num PyBase RNum Spec M_Panels M_Velocity M_Solve M_Coefs M_Winds M_Csys M_Sail M_Vlm
  L_List L_Rot L_Vel L_Vel2 L_Csys L_Sail L_Sail2 L_Solve L_Lattice L_Vlm L_Vlm2 P_Sail P_Lattice L_Demo P_Vlm.
Import ListNotations.
Open Scope R_scope.

(** ** A system with a dominant diagonal is regular *)
Lemma regular_solvable n a b : regular n a -> exists fx, forall k, (k < n)%nat -> sumn n (fun l => a k l * fx l) = b k.
Proof.
  intros RG. destruct (proj2 (proj2 (C39_linear_solver (matrix n a) (tab n b)))) as [x E].
  - apply matrix_square.
  - unfold matrix. rewrite !tab_length. reflexivity.
  - assert (LM : length (matrix n a) = n) by (unfold matrix; apply tab_length). rewrite LM.
    intros z S. pose proof S as (LZ & _). rewrite LM in LZ.
    assert (EZ : z = tab n (fun k => nth k z 0)) by (apply list_tab; exact LZ).
    assert (R0 : repeat 0 n = tab n (fun _ => 0)) by (rewrite (list_tab (repeat 0 n) n 0 (repeat_length _ _)); apply tab_ext; intros; apply nth_repeat).
    rewrite EZ in S. rewrite R0 in S. pose proof (proj1 (solves_tab _ _ _ _) S) as S'.
    rewrite EZ, R0. apply tab_ext. intros k K. apply (RG _ S' k K).
  - destruct (solve_tab _ _ _ _ E) as (fx & _ & EQ & _). exists fx. exact EQ.
Qed.
Lemma row_zero a b c d x y z w : Rabs y <= Rabs x -> Rabs z <= Rabs x -> Rabs w <= Rabs x -> Rabs b + Rabs c + Rabs d < Rabs a -> a * x + b * y + c * z + d * w = 0 -> x = 0.
Proof.
  intros Y Z W D E. destruct (Req_dec x 0) as [|N]; [assumption|exfalso]. pose proof (Rabs_pos_lt x N) as X.
  assert (F : a * x = - (b * y + c * z + d * w)) by lra. apply (f_equal Rabs) in F. rewrite Rabs_Ropp, Rabs_mult in F.
  pose proof (Rabs_triang (b * y + c * z) (d * w)) as T1. pose proof (Rabs_triang (b * y) (c * z)) as T2. rewrite !Rabs_mult in *.
  pose proof (Rmult_le_compat_l (Rabs b) _ _ (Rabs_pos b) Y). pose proof (Rmult_le_compat_l (Rabs c) _ _ (Rabs_pos c) Z). pose proof (Rmult_le_compat_l (Rabs d) _ _ (Rabs_pos d) W). nra.
Qed.
Lemma sumn4 f : sumn 4 f = f 0%nat + f 1%nat + f 2%nat + f 3%nat.
Proof. unfold sumn, tab. cbn [map seq]. rewrite !rsum_cons. change (rsum []) with 0. ring. Qed.
Lemma dominant4 a : Rabs (a 0%nat 1%nat) + Rabs (a 0%nat 2%nat) + Rabs (a 0%nat 3%nat) < Rabs (a 0%nat 0%nat) -> Rabs (a 1%nat 0%nat) + Rabs (a 1%nat 2%nat) + Rabs (a 1%nat 3%nat) < Rabs (a 1%nat 1%nat) ->
  Rabs (a 2%nat 0%nat) + Rabs (a 2%nat 1%nat) + Rabs (a 2%nat 3%nat) < Rabs (a 2%nat 2%nat) -> Rabs (a 3%nat 0%nat) + Rabs (a 3%nat 1%nat) + Rabs (a 3%nat 2%nat) < Rabs (a 3%nat 3%nat) -> regular 4 a.
Proof.
  intros D0 D1 D2 D3 z Z. pose proof (Z 0%nat ltac:(lia)) as Z0. pose proof (Z 1%nat ltac:(lia)) as Z1. pose proof (Z 2%nat ltac:(lia)) as Z2. pose proof (Z 3%nat ltac:(lia)) as Z3.
  rewrite sumn4 in Z0, Z1, Z2, Z3. set (x0 := z 0%nat) in *. set (x1 := z 1%nat) in *. set (x2 := z 2%nat) in *. set (x3 := z 3%nat) in *.
  assert (A : x0 = 0 /\ x1 = 0 /\ x2 = 0 /\ x3 = 0).
  { assert (ALL : forall x y, x = 0 -> Rabs y <= Rabs x -> y = 0). { intros x y -> H. rewrite Rabs_R0 in H. destruct (Req_dec y 0) as [|N]; [assumption|]. pose proof (Rabs_pos_lt y N). lra. }
    assert (M : (Rabs x1 <= Rabs x0 /\ Rabs x2 <= Rabs x0 /\ Rabs x3 <= Rabs x0) \/ (Rabs x0 <= Rabs x1 /\ Rabs x2 <= Rabs x1 /\ Rabs x3 <= Rabs x1) \/
      (Rabs x0 <= Rabs x2 /\ Rabs x1 <= Rabs x2 /\ Rabs x3 <= Rabs x2) \/ (Rabs x0 <= Rabs x3 /\ Rabs x1 <= Rabs x3 /\ Rabs x2 <= Rabs x3)) by lra.
    destruct M as [(H1 & H2 & H3)|[(H1 & H2 & H3)|[(H1 & H2 & H3)|(H1 & H2 & H3)]]].
    - assert (E : x0 = 0) by (apply (row_zero (a 0%nat 0%nat) (a 0%nat 1%nat) (a 0%nat 2%nat) (a 0%nat 3%nat) x0 x1 x2 x3); (assumption || lra)). split; [exact E|]. repeat split; apply (ALL x0); assumption.
    - assert (E : x1 = 0) by (apply (row_zero (a 1%nat 1%nat) (a 1%nat 0%nat) (a 1%nat 2%nat) (a 1%nat 3%nat) x1 x0 x2 x3); (assumption || lra)). repeat split; try exact E; apply (ALL x1); assumption.
    - assert (E : x2 = 0) by (apply (row_zero (a 2%nat 2%nat) (a 2%nat 0%nat) (a 2%nat 1%nat) (a 2%nat 3%nat) x2 x0 x1 x3); (assumption || lra)). repeat split; try exact E; apply (ALL x2); assumption.
    - assert (E : x3 = 0) by (apply (row_zero (a 3%nat 3%nat) (a 3%nat 0%nat) (a 3%nat 1%nat) (a 3%nat 2%nat) x3 x0 x1 x2); (assumption || lra)). repeat split; try exact E; apply (ALL x3); assumption. }
  destruct A as (A0 & A1 & A2 & A3). intros l L. assert (LL : (l = 0 \/ l = 1 \/ l = 2 \/ l = 3)%nat) by lia. destruct LL as [-> | [-> | [-> | ->]]]; assumption.
Qed.

(** ** What a panel one kilometre away induces *)
Definition off (p w : vec R) : Prop := 900 <= Rabs (vx p - vx w) /\ vy p = vy w /\ Rabs (vz p - vz w) <= 50.
Lemma vy_norm (a : vec R) : Rabs (vy a) <= snorm a.
Proof. unfold snorm. rewrite <- sqrt_Rsqr_abs. apply sqrt_le_1_alt. unfold Rsqr. pose proof (pow2_ge_0 (vx a)). pose proof (pow2_ge_0 (vz a)). nra. Qed.
Lemma vx_norm (a : vec R) : Rabs (vx a) <= snorm a.
Proof. unfold snorm. rewrite <- sqrt_Rsqr_abs. apply sqrt_le_1_alt. unfold Rsqr. pose proof (pow2_ge_0 (vy a)). pose proof (pow2_ge_0 (vz a)). nra. Qed.
Lemma off_norm p w : off p w -> 900 <= snorm (ssub p w).
Proof. intros (Y & _). pose proof (vx_norm (ssub p w)) as N. replace (vx (ssub p w)) with (vx p - vx w) in N by (destruct p, w; svec; ring). lra. Qed.
Lemma line_off p a b g : off p a -> off p b -> Rabs g = 1 -> snorm (ssub b a) <= 100 -> Rabs (vy (vortex_line p a b g)) <= 5 / 10000 / (4 * PI).
Proof.
  intros A B G L. pose proof PI_RGT_0 as P. apply Rle_trans with (1 := vy_norm _).
  apply Rle_trans with (1 := edge_bound p a b g 900 ltac:(lra) (off_norm _ _ A) (off_norm _ _ B) ltac:(lra)). rewrite G.
  apply Rle_trans with (1 * 100 / (2 * PI * (900 * 900))); [|replace (1 * 100 / (2 * PI * (900 * 900))) with (2 / 8100 / (4 * PI)) by (field; lra); assert (Q : 0 < / (4 * PI)) by (apply Rinv_0_lt_compat; lra); unfold Rdiv; nra].
  unfold Rdiv. apply Rmult_le_compat_r; [left; apply Rinv_0_lt_compat; nra|lra].
Qed.
Lemma inf_off p a g : off p a -> Rabs g = 1 -> Rabs (vy (vortex_infinite_line p a (V3 4 3 0) g)) <= 5 / 10000 / (4 * PI).
Proof.
  intros A G. pose proof PI_RGT_0 as P. pose proof (off_norm _ _ A) as N. pose proof (vx_norm (ssub p a)) as NY. destruct A as (X & Y & Z).
  rewrite (inf_val p a (V3 4 3 0) g 5 (snorm (ssub p a))) by (try reflexivity; apply snorm_val; lra).
  replace (vx (ssub p a)) with (vx p - vx a) in NY by (destruct p, a; svec; ring). assert (Y0 : vy p - vy a = 0) by lra.
  set (n := snorm (ssub p a)) in *. set (x := vx p - vx a) in *. set (y := vy p - vy a) in *. set (z := vz p - vz a) in *.
  replace (ssub p a) with (V3 x y z) by (unfold x, y, z; destruct p, a; svec; vec_eq; ring). clear Y. clearbody n x y z.
  assert (D : 900 * 180 <= n * (n - sdot (sscale (/ 5) (V3 4 3 0)) (V3 x y z))).
  { svec. assert (E : 180 <= n - (/ 5 * 4 * x + / 5 * 3 * y + / 5 * 0 * z)) by (unfold Rabs in *; repeat destruct (Rcase_abs _); lra). apply Rmult_le_compat; lra. }
  set (d := n * _) in *. clearbody d.
  replace (vy _) with (g * (/ (4 * PI)) * / d * (/ 5 * 0 * x - / 5 * 4 * z)) by (svec; field; lra).
  rewrite !Rabs_mult, G. rewrite (Rabs_right (/ (4 * PI))) by (left; apply Rinv_0_lt_compat; lra). rewrite (Rabs_right (/ d)) by (left; apply Rinv_0_lt_compat; lra).
  assert (ZZ : Rabs (/ 5 * 0 * x - / 5 * 4 * z) <= 40) by (unfold Rabs in *; repeat destruct (Rcase_abs _); lra).
  assert (DD : / d <= / 162000) by (apply Rinv_le_contravar; lra). assert (D0 : 0 <= / d) by (left; apply Rinv_0_lt_compat; lra).
  assert (Q : 0 < / (4 * PI)) by (apply Rinv_0_lt_compat; lra). unfold Rdiv.
  pose proof (Rmult_le_compat _ _ _ _ D0 (Rabs_pos _) DD ZZ) as M. replace (1 * / (4 * PI) * / d * Rabs (/ 5 * 0 * x - / 5 * 4 * z)) with (/ (4 * PI) * (/ d * Rabs (/ 5 * 0 * x - / 5 * 4 * z))) by ring. nra.
Qed.
Lemma ring_off p r : off p (rA r) -> off p (rB r) -> off p (rC r) -> off p (rD r) -> snorm (ssub (rB r) (rA r)) <= 100 -> snorm (ssub (rC r) (rB r)) <= 100 -> snorm (ssub (rD r) (rC r)) <= 100 ->
  Rabs (vy (influence (-1) p r true (V3 4 3 0))) <= 3 / 1000 / (4 * PI).
Proof.
  intros A B C D L1 L2 L3. pose proof PI_RGT_0 as P. unfold influence, vortex_horseshoe_v2. cbv zeta. tospec. rnum.
  assert (N1 : Rabs (-1) = 1) by (unfold Rabs; destruct (Rcase_abs _); lra). assert (N2 : Rabs (- (1) * -1) = 1) by (unfold Rabs; destruct (Rcase_abs _); lra).
  pose proof (line_off _ _ _ _ A B N1 L1) as E1. pose proof (line_off _ _ _ _ B C N1 L2) as E2. pose proof (line_off _ _ _ _ C D N1 L3) as E3.
  pose proof (inf_off p (rD r) _ D N1) as E4. pose proof (inf_off p (rA r) _ A N2) as E5.
  set (a1 := vortex_line p (rA r) _ _) in *. set (a2 := vortex_line p (rB r) _ _) in *. set (a3 := vortex_line p (rC r) _ _) in *.
  set (a4 := vortex_infinite_line p (rD r) _ _) in *. set (a5 := vortex_infinite_line p (rA r) _ _) in *. clearbody a1 a2 a3 a4 a5.
  replace (vy (sadd (sadd (sadd (sadd a1 a2) a3) a4) a5)) with (vy a1 + vy a2 + vy a3 + vy a4 + vy a5) by (destruct a1, a2, a3, a4, a5; svec; ring).
  unfold Rdiv in *. set (q := / (4 * PI)) in *. clearbody q. unfold Rabs in *. repeat destruct (Rcase_abs _); lra.
Qed.

(** ** The two sails *)
Definition astern : vec R := V3 1000 0 0.
Definition same (a : vec R) : vec R := a.
Lemma same_rotation : rotation_map same.
Proof. constructor; unfold same; reflexivity. Qed.
Definition two_panels : list (panel R) := [demo_panel; moved same astern demo_panel; mirrored demo_panel; moved same astern (mirrored demo_panel)].
Definition two_vars (k : nat) : pvars R := match k with
  | O => demo_vars 0 | S (S O) => demo_vars 1
  | S O => panel_vars (-1) (moved same astern demo_panel) (aft_A (moved same astern demo_panel)) (aft_D (moved same astern demo_panel))
  | _ => panel_vars (-1) (moved same astern (mirrored demo_panel)) (aft_A (moved same astern (mirrored demo_panel))) (aft_D (moved same astern (mirrored demo_panel))) end.
Lemma two_v1 : moved_vars same astern (two_vars 0) (two_vars 1).
Proof. unfold two_vars, demo_vars. rewrite (aft_A_moved same astern same_rotation), (aft_D_moved same astern same_rotation). apply panel_vars_moved. exact same_rotation. Qed.
Lemma two_v3 : moved_vars same astern (two_vars 2) (two_vars 3).
Proof. unfold two_vars, demo_vars. rewrite (aft_A_moved same astern same_rotation), (aft_D_moved same astern same_rotation). apply panel_vars_moved. exact same_rotation. Qed.
Lemma two_vars_ok : calculate_vlm_variables two_panels [true; true; true; true] (-1) 1 1 = Ok [two_vars 0; two_vars 1; two_vars 2; two_vars 3].
Proof. reflexivity. Qed.
Definition two_t (k : nat) : bool := true.
Definition two_x (k : nat) : R := if Nat.odd k then 1000 else 0.
Definition two_s (k : nat) : R := if (k <? 2)%nat then 1 else -1.
Definition two_lo (k : nat) : R := if (k <? 2)%nat then 11/2 else - (39/2).
Definition two_hi (k : nat) : R := if (k <? 2)%nat then 39/2 else - (11/2).
Lemma two_data k : (k < 4)%nat -> pv_n (two_vars k) = V3 0 1 0 /\ pv_ctr (two_vars k) = V3 (36 + two_x k) 0 (two_s k * (25/2)) /\
  pv_ring (two_vars k) = Ring (V3 (60 + two_x k) 0 (two_lo k)) (V3 (12 + two_x k) 0 (two_lo k)) (V3 (12 + two_x k) 0 (two_hi k)) (V3 (60 + two_x k) 0 (two_hi k)).
Proof.
  destruct demo_v0 as (N0 & C0 & _ & R0 & _). pose proof demo_v1 as M.
  assert (D0 : pv_n (two_vars 0) = V3 0 1 0 /\ pv_ctr (two_vars 0) = V3 36 0 (25/2) /\ pv_ring (two_vars 0) = Ring (V3 60 0 (11/2)) (V3 12 0 (11/2)) (V3 12 0 (39/2)) (V3 60 0 (39/2))) by (unfold two_vars; auto).
  assert (D2 : pv_n (two_vars 2) = V3 0 1 0 /\ pv_ctr (two_vars 2) = V3 36 0 (-(25/2)) /\ pv_ring (two_vars 2) = Ring (V3 60 0 (-(39/2))) (V3 12 0 (-(39/2))) (V3 12 0 (-(11/2))) (V3 60 0 (-(11/2)))).
  { change (two_vars 2) with (demo_vars 1). rewrite (mv_n _ _ M), (mv_ctr _ _ M), (mv_ring _ _ M), N0, C0, R0. cbn [rA rB rC rD]. split; [|split; [|f_equal]]; svec; vec_eq; ring. }
  intros K. assert (KK : (k = 0 \/ k = 1 \/ k = 2 \/ k = 3)%nat) by lia. clear K.
  destruct KK as [-> | [-> | [-> | ->]]]; unfold two_x, two_s, two_lo, two_hi; cbn [Nat.odd Nat.even negb Nat.ltb Nat.leb].
  - destruct D0 as (-> & -> & ->). split; [reflexivity|]. split; [|f_equal]; svec; vec_eq; ring.
  - rewrite (mo_n _ _ _ _ two_v1), (mo_ctr _ _ _ _ two_v1), (mo_ring _ _ _ _ two_v1). destruct D0 as (-> & -> & ->). cbn [rA rB rC rD]. unfold motion, same, astern. split; [reflexivity|]. split; [|f_equal]; svec; vec_eq; ring.
  - destruct D2 as (-> & -> & ->). split; [reflexivity|]. split; [|f_equal]; svec; vec_eq; ring.
  - rewrite (mo_n _ _ _ _ two_v3), (mo_ctr _ _ _ _ two_v3), (mo_ring _ _ _ _ two_v3). destruct D2 as (-> & -> & ->). cbn [rA rB rC rD]. unfold motion, same, astern. split; [reflexivity|]. split; [|f_equal]; svec; vec_eq; ring.
Qed.
Lemma two_off k l : (k < 4)%nat -> (l < 4)%nat -> Nat.odd k <> Nat.odd l -> Rabs (acoef two_t two_vars demo_V k l) <= 3 / 1000 / (4 * PI).
Proof.
  intros K L D. destruct (two_data k K) as (N & C & _). destruct (two_data l L) as (_ & _ & R). unfold acoef, infl. rewrite N, infl_dot_y, C, R. unfold two_t, demo_V.
  assert (Y : Rabs (two_x k - two_x l) = 1000). { unfold two_x. destruct (Nat.odd k), (Nat.odd l); try congruence; unfold Rabs; destruct (Rcase_abs _); lra. }
  assert (Z : Rabs (two_s k * (25/2) - two_lo l) <= 50 /\ Rabs (two_s k * (25/2) - two_hi l) <= 50). { unfold two_s, two_lo, two_hi. destruct (k <? 2)%nat, (l <? 2)%nat; split; unfold Rabs; destruct (Rcase_abs _); lra. }
  assert (H : two_hi l - two_lo l = 14) by (unfold two_hi, two_lo; destruct (l <? 2)%nat; lra).
  destruct Z as [Z1 Z2].
  apply ring_off; cbn [rA rB rC rD]; try (unfold off; cbn [vx vy vz]; split; [unfold Rabs in *; repeat destruct (Rcase_abs _); lra|]; split; [reflexivity|assumption]);
    unfold ssub; cbn [vx vy vz].
  - rewrite (snorm_val _ _ _ 48); [lra|lra|ring].
  - rewrite (snorm_val _ _ _ 14); [lra|lra|rewrite H; ring].
  - rewrite (snorm_val _ _ _ 48); [lra|lra|ring].
Qed.
Lemma two_same k l : (k < 4)%nat -> (l < 4)%nat -> Nat.odd k = Nat.odd l -> acoef two_t two_vars demo_V k l = demo_m (k / 2) (l / 2).
Proof.
  revert k l. assert (E : forall k l, (k = 0 \/ k = 2)%nat -> (l = 0 \/ l = 2)%nat -> acoef two_t two_vars demo_V k l = demo_m (k / 2) (l / 2)).
  { intros k l [-> | ->] [-> | ->]; [apply (demo_acoef 0 0)|apply (demo_acoef 0 1)|apply (demo_acoef 1 0)|apply (demo_acoef 1 1)]; lia. }
  assert (S : forall k l, (k = 0 \/ k = 2)%nat -> (l = 0 \/ l = 2)%nat -> acoef two_t two_vars demo_V (S k) (S l) = acoef two_t two_vars demo_V k l).
  { intros k l HK HL. assert (MK : moved_vars same astern (two_vars k) (two_vars (S k))) by (destruct HK as [-> | ->]; [apply two_v1|apply two_v3]).
    assert (ML : moved_vars same astern (two_vars l) (two_vars (S l))) by (destruct HL as [-> | ->]; [apply two_v1|apply two_v3]).
    unfold acoef, infl. rewrite (mo_n _ _ _ _ MK), (mo_ctr _ _ _ _ MK), (mo_ring _ _ _ _ ML). change (demo_V (S l)) with (same (demo_V l)). unfold two_t. rewrite (influence_motion same astern _ _ _ _ same_rotation). reflexivity. }
  intros k l K L O. assert (KK : (k = 0 \/ k = 1 \/ k = 2 \/ k = 3)%nat) by lia. assert (LL : (l = 0 \/ l = 1 \/ l = 2 \/ l = 3)%nat) by lia.
  destruct KK as [-> | [-> | [-> | ->]]], LL as [-> | [-> | [-> | ->]]]; try discriminate O; try solve [apply E; auto]; rewrite S by auto; rewrite E by auto; reflexivity.
Qed.
Lemma two_regular : regular 4 (acoef two_t two_vars demo_V).
Proof.
  pose proof PI_RGT_0 as P. assert (Q : 0 < / (4 * PI)) by (apply Rinv_0_lt_compat; lra).
  assert (A : Rabs demo_a = 10805/18564/(4*PI)). { unfold demo_a. replace (-10805/18564/(4*PI)) with (-(10805/18564/(4*PI))) by (field; lra). rewrite Rabs_Ropp. apply Rabs_right. unfold Rdiv. nra. }
  assert (B : Rabs demo_b = 9175/218448/(4*PI)). { unfold demo_b. apply Rabs_right. unfold Rdiv. nra. }
  assert (X : 9175/218448/(4*PI) + 3 / 1000 / (4 * PI) + 3 / 1000 / (4 * PI) < 10805/18564/(4*PI)) by (unfold Rdiv; nra).
  assert (O := fun k l HK HL H => two_off k l HK HL H).
  apply dominant4.
  - rewrite (two_same 0 0), (two_same 0 2) by (lia || reflexivity). unfold demo_m. cbn [Nat.div Nat.divmod fst Nat.eqb]. rewrite A, B. pose proof (O 0 1 ltac:(lia) ltac:(lia) ltac:(discriminate))%nat. pose proof (O 0 3 ltac:(lia) ltac:(lia) ltac:(discriminate))%nat. lra.
  - rewrite (two_same 1 1), (two_same 1 3) by (lia || reflexivity). unfold demo_m. cbn [Nat.div Nat.divmod fst Nat.eqb]. rewrite A, B. pose proof (O 1 0 ltac:(lia) ltac:(lia) ltac:(discriminate))%nat. pose proof (O 1 2 ltac:(lia) ltac:(lia) ltac:(discriminate))%nat. lra.
  - rewrite (two_same 2 2), (two_same 2 0) by (lia || reflexivity). unfold demo_m. cbn [Nat.div Nat.divmod fst Nat.eqb]. rewrite A, B. pose proof (O 2 1 ltac:(lia) ltac:(lia) ltac:(discriminate))%nat. pose proof (O 2 3 ltac:(lia) ltac:(lia) ltac:(discriminate))%nat. lra.
  - rewrite (two_same 3 3), (two_same 3 1) by (lia || reflexivity). unfold demo_m. cbn [Nat.div Nat.divmod fst Nat.eqb]. rewrite A, B. pose proof (O 3 0 ltac:(lia) ltac:(lia) ltac:(discriminate))%nat. pose proof (O 3 2 ltac:(lia) ltac:(lia) ltac:(discriminate))%nat. lra.
Qed.
Lemma moved_area p : panel_area (moved same astern p) = panel_area p.
Proof.
  assert (H : forall a b, ssub (motion same astern a) (motion same astern b) = ssub a b) by (intros [x y z] [x' y' z']; unfold motion, same, astern; svec; vec_eq; ring).
  unfold panel_area. cbv zeta. unfold moved. cbn [pp1 pp2 pp3 pp4]. tospec. rewrite !H. reflexivity.
Qed.
Lemma two_areas : get_panels_area two_panels = [672; 672; 672; 672].
Proof. pose proof demo_areas as E. unfold get_panels_area, demo_panels, two_panels in *. cbn [map] in *. rewrite !moved_area. pose proof (f_equal (fun l => nth 0 l 0) E) as E1. pose proof (f_equal (fun l => nth 1 l 0) E) as E2. cbn [nth] in E1, E2. rewrite E1, E2. reflexivity. Qed.
Lemma two_inlet : exists ic, InletConditions demo_wind (map pv_cp [two_vars 0; two_vars 1; two_vars 2; two_vars 3]) = Ok ic /\ in_V ic = [V3 4 3 0; V3 4 3 0; V3 4 3 0; V3 4 3 0].
Proof.
  eexists. split; [reflexivity|]. cbn [in_V map].
  assert (W : get_app_infs_at_h demo_wind (length_to_xyz_vector demo_wind 3) = V3 4 3 0).
  { unfold get_app_infs_at_h, length_to_xyz_vector, w_alpha, demo_wind. cbn [w_alpha_deg w_sog vx vy vz]. rewrite !deg2rad_s.
    replace (rad 90) with (PI / 2) by (unfold rad; field). rnum. rewrite cos_PI2, sin_PI2. vec_eq; ring. }
  change (w_tws demo_wind) with 3. rewrite W. reflexivity.
Qed.
Lemma two_Vlm rho : exists o, Vlm two_panels 1 1 rho demo_wind [true; true; true; true] [false; false; false; false] = Ok o.
Proof.
  destruct two_inlet as (ic & IC & EI). destruct (regular_solvable 4 _ (fun k => - sdot (demo_V k) (pv_n (two_vars k))) two_regular) as [g G].
  assert (SO : solved 4 1 two_panels [false; false; false; false] two_t two_vars demo_V g g).
  { constructor; [exact G|exact two_regular| |].
    - rewrite two_areas. intros a IN. assert (a = 672) by (destruct IN as [<-|[<-|[<-|[<-|[]]]]]; reflexivity). subst a. rewrite ndec_R; change (10 ^ 14)%Z with 100000000000000%Z; lra.
    - intros k K. assert (KK : (k = 0 \/ k = 1 \/ k = 2 \/ k = 3)%nat) by lia. destruct KK as [-> | [-> | [-> | ->]]]; reflexivity. }
  destruct (vlm_solve_make 4 1 rho two_panels [false; false; false; false] two_t two_vars demo_V 1 [true; true; true; true] [two_vars 0; two_vars 1; two_vars 2; two_vars 3] ic g g eq_refl eq_refl eq_refl EI SO) as (o & E & _).
  exists o. unfold Vlm. rewrite gor_R, two_vars_ok. unfold bind at 1. rewrite IC. exact E.
Qed.
(** The panels are those of two flat sails. *)
Lemma flat_at X name : exists s, SailGeometry (V3 X 0 (39/2)) (V3 X 0 (11/2)) (Csys 0 0 szero) 1 1 [48; 48] [0; 0] name None [0; 0] [1/2; 1/2] = Ok s /\
  good_sail (V3 X 0 (39/2)) (V3 X 0 (11/2)) (Csys 0 0 szero) 1 1 [48; 48] [0; 0] [0; 0] [1/2; 1/2] None /\
  sl_above s = [moved same (V3 X 0 0) demo_panel] /\ sl_under s = [moved same (V3 X 0 0) (mirrored demo_panel)] /\ sl_te s = [true] /\ sl_le s = [false].
Proof.
  assert (G : good_sail (V3 X 0 (39/2)) (V3 X 0 (11/2)) (Csys 0 0 szero) 1 1 [48; 48] [0; 0] [0; 0] [1/2; 1/2] None).
  { constructor; try reflexivity; try lia; simpl; try lra; auto; intros m [<-|[<-|[]]]; lra. }
  destruct (good_sail_spec _ _ _ _ _ _ _ _ _ _ name G) as (s & E & _ & _ & _ & _ & _ & _ & P).
  assert (BU : built 1 1 s) by (do 9 eexists; exact E). destruct (built_layout _ _ _ BU) as [L1 L2 L3 L4 T L _ _].
  exists s. split; [exact E|]. split; [exact G|].
  assert (S1 : forall (T0 : Type) (l : list T0) a, length l = (1 * 1)%nat -> nth_error l 0 = Some a -> l = [a]).
  { intros T0 [|x [|y l]] a LL EQ; simpl in LL; try discriminate. injection EQ as ->. reflexivity. }
  rewrite (S1 _ _ _ L3 (T 0 0 ltac:(lia) ltac:(lia))%nat), (S1 _ _ _ L4 (L 0 0 ltac:(lia) ltac:(lia))%nat).
  destruct (P 0%nat 0%nat ltac:(lia) ltac:(lia)) as (PA & PU & _). rewrite (S1 _ _ _ L1 PA), (S1 _ _ _ L2 PU).
  unfold upoint, spoint. assert (AN : forall k, angle (fun k => nth k [0; 0] 0) None k = 0) by reflexivity.
  rewrite !AN, rad_0, !srot_line_0.
  assert (H0 : forall p, hl (Csys 0 0 szero) p = p).
  { intros p. unfold hl, sheel. cbn [heel_deg leeway_deg]. rewrite rad_0, Ropp_0. unfold srot. rewrite cos_0, sin_0. destruct p; svec; vec_eq; ring. }
  rewrite !H0. unfold zpoint, ssection. cbv zeta. simpl Nat.sub. simpl Nat.add. cbn [nth]. simpl INR.
  assert (SC : forall x, scamber 0 (1/2) x = 0) by (intros x; unfold scamber; destruct (Rlt_dec x (1/2)); field).
  rewrite !SC. unfold demo_panel, moved, mirrored, slerp, motion, same. cbn [pp1 pp2 pp3 pp4]. split; [|split; [|split; reflexivity]]; f_equal; f_equal; svec; vec_eq; field.
Qed.
Lemma two_sails : exists s1 s2, built 1 1 s1 /\ built 1 1 s2 /\ s1 <> s2 /\ sl_name s1 = "demo"%string /\ sl_name s2 = "astern"%string /\
  (exists ss, SailSet [s1; s2] = Ok ss /\ ss_panels ss = two_panels /\ ss_te ss = [true; true; true; true] /\ ss_le ss = [false; false; false; false]).
Proof.
  destruct (flat_at 0 "demo") as (s1 & E1 & G1 & A1 & U1 & T1 & L1). destruct (flat_at 1000 "astern") as (s2 & E2 & G2 & A2 & U2 & T2 & L2).
  exists s1, s2. split; [do 9 eexists; exact E1|]. split; [do 9 eexists; exact E2|].
  destruct (good_sail_spec _ _ _ _ _ _ _ _ _ _ "demo" G1) as (s1' & E1' & N1 & _). destruct (good_sail_spec _ _ _ _ _ _ _ _ _ _ "astern" G2) as (s2' & E2' & N2 & _).
  assert (s1' = s1) by congruence. assert (s2' = s2) by congruence. subst s1' s2'.
  split; [intros Q; rewrite Q, N2 in N1; discriminate|]. split; [exact N1|]. split; [exact N2|].
  eexists. split; [reflexivity|]. cbn [ss_panels ss_te ss_le map concat app]. rewrite A1, A2, U1, U2, T1, T2, L1, L2. cbn [app]. split; [|split; reflexivity].
  assert (M0 : forall p, moved same (V3 0 0 0) p = p) by (intros [[] [] [] []]; unfold moved, motion, same; cbn [pp1 pp2 pp3 pp4]; f_equal; svec; vec_eq; ring).
  rewrite !M0. reflexivity.
Qed.
