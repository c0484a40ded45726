(** C101: the circulations of an accepted run in double arithmetic against the exact ones of the same lattice. *)

From Coq Require Import String ZArith Reals List Bool Lra Psatz Lia.
From Flocq Require Import Core BinarySingleNaN.
From Verif Require Import Num PyBase RNum Spec M_Csys M_Rotations M_Panels M_Velocity M_Solve M_Coefs M_Forces M_Winds M_Sail M_Vlm M_Results L_List L_Rot L_Vel L_Solve L_Vlm L_Lift2 L_Vlm2 P_Double P_DoubleRun Double L_Double L_Near L_NearRot P_DoubleRot L_NearLine L_NearSail L_NearVel P_DoubleVel P_DoubleFlux L_Accept L_Accept2 P_DoubleAccept P_DoubleForce P_DoubleTrue.
Import ListNotations.
Open Scope R_scope.

(** ** Specification *)
(** small right-hand sides have small solutions: [beta] bounds the inverse of the system in the maximum norm *)
Definition stable (N : nat) (a : nat -> nat -> R) (beta : R) : Prop :=
  forall z c, (forall i, (i < N)%nat -> Rabs (sumn N (fun j => a i j * z j)) <= c) -> forall j, (j < N)%nat -> Rabs (z j) <= beta * c.
(** the exact velocity that ring [j] with the circulation 1 induces along the normal of panel [i] *)
Definition exact_coef (o : vlm double) (Wss : list (list (vec R))) (i j : nat) : R :=
  sdot (nth j (nth i Wss []) szero) (nth i (map vvals (vl_normals o)) szero).
(** [Wss]: the exact velocities at the control points, one list for each *)
Definition induced_at_controls (o : vlm double) (M h k : R) (Wss : list (list (vec R))) : Prop :=
  length Wss = length (vl_ctr o) /\ forall i p Ws, nth_error (vl_ctr o) i = Some p -> nth_error Wss i = Some Ws -> induced_by o M h k p Ws.
(** the circulations [x] let no air through the panels, exactly *)
Definition exact_circulations (o : vlm double) (Wss : list (list (vec R))) (x : list R) : Prop :=
  length x = length (vl_rings o) /\ forall i v n Ws, nth_error (in_V (vl_inlet o)) i = Some v -> nth_error (vl_normals o) i = Some n -> nth_error Wss i = Some Ws ->
    sdot (exact_velocity (vvals v) Ws x) (vvals n) = 0.
(** the bound of C99 on the flow through a panel *)
Definition flux_limit (N : nat) (d : R) (v : vec double) (Ws : list (vec R)) (g : list double) (n : vec double) : R :=
  1001 / 1000000000000000 + ((1 + / 2 ^ 53) ^ (N + 5) - 1) * most_flux d v Ws g n + d * strengths g * (Rabs (val (vx n)) + Rabs (val (vy n)) + Rabs (val (vz n))).

(** ** Proofs *)
Lemma velocity_dot V n N (r : nat -> vec R) (g : nat -> R) : sdot (exact_velocity V (tab N r) (tab N g)) n = sdot V n + sumn N (fun j => sdot (r j) n * g j).
Proof.
  unfold exact_velocity. rewrite combine_tab. unfold sumn, tab. induction (seq 0 N) as [|k l IH]; cbn [map fold_right rsum]; [ring|].
  fold (rsum (map (fun j => sdot (r j) n * g j) l)). cbn [fst snd]. set (q := fold_right _ _ _) in *. clearbody q. transitivity (sdot q n + sdot (r k) n * g k); [|rewrite IH; ring].
  destruct q as [q1 q2 q3], (r k) as [r1 r2 r3], n as [n1 n2 n3]. unfold sdot, sadd, sscale. cbn [vx vy vz]. ring.
Qed.
Lemma velocity_dot_lists V n N row g : length row = N -> length g = N -> sdot (exact_velocity V row g) n = sdot V n + sumn N (fun j => sdot (nth j row szero) n * nth j g 0).
Proof. intros LR LG. rewrite (list_tab row N szero LR) at 1. rewrite (list_tab g N 0 LG) at 1. apply velocity_dot. Qed.
Lemma stable_regular N a beta : stable N a beta -> regular N a.
Proof.
  intros S z Z l L. assert (Q : Rabs (z l) <= beta * 0) by (apply (S z 0); [intros i I; rewrite (Z i I), Rabs_R0; lra | exact L]).
  rewrite Rmult_0_r in Q. destruct (Req_dec (z l) 0) as [E|E]; [exact E|]. pose proof (Rabs_pos_lt _ E). lra.
Qed.
Lemma vars_length e panels nc ns rho w te le o : length te = length panels -> @Vlm _ (Double e) panels nc ns rho w te le = Ok o ->
  length (vl_normals o) = length panels /\ length (vl_ctr o) = length panels.
Proof.
  intros LT E. destruct (run_rows e panels nc ns rho w te le o LT E) as (_ & _ & LR & _). unfold vl_rings in LR. rewrite map_length in LR. unfold vl_normals, vl_ctr. rewrite !map_length. split; exact LR.
Qed.

Theorem C101_circulations e panels nc ns rho w te le o Wss M h k beta phi : length te = length panels -> @Vlm _ (Double e) panels nc ns rho w te le = Ok o ->
  distances M h k -> induced_at_controls o M h k Wss -> stable (length panels) (exact_coef o Wss) beta ->
  (forall i v n Ws, nth_error (in_V (vl_inlet o)) i = Some v -> nth_error (vl_normals o) i = Some n -> nth_error Wss i = Some Ws -> flux_limit (length panels) (coef_error M h k) v Ws (vl_gamma o) n <= phi) ->
  exists x, exact_circulations o Wss x /\ (forall y, exact_circulations o Wss y -> y = x) /\
    forall i g y, nth_error (vl_gamma o) i = Some g -> nth_error x i = Some y -> Rabs (val g - y) <= beta * phi.
Proof.
  intros LT E DD [LW IN] ST FL. destruct (run_rows e panels nc ns rho w te le o LT E) as (_ & LV & LR & LG & _). destruct (vars_length e panels nc ns rho w te le o LT E) as [LN LC].
  set (N := length panels) in *. set (a := exact_coef o Wss). fold a in ST.
  pose (b := fun i => - sdot (nth i (map vvals (in_V (vl_inlet o))) szero) (nth i (map vvals (vl_normals o)) szero)).
  assert (RL : forall i Ws, nth_error Wss i = Some Ws -> length Ws = N).
  { intros i Ws I. assert (I' : (i < length Wss)%nat) by (apply nth_error_Some_lt in I; exact I). destruct (nth_error (vl_ctr o) i) as [p|] eqn:EP; [|apply nth_error_None in EP; lia]. destruct (IN i p Ws EP I) as [L _]. lia. }
  assert (FX : forall i v n Ws x, nth_error (in_V (vl_inlet o)) i = Some v -> nth_error (vl_normals o) i = Some n -> nth_error Wss i = Some Ws -> length x = N ->
    sdot (exact_velocity (vvals v) Ws x) (vvals n) = sumn N (fun j => a i j * nth j x 0) - b i).
  { intros i v n Ws x HV HN HW LX. rewrite (velocity_dot_lists _ _ N _ _ (RL _ _ HW) LX). unfold b, a, exact_coef.
    rewrite (nth_error_nth _ _ szero (map_nth_error vvals _ _ HV)), (nth_error_nth _ _ szero (map_nth_error vvals _ _ HN)), (nth_error_nth _ _ [] HW). ring. }
  assert (AT : forall i, (i < N)%nat -> exists v n Ws p, nth_error (in_V (vl_inlet o)) i = Some v /\ nth_error (vl_normals o) i = Some n /\ nth_error Wss i = Some Ws /\ nth_error (vl_ctr o) i = Some p).
  { intros i I. assert (T : forall (A : Type) (l : list A), length l = N -> exists q, nth_error l i = Some q) by (intros A l L; destruct (nth_error l i) as [q|] eqn:Q; [exists q; reflexivity | apply nth_error_None in Q; lia]).
    destruct (T _ _ LV) as [v V1]. destruct (T _ _ LN) as [n V2]. destruct (T _ Wss ltac:(lia)) as [Ws V3]. destruct (T _ _ LC) as [p V4]. exists v, n, Ws, p. auto. }
  assert (SO : exists fx, forall i, (i < N)%nat -> sumn N (fun l => a i l * fx l) = b i).
  { destruct (@solve_eq _ RNum (matrix N a) (tab N b)) as [x|er] eqn:SE.
    - destruct (solve_tab N a b x SE) as (fx & _ & S & _). exists fx. exact S.
    - exfalso. apply solve_eq_raise in SE. destruct SE as [_ SE]. destruct (SE (matrix_square N a)) as (z & L & (q & I & NZ) & Z); [unfold matrix; rewrite !tab_length; reflexivity|].
      unfold matrix in L. rewrite tab_length in L. rewrite (list_tab z N 0 L) in I, Z. apply in_tab in I. destruct I as (i & Hi & ->).
      apply NZ. apply (stable_regular N a beta ST (fun k => nth k z 0)); [|exact Hi]. intros r K. rewrite <- srow_tab. apply Z. apply (nth_error_In _ r). exact (tab_nth_error N (fun k => tab N (a k)) r K). }
  destruct SO as [fx SO]. exists (tab N fx).
  assert (EX : exact_circulations o Wss (tab N fx)).
  { split; [rewrite tab_length; lia|]. intros i v n Ws HV HN HW. assert (I : (i < N)%nat) by (apply nth_error_Some_lt in HV; lia). rewrite (FX i v n Ws _ HV HN HW (tab_length _ _)), <- (SO i I).
    rewrite (sumn_ext N (fun j => a i j * nth j (tab N fx) 0) (fun l => a i l * fx l)); [ring|]. intros l L. rewrite tab_nth by exact L. reflexivity. }
  assert (CL : forall c (y y' : list R), length y = N -> length y' = N ->
     (forall i v n Ws, nth_error (in_V (vl_inlet o)) i = Some v -> nth_error (vl_normals o) i = Some n -> nth_error Wss i = Some Ws -> Rabs (sdot (exact_velocity (vvals v) Ws y) (vvals n) - sdot (exact_velocity (vvals v) Ws y') (vvals n)) <= c) ->
     forall j, (j < N)%nat -> Rabs (nth j y 0 - nth j y' 0) <= beta * c).
  { intros c y y' LY LY' H j J. apply (ST (fun j => nth j y 0 - nth j y' 0) c); [|exact J]. intros i I. destruct (AT i I) as (v & n & Ws & p & V1 & V2 & V3 & _). specialize (H i v n Ws V1 V2 V3).
    rewrite (FX _ _ _ _ _ V1 V2 V3 LY), (FX _ _ _ _ _ V1 V2 V3 LY') in H. replace (sumn N (fun j0 => a i j0 * (nth j0 y 0 - nth j0 y' 0))) with (sumn N (fun j => a i j * nth j y 0) - b i - (sumn N (fun j => a i j * nth j y' 0) - b i)); [exact H|].
    rewrite (sumn_ext N (fun j0 => a i j0 * (nth j0 y 0 - nth j0 y' 0)) (fun j0 => a i j0 * nth j0 y 0 + -1 * (a i j0 * nth j0 y' 0))) by (intros; ring). rewrite sumn_add, sumn_scale. ring. }
  split; [exact EX|]. split.
  - intros y [LY EY]. rewrite LR in LY. apply list_ext; [rewrite tab_length; exact LY|]. intros j J. rewrite LY in J. rewrite tab_nth_error by exact J. rewrite (nth_error_nth' y 0) by lia. f_equal.
    assert (Q : Rabs (nth j y 0 - nth j (tab N fx) 0) <= beta * 0).
    { apply (CL 0 y (tab N fx)); [exact LY | apply tab_length | | exact J]. intros i v n Ws V1 V2 V3. rewrite (EY _ _ _ _ V1 V2 V3), (proj2 EX _ _ _ _ V1 V2 V3), Rminus_0_r, Rabs_R0. lra. }
    rewrite Rmult_0_r, tab_nth in Q by exact J. destruct (Req_dec (nth j y 0 - fx j) 0) as [Z|Z]; [lra|]. pose proof (Rabs_pos_lt _ Z). lra.
  - intros i g y G Y. assert (I : (i < N)%nat) by (apply nth_error_Some_lt in G; lia).
    pose proof (CL phi (map (fun x => val x) (vl_gamma o)) (tab N fx) ltac:(rewrite map_length; exact LG) (tab_length _ _)) as Q.
    rewrite <- (nth_error_nth _ _ 0 (map_nth_error (fun x => val x) _ _ G)), <- (nth_error_nth _ _ 0 Y). apply Q; [|exact I].
    intros l v n Ws V1 V2 V3. rewrite (proj2 EX _ _ _ _ V1 V2 V3), Rminus_0_r. destruct (AT l ltac:(apply nth_error_Some_lt in V1; lia)) as (v' & n' & Ws' & p & W1 & W2 & W3 & W4).
    eapply Rle_trans; [|apply (FL l v n Ws V1 V2 V3)]. unfold flux_limit. apply (C99_no_flux e panels nc ns rho w te le o l p v n Ws M h k LT E W4 V1 V2 DD). apply (IN l p Ws W4 V3).
Qed.

(** ** The velocities at the centres of pressure, against those of the exact circulations *)
Theorem C101_velocity e panels nc ns rho w te le o i p v vc Us x delta M h k C : length te = length panels -> @Vlm _ (Double e) panels nc ns rho w te le = Ok o ->
  nth_error (vl_cp o) i = Some p -> nth_error (in_V (vl_inlet o)) i = Some v -> nth_error (vl_V_cp o) i = Some vc -> vfin vc -> distances M h k -> induced_by o M h k p Us -> (C = vx \/ C = vy \/ C = vz) ->
  length x = length panels -> (forall j g y, nth_error (vl_gamma o) j = Some g -> nth_error x j = Some y -> Rabs (val g - y) <= delta) ->
  Rabs (C (vvals vc) - C (exact_velocity (vvals v) Us x)) <=
    ((1 + / 2 ^ 53) ^ (length panels + 2) - 1) * most C (coef_error M h k) v Us (vl_gamma o) + coef_error M h k * strengths (vl_gamma o) + delta * rsum (map (fun U => Rabs (C U)) Us).
Proof.
  intros LT E NP NV NC FC DD IN HC LX CL. pose proof (C99_velocity e panels nc ns rho w te le o i p v vc Us M h k C LT E NP NV NC FC DD IN HC) as B.
  destruct (run_rows e panels nc ns rho w te le o LT E) as (_ & _ & LR & LG & _). destruct IN as [LU _].
  assert (S : Rabs (C (exact_velocity (vvals v) Us (map (fun x => val x) (vl_gamma o))) - C (exact_velocity (vvals v) Us x)) <= delta * rsum (map (fun U => Rabs (C U)) Us)).
  { assert (D0 : (0 < length panels)%nat -> 0 <= delta).
    { intros L. destruct (nth_error (vl_gamma o) 0) as [g|] eqn:G; [|apply nth_error_None in G; lia]. destruct (nth_error x 0) as [y|] eqn:Y; [|apply nth_error_None in Y; lia]. pose proof (CL 0%nat g y G Y). pose proof (Rabs_pos (val g - y)). lra. }
    rewrite LR in LU. clear - LU LG LX CL HC D0. revert LU LG LX CL D0. generalize (length panels) as N. generalize (vl_gamma o) as gs. revert x. induction Us as [|U Us IH]; intros x gs N LU LG LX CL D0.
    - unfold exact_velocity. cbn. unfold Rminus. rewrite Rplus_opp_r, Rabs_R0. unfold rsum. cbn. lra.
    - destruct gs as [|g gs]; [cbn in LU, LG; lia|]. destruct x as [|y x]; [cbn in LU, LX; lia|]. destruct N as [|N]; [discriminate|]. cbn [length] in *.
      specialize (IH x gs N ltac:(lia) ltac:(lia) ltac:(lia) (fun j => CL (S j)) ltac:(intros _; apply D0; lia)). specialize (CL 0%nat g y eq_refl eq_refl). specialize (D0 ltac:(lia)).
      unfold exact_velocity in *. cbn [map combine fold_right fst snd]. rewrite rsum_cons. set (P := fold_right _ _ _) in *. set (Q := fold_right _ _ (combine Us x)) in *. clearbody P Q.
      assert (A : forall k a b, C (sadd (sscale k a) b) = k * C a + C b) by (intros k a b; destruct HC as [-> | [-> | ->]]; reflexivity). rewrite !A.
      replace (val g * C U + C P - (y * C U + C Q)) with ((val g - y) * C U + (C P - C Q)) by ring. eapply Rle_trans; [apply Rabs_triang|]. rewrite Rabs_mult. pose proof (Rmult_le_compat_r _ _ _ (Rabs_pos (C U)) CL). lra. }
  set (X := C (exact_velocity (vvals v) Us (map _ _))) in *. set (Y := C (exact_velocity (vvals v) Us x)) in *. clearbody X Y. replace (C (vvals vc) - Y) with ((C (vvals vc) - X) + (X - Y)) by ring. eapply Rle_trans; [apply Rabs_triang|]. lra.
Qed.

(** ** Case: the sail and its mirror image of C97 *)
(** [x] lies between [lo] and [hi], in units of 1/1024 *)
Definition between (lo hi : Z) (x : double) : bool :=
  match x with B754_zero _ => ((lo <=? 0) && (0 <=? hi))%Z%bool | B754_finite s m ex _ => ((ex <=? 0) && (lo * 2 ^ (- ex) <=? cond_Zopp s (Zpos m) * 1024) && (cond_Zopp s (Zpos m) * 1024 <=? hi * 2 ^ (- ex)))%Z%bool | _ => false end.
Lemma between_val lo hi x : between lo hi x = true -> IZR lo / 1024 <= val x <= IZR hi / 1024.
Proof.
  destruct x as [s|s| |s m ex B]; cbn [between]; intros H; try discriminate.
  - apply andb_true_iff in H. destruct H as [L U]. apply Z.leb_le in L, U. apply IZR_le in L, U. cbn [B2R]. lra.
  - apply andb_true_iff in H. destruct H as [H U]. apply andb_true_iff in H. destruct H as [E L]. apply Z.leb_le in E, L, U. cbn [B2R]. unfold F2R. cbn [Fnum Fexp].
    apply IZR_le in L, U. rewrite !mult_IZR in L, U. change (2 ^ (- ex))%Z with (Zpower radix2 (- ex)) in L, U. rewrite IZR_Zpower in L, U by lia. rewrite bpow_opp in L, U. pose proof (bpow_gt_0 radix2 ex) as P.
    set (q := IZR (cond_Zopp s (Z.pos m))) in *. set (b := bpow radix2 ex) in *. clearbody q b.
    apply (Rmult_le_compat_r b _ _ (Rlt_le _ _ P)) in L, U. rewrite Rmult_assoc, Rinv_l, Rmult_1_r in L by lra. rewrite (Rmult_assoc (IZR hi)), Rinv_l, Rmult_1_r in U by lra. lra.
Qed.
Definition vbetween (a b c d f g : Z) (v : vec double) : bool := (between a b (vx v) && between c d (vy v) && between f g (vz v))%bool.
Lemma vbetween_val a b c d f g v : vbetween a b c d f g v = true ->
  IZR a / 1024 <= val (vx v) <= IZR b / 1024 /\ IZR c / 1024 <= val (vy v) <= IZR d / 1024 /\ IZR f / 1024 <= val (vz v) <= IZR g / 1024.
Proof. unfold vbetween. intros H. apply andb_true_iff in H. destruct H as [H H3]. apply andb_true_iff in H. destruct H as [H1 H2]. apply between_val in H1, H2, H3. auto. Qed.

Lemma control_induced (p : vec double) z r z0 z1 V : at_quarters p 6 (-8) z = true -> ring_quarters r z0 z1 = true -> at_quarters V 16 0 0 = true ->
  (z = 8 \/ z = -8)%Z -> ((z0, z1) = (4, 12)%Z \/ (z0, z1) = (-12, -4)%Z) -> exists W, induced 10 1 1 p r true V W.
Proof.
  intros HP HR HV HX HZ. apply at_quarters_val in HP, HV. destruct HP as [FP VP], HV as [FV VV]. unfold ring_quarters in HR. apply andb_true_iff in HR. destruct HR as [HR RD]. apply andb_true_iff in HR. destruct HR as [HR RC]. apply andb_true_iff in HR. destruct HR as [RA RB].
  apply at_quarters_val in RA, RB, RC, RD. destruct RA as [FA VA], RB as [FB VB], RC as [FC VC], RD as [FD VD].
  unfold induced. rewrite VP, VA, VB, VC, VD, VV.
  assert (K : beside 10 1 (V3 (6 / 4) (-8 / 4) (IZR z / 4)) (V3 (2 / 4) (-16 / 4) (IZR z0 / 4)) (V3 (2 / 4) (-16 / 4) (IZR z1 / 4))).
  { destruct HX as [-> | ->]; destruct HZ as [HZ | HZ]; injection HZ as -> ->; (split; [|split]);
    try (apply (norm_between _ 0 10); [lra|lra|unfold sdot, ssub; cbn [vx vy vz]; lra]); (apply (norm_between _ 1 100); [lra|lra|unfold sdot, ssub, scross; cbn [vx vy vz]; lra]). }
  assert (KS : forall y, (y = z0 \/ y = z1) -> beside 10 1 (V3 (6 / 4) (-8 / 4) (IZR z / 4)) (V3 (10 / 4) (0 / 4) (IZR y / 4)) (V3 (2 / 4) (-16 / 4) (IZR y / 4)) /\ beside 10 1 (V3 (6 / 4) (-8 / 4) (IZR z / 4)) (V3 (2 / 4) (-16 / 4) (IZR y / 4)) (V3 (10 / 4) (0 / 4) (IZR y / 4))
    /\ off_wake 10 1 (V3 (6 / 4) (-8 / 4) (IZR z / 4)) (V3 (10 / 4) (0 / 4) (IZR y / 4)) (V3 (16 / 4) (0 / 4) (0 / 4))).
  { intros y Hy. destruct HX as [-> | ->]; destruct HZ as [HZ | HZ]; injection HZ as -> ->; destruct Hy as [-> | ->];
    (split; [split; [|split]|split; [split; [|split]|]]);
    try (apply (norm_between _ 0 10); [lra|lra|unfold sdot, ssub; cbn [vx vy vz]; lra]); try (apply (norm_between _ 1 100); [lra|lra|unfold sdot, ssub, scross; cbn [vx vy vz]; lra]);
    (apply ahead; [apply (norm_between _ (1 / 10000) 10); [lra|lra|unfold sdot, ssub; cbn [vx vy vz]; lra]|cbn [vx]; lra]). }
  destruct (KS z0 (or_introl eq_refl)) as (K1 & _ & K2). destruct (KS z1 (or_intror eq_refl)) as (_ & K3 & K4).
  eexists. split; [exact FP|]. split; [exact FA|]. split; [exact FB|]. split; [exact FC|]. split; [exact FD|].
  do 3 eexists. split; [left; split; [exact K1|reflexivity]|]. split; [left; split; [exact K|reflexivity]|]. split; [left; split; [exact K3|reflexivity]|]. split; [exact FV|].
  split; [apply (norm_between _ (/ 10 ^ 30) (10 ^ 30)); [lra|lra|unfold sdot; cbn [vx vy vz]; split; lra]|]. split; [exact K4|]. split; [exact K2|reflexivity].
Qed.
Lemma stable2 (a : nat -> nat -> R) m : 0 < m -> m <= Rabs (a 0%nat 0%nat) - Rabs (a 0%nat 1%nat) -> m <= Rabs (a 1%nat 1%nat) - Rabs (a 1%nat 0%nat) -> stable 2 a (/ m).
Proof.
  intros M H0 H1 z c H. assert (SU : forall f, sumn 2 f = f 0%nat + f 1%nat) by (intros; unfold sumn, rsum, tab; simpl; ring).
  pose proof (H 0%nat ltac:(lia)) as E0. pose proof (H 1%nat ltac:(lia)) as E1. rewrite SU in E0, E1.
  assert (T : forall x y, Rabs x - Rabs y <= Rabs (x + y)) by (intros x y; pose proof (Rabs_triang (x + y) (- y)) as Q; rewrite Rabs_Ropp in Q; replace (x + y + - y) with x in Q by ring; lra).
  pose proof (T (a 0%nat 0%nat * z 0%nat) (a 0%nat 1%nat * z 1%nat)) as T0. pose proof (T (a 1%nat 1%nat * z 1%nat) (a 1%nat 0%nat * z 0%nat)) as T1. rewrite (Rplus_comm (a 1%nat 1%nat * z 1%nat)) in T1. rewrite !Rabs_mult in T0, T1.
  pose proof (Rabs_pos (z 0%nat)). pose proof (Rabs_pos (z 1%nat)). pose proof (Rabs_pos (a 0%nat 1%nat)). pose proof (Rabs_pos (a 1%nat 0%nat)).
  assert (B : m * Rabs (z 0%nat) <= c /\ m * Rabs (z 1%nat) <= c).
  { destruct (Rle_lt_dec (Rabs (z 0%nat)) (Rabs (z 1%nat))) as [L|L].
    - assert (m * Rabs (z 1%nat) <= c) by nra. split; [nra|assumption].
    - assert (m * Rabs (z 0%nat) <= c) by nra. split; [assumption|nra]. }
  assert (R : forall q, m * q <= c -> q <= / m * c) by (intros q Q; apply (Rmult_le_reg_l m); [exact M|]; rewrite <- Rmult_assoc, Rinv_r, Rmult_1_l by lra; exact Q).
  intros [|[|j]] J; [apply R, B | apply R, B | lia].
Qed.
Lemma limit_small Ws g v n : length Ws = 2%nat -> length g = 2%nat -> (forall W, In W Ws -> Rabs (vx W) <= 1 / 2 /\ Rabs (vy W) <= 1 / 2 /\ Rabs (vz W) <= 1 / 2) -> (forall x, In x g -> Rabs (val x) <= 12) ->
  Rabs (val (vx v)) <= 4 /\ Rabs (val (vy v)) <= 4 /\ Rabs (val (vz v)) <= 4 -> Rabs (val (vx n)) <= 1 /\ Rabs (val (vy n)) <= 1 /\ Rabs (val (vz n)) <= 1 ->
  flux_limit 2 (coef_error 10 1 1) v Ws g n <= 1 / 100000000.
Proof.
  intros LW LG HW HG (V1 & V2 & V3) (N1 & N2 & N3). destruct Ws as [|W1 [|W2 [|? ?]]]; try discriminate LW. destruct g as [|g1 [|g2 [|? ?]]]; try discriminate LG.
  destruct (HW W1 (or_introl eq_refl)) as (A1 & A2 & A3). destruct (HW W2 (or_intror (or_introl eq_refl))) as (B1 & B2 & B3). pose proof (HG g1 (or_introl eq_refl)) as G1. pose proof (HG g2 (or_intror (or_introl eq_refl))) as G2.
  unfold flux_limit, most_flux, most, strengths, vvals. cbn [combine fold_right fst snd vx vy vz].
  assert (CE : coef_error 10 1 1 = 804 / 10000000000000) by (unfold coef_error; field). rewrite CE.
  assert (T : 0 <= bpow radix2 (-1000) <= / 4) by (split; [apply bpow_ge_0|]; change (/ 4) with (bpow radix2 (-2)); apply bpow_le; lia). set (t := bpow radix2 (-1000)) in *. clearbody t.
  assert (PW : (1 + / 2 ^ 53) ^ (2 + 5) - 1 <= 1 / 10000000000000). { assert (U : / 2 ^ 53 <= 1 / 1000000000000000) by lra. assert (U0 : 0 <= / 2 ^ 53) by lra. assert (Q : (1 + / 2 ^ 53) ^ (2 + 5) <= (1 + 1 / 1000000000000000) ^ (2 + 5)) by (apply pow_incr; lra). assert (R : (1 + 1 / 1000000000000000) ^ (2 + 5) <= 1 + 1 / 10000000000000) by (change (2 + 5)%nat with 7%nat; cbn [pow]; lra). clear - Q R. set (x := (1 + / 2 ^ 53) ^ (2 + 5)) in *. clearbody x. lra. }
  assert (PW0 : 0 <= (1 + / 2 ^ 53) ^ (2 + 5) - 1) by (pose proof (pow_R1_Rle (1 + / 2 ^ 53) (2 + 5) ltac:(lra)); lra).
  set (P := (1 + / 2 ^ 53) ^ (2 + 5) - 1) in *. clearbody P.
  assert (MO : forall a b c, 0 <= a <= 4 -> 0 <= b <= 1 / 2 -> 0 <= c <= 1 / 2 -> 0 <= a + (Rabs (val g1) * (b + 804 / 10000000000000) + t + (Rabs (val g2) * (c + 804 / 10000000000000) + t + 0)) <= 20).
  { intros a b c A B D. pose proof (Rabs_pos (val g1)). pose proof (Rabs_pos (val g2)).
    assert (0 <= Rabs (val g1) * (b + 804 / 10000000000000) <= 12 * (6 / 10)) by (split; [apply Rmult_le_pos; lra | apply Rmult_le_compat; lra]).
    assert (0 <= Rabs (val g2) * (c + 804 / 10000000000000) <= 12 * (6 / 10)) by (split; [apply Rmult_le_pos; lra | apply Rmult_le_compat; lra]). lra. }
  assert (PR : forall m x, 0 <= m <= 20 -> 0 <= x <= 1 -> 0 <= m * x + t <= 21) by (intros m x A B; assert (0 <= m * x <= 20 * 1) by (split; [apply Rmult_le_pos; lra | apply Rmult_le_compat; lra]); lra).
  assert (AB : forall x y, Rabs x <= y -> 0 <= Rabs x <= y) by (intros; split; [apply Rabs_pos | assumption]).
  pose proof (PR _ _ (MO _ _ _ (AB _ _ V1) (AB _ _ A1) (AB _ _ B1)) (AB _ _ N1)) as R1. pose proof (PR _ _ (MO _ _ _ (AB _ _ V2) (AB _ _ A2) (AB _ _ B2)) (AB _ _ N2)) as R2. pose proof (PR _ _ (MO _ _ _ (AB _ _ V3) (AB _ _ A3) (AB _ _ B3)) (AB _ _ N3)) as R3.
  clear MO PR. match goal with |- _ + P * ?m + _ * ?s * ?q <= _ => assert (R : 0 <= m <= 63) by lra; assert (S : 0 <= s <= 24) by (pose proof (Rabs_pos (val g1)); pose proof (Rabs_pos (val g2)); lra); assert (Q : 0 <= q <= 3) by (pose proof (Rabs_pos (val (vx n))); pose proof (Rabs_pos (val (vy n))); pose proof (Rabs_pos (val (vz n))); lra); clear R1 R2 R3; generalize dependent m; generalize dependent s; generalize dependent q end.
  intros q Q s S m R. assert (P * m <= 1 / 10000000000000 * 63) by (apply Rmult_le_compat; lra). assert (s * q <= 24 * 3) by (apply Rmult_le_compat; lra). lra.
Qed.

Example C101_case : forall e, exact_at_0 e -> exists o Wss p vc Us, @Vlm _ (Double e) mirrored 1 1 (dZ 1) (from_ahead 4) [true; true] [false; false] = Ok o /\ distances 10 1 1 /\ induced_at_controls o 10 1 1 Wss /\ stable 2 (exact_coef o Wss) 5 /\
  (forall i v n Ws, nth_error (in_V (vl_inlet o)) i = Some v -> nth_error (vl_normals o) i = Some n -> nth_error Wss i = Some Ws -> flux_limit 2 (coef_error 10 1 1) v Ws (vl_gamma o) n <= 1 / 100000000) /\
  nth_error (vl_cp o) 0 = Some p /\ nth_error (vl_V_cp o) 0 = Some vc /\ vfin vc /\ induced_by o 10 1 1 p Us.
Proof.
  intros e E.
  pose (nck := fun n : vec double => vbetween (-917) (-915) 457 459 (-1) 1 n).
  pose (self := fun v : vec double => vbetween 292 293 (-166) (-165) (-1) 1 v).
  pose (cross := fun v : vec double => vbetween (-14) (-13) 9 10 (-5) 5 v).
  pose (inf := fun a b : pvars double => @influence _ (Double e) (@vlm_gor _ (Double e)) (pv_ctr a) (pv_ring b) true (inflow 4)).
  pose (ck := fun vars : list (pvars double) => match vars with [a; b] => (at_quarters (pv_ctr a) 6 (-8) 8 && at_quarters (pv_ctr b) 6 (-8) (-8) && ring_quarters (pv_ring a) 4 12 && ring_quarters (pv_ring b) (-12) (-4)
     && nck (pv_n a) && nck (pv_n b) && self (inf a a) && self (inf b b) && cross (inf a b) && cross (inf b a) && at_quarters (pv_cp a) 2 (-16) 8)%bool | _ => false end).
  pose (gk := fun l : list double => match l with [a; b] => (between (-12288) 12288 a && between (-12288) 12288 b)%bool | _ => false end).
  pose (vf := fun l : list (vec double) => match l with v :: _ => (is_finite (vx v) && is_finite (vy v) && is_finite (vz v))%bool | [] => false end).
  assert (K : forall cp tws awa, (do vars <- @calculate_vlm_variables _ (Double e) mirrored [true; true] (@vlm_gor _ (Double e)) 1 1; do o <- @vlm_solve _ (Double e) mirrored 1 1 (dZ 1) [true; true] [false; false] vars (Inlet cp tws (map (fun _ => inflow 4) (map pv_cp vars)) awa);
     Ok (ck vars && gk (vl_gamma o) && vf (vl_V_cp o))%bool) = Ok true) by (intros; vm_compute; reflexivity).
  assert (HC : forall vars, ck vars = true -> exists a b, vars = [a; b] /\ at_quarters (pv_ctr a) 6 (-8) 8 = true /\ at_quarters (pv_ctr b) 6 (-8) (-8) = true /\ ring_quarters (pv_ring a) 4 12 = true /\ ring_quarters (pv_ring b) (-12) (-4) = true /\
    nck (pv_n a) = true /\ nck (pv_n b) = true /\ self (inf a a) = true /\ self (inf b b) = true /\ cross (inf a b) = true /\ cross (inf b a) = true /\ at_quarters (pv_cp a) 2 (-16) 8 = true).
  { unfold ck. intros [|a [|b [|c l]]] H; try discriminate H. do 10 (apply andb_true_iff in H; let H' := fresh "H" in destruct H as [H H']). exists a, b. split; [reflexivity|]. repeat (split; [assumption|]). assumption. }
  assert (HG : forall l, gk l = true -> length l = 2%nat /\ forall x, In x l -> Rabs (val x) <= 12).
  { unfold gk. intros [|a [|b [|c l]]] H; try discriminate H. apply andb_true_iff in H. destruct H as [H1 H2]. apply between_val in H1, H2. split; [reflexivity|]. intros x [<-|[<-|[]]]; apply Rabs_le; lra. }
  assert (HV : forall l, vf l = true -> exists v, nth_error l 0 = Some v /\ vfin v).
  { unfold vf. intros [|v l] H; [discriminate H|]. apply andb_true_iff in H. destruct H as [H H3]. apply andb_true_iff in H. destruct H as [H1 H2]. exists v. split; [reflexivity|]. split; [exact H1|split; [exact H2|exact H3]]. }
  assert (NK : forall n, nck n = true -> -917 / 1024 <= val (vx n) <= -915 / 1024 /\ 457 / 1024 <= val (vy n) <= 459 / 1024 /\ -1 / 1024 <= val (vz n) <= 1 / 1024) by (intros n H; apply (vbetween_val _ _ _ _ _ _ _ H)).
  assert (CE : coef_error 10 1 1 <= 1 / 10240) by (unfold coef_error; lra).
  assert (HW : forall lx hx ly hy lz hz a W, vbetween lx hx ly hy lz hz a = true -> within (coef_error 10 1 1) a W -> (IZR lx - 1 / 10) / 1024 <= vx W <= (IZR hx + 1 / 10) / 1024 /\ (IZR ly - 1 / 10) / 1024 <= vy W <= (IZR hy + 1 / 10) / 1024 /\ (IZR lz - 1 / 10) / 1024 <= vz W <= (IZR hz + 1 / 10) / 1024).
  { intros lx hx ly hy lz hz a W H (_ & X & Y & Z). apply vbetween_val in H. apply Rabs_le_inv in X, Y, Z. lra. }
  assert (SK : forall a W, self a = true -> within (coef_error 10 1 1) a W -> 2919 / 10240 <= vx W <= 2931 / 10240 /\ -1661 / 10240 <= vy W <= -1649 / 10240 /\ -11 / 10240 <= vz W <= 11 / 10240) by (intros a W H1 H2; pose proof (HW _ _ _ _ _ _ _ _ H1 H2); lra).
  assert (XK : forall a W, cross a = true -> within (coef_error 10 1 1) a W -> -141 / 10240 <= vx W <= -129 / 10240 /\ 89 / 10240 <= vy W <= 101 / 10240 /\ -51 / 10240 <= vz W <= 51 / 10240) by (intros a W H1 H2; pose proof (HW _ _ _ _ _ _ _ _ H1 H2); lra).
  clear HW CE. clearbody nck self cross ck gk vf. unfold Vlm. destruct (calculate_vlm_variables _ _ _ _ _) as [vars|]; [|specialize (K [] [] []); discriminate K]. cbn [bind] in K |- *. destruct (flat_inlet e 4 (map pv_cp vars) E) as (tws & awa & ->). cbn [bind]. specialize (K (map pv_cp vars) tws awa).
  destruct (vlm_solve _ _ _ _ _ _ _ _) as [o|] eqn:EO; [|discriminate K]. cbn [bind] in K.
  assert (HO : forall A (p q : A), Ok p = Ok q -> p = q) by (intros A p q [= Q]; exact Q). apply HO in K. apply andb_true_iff in K. destruct K as [K KV]. apply andb_true_iff in K. destruct K as [KC KG].
  destruct (HC _ KC) as (a & b & -> & C1 & C2 & R1 & R2 & N1 & N2 & S1 & S2 & X1 & X2 & CP). destruct (HV _ KV) as (vc & V1 & V2). destruct (HG _ KG) as [LG BG].
  destruct (solve_rows _ _ _ _ _ _ _ _ _ _ EO) as (E1 & E2 & E3 & _). clear EO KC KG KV HC HV HG.
  assert (Q : at_quarters (inflow 4) 16 0 0 = true) by (vm_compute; reflexivity).
  assert (HS : forall A (x y : A), Some x = Some y -> x = y) by (intros A x' y' [= R]; exact R).
  assert (DD : distances 10 1 1) by (unfold distances; lra).
  assert (BY : forall p W1 W2, induced 10 1 1 p (pv_ring a) true (inflow 4) W1 -> induced 10 1 1 p (pv_ring b) true (inflow 4) W2 -> induced_by o 10 1 1 p [W1; W2]).
  { intros p W1 W2 I1 I2. unfold induced_by, vl_rings. rewrite E1, E2, E3. cbn [map in_V]. split; [reflexivity|]. intros [|[|j]] r t V W'; cbn [nth_error]; intros H1 H2 H3 H4.
    - injection H1 as <-. injection H2 as <-. injection H4 as <-. replace V with (inflow 4) by exact (HS _ _ _ H3). exact I1.
    - injection H1 as <-. injection H2 as <-. injection H4 as <-. replace V with (inflow 4) by exact (HS _ _ _ H3). exact I2.
    - destruct j; discriminate. }
  destruct (control_induced _ _ _ _ _ _ C1 R1 Q (or_introl eq_refl) (or_introl eq_refl)) as [W11 I11]. destruct (control_induced _ _ _ _ _ _ C1 R2 Q (or_introl eq_refl) (or_intror eq_refl)) as [W12 I12].
  destruct (control_induced _ _ _ _ _ _ C2 R1 Q (or_intror eq_refl) (or_introl eq_refl)) as [W21 I21]. destruct (control_induced _ _ _ _ _ _ C2 R2 Q (or_intror eq_refl) (or_intror eq_refl)) as [W22 I22].
  destruct (case_induced _ _ _ _ _ _ _ CP R1 Q (or_intror eq_refl) (or_introl eq_refl)) as [U1 J1]. destruct (case_induced _ _ _ _ _ _ _ CP R2 Q (or_intror eq_refl) (or_intror eq_refl)) as [U2 J2].
  pose proof (SK _ _ S1 (C99_coefficient e _ _ _ _ _ _ _ _ DD I11)) as B11. pose proof (XK _ _ X1 (C99_coefficient e _ _ _ _ _ _ _ _ DD I12)) as B12. pose proof (XK _ _ X2 (C99_coefficient e _ _ _ _ _ _ _ _ DD I21)) as B21. pose proof (SK _ _ S2 (C99_coefficient e _ _ _ _ _ _ _ _ DD I22)) as B22.
  apply NK in N1, N2.
  assert (NE : vl_normals o = [pv_n a; pv_n b]) by (unfold vl_normals; rewrite E2; reflexivity).
  exists o, [[W11; W12]; [W21; W22]], (pv_cp a), vc, [U1; U2]. split; [reflexivity|]. split; [exact DD|]. split; [|split; [|split; [|split; [|split; [exact V1|split; [exact V2|apply BY; assumption]]]]]].
  - unfold induced_at_controls, vl_ctr. rewrite E2. split; [reflexivity|]. intros [|[|i]] p Ws H1 H2; cbn [nth_error map] in H1, H2; try (destruct i; discriminate H1).
    + injection H1 as <-. injection H2 as <-. apply BY; assumption.
    + injection H1 as <-. injection H2 as <-. apply BY; assumption.
  - replace 5 with (/ / 5) by lra. apply stable2; [lra| |]; unfold exact_coef; rewrite NE; cbn [map nth]; unfold sdot, vvals; cbn [vx vy vz].
    + apply (Rle_trans _ (3 / 10 - 1 / 10)); [lra|]. apply Rplus_le_compat; [|apply Ropp_le_contravar].
      * rewrite <- Rabs_Ropp. eapply Rle_trans; [|apply Rle_abs]. nra.
      * apply Rabs_le. nra.
    + apply (Rle_trans _ (3 / 10 - 1 / 10)); [lra|]. apply Rplus_le_compat; [|apply Ropp_le_contravar].
      * rewrite <- Rabs_Ropp. eapply Rle_trans; [|apply Rle_abs]. nra.
      * apply Rabs_le. nra.
  - rewrite NE. intros i v n Ws H1 H2 H3. rewrite E3 in H1. cbn [map in_V] in H1.
    assert (EV : v = inflow 4) by (destruct i as [|[|i]]; [symmetry; exact (HS _ _ _ H1)|symmetry; exact (HS _ _ _ H1)|destruct i; discriminate H1]). subst v. clear H1. apply at_quarters_val in Q. destruct Q as [_ VV]. pose proof (f_equal vx VV : val (vx (inflow 4)) = 16 / 4) as VX. pose proof (f_equal vy VV : val (vy (inflow 4)) = 0 / 4) as VY. pose proof (f_equal vz VV : val (vz (inflow 4)) = 0 / 4) as VZ. clear VV.
    destruct i as [|[|i]]; [| |destruct i; discriminate H2]; cbn [nth_error] in H2, H3; injection H2 as <-; injection H3 as <-; (apply limit_small; [reflexivity|exact LG| |exact BG|rewrite VX, VY, VZ|]).
    all: try (intros W [<-|[<-|[]]]).
    all: try (repeat split; apply Rabs_le; lra).
  - unfold vl_cp. rewrite E2. reflexivity.
Qed.

Print Assumptions C101_circulations.
Print Assumptions C101_velocity.
