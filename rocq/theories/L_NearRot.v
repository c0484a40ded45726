(** Rounding of the rotations. *)

From Coq Require Import ZArith Reals List Bool Lra Psatz Lia.
From Flocq Require Import Core BinarySingleNaN.
From Verif Require Import Num PyBase RNum Spec M_Rotations M_Csys L_Rot L_Csys Double L_Double L_Near.
Import ListNotations.
Open Scope R_scope.

Definition vvals (v : vec double) : vec R := V3 (val (vx v)) (val (vy v)) (val (vz v)).
Definition vfin (v : vec double) : Prop := fin (vx v) /\ fin (vy v) /\ fin (vz v).
Definition vnear (B : R) (v : vec double) (V : vec R) (k : R) : Prop := near B (vx v) (vx V) k /\ near B (vy v) (vy V) k /\ near B (vz v) (vz V) k.
Definition mnear (m : mat double) (M : mat R) (k : R) : Prop := vnear 1 (r0 m) (r0 M) k /\ vnear 1 (r1 m) (r1 M) k /\ vnear 1 (r2 m) (r2 M) k.

Lemma comp_norm (a : vec R) : Rabs (vx a) <= snorm a /\ Rabs (vy a) <= snorm a /\ Rabs (vz a) <= snorm a.
Proof.
  unfold snorm. destruct a as [x y z]. cbv [vx vy vz]. assert (T : forall s t, 0 <= t -> s ^ 2 <= t -> Rabs s <= sqrt t).
  { intros s t P Q. rewrite <- sqrt_Rsqr_abs. apply sqrt_le_1_alt. unfold Rsqr. lra. }
  repeat split; apply T; nra.
Qed.
Ltac ml := apply mild_lit; lra.
Ltac fw := split; lra.
(** products and sums on the scale 1 *)
Lemma near_mul1 e x y X Y j k : few j -> few k -> near 1 x X j -> near 1 y Y k -> near 1 (@nmul _ (Double e) x y) (X * Y) (j + k + 101 / 100).
Proof. intros FJ FK NX NY. replace 1 with (1 * 1) by ring. apply near_mul; try assumption; ml. Qed.

(** lengths whose squares neither overflow nor vanish *)
Definition sized (N : R) : Prop := bpow radix2 (-150) <= N <= bpow radix2 150.
Lemma sized_mild N : sized N -> mild N.
Proof. apply (mild_le (-150) 150); lia. Qed.
Lemma sized_sq N c : sized N -> 1 <= c <= 4 -> mild (c * (N * N)).
Proof.
  intros [L U] [C1 C2]. pose proof (bpow_gt_0 radix2 (-150)). apply (mild_le (-300) 302 ltac:(lia) ltac:(lia)). change (-300)%Z with (-150 + -150)%Z. change 302%Z with (2 + (150 + 150))%Z. rewrite !bpow_plus.
  change (bpow radix2 2) with 4. assert (bpow radix2 (-150) * bpow radix2 (-150) <= N * N) by (apply Rmult_le_compat; lra). assert (N * N <= bpow radix2 150 * bpow radix2 150) by (apply Rmult_le_compat; lra).
  assert (0 <= N * N) by nra. split; [nra|]. apply Rmult_le_compat; lra.
Qed.
Lemma sized_lit N : 1 / 1000000 <= N <= 1000000000000 -> sized N.
Proof.
  intros [L U]. split; [apply Rle_trans with (bpow radix2 (-30)); [apply bpow_le; lia|change (bpow radix2 (-30)) with (/ 1073741824); lra]|apply Rle_trans with (bpow radix2 60); [change (bpow radix2 60) with (IZR (Z.pow_pos 2 60)); simpl (Z.pow_pos 2 60); lra|apply bpow_le; lia]].
Qed.
Lemma near_at B x X k X' : near B x X k -> X = X' -> near B x X' k. Proof. intros H <-. exact H. Qed.
Lemma near_scale A B x X k : near A x X k -> A = B -> near B x X k. Proof. intros H <-. exact H. Qed.
Lemma snorm_sq (a : vec R) : snorm a * snorm a = vx a * vx a + vy a * vy a + vz a * vz a.
Proof. unfold snorm. rewrite sqrt_sqrt; [ring|nra]. Qed.
(** the length of a vector *)
Lemma close_norm e (a : vec double) (A : vec R) k : few k -> k <= 1000 -> vnear (snorm A) a A k -> sized (snorm A) -> close (@nsqrt _ (Double e) (@vdot _ (Double e) a a)) (snorm A) (18 * k + 29).
Proof.
  intros FK K (N1 & N2 & N3) Z. set (N := snorm A) in *. pose proof (sized_mild _ Z) as M. pose proof (mild_pos _ M) as PN. unfold vdot.
  assert (FKK : few (k + k + 101 / 100)) by (destruct FK; split; lra).
  pose proof (near_mul e N N _ _ _ _ k k M M FK FK N1 N1) as S1. pose proof (near_mul e N N _ _ _ _ k k M M FK FK N2 N2) as S2. pose proof (near_mul e N N _ _ _ _ k k M M FK FK N3 N3) as S3.
  assert (P2 : 0 <= N * N) by nra.
  assert (A1 : mild (N * N + N * N)) by (replace (N * N + N * N) with (2 * (N * N)) by ring; apply sized_sq; [exact Z|lra]).
  pose proof (near_add e _ _ _ _ _ _ _ _ A1 P2 P2 FKK FKK S1 S2) as T. rewrite Rmax_left in T by lra.
  assert (A2 : mild (N * N + N * N + N * N)) by (replace (N * N + N * N + N * N) with (3 * (N * N)) by ring; apply sized_sq; [exact Z|lra]).
  assert (FT : few (k + k + 101 / 100 + 101 / 100)) by (destruct FK; split; lra).
  pose proof (near_add e _ _ _ _ _ _ _ _ A2 ltac:(lra) P2 FT FKK T S3) as W. rewrite Rmax_left in W by lra. rewrite <- snorm_sq in W. fold N in W.
  apply (near_close 3) in W; [|nra|destruct FK; lra|lra]. apply close_sqrt with (e := e) in W; [|exact M|destruct FK; split; lra].
  destruct W as (F & d & D & Q). split; [exact F|]. exists d. split; [|exact Q]. eapply Rle_trans; [exact D|]. apply Rmult_le_compat_r; [pose proof u_pos; lra|]. destruct FK; lra.
Qed.
(** the normalised axis *)
Lemma near_axis e (a : vec double) : vfin a -> sized (snorm (vvals a)) ->
  vnear 1 (@vdivs _ (Double e) a (@nsqrt _ (Double e) (@vdot _ (Double e) a a))) (sunit (vvals a)) 31.
Proof.
  intros (F1 & F2 & F3) Z. set (N := snorm (vvals a)) in *. pose proof (sized_mild _ Z) as M. pose proof (mild_pos _ M) as PN. destruct (comp_norm (vvals a)) as (B1 & B2 & B3). fold N in B1, B2, B3. cbn [vvals vx vy vz] in B1, B2, B3.
  pose proof (near_exact N _ F1 B1 ltac:(lra)) as N1. pose proof (near_exact N _ F2 B2 ltac:(lra)) as N2. pose proof (near_exact N _ F3 B3 ltac:(lra)) as N3.
  assert (F0 : few 0) by fw. pose proof (close_norm e a (vvals a) 0 F0 ltac:(lra) (conj N1 (conj N2 N3)) Z) as C. fold N in C.
  assert (E : N / N = 1) by (field; lra). assert (M1 : mild (N / N)) by (rewrite E; ml).
  assert (D : forall x : double, fin x -> Rabs (val x) <= N -> near 1 (@ndiv _ (Double e) x (@nsqrt _ (Double e) (@vdot _ (Double e) a a))) (/ N * val x) 31).
  { intros x F B. pose proof (near_div e N x (val x) 0 _ N (18 * 0 + 29) N M PN M1 F0 ltac:(fw) (near_exact N _ F B ltac:(lra)) C ltac:(lra)) as W. rewrite E in W. replace (/ N * val x) with (val x / N) by (unfold Rdiv; ring). eapply near_weaken; [exact W|exact (proj1 (proj2 W))|lra]. }
  unfold vnear, sunit, sscale, vdivs. fold N. cbn [vvals vx vy vz]. split; [|split]; apply D; assumption.
Qed.
Lemma near_half e x X k : few k -> near 8 x X k -> near 4 (@ndiv _ (Double e) x (@nZ _ (Double e) 2)) (X / 2) (k + 102 / 100).
Proof.
  intros FK NX. pose proof (near_div e 8 x X k _ 2 0 2 ltac:(ml) ltac:(lra) ltac:(ml) FK ltac:(fw) NX (close_Z e 2 ltac:(lia)) ltac:(lra)) as W. replace (8 / 2) with 4 in W by lra. replace (k + 102 / 100) with (k + 0 + 102 / 100) by ring. exact W.
Qed.
Lemma near_sum2 e s x y X Y k C l : 1 <= s <= 8 -> few k -> near s x X k -> near 1 y Y k -> C = s + 1 -> l = k + 101 / 100 -> near C (@nadd _ (Double e) x y) (X + Y) l /\ near C (@nsub _ (Double e) x y) (X - Y) l.
Proof.
  intros S FK NX NY -> ->. replace (k + 101 / 100) with (Rmax k k + 101 / 100) by (rewrite Rmax_left; lra). split; [apply near_add|apply near_sub]; try assumption; try lra; ml.
Qed.
Lemma near_up B x X k l : near B x X k -> k <= l -> 0 <= B -> near B x X l.
Proof. intros N K P. eapply near_weaken; [exact N|exact (proj1 (proj2 N))|nra]. Qed.
Ltac nup := match goal with H : near ?B ?x ?X _ |- near ?B ?x ?X _ => apply (near_up _ _ _ _ _ H); lra end.
(** one entry of the diagonal and one beside it *)
Lemma near_diag e a b c d A B C D k : few k -> k <= 1000 -> near 1 a A k -> near 1 b B k -> near 1 c C k -> near 1 d D k -> Rabs (A + B - C - D) <= 1 ->
  near 1 (@nsub _ (Double e) (@nsub _ (Double e) (@nadd _ (Double e) a b) c) d) (A + B - C - D) (4 * k + 13).
Proof.
  intros [K0 _] K4 NA NB NC ND BD.
  destruct (near_sum2 e 1 _ _ _ _ k 2 (k + 101 / 100) ltac:(lra) ltac:(fw) NA NB ltac:(lra) ltac:(lra)) as [S1 _].
  destruct (near_sum2 e 2 _ _ _ _ (k + 101 / 100) 3 (k + 202 / 100) ltac:(lra) ltac:(fw) S1 ltac:(apply (near_up _ _ _ _ _ NC); lra) ltac:(lra) ltac:(lra)) as [_ S2].
  destruct (near_sum2 e 3 _ _ _ _ (k + 202 / 100) 4 (k + 303 / 100) ltac:(lra) ltac:(fw) S2 ltac:(apply (near_up _ _ _ _ _ ND); lra) ltac:(lra) ltac:(lra)) as [_ S3].
  eapply near_weaken; [exact S3|exact BD|lra].
Qed.
Lemma near_off e a b A B k : few k -> k <= 1000 -> near 1 a A k -> near 1 b B k ->
  (Rabs (2 * (A + B)) <= 1 -> near 1 (@nmul _ (Double e) (@nZ _ (Double e) 2) (@nadd _ (Double e) a b)) (2 * (A + B)) (4 * k + 13)) /\
  (Rabs (2 * (A - B)) <= 1 -> near 1 (@nmul _ (Double e) (@nZ _ (Double e) 2) (@nsub _ (Double e) a b)) (2 * (A - B)) (4 * k + 13)).
Proof.
  intros [K0 _] K4 NA NB. destruct (near_sum2 e 1 _ _ _ _ k 2 (k + 101 / 100) ltac:(lra) ltac:(fw) NA NB ltac:(lra) ltac:(lra)) as [S1 S2].
  pose proof (near_Z e 2 ltac:(lia) ltac:(lia)) as T. rewrite (Rabs_pos_eq 2) in T by lra.
  split; intros H; (eapply near_weaken; [apply near_mul; [| | | |exact T|eassumption]; [ml|ml|fw|fw]|exact H|lra]).
Qed.
(** the rotation matrix for any axis and an angle of at most 8 radians *)
Lemma near_rotation_matrix e (axis : vec double) (th : double) (TH : R) : accurate e -> vfin axis -> sized (snorm (vvals axis)) -> near 8 th TH 4 ->
  mnear (@rotation_matrix _ (Double e) axis th) (rotation_matrix (vvals axis) TH) 520.
Proof.
  intros AC F Z NT. pose proof (near_axis e axis F Z) as (X1 & X2 & X3). unfold rotation_matrix.
  assert (F4 : few 4) by fw. pose proof (near_half e th TH 4 F4 NT) as NH.
  assert (FH : few (4 + 102 / 100)) by fw. pose proof (near_cos e 4 _ _ _ AC ltac:(lra) FH NH) as NA. pose proof (near_sin e 4 _ _ _ AC ltac:(lra) FH NH) as NS. 
  apply (near_up _ _ _ _ 62) in NA; [|lra|lra]. apply (near_up _ _ _ _ 29) in NS; [|lra|lra].
  set (ad := @vdivs _ (Double e) axis (@nsqrt _ (Double e) (@vdot _ (Double e) axis axis))) in *.
  assert (AR : vdivs (vvals axis) (nsqrt (vdot (vvals axis) (vvals axis))) = sunit (vvals axis)) by (change (nsqrt (vdot (vvals axis) (vvals axis))) with (vnorm (vvals axis)); rewrite vdivs_s, vnorm_s; reflexivity).
  rewrite AR. assert (PN : 0 < snorm (vvals axis)) by (apply mild_pos, sized_mild, Z).
  assert (UN : vx (sunit (vvals axis)) * vx (sunit (vvals axis)) + vy (sunit (vvals axis)) * vy (sunit (vvals axis)) + vz (sunit (vvals axis)) * vz (sunit (vvals axis)) = 1).
  { unfold sunit, sscale. set (N := snorm (vvals axis)) in *. cbn [vx vy vz]. pose proof (snorm_sq (vvals axis)) as Q. fold N in Q. 
    replace (/ N * vx (vvals axis) * (/ N * vx (vvals axis)) + / N * vy (vvals axis) * (/ N * vy (vvals axis)) + / N * vz (vvals axis) * (/ N * vz (vvals axis))) with (/ N * / N * (N * N)) by (rewrite Q; ring). field. lra. }
  set (w := sunit (vvals axis)) in *. clearbody w ad. clear AR Z F NT NH PN.
  set (ca := @ncos _ (Double e) _) in *. set (sa := @nsin _ (Double e) _) in *. clearbody ca sa.
  set (CA := cos (TH / 2)) in *. set (SA := sin (TH / 2)) in *.
  change (@ncos R RNum (@ndiv R RNum TH (@nZ R RNum 2))) with CA. change (@nsin R RNum (@ndiv R RNum TH (@nZ R RNum 2))) with SA.
  assert (CS : CA * CA + SA * SA = 1) by (pose proof (sin2_cos2 (TH / 2)) as W; unfold Rsqr in W; fold CA SA in W; lra). clearbody CA SA.
  assert (F31 : few 31) by fw. assert (F29 : few 29) by fw. assert (F62 : few 62) by fw.
  assert (NB : near 1 (@nmul _ (Double e) (@nopp _ (Double e) (vx ad)) sa) (- vx w * SA) 62) by (eapply near_up; [apply near_mul1; [exact F31|exact F29|apply near_opp; exact X1|exact NS]|lra|lra]).
  assert (NC : near 1 (@nmul _ (Double e) (@nopp _ (Double e) (vy ad)) sa) (- vy w * SA) 62) by (eapply near_up; [apply near_mul1; [exact F31|exact F29|apply near_opp; exact X2|exact NS]|lra|lra]).
  assert (ND : near 1 (@nmul _ (Double e) (@nopp _ (Double e) (vz ad)) sa) (- vz w * SA) 62) by (eapply near_up; [apply near_mul1; [exact F31|exact F29|apply near_opp; exact X3|exact NS]|lra|lra]).
  set (b := @nmul _ (Double e) (@nopp _ (Double e) (vx ad)) sa) in *. set (c := @nmul _ (Double e) (@nopp _ (Double e) (vy ad)) sa) in *. set (d := @nmul _ (Double e) (@nopp _ (Double e) (vz ad)) sa) in *.
  set (B := - vx w * SA) in *. set (C := - vy w * SA) in *. set (D := - vz w * SA) in *.
  change (@nmul R RNum (@nopp R RNum (vx w)) SA) with B. change (@nmul R RNum (@nopp R RNum (vy w)) SA) with C. change (@nmul R RNum (@nopp R RNum (vz w)) SA) with D.
  assert (Q : CA * CA + B * B + C * C + D * D = 1).
  { unfold B, C, D. replace (CA * CA + - vx w * SA * (- vx w * SA) + - vy w * SA * (- vy w * SA) + - vz w * SA * (- vz w * SA)) with (CA * CA + (vx w * vx w + vy w * vy w + vz w * vz w) * (SA * SA)) by ring. rewrite UN. lra. }
  clearbody b c d B C D. clear X1 X2 X3 UN CS NS.
  assert (PR : forall x y X Y, near 1 x X 62 -> near 1 y Y 62 -> near 1 (@nmul _ (Double e) x y) (X * Y) 126) by (intros x y X Y NX NY; eapply near_up; [apply near_mul1; [exact F62|exact F62|exact NX|exact NY]|lra|lra]).
  pose proof (PR _ _ _ _ NA NA) as AA. pose proof (PR _ _ _ _ NB NB) as BB. pose proof (PR _ _ _ _ NC NC) as CC. pose proof (PR _ _ _ _ ND ND) as DD.
  pose proof (PR _ _ _ _ NB NC) as BC. pose proof (PR _ _ _ _ NA ND) as AD. pose proof (PR _ _ _ _ NA NC) as AC'. pose proof (PR _ _ _ _ NA NB) as AB. pose proof (PR _ _ _ _ NB ND) as BD. pose proof (PR _ _ _ _ NC ND) as CD.
  assert (F126 : few 126) by fw. assert (L126 : 126 <= 1000) by lra.
  assert (UP : forall x X, near 1 x X (4 * 126 + 13) -> near 1 x X 520) by (intros x X H; eapply near_up; [exact H|lra|lra]).
  unfold mnear, vnear. cbn [vx vy vz r0 r1 r2]. assert (AQ : forall x, x * x <= 1 -> Rabs x <= 1) by (intros x H; apply Rabs_le; nra).
  assert (OFF : forall x y z t, x * x + y * y + z * z + t * t = 1 -> Rabs (2 * (x * y + z * t)) <= 1 /\ Rabs (2 * (x * y - z * t)) <= 1).
  { intros x y z t H. pose proof (Rle_0_sqr (x - y)). pose proof (Rle_0_sqr (x + y)). pose proof (Rle_0_sqr (z - t)). pose proof (Rle_0_sqr (z + t)). unfold Rsqr in *. split; apply Rabs_le; lra. }
  split; [split; [|split]|split; [split; [|split]|split; [|split]]]; apply UP.
  - apply near_diag; try assumption. apply Rabs_le. rnum. nra.
  - apply near_off; try assumption. apply OFF. lra.
  - apply near_off; try assumption. apply OFF. lra.
  - apply near_off; try assumption. apply OFF. lra.
  - apply near_diag; try assumption. apply Rabs_le. rnum. nra.
  - apply near_off; try assumption. apply OFF. lra.
  - apply near_off; try assumption. apply OFF. lra.
  - apply near_off; try assumption. apply OFF. lra.
  - apply near_diag; try assumption. apply Rabs_le. rnum. nra.
Qed.
(** a matrix applied to a vector of the size [L] *)
Lemma near_row e L (r v : vec double) (P V : vec R) km j : 1 / 1000000 <= L <= 1000000 -> 0 <= km <= 10000 -> 0 <= j <= 50000 -> vnear 1 r P km -> vnear L v V j -> Rabs (vdot P V) <= L ->
  near L (@vdot _ (Double e) r v) (vdot P V) (3 * (km + j) + 10).
Proof.
  intros HL FK FJ (R1 & R2 & R3) (V1 & V2 & V3) BD. unfold vdot at 1.
  assert (PP : forall x y X Y, near 1 x X km -> near L y Y j -> near L (@nmul _ (Double e) x y) (X * Y) (km + j + 101 / 100)) by (intros x y X Y NX NY; apply (near_scale (1 * L)); [apply near_mul; try assumption; [ml|ml|fw|fw]|ring]).
  pose proof (PP _ _ _ _ R1 V1) as T1. pose proof (PP _ _ _ _ R2 V2) as T2. pose proof (PP _ _ _ _ R3 V3) as T3. clear PP R1 R2 R3 V1 V2 V3.
  pose proof (near_add e L L _ _ _ _ (km + j + 101 / 100) (km + j + 101 / 100) ltac:(ml) ltac:(lra) ltac:(lra) ltac:(fw) ltac:(fw) T1 T2) as S1. rewrite Rmax_left in S1 by lra.
  pose proof (near_add e (L + L) L _ _ _ _ (km + j + 101 / 100 + 101 / 100) (km + j + 101 / 100) ltac:(ml) ltac:(lra) ltac:(lra) ltac:(fw) ltac:(fw) S1 T3) as S2. rewrite Rmax_left in S2 by lra.
  eapply near_weaken; [exact S2|exact BD|]. assert (0 <= (km + j) * L) by nra. nra.
Qed.
Lemma near_mapply e L m (v : vec double) (M : mat R) (V : vec R) km j : 1 / 1000000 <= L <= 1000000 -> 0 <= km <= 10000 -> 0 <= j <= 50000 -> mnear m M km -> vnear L v V j -> snorm (mapply M V) <= L ->
  vnear L (@mapply _ (Double e) m v) (mapply M V) (3 * (km + j) + 10).
Proof.
  intros HL FK FJ (M1 & M2 & M3) NV SN. destruct (comp_norm (mapply M V)) as (B1 & B2 & B3). unfold mapply in *. cbn [vx vy vz] in B1, B2, B3.
  split; [|split]; cbn [vx vy vz]; apply near_row; try assumption; lra.
Qed.
Lemma vnear_exact L (p : vec double) : vfin p -> snorm (vvals p) <= L -> vnear L p (vvals p) 0.
Proof.
  intros (F1 & F2 & F3) H. destruct (comp_norm (vvals p)) as (B1 & B2 & B3). cbn [vvals vx vy vz] in B1, B2, B3. pose proof (Rabs_pos (val (vx p))).
  split; [|split]; cbn [vvals vx vy vz]; apply near_exact; try assumption; lra.
Qed.
(** the four matrices of a coordinate system *)
Lemma near_angle e (x : double) : fin x -> Rabs (val x) <= 360 -> near 8 (@deg2rad _ (Double e) x) (rad (val x)) 4.
Proof. intros F B. pose proof (near_deg2rad e x (val x) 0 360 ltac:(lra) ltac:(fw) (near_exact 360 x F B ltac:(lra))) as H. replace (360 / 45) with 8 in H by lra. replace (0 + 4) with 4 in H by lra. exact H. Qed.
Lemma near_angle_opp e (x : double) : fin x -> Rabs (val x) <= 360 -> near 8 (@deg2rad _ (Double e) (@nopp _ (Double e) x)) (- rad (val x)) 4.
Proof.
  intros F B. assert (V : val (@nopp _ (Double e) x) = - val x) by (cbn [nopp Double]; apply B2R_Bopp). rewrite <- rad_opp, <- V. apply near_angle; [cbn [nopp Double]; rewrite is_finite_Bopp; exact F|]. rewrite V, Rabs_Ropp. exact B.
Qed.
Lemma zero_one e : (fin (@nZ _ (Double e) 0) /\ val (@nZ _ (Double e) 0) = 0) /\ (fin (@nZ _ (Double e) 1) /\ val (@nZ _ (Double e) 1) = 1).
Proof. split; [apply (dint e 0)|apply (dint e 1)]; lia. Qed.
Lemma axis_x e : vfin (V3 (@nZ _ (Double e) 1) (@nZ _ (Double e) 0) (@nZ _ (Double e) 0)) /\ vvals (V3 (@nZ _ (Double e) 1) (@nZ _ (Double e) 0) (@nZ _ (Double e) 0)) = ex.
Proof. destruct (zero_one e) as [[F0 V0] [F1 V1]]. unfold vfin, vvals, ex. cbn [vx vy vz]. rewrite V0, V1. repeat split; assumption. Qed.
Lemma axis_z e : vfin (V3 (@nZ _ (Double e) 0) (@nZ _ (Double e) 0) (@nZ _ (Double e) 1)) /\ vvals (V3 (@nZ _ (Double e) 0) (@nZ _ (Double e) 0) (@nZ _ (Double e) 1)) = ez.
Proof. destruct (zero_one e) as [[F0 V0] [F1 V1]]. unfold vfin, vvals, ez. cbn [vx vy vz]. rewrite V0, V1. repeat split; assumption. Qed.
Lemma snorm_ex : snorm ex = 1. Proof. unfold snorm, ex. cbv [vx vy vz]. replace (1 ^ 2 + 0 ^ 2 + 0 ^ 2) with 1 by ring. apply sqrt_1. Qed.
Lemma snorm_ez : snorm ez = 1. Proof. unfold snorm, ez. cbv [vx vy vz]. replace (0 ^ 2 + 0 ^ 2 + 1 ^ 2) with 1 by ring. apply sqrt_1. Qed.
Lemma near_x e th TH : accurate e -> near 8 th TH 4 -> mnear (@rotation_matrix _ (Double e) (V3 (@nZ _ (Double e) 1) (@nZ _ (Double e) 0) (@nZ _ (Double e) 0)) th) (rotation_matrix ex TH) 520.
Proof. intros A N. destruct (axis_x e) as [F V]. rewrite <- V. apply near_rotation_matrix; try assumption. rewrite V, snorm_ex. apply sized_lit. lra. Qed.
Lemma near_z e th TH : accurate e -> near 8 th TH 4 -> mnear (@rotation_matrix _ (Double e) (V3 (@nZ _ (Double e) 0) (@nZ _ (Double e) 0) (@nZ _ (Double e) 1)) th) (rotation_matrix ez TH) 520.
Proof. intros A N. destruct (axis_z e) as [F V]. rewrite <- V. apply near_rotation_matrix; try assumption. rewrite V, snorm_ez. apply sized_lit. lra. Qed.
(** one rotation about an axis of the coordinate system, and two *)
Definition srx (th : R) (p : vec R) : vec R := srot ex th p.
Definition srz (th : R) (p : vec R) : vec R := srot ez th p.
Lemma srot_norm (w : vec R) th p : w = ex \/ w = ez -> snorm (srot w th p) = snorm p.
Proof.
  intros W. unfold snorm. f_equal. pose proof (sin2_cos2 th) as Q. unfold Rsqr in Q. destruct p as [x y z]. destruct W as [->| ->]; unfold ex, ez; svec.
  - transitivity (x ^ 2 + (y ^ 2 + z ^ 2) * (sin th * sin th + cos th * cos th)); [ring|rewrite Q; ring].
  - transitivity (z ^ 2 + (x ^ 2 + y ^ 2) * (sin th * sin th + cos th * cos th)); [ring|rewrite Q; ring].
Qed.
Lemma near_srx e L th TH (v : vec double) V j : accurate e -> 1 / 1000000 <= L <= 1000000 -> 0 <= j <= 50000 -> near 8 th TH 4 -> vnear L v V j -> snorm V <= L ->
  vnear L (@mapply _ (Double e) (@rotation_matrix _ (Double e) (V3 (@nZ _ (Double e) 1) (@nZ _ (Double e) 0) (@nZ _ (Double e) 0)) th) v) (srx TH V) (1570 + 3 * j) /\ snorm (srx TH V) <= L.
Proof.
  intros A HL HJ NT NV SV. assert (E : mapply (rotation_matrix ex TH) V = srx TH V) by (unfold srx; rewrite rotation_matrix_spec, sunit_ex by apply ex_nz; reflexivity).
  assert (B : snorm (srx TH V) <= L) by (unfold srx; rewrite srot_norm by (left; reflexivity); exact SV). split; [|exact B]. rewrite <- E in B |- *.
  replace (1570 + 3 * j) with (3 * (520 + j) + 10) by ring. apply near_mapply; try assumption; [lra|apply near_x; assumption].
Qed.
Lemma near_srz e L th TH (v : vec double) V j : accurate e -> 1 / 1000000 <= L <= 1000000 -> 0 <= j <= 50000 -> near 8 th TH 4 -> vnear L v V j -> snorm V <= L ->
  vnear L (@mapply _ (Double e) (@rotation_matrix _ (Double e) (V3 (@nZ _ (Double e) 0) (@nZ _ (Double e) 0) (@nZ _ (Double e) 1)) th) v) (srz TH V) (1570 + 3 * j) /\ snorm (srz TH V) <= L.
Proof.
  intros A HL HJ NT NV SV. assert (E : mapply (rotation_matrix ez TH) V = srz TH V) by (unfold srz; rewrite rotation_matrix_spec, sunit_ez by apply ez_nz; reflexivity).
  assert (B : snorm (srz TH V) <= L) by (unfold srz; rewrite srot_norm by (right; reflexivity); exact SV). split; [|exact B]. rewrite <- E in B |- *.
  replace (1570 + 3 * j) with (3 * (520 + j) + 10) by ring. apply near_mapply; try assumption; [lra|apply near_z; assumption].
Qed.
