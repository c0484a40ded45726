(** Rounding of the rotation about a line. *)

From Coq Require Import ZArith Reals List Bool Lra Psatz Lia.
From Flocq Require Import Core BinarySingleNaN.
From Verif Require Import Num PyBase RNum Spec M_Rotations M_Csys L_Rot L_Csys Double L_Double L_Near L_NearRot.
Import ListNotations.
Open Scope R_scope.

(** ** Operations with zero and one are exact *)
Definition is0 (x : double) : Prop := fin x /\ val x = 0.
Definition is1 (x : double) : Prop := fin x /\ val x = 1.
(** [x] is finite and has the value of [y] *)
Definition same (x y : double) : Prop := fin x /\ val x = val y.
Section Exact.
Context (e : elementary).
Local Notation D := (Double e).
Lemma rnd_val (x : double) : rnd (val x) = val x. Proof. apply round_generic; [apply valid_rnd_N|apply fmt]. Qed.
Lemma mul_same (x y z : double) : fin x -> fin y -> val x * val y = val z -> same (@nmul _ D x y) z.
Proof.
  intros X Y Q. cbn [nmul Double]. pose proof (Bmult_correct 53 1024 p53 e1024 mode_NE x y) as C. rewrite Q in C. change (round radix2 (SpecFloat.fexp 53 1024) (round_mode mode_NE) (val z)) with (rnd (val z)) in C. rewrite rnd_val in C.
  rewrite Rlt_bool_true in C by apply abs_B2R_lt_emax. destruct C as (C1 & C2 & _). split; [rewrite C2, X, Y; reflexivity|exact C1].
Qed.
Lemma add_same (x y z : double) : fin x -> fin y -> val x + val y = val z -> same (@nadd _ D x y) z.
Proof.
  intros X Y Q. cbn [nadd Double]. pose proof (Bplus_correct 53 1024 p53 e1024 mode_NE x y X Y) as C. rewrite Q in C. change (round radix2 (SpecFloat.fexp 53 1024) (round_mode mode_NE) (val z)) with (rnd (val z)) in C. rewrite rnd_val in C.
  rewrite Rlt_bool_true in C by apply abs_B2R_lt_emax. destruct C as (C1 & C2 & _). split; [exact C2|exact C1].
Qed.
Lemma mul0l x y : is0 x -> fin y -> is0 (@nmul _ D x y).
Proof. intros [X V] Y. destruct (mul_same x y x X Y) as [F Q]; [rewrite V; ring|]. split; [exact F|rewrite Q; exact V]. Qed.
Lemma mul1l x y : is1 x -> fin y -> same (@nmul _ D x y) y.
Proof. intros [X V] Y. apply mul_same; try assumption. rewrite V. ring. Qed.
Lemma mul1r x y : is1 y -> fin x -> same (@nmul _ D x y) x.
Proof. intros [X V] Y. apply mul_same; try assumption. rewrite V. ring. Qed.
Lemma add0l x y : is0 x -> fin y -> same (@nadd _ D x y) y.
Proof. intros [X V] Y. apply add_same; try assumption. rewrite V. ring. Qed.
Lemma add0r x y : is0 y -> fin x -> same (@nadd _ D x y) x.
Proof. intros [X V] Y. apply add_same; try assumption. rewrite V. ring. Qed.
Lemma add_congr x x' y : same x x' -> fin x' -> fin y -> fin (@nadd _ D x' y) -> same (@nadd _ D x y) (@nadd _ D x' y).
Proof.
  intros [F1 V1] F2 FY FT. cbn [nadd Double] in *. pose proof (Bplus_correct 53 1024 p53 e1024 mode_NE _ y F1 FY) as C1. pose proof (Bplus_correct 53 1024 p53 e1024 mode_NE _ y F2 FY) as C2. rewrite V1 in C1.
  destruct (Rlt_bool _ _); [destruct C1 as (C11 & C12 & _), C2 as (C21 & _); split; [exact C12|rewrite C11, C21; reflexivity]|]. exfalso. destruct C2 as (C2 & _). apply (f_equal BinarySingleNaN.is_finite_SF) in C2. rewrite is_finite_SF_B2SF, FT in C2. discriminate C2.
Qed.
Lemma same_near B x y Y k : same x y -> near B y Y k -> near B x Y k.
Proof. intros [F V] (_ & H & E). split; [exact F|]. rewrite V. split; assumption. Qed.
Lemma same_is0 x y : same x y -> is0 y -> is0 x. Proof. intros [F V] [_ Z]. split; [exact F|rewrite V; exact Z]. Qed.
Lemma same_is1 x y : same x y -> is1 y -> is1 x. Proof. intros [F V] [_ Z]. split; [exact F|rewrite V; exact Z]. Qed.
Lemma near_fin B x X k : near B x X k -> fin x. Proof. intros (F & _). exact F. Qed.
Lemma is0_fin x : is0 x -> fin x. Proof. intros [F _]. exact F. Qed.
Lemma is1_fin x : is1 x -> fin x. Proof. intros [F _]. exact F. Qed.

(** ** Homogeneous vectors *)
Definition near4 (t M : R) (w : @vec4 double) (W : vec R) (k : R) : Prop := near M (wx w) (vx W) k /\ near M (wy w) (vy W) k /\ near M (wz w) (vz W) k /\ (fin (ww w) /\ val (ww w) = t).
Lemma dot_last o i (w : @vec4 double) t M W k : is0 o -> is1 i -> near4 t M w W k -> fin (@dot4 _ D (V4 o o o i) w) /\ val (@dot4 _ D (V4 o o o i) w) = t.
Proof.
  intros O I (N1 & N2 & N3 & N4). unfold dot4. cbn [wx wy wz ww]. pose proof (mul0l o _ O (near_fin _ _ _ _ N1)) as A. pose proof (mul0l o _ O (near_fin _ _ _ _ N2)) as B. pose proof (mul0l o _ O (near_fin _ _ _ _ N3)) as C.
  pose proof (mul1l i _ I (proj1 N4)) as E. pose proof (add0l _ _ A (is0_fin _ B)) as S1. apply (fun H => same_is0 _ _ H B) in S1. pose proof (add0l _ _ S1 (is0_fin _ C)) as S2. apply (fun H => same_is0 _ _ H C) in S2.
  pose proof (add0l _ _ S2 (proj1 E)) as S3. split; [exact (proj1 S3)|]. rewrite (proj2 S3), (proj2 E). apply N4.
Qed.
Lemma dot_1 o i (w : @vec4 double) t M W k : is0 o -> is1 i -> near4 t M w W k -> near M (@dot4 _ D (V4 i o o o) w) (vx W) k.
Proof.
  intros O I (N1 & N2 & N3 & N4). unfold dot4. cbn [wx wy wz ww]. pose proof (mul1l i _ I (near_fin _ _ _ _ N1)) as A. pose proof (mul0l o _ O (near_fin _ _ _ _ N2)) as B. pose proof (mul0l o _ O (near_fin _ _ _ _ N3)) as C. pose proof (mul0l o _ O (proj1 N4)) as E.
  pose proof (add0r _ _ B (proj1 A)) as S1. pose proof (add0r _ _ C (proj1 S1)) as S2. pose proof (add0r _ _ E (proj1 S2)) as S3. apply (same_near _ _ _ _ _ S3), (same_near _ _ _ _ _ S2), (same_near _ _ _ _ _ S1), (same_near _ _ _ _ _ A), N1.
Qed.
Lemma dot_2 o i (w : @vec4 double) t M W k : is0 o -> is1 i -> near4 t M w W k -> near M (@dot4 _ D (V4 o i o o) w) (vy W) k.
Proof.
  intros O I (N1 & N2 & N3 & N4). unfold dot4. cbn [wx wy wz ww]. pose proof (mul0l o _ O (near_fin _ _ _ _ N1)) as A. pose proof (mul1l i _ I (near_fin _ _ _ _ N2)) as B. pose proof (mul0l o _ O (near_fin _ _ _ _ N3)) as C. pose proof (mul0l o _ O (proj1 N4)) as E.
  pose proof (add0l _ _ A (proj1 B)) as S1. pose proof (add0r _ _ C (proj1 S1)) as S2. pose proof (add0r _ _ E (proj1 S2)) as S3. apply (same_near _ _ _ _ _ S3), (same_near _ _ _ _ _ S2), (same_near _ _ _ _ _ S1), (same_near _ _ _ _ _ B), N2.
Qed.
Lemma dot_3 o i (w : @vec4 double) t M W k : is0 o -> is1 i -> near4 t M w W k -> near M (@dot4 _ D (V4 o o i o) w) (vz W) k.
Proof.
  intros O I (N1 & N2 & N3 & N4). unfold dot4. cbn [wx wy wz ww]. pose proof (mul0l o _ O (near_fin _ _ _ _ N1)) as A. pose proof (mul0l o _ O (near_fin _ _ _ _ N2)) as B. pose proof (mul1l i _ I (near_fin _ _ _ _ N3)) as C. pose proof (mul0l o _ O (proj1 N4)) as E.
  pose proof (add0l _ _ A (is0_fin _ B)) as S1. apply (fun H => same_is0 _ _ H B) in S1. pose proof (add0l _ _ S1 (proj1 C)) as S2. pose proof (add0r _ _ E (proj1 S2)) as S3. apply (same_near _ _ _ _ _ S3), (same_near _ _ _ _ _ S2), (same_near _ _ _ _ _ C), N3.
Qed.
(** two products and their sum *)
Lemma near_two M p q x y P Q X Y k j : 1 / 1000000 <= M <= 1000000 -> 0 <= k <= 1000 -> 0 <= j <= 50000 -> near 1 p P k -> near 1 q Q k -> near M x X j -> near M y Y j -> Rabs (P * X + Q * Y) <= M ->
  near M (@nadd _ D (@nmul _ D p x) (@nmul _ D q y)) (P * X + Q * Y) (2 * (k + j) + 5).
Proof.
  intros HM HK HJ NP NQ NX NY B.
  assert (T : forall a b A B', near 1 a A k -> near M b B' j -> near M (@nmul _ D a b) (A * B') (k + j + 101 / 100)) by (intros a b A B' NA NB; apply (near_scale (1 * M)); [apply near_mul; try assumption; [ml|ml|fw|fw]|ring]).
  pose proof (T _ _ _ _ NP NX) as T1. pose proof (T _ _ _ _ NQ NY) as T2.
  pose proof (near_add e M M _ _ _ _ (k + j + 101 / 100) (k + j + 101 / 100) ltac:(ml) ltac:(lra) ltac:(lra) ltac:(fw) ltac:(fw) T1 T2) as S. rewrite Rmax_left in S by lra.
  eapply near_weaken; [exact S|exact B|]. nra.
Qed.
Lemma dot_23 o p q (w : @vec4 double) P Q t M W k j : 1 / 1000000 <= M <= 1000000 -> 0 <= k <= 1000 -> 0 <= j <= 50000 -> is0 o -> near 1 p P k -> near 1 q Q k -> near4 t M w W j -> Rabs (P * vy W + Q * vz W) <= M ->
  near M (@dot4 _ D (V4 o p q o) w) (P * vy W + Q * vz W) (2 * (k + j) + 5).
Proof.
  intros HM HK HJ O NP NQ (N1 & N2 & N3 & N4) B. pose proof (near_two M p q _ _ P Q _ _ k j HM HK HJ NP NQ N2 N3 B) as T. unfold dot4. cbn [wx wy wz ww].
  assert (FP : fin (@nmul _ D p (wy w))). { apply (near_fin (1 * M) _ (P * vy W) (k + j + 101 / 100)). apply near_mul; try assumption; [ml|ml|fw|fw]. }
  pose proof (add0l _ _ (mul0l o _ O (near_fin _ _ _ _ N1)) FP) as S1. set (m := @nmul _ D q (wz w)) in *.
  assert (FM : fin m). { apply (near_fin (1 * M) _ (Q * vz W) (k + j + 101 / 100)). apply near_mul; try assumption; [ml|ml|fw|fw]. }
  pose proof (add_congr _ _ m S1 FP FM (near_fin _ _ _ _ T)) as S2.
  pose proof (add0r _ _ (mul0l o _ O (proj1 N4)) (proj1 S2)) as S3. apply (same_near _ _ _ _ _ S3), (same_near _ _ _ _ _ S2), T.
Qed.
Lemma dot_13 o p q (w : @vec4 double) P Q t M W k j : 1 / 1000000 <= M <= 1000000 -> 0 <= k <= 1000 -> 0 <= j <= 50000 -> is0 o -> near 1 p P k -> near 1 q Q k -> near4 t M w W j -> Rabs (P * vx W + Q * vz W) <= M ->
  near M (@dot4 _ D (V4 p o q o) w) (P * vx W + Q * vz W) (2 * (k + j) + 5).
Proof.
  intros HM HK HJ O NP NQ (N1 & N2 & N3 & N4) B. pose proof (near_two M p q _ _ P Q _ _ k j HM HK HJ NP NQ N1 N3 B) as T. unfold dot4. cbn [wx wy wz ww].
  assert (FP : fin (@nmul _ D p (wx w))). { apply (near_fin (1 * M) _ (P * vx W) (k + j + 101 / 100)). apply near_mul; try assumption; [ml|ml|fw|fw]. }
  pose proof (add0r _ _ (mul0l o _ O (near_fin _ _ _ _ N2)) FP) as S1. set (m := @nmul _ D q (wz w)) in *.
  assert (FM : fin m). { apply (near_fin (1 * M) _ (Q * vz W) (k + j + 101 / 100)). apply near_mul; try assumption; [ml|ml|fw|fw]. }
  pose proof (add_congr _ _ m S1 FP FM (near_fin _ _ _ _ T)) as S2.
  pose proof (add0r _ _ (mul0l o _ O (proj1 N4)) (proj1 S2)) as S3. apply (same_near _ _ _ _ _ S3), (same_near _ _ _ _ _ S2), T.
Qed.
Lemma dot_12 o p q (w : @vec4 double) P Q t M W k j : 1 / 1000000 <= M <= 1000000 -> 0 <= k <= 1000 -> 0 <= j <= 50000 -> is0 o -> near 1 p P k -> near 1 q Q k -> near4 t M w W j -> Rabs (P * vx W + Q * vy W) <= M ->
  near M (@dot4 _ D (V4 p q o o) w) (P * vx W + Q * vy W) (2 * (k + j) + 5).
Proof.
  intros HM HK HJ O NP NQ (N1 & N2 & N3 & N4) B. pose proof (near_two M p q _ _ P Q _ _ k j HM HK HJ NP NQ N1 N2 B) as T. unfold dot4. cbn [wx wy wz ww].
  pose proof (add0r _ _ (mul0l o _ O (near_fin _ _ _ _ N3)) (near_fin _ _ _ _ T)) as S2.
  pose proof (add0r _ _ (mul0l o _ O (proj1 N4)) (proj1 S2)) as S3. apply (same_near _ _ _ _ _ S3), (same_near _ _ _ _ _ S2), T.
Qed.
(** the translations *)
Lemma dot_shift o i t (w : @vec4 double) : is0 o -> is1 i -> fin t -> fin (wx w) -> fin (wy w) -> fin (wz w) -> is1 (ww w) ->
  (fin (@nadd _ D (wx w) t) -> same (@dot4 _ D (V4 i o o t) w) (@nadd _ D (wx w) t))
  /\ (fin (@nadd _ D (wy w) t) -> same (@dot4 _ D (V4 o i o t) w) (@nadd _ D (wy w) t))
  /\ (fin (@nadd _ D (wz w) t) -> same (@dot4 _ D (V4 o o i t) w) (@nadd _ D (wz w) t)).
Proof.
  intros O I FT F1 F2 F3 W. unfold dot4. cbn [wx wy wz ww]. pose proof (mul1r t _ W FT) as T.
  assert (K : forall x y, same x y -> fin y -> fin (@nadd _ D y t) -> same (@nadd _ D x (@nmul _ D t (ww w))) (@nadd _ D y t)).
  { intros x y S FY FS. destruct (add_congr x y t S FY FT FS) as [G1 G2]. cbn [nadd Double] in *. destruct T as [T1 T2], S as [S1 S2].
    pose proof (Bplus_correct 53 1024 p53 e1024 mode_NE x _ S1 T1) as C1. pose proof (Bplus_correct 53 1024 p53 e1024 mode_NE y t FY FT) as C2. rewrite S2, T2 in C1.
    destruct (Rlt_bool _ _); [destruct C1 as (C11 & C12 & _), C2 as (C21 & _); split; [exact C12|rewrite C11, C21; reflexivity]|]. exfalso. destruct C2 as (C2 & _). apply (f_equal BinarySingleNaN.is_finite_SF) in C2. rewrite is_finite_SF_B2SF, FS in C2. discriminate C2. }
  split; [|split]; intros FS; apply K; try assumption.
  - pose proof (mul1l i _ I F1) as A. pose proof (add0r _ _ (mul0l o _ O F2) (proj1 A)) as S1. pose proof (add0r _ _ (mul0l o _ O F3) (proj1 S1)) as S2. split; [exact (proj1 S2)|]. rewrite (proj2 S2), (proj2 S1). exact (proj2 A).
  - pose proof (mul1l i _ I F2) as A. pose proof (add0l _ _ (mul0l o _ O F1) (proj1 A)) as S1. pose proof (add0r _ _ (mul0l o _ O F3) (proj1 S1)) as S2. split; [exact (proj1 S2)|]. rewrite (proj2 S2), (proj2 S1). exact (proj2 A).
  - pose proof (mul1l i _ I F3) as A. pose proof (mul0l o _ O F2) as Z2. pose proof (same_is0 _ _ (add0l _ _ (mul0l o _ O F1) (is0_fin _ Z2)) Z2) as Z. pose proof (add0l _ _ Z (proj1 A)) as S2. split; [exact (proj1 S2)|]. rewrite (proj2 S2). exact (proj2 A).
Qed.

(** ** The stages *)
Definition turn_x (m n : R) (W : vec R) : vec R := V3 (vx W) (m * vy W + - n * vz W) (n * vy W + m * vz W).
Definition turn_y (m n : R) (W : vec R) : vec R := V3 (m * vx W + - n * vz W) (vy W) (n * vx W + m * vz W).
Definition turn_z (m n : R) (W : vec R) : vec R := V3 (m * vx W + - n * vy W) (n * vx W + m * vy W) (vz W).
Lemma turn_norm m n W : m * m + n * n = 1 -> snorm (turn_x m n W) = snorm W /\ snorm (turn_y m n W) = snorm W /\ snorm (turn_z m n W) = snorm W.
Proof.
  intros Q. destruct W as [x y z]. unfold snorm, turn_x, turn_y, turn_z. cbn [vx vy vz]. split; [|split]; f_equal.
  - transitivity (x ^ 2 + (y ^ 2 + z ^ 2) * (m * m + n * n)); [ring|rewrite Q; ring].
  - transitivity (y ^ 2 + (x ^ 2 + z ^ 2) * (m * m + n * n)); [ring|rewrite Q; ring].
  - transitivity (z ^ 2 + (x ^ 2 + y ^ 2) * (m * m + n * n)); [ring|rewrite Q; ring].
Qed.
Section Stage.
Context (t M : R) (HM : 1 / 1000000 <= M <= 1000000) (k j : R) (HK : 0 <= k <= 1000) (HJ : 0 <= j <= 50000) (o i p q r : double) (O : is0 o) (I : is1 i) (m n : R) (Q : m * m + n * n = 1) (NP : near 1 p m k) (NQ : near 1 q n k) (NR : near 1 r (- n) k) (w : @vec4 double) (W : vec R) (NW : near4 t M w W j) (SW : snorm W <= M).
Lemma upj x X : near M x X j -> near M x X (2 * (k + j) + 5). Proof. intros H. apply (near_up _ _ _ _ _ H); lra. Qed.
Lemma stage_x : near4 t M (@apply4 _ D (M4 (V4 i o o o) (V4 o p r o) (V4 o q p o) (V4 o o o i)) w) (turn_x m n W) (2 * (k + j) + 5) /\ snorm (turn_x m n W) <= M.
Proof.
  destruct (turn_norm m n W Q) as (T & _ & _). split; [|rewrite T; exact SW]. destruct (comp_norm (turn_x m n W)) as (C1 & C2 & C3). rewrite T in C1, C2, C3. unfold turn_x in C1, C2, C3 |- *. cbn [vx vy vz] in C1, C2, C3.
  unfold apply4. cbn [q0 q1 q2 q3]. unfold near4. cbn [wx wy wz ww vx vy vz]. split; [|split; [|split]].
  - apply upj. eapply dot_1; eassumption.
  - apply (dot_23 _ _ _ _ _ _ t); try assumption. lra.
  - apply (dot_23 _ _ _ _ _ _ t); try assumption. lra.
  - eapply dot_last; eassumption.
Qed.
Lemma stage_y : near4 t M (@apply4 _ D (M4 (V4 p o r o) (V4 o i o o) (V4 q o p o) (V4 o o o i)) w) (turn_y m n W) (2 * (k + j) + 5) /\ snorm (turn_y m n W) <= M.
Proof.
  destruct (turn_norm m n W Q) as (_ & T & _). split; [|rewrite T; exact SW]. destruct (comp_norm (turn_y m n W)) as (C1 & C2 & C3). rewrite T in C1, C2, C3. unfold turn_y in C1, C2, C3 |- *. cbn [vx vy vz] in C1, C2, C3.
  unfold apply4. cbn [q0 q1 q2 q3]. unfold near4. cbn [wx wy wz ww vx vy vz]. split; [|split; [|split]].
  - apply (dot_13 _ _ _ _ _ _ t); try assumption. lra.
  - apply upj. eapply dot_2; eassumption.
  - apply (dot_13 _ _ _ _ _ _ t); try assumption. lra.
  - eapply dot_last; eassumption.
Qed.
Lemma stage_z : near4 t M (@apply4 _ D (M4 (V4 p r o o) (V4 q p o o) (V4 o o i o) (V4 o o o i)) w) (turn_z m n W) (2 * (k + j) + 5) /\ snorm (turn_z m n W) <= M.
Proof.
  destruct (turn_norm m n W Q) as (_ & _ & T). split; [|rewrite T; exact SW]. destruct (comp_norm (turn_z m n W)) as (C1 & C2 & C3). rewrite T in C1, C2, C3. unfold turn_z in C1, C2, C3 |- *. cbn [vx vy vz] in C1, C2, C3.
  unfold apply4. cbn [q0 q1 q2 q3]. unfold near4. cbn [wx wy wz ww vx vy vz]. split; [|split; [|split]].
  - apply (dot_12 _ _ _ _ _ _ t); try assumption. lra.
  - apply (dot_12 _ _ _ _ _ _ t); try assumption. lra.
  - apply upj. eapply dot_3; eassumption.
  - eapply dot_last; eassumption.
Qed.
End Stage.
End Exact.

(** ** The exact rotation in stages *)
Lemma line_turns (P1 P2 P : vec R) TH a b c l v : ssub P2 P1 = V3 a b c -> l = snorm (V3 a b c) -> v = sqrt (b * b + c * c) -> 0 < v -> 0 < l ->
  srot_line P1 P2 TH P = sadd P1 (turn_x (c / v) (- (b / v)) (turn_y (v / l) (- (a / l)) (turn_z (cos TH) (sin TH) (turn_y (v / l) (a / l) (turn_x (c / v) (b / v) (ssub P P1)))))).
Proof.
  intros E EL EV HV HL. assert (G : vy P1 <> vy P2 \/ vz P1 <> vz P2).
  { destruct (Req_dec (vy P1) (vy P2)) as [Y|Y]; [|left; exact Y]. destruct (Req_dec (vz P1) (vz P2)) as [Z|Z]; [|right; exact Z]. exfalso. destruct P1, P2. svec. injection E as _ Eb Ec. assert (v = 0); [|lra]. rewrite EV. replace (b * b + c * c) with 0; [apply sqrt_0|]. rewrite <- Eb, <- Ec, Y, Z. ring. }
  rewrite <- (rotate_point_spec _ _ _ _ G). unfold rotate_point_around_arbitrary_axis. rewrite vsub_s, vnorm_s, E. rnum. cbv [vx vy vz]. rewrite <- EL, <- EV.
  rewrite ap_D, ap_x, ap_y, ap_z, ap_y, ap_x, ap_D. cbv [wx wy wz]. destruct P1 as [x1 y1 z1], P as [x y z]. unfold turn_x, turn_y, turn_z. svec. vec_eq; field; lra.
Qed.

(** ** Lengths *)
Lemma cauchy (a b : vec R) : Rabs (sdot a b) <= snorm a * snorm b.
Proof.
  pose proof (snorm_nonneg a) as Pa. pose proof (snorm_nonneg b) as Pb. rewrite <- (Rabs_pos_eq (snorm a * snorm b)) by nra. apply Rsqr_le_abs_0. unfold Rsqr.
  replace (snorm a * snorm b * (snorm a * snorm b)) with ((snorm a * snorm a) * (snorm b * snorm b)) by ring. rewrite !snorm_sq. destruct a as [a1 a2 a3], b as [b1 b2 b3]. svec.
  pose proof (Rle_0_sqr (a1 * b2 - a2 * b1)) as R1. pose proof (Rle_0_sqr (a1 * b3 - a3 * b1)) as R2. pose proof (Rle_0_sqr (a2 * b3 - a3 * b2)) as R3. unfold Rsqr in *. nra.
Qed.
Lemma norm_add (a b : vec R) : snorm (sadd a b) <= snorm a + snorm b.
Proof.
  pose proof (snorm_nonneg a) as Pa. pose proof (snorm_nonneg b) as Pb. rewrite <- (Rabs_pos_eq (snorm (sadd a b))) by apply snorm_nonneg. rewrite <- (Rabs_pos_eq (snorm a + snorm b)) by lra. apply Rsqr_le_abs_0. unfold Rsqr. rewrite snorm_sq.
  pose proof (cauchy a b) as Q. apply abs_2 in Q. pose proof (snorm_sq a) as Sa. pose proof (snorm_sq b) as Sb. destruct a as [a1 a2 a3], b as [b1 b2 b3]. unfold sdot in Q. unfold sadd in *. cbn [vx vy vz] in *. nra.
Qed.
Lemma norm_opp (a : vec R) : snorm (sopp a) = snorm a. Proof. destruct a. unfold snorm. f_equal. svec. ring. Qed.
Lemma norm_sub (a b : vec R) : snorm (ssub a b) <= snorm a + snorm b.
Proof. replace (ssub a b) with (sadd a (sopp b)) by (destruct a, b; svec; vec_eq; ring). rewrite <- (norm_opp b). apply norm_add. Qed.
Section Line.
Context (e : elementary) (AC : accurate e).
Local Notation D := (Double e).
Lemma near_diff N x y : fin x -> fin y -> Rabs (val x - val y) <= N -> sized N -> near N (@nsub _ D x y) (val x - val y) 1.
Proof.
  intros X Y B SN. destruct (dsub e x y X Y) as (F & d & Hd & Q). { apply (Rle_trans _ _ _ B), (Rle_trans _ _ _ (proj2 SN)), bpow_le. lia. }
  split; [exact F|]. split; [exact B|]. rewrite Q. replace ((val x - val y) * (1 + d) - (val x - val y)) with ((val x - val y) * d) by ring. rewrite Rabs_mult. pose proof (Rabs_pos (val x - val y)). pose proof (Rabs_pos d). pose proof u_pos. nra.
Qed.
(** the five rotations between the two translations *)
Definition chain5 (p1 p2 : vec double) (th : double) (w : @vec4 double) : @vec4 double :=
  let o := @nZ _ D 0 in let i := @nZ _ D 1 in
  let axis := @vsub _ D p2 p1 in
  let l := @vnorm _ D axis in
  let a := vx axis in let b := vy axis in let c := vz axis in
  let v := @nsqrt _ D (@nadd _ D (@nmul _ D b b) (@nmul _ D c c)) in
  let dv := @ndiv _ D in let op := @nopp _ D in
  let R_x := M4 (V4 i o o o) (V4 o (dv c v) (dv (op b) v) o) (V4 o (dv b v) (dv c v) o) (V4 o o o i) in
  let R_x_inv := M4 (V4 i o o o) (V4 o (dv c v) (dv b v) o) (V4 o (dv (op b) v) (dv c v) o) (V4 o o o i) in
  let R_y := M4 (V4 (dv v l) o (dv (op a) l) o) (V4 o i o o) (V4 (dv a l) o (dv v l) o) (V4 o o o i) in
  let R_y_inv := M4 (V4 (dv v l) o (dv a l) o) (V4 o i o o) (V4 (dv (op a) l) o (dv v l) o) (V4 o o o i) in
  let ct := @ncos _ D th in let st := @nsin _ D th in
  let R_z := M4 (V4 ct (op st) o o) (V4 st ct o o) (V4 o o i o) (V4 o o o i) in
  @apply4 _ D R_x_inv (@apply4 _ D R_y_inv (@apply4 _ D R_z (@apply4 _ D R_y (@apply4 _ D R_x w)))).
Definition back (p1 : vec double) : @mat4 double := let o := @nZ _ D 0 in let i := @nZ _ D 1 in M4 (V4 i o o (vx p1)) (V4 o i o (vy p1)) (V4 o o i (vz p1)) (V4 o o o i).
Definition forth (p1 : vec double) : @mat4 double := let o := @nZ _ D 0 in let i := @nZ _ D 1 in M4 (V4 i o o (@nopp _ D (vx p1))) (V4 o i o (@nopp _ D (vy p1))) (V4 o o i (@nopp _ D (vz p1))) (V4 o o o i).
Lemma by_chain p1 p2 th p : @rotate_point_around_arbitrary_axis _ D p1 p2 th p = let r := @apply4 _ D (back p1) (chain5 p1 p2 th (@apply4 _ D (forth p1) (V4 (vx p) (vy p) (vz p) (@nZ _ D 1)))) in V3 (wx r) (wy r) (wz r).
Proof. reflexivity. Qed.
(** the columns of the product of the matrices *)
Definition column (f : @vec4 double -> double) (m : @mat4 double) : @vec4 double := V4 (f (q0 m)) (f (q1 m)) (f (q2 m)) (f (q3 m)).
Lemma column_mul a b : column wx (@mul4 _ D a b) = @apply4 _ D a (column wx b) /\ column wy (@mul4 _ D a b) = @apply4 _ D a (column wy b) /\ column wz (@mul4 _ D a b) = @apply4 _ D a (column wz b) /\ column ww (@mul4 _ D a b) = @apply4 _ D a (column ww b).
Proof. repeat split. Qed.
Definition columned (p1 p2 : vec double) (th o i : double) (m : @mat4 double) : Prop :=
  column wx m = @apply4 _ D (back p1) (chain5 p1 p2 th (V4 i o o o)) /\ column wy m = @apply4 _ D (back p1) (chain5 p1 p2 th (V4 o i o o)) /\
  column wz m = @apply4 _ D (back p1) (chain5 p1 p2 th (V4 o o i o)) /\ column ww m = @apply4 _ D (back p1) (chain5 p1 p2 th (V4 (@nopp _ D (vx p1)) (@nopp _ D (vy p1)) (@nopp _ D (vz p1)) i)).
Lemma turning_columns p1 p2 th : columned p1 p2 th (@nZ _ D 0) (@nZ _ D 1) (@turning_matrix _ D p1 p2 th).
Proof.
  unfold columned, turning_matrix, chain5, back. cbv zeta. split; [|split; [|split]].
  - do 6 rewrite (proj1 (column_mul _ _)). reflexivity.
  - do 6 rewrite (proj1 (proj2 (column_mul _ _))). reflexivity.
  - do 6 rewrite (proj1 (proj2 (proj2 (column_mul _ _)))). reflexivity.
  - do 6 rewrite (proj2 (proj2 (proj2 (column_mul _ _)))). reflexivity.
Qed.
Definition turn5 (d : vec R) (TH : R) (W : vec R) : vec R :=
  let a := vx d in let b := vy d in let c := vz d in let l := snorm d in let v := sqrt (b * b + c * c) in
  turn_x (c / v) (- (b / v)) (turn_y (v / l) (- (a / l)) (turn_z (cos TH) (sin TH) (turn_y (v / l) (a / l) (turn_x (c / v) (b / v) W)))).
Section Chain.
Context (p1 p2 : vec double) (th : double) (TH : R) (FP1 : vfin p1) (FP2 : vfin p2) (NT : near 8 th TH 4) (SN : sized (snorm (ssub (vvals p2) (vvals p1))))
  (SV : sized (sqrt ((val (vy p2) - val (vy p1)) * (val (vy p2) - val (vy p1)) + (val (vz p2) - val (vz p1)) * (val (vz p2) - val (vz p1))))).
Lemma chain_near t M w W : 1 / 1000000 <= M <= 1000000 -> near4 t M w W 2 -> snorm W <= M ->
  near4 t M (chain5 p1 p2 th w) (turn5 (ssub (vvals p2) (vvals p1)) TH W) 3980 /\ snorm (turn5 (ssub (vvals p2) (vvals p1)) TH W) <= M.
Proof.
  intros HM W0 T0. destruct FP1 as (F11 & F12 & F13), FP2 as (F21 & F22 & F23).
  clear FP1 FP2. destruct p1 as [x1 y1 z1], p2 as [x2 y2 z2]. cbn [vx vy vz] in *. unfold vvals in *. cbn [vx vy vz] in *.
  set (A := val x2 - val x1) in *. set (B := val y2 - val y1) in *. set (C := val z2 - val z1) in *.
  assert (EA : ssub (V3 (val x2) (val y2) (val z2)) (V3 (val x1) (val y1) (val z1)) = V3 A B C) by (unfold A, B, C; svec; reflexivity). rewrite EA in *.
  set (N := snorm (V3 A B C)) in *. set (V := sqrt (B * B + C * C)) in *.
  pose proof (mild_pos _ (sized_mild _ SN)) as N0. pose proof (mild_pos _ (sized_mild _ SV)) as V0.
  destruct (comp_norm (V3 A B C)) as (CA & CB & CC). cbn [vx vy vz] in CA, CB, CC. fold N in CA, CB, CC.
  assert (VV : V * V = B * B + C * C) by (apply sqrt_sqrt; nra).
  assert (VB : Rabs B <= V) by (rewrite <- (Rabs_pos_eq V) by lra; apply Rsqr_le_abs_0; unfold Rsqr; nra).
  assert (VC : Rabs C <= V) by (rewrite <- (Rabs_pos_eq V) by lra; apply Rsqr_le_abs_0; unfold Rsqr; nra).
  assert (NN : N * N = A * A + V * V) by (unfold N; rewrite snorm_sq; cbn [vx vy vz]; lra).
  assert (VN : V <= N) by nra.
  pose proof (near_diff N x2 x1 F21 F11 CA SN) as Na. pose proof (near_diff N y2 y1 F22 F12 CB SN) as Nb. pose proof (near_diff N z2 z1 F23 F13 CC SN) as Nc.
  pose proof (near_diff V y2 y1 F22 F12 VB SV) as Vb. pose proof (near_diff V z2 z1 F23 F13 VC SV) as Vc. fold A B C in Na, Nb, Nc, Vb, Vc.
  assert (CN : close (@vnorm _ D (@vsub _ D (V3 x2 y2 z2) (V3 x1 y1 z1))) N 47).
  { unfold vnorm. replace 47 with (18 * 1 + 29) by ring. apply close_norm; [fw|lra| |exact SN]. split; [exact Na|split; [exact Nb|exact Nc]]. }
  unfold chain5, turn5. cbv zeta. cbn [vx vy vz vsub] in CN |- *.
  set (a := @nsub _ D x2 x1) in *. set (b := @nsub _ D y2 y1) in *. set (c := @nsub _ D z2 z1) in *. set (l := @vnorm _ D _) in *. set (v := @nsqrt _ D _).
  assert (CV : close v V 10).
  { assert (S2 : near (V * V + V * V) (@nadd _ D (@nmul _ D b b) (@nmul _ D c c)) (B * B + C * C) (Rmax (1 + 1 + 101 / 100) (1 + 1 + 101 / 100) + 101 / 100)).
    { apply near_add; [replace (V * V + V * V) with (2 * (V * V)) by ring; apply sized_sq; [exact SV|lra]|nra|nra|fw|fw| |]; apply near_mul; try assumption; try fw; apply sized_mild, SV. }
    rewrite Rmax_left in S2 by lra. rewrite <- VV in S2. apply (near_close 2) in S2; [|nra|lra|nra].
    pose proof (close_sqrt e _ V (2 * (1 + 1 + 101 / 100 + 101 / 100)) S2 (sized_mild _ SV) ltac:(fw)) as (K1 & d & K2 & K3). split; [exact K1|]. exists d. split; [|exact K3]. pose proof u_pos. nra. }
  clearbody v l. 
  assert (one : forall X, 0 < X -> X / X = 1) by (intros; field; lra).
  assert (M1 : mild (V / V)) by (rewrite one by lra; ml). assert (M2 : mild (N / N)) by (rewrite one by lra; ml).
  assert (Dv : forall x X, near V x X 1 -> near 1 (@ndiv _ D x v) (X / V) 60).
  { intros t' T H. pose proof (near_div e V t' T 1 v V 10 V (sized_mild _ SV) V0 M1 ltac:(fw) ltac:(fw) H CV ltac:(lra)) as K. rewrite one in K by lra. apply (near_up _ _ _ _ _ K); lra. }
  assert (Dl : forall x X, near N x X 10 -> near 1 (@ndiv _ D x l) (X / N) 60).
  { intros t' T H. pose proof (near_div e N t' T 10 l N 47 N (sized_mild _ SN) N0 M2 ltac:(fw) ltac:(fw) H CN ltac:(lra)) as K. rewrite one in K by lra. apply (near_up _ _ _ _ _ K); lra. }
  assert (Nv : near N v V 10). { pose proof (close_near _ _ _ CV V0) as K. apply (near_weaken _ _ _ _ _ _ K); [rewrite Rabs_pos_eq; lra|nra]. }
  assert (Na' : near N a A 10) by (apply (near_up _ _ _ _ _ Na); lra).
  pose proof (Dv _ _ Vc) as Ecv. pose proof (Dv _ _ Vb) as Ebv. pose proof (Dv _ _ (near_opp e _ _ _ _ Vb)) as Eobv. pose proof (Dl _ _ Nv) as Evl. pose proof (Dl _ _ Na') as Eal. pose proof (Dl _ _ (near_opp e _ _ _ _ Na')) as Eoal.
  assert (Eobv' : near 1 (@ndiv _ D (@nopp _ D b) v) (- (B / V)) 60) by (apply (near_at _ _ _ _ _ Eobv); field; lra). assert (Eoal' : near 1 (@ndiv _ D (@nopp _ D a) l) (- (A / N)) 60) by (apply (near_at _ _ _ _ _ Eoal); field; lra).
  assert (Ebv' : near 1 (@ndiv _ D b v) (- - (B / V)) 60) by (apply (near_at _ _ _ _ _ Ebv); ring). assert (Eal' : near 1 (@ndiv _ D a l) (- - (A / N)) 60) by (apply (near_at _ _ _ _ _ Eal); ring).
  pose proof (near_up _ _ _ _ 60 (near_cos e 8 th TH 4 AC ltac:(lra) ltac:(fw) NT) ltac:(lra) ltac:(lra)) as Ect. pose proof (near_up _ _ _ _ 60 (near_sin e 8 th TH 4 AC ltac:(lra) ltac:(fw) NT) ltac:(lra) ltac:(lra)) as Est. pose proof (near_opp e _ _ _ _ Est) as Eost.
  destruct (zero_one e) as [Z0 Z1]. change (is0 (@nZ _ D 0)) in Z0. change (is1 (@nZ _ D 1)) in Z1. set (o := @nZ _ D 0) in *. set (i := @nZ _ D 1) in *. clearbody o i.
  assert (Q1 : C / V * (C / V) + B / V * (B / V) = 1) by (replace (C / V * (C / V) + B / V * (B / V)) with ((B * B + C * C) / (V * V)) by (field; lra); rewrite VV; apply one; nra).
  assert (Q1' : C / V * (C / V) + - (B / V) * - (B / V) = 1) by (rewrite <- Q1; ring).
  assert (Q2 : V / N * (V / N) + A / N * (A / N) = 1) by (replace (V / N * (V / N) + A / N * (A / N)) with ((A * A + V * V) / (N * N)) by (field; lra); rewrite NN; apply one; nra).
  assert (Q2' : V / N * (V / N) + - (A / N) * - (A / N) = 1) by (rewrite <- Q2; ring).
  assert (Q3 : cos TH * cos TH + sin TH * sin TH = 1) by (pose proof (sin2_cos2 TH) as Q; unfold Rsqr in Q; lra).
  clear CN CV Dv Dl.
  destruct (stage_x e t M HM 60 2 ltac:(lra) ltac:(lra) o i _ _ _ Z0 Z1 _ _ Q1 Ecv Ebv Eobv' w _ W0 T0) as [W1 T1].
  destruct (stage_y e t M HM 60 (2 * (60 + 2) + 5) ltac:(lra) ltac:(lra) o i _ _ _ Z0 Z1 _ _ Q2 Evl Eal Eoal' _ _ W1 T1) as [W2 T2].
  destruct (stage_z e t M HM 60 (2 * (60 + (2 * (60 + 2) + 5)) + 5) ltac:(lra) ltac:(lra) o i _ _ _ Z0 Z1 _ _ Q3 Ect Est Eost _ _ W2 T2) as [W3 T3].
  destruct (stage_y e t M HM 60 (2 * (60 + (2 * (60 + (2 * (60 + 2) + 5)) + 5)) + 5) ltac:(lra) ltac:(lra) o i _ _ _ Z0 Z1 _ _ Q2' Evl Eoal' Eal' _ _ W3 T3) as [W4 T4].
  destruct (stage_x e t M HM 60 (2 * (60 + (2 * (60 + (2 * (60 + (2 * (60 + 2) + 5)) + 5)) + 5)) + 5) ltac:(lra) ltac:(lra) o i _ _ _ Z0 Z1 _ _ Q1' Ecv Eobv' Ebv' _ _ W4 T4) as [W5 T5].
  split; [|exact T5]. destruct W5 as (E1 & E2 & E3 & E4). split; [|split; [|split; [|exact E4]]].
  - apply (near_up _ _ _ _ _ E1); lra.
  - apply (near_up _ _ _ _ _ E2); lra.
  - apply (near_up _ _ _ _ _ E3); lra.
Qed.
Lemma line_turn5 P : srot_line (vvals p1) (vvals p2) TH P = sadd (vvals p1) (turn5 (ssub (vvals p2) (vvals p1)) TH (ssub P (vvals p1))).
Proof.
  pose proof (mild_pos _ (sized_mild _ SN)) as N0. pose proof (mild_pos _ (sized_mild _ SV)) as V0. unfold turn5. cbv zeta.
  destruct p1 as [x1 y1 z1], p2 as [x2 y2 z2]. unfold vvals in *. cbn [vx vy vz ssub] in *.
  apply (line_turns _ _ _ TH _ _ _ _ _); [svec; reflexivity|reflexivity|reflexivity|exact V0|exact N0].
Qed.
Context (L : R) (HL : 1 / 100000 <= L <= 100000) (S1 : snorm (vvals p1) <= L) (p : vec double) (FP : vfin p) (S : snorm (vvals p) <= L).
Let T := turn5 (ssub (vvals p2) (vvals p1)) TH.
(** the second translation *)
Lemma shift_1 w W k M : 0 <= M <= 2 * L -> 1 / 1000000 <= M -> 0 <= k <= 3980 -> near4 1 M w W k -> let r := @apply4 _ D (back p1) w in
  near (M + L) (wx r) (val (vx p1) + vx W) (k + 2) /\ near (M + L) (wy r) (val (vy p1) + vy W) (k + 2) /\ near (M + L) (wz r) (val (vz p1) + vz W) (k + 2) /\ fin (ww r).
Proof.
  intros HM HM' HK (E1 & E2 & E3 & E4). destruct FP1 as (F11 & F12 & F13). destruct (comp_norm (vvals p1)) as (d1 & d2 & d3). unfold vvals in d1, d2, d3. cbn [vx vy vz] in d1, d2, d3. fold (vvals p1) in d1, d2, d3.
  destruct (zero_one e) as [Z0 Z1]. change (is0 (@nZ _ D 0)) in Z0. change (is1 (@nZ _ D 1)) in Z1.
  assert (G : forall s t X, near M s X k -> fin t -> Rabs (val t) <= L -> near (M + L) (@nadd _ D s t) (val t + X) (k + 2)).
  { intros s t X Ns Ft Bt. pose proof (near_add e M L s t X (val t) k 0 ltac:(ml) ltac:(lra) ltac:(lra) ltac:(fw) ltac:(fw) Ns (near_exact L t Ft Bt ltac:(lra))) as K. rewrite Rmax_left in K by lra. apply (near_up _ _ _ _ (k + 2)) in K; [|lra|lra]. apply (near_at _ _ _ _ _ K). ring. }
  pose proof (G _ _ _ E1 F11 ltac:(lra)) as G1. pose proof (G _ _ _ E2 F12 ltac:(lra)) as G2. pose proof (G _ _ _ E3 F13 ltac:(lra)) as G3.
  pose proof (near_fin _ _ _ _ E1) as f1. pose proof (near_fin _ _ _ _ E2) as f2. pose proof (near_fin _ _ _ _ E3) as f3.
  unfold apply4, back. cbn [q0 q1 q2 q3 wx wy wz ww]. split; [|split; [|split]].
  - apply (same_near _ _ _ _ _ (proj1 (dot_shift e _ _ _ w Z0 Z1 F11 f1 f2 f3 E4) (near_fin _ _ _ _ G1))). exact G1.
  - apply (same_near _ _ _ _ _ (proj1 (proj2 (dot_shift e _ _ _ w Z0 Z1 F12 f1 f2 f3 E4)) (near_fin _ _ _ _ G2))). exact G2.
  - apply (same_near _ _ _ _ _ (proj2 (proj2 (dot_shift e _ _ _ w Z0 Z1 F13 f1 f2 f3 E4)) (near_fin _ _ _ _ G3))). exact G3.
  - apply (dot_last e _ _ w 1 M W k Z0 Z1). split; [exact E1|]. auto.
Qed.
Lemma shift_0 w W k M : near4 0 M w W k -> let r := @apply4 _ D (back p1) w in near M (wx r) (vx W) k /\ near M (wy r) (vy W) k /\ near M (wz r) (vz W) k.
Proof.
  intros (E1 & E2 & E3 & E4). destruct FP1 as (F11 & F12 & F13). change (is0 (ww w)) in E4.
  destruct (zero_one e) as [Z0 Z1]. change (is0 (@nZ _ D 0)) in Z0. change (is1 (@nZ _ D 1)) in Z1.
  pose proof (near_fin _ _ _ _ E1) as f1. pose proof (near_fin _ _ _ _ E2) as f2. pose proof (near_fin _ _ _ _ E3) as f3.
  assert (mul0r : forall x, fin x -> is0 (@nmul _ D x (ww w))) by (intros x Fx; destruct E4 as [Z V]; destruct (mul_same e x (ww w) (ww w) Fx Z) as [F Q]; [rewrite V; ring|]; split; [exact F|rewrite Q; exact V]).
  unfold apply4, back. cbn [q0 q1 q2 q3 wx wy wz ww]. unfold dot4. cbn [wx wy wz ww].
  set (o := @nZ _ D 0) in *. set (i := @nZ _ D 1) in *. clearbody o i.
  split; [|split].
  - pose proof (mul1l e i _ Z1 f1) as A. pose proof (add0r e _ _ (mul0l e o _ Z0 f2) (proj1 A)) as A1. pose proof (add0r e _ _ (mul0l e o _ Z0 f3) (proj1 A1)) as A2. pose proof (add0r e _ _ (mul0r _ F11) (proj1 A2)) as A3.
    apply (same_near _ _ _ _ _ A3), (same_near _ _ _ _ _ A2), (same_near _ _ _ _ _ A1), (same_near _ _ _ _ _ A), E1.
  - pose proof (mul1l e i _ Z1 f2) as A. pose proof (add0l e _ _ (mul0l e o _ Z0 f1) (proj1 A)) as A1. pose proof (add0r e _ _ (mul0l e o _ Z0 f3) (proj1 A1)) as A2. pose proof (add0r e _ _ (mul0r _ F12) (proj1 A2)) as A3.
    apply (same_near _ _ _ _ _ A3), (same_near _ _ _ _ _ A2), (same_near _ _ _ _ _ A1), (same_near _ _ _ _ _ A), E2.
  - pose proof (mul1l e i _ Z1 f3) as A. pose proof (mul0l e o _ Z0 f2) as B. pose proof (same_is0 _ _ (add0l e _ _ (mul0l e o _ Z0 f1) (is0_fin _ B)) B) as A1. pose proof (add0l e _ _ A1 (proj1 A)) as A2. pose proof (add0r e _ _ (mul0r _ F13) (proj1 A2)) as A3.
    apply (same_near _ _ _ _ _ A3), (same_near _ _ _ _ _ A2), (same_near _ _ _ _ _ A), E3.
Qed.
Lemma near_line : vnear (3 * L) (@rotate_point_around_arbitrary_axis _ D p1 p2 th p) (srot_line (vvals p1) (vvals p2) TH (vvals p)) 4000.
Proof.
  rewrite by_chain, line_turn5. cbv zeta. set (M := 2 * L). assert (HM : 1 / 1000000 <= M <= 1000000) by (unfold M; lra). set (w0 := @apply4 _ D (forth p1) _).
  assert (W0 : near4 1 M w0 (ssub (vvals p) (vvals p1)) 2 /\ snorm (ssub (vvals p) (vvals p1)) <= M).
  { unfold w0, forth. destruct FP1 as (F11 & F12 & F13), FP as (F1 & F2 & F3). destruct (zero_one e) as [Z0 Z1]. change (is0 (@nZ _ D 0)) in Z0. change (is1 (@nZ _ D 1)) in Z1. set (o := @nZ _ D 0) in *. set (i := @nZ _ D 1) in *. clearbody o i.
    pose proof (norm_sub (vvals p) (vvals p1)) as TS. split; [|unfold M; lra].
    destruct (comp_norm (vvals p)) as (c1 & c2 & c3). destruct (comp_norm (vvals p1)) as (d1 & d2 & d3). unfold vvals in c1, c2, c3, d1, d2, d3 |- *. cbn [vx vy vz] in c1, c2, c3, d1, d2, d3. fold (vvals p) in c1, c2, c3. fold (vvals p1) in d1, d2, d3.
    assert (G : forall s t, fin s -> fin t -> Rabs (val s) <= L -> Rabs (val t) <= L -> near M (@nadd _ D s (@nopp _ D t)) (val s - val t) 2).
    { intros s t Fs Ft Bs Bt. pose proof (near_add e L L s (@nopp _ D t) (val s) (- val t) 0 0 ltac:(ml) ltac:(lra) ltac:(lra) ltac:(fw) ltac:(fw) (near_exact L s Fs Bs ltac:(lra)) (near_opp e _ _ _ _ (near_exact L t Ft Bt ltac:(lra)))) as K. rewrite Rmax_left in K by lra. replace (L + L) with M in K by (unfold M; ring). apply (near_up _ _ _ _ 2) in K; [exact K|lra|lra]. }
    assert (FO : forall t : double, fin t -> fin (@nopp _ D t)) by (intros t Ft; cbn [nopp Double]; rewrite is_finite_Bopp; exact Ft).
    pose proof (G _ _ F1 F11 ltac:(lra) ltac:(lra)) as G1. pose proof (G _ _ F2 F12 ltac:(lra) ltac:(lra)) as G2. pose proof (G _ _ F3 F13 ltac:(lra) ltac:(lra)) as G3.
    unfold apply4. cbn [q0 q1 q2 q3]. unfold near4. cbn [wx wy wz ww]. unfold ssub. cbn [vx vy vz].
    assert (I0 : near4 1 L (V4 (vx p) (vy p) (vz p) i) (vvals p) 0). { split; [|split; [|split; [|exact Z1]]]; unfold vvals; cbn [wx wy wz vx vy vz]; apply near_exact; try assumption; lra. }
    split; [|split; [|split]].
    - apply (same_near M _ _ _ _ (proj1 (dot_shift e o i _ (V4 (vx p) (vy p) (vz p) i) Z0 Z1 (FO _ F11) F1 F2 F3 Z1) (near_fin _ _ _ _ G1))). exact G1.
    - apply (same_near M _ _ _ _ (proj1 (proj2 (dot_shift e o i _ (V4 (vx p) (vy p) (vz p) i) Z0 Z1 (FO _ F12) F1 F2 F3 Z1)) (near_fin _ _ _ _ G2))). exact G2.
    - apply (same_near M _ _ _ _ (proj2 (proj2 (dot_shift e o i _ (V4 (vx p) (vy p) (vz p) i) Z0 Z1 (FO _ F13) F1 F2 F3 Z1)) (near_fin _ _ _ _ G3))). exact G3.
    - eapply dot_last; eassumption. }
  clearbody w0. destruct W0 as [W0 T0]. destruct (chain_near 1 M w0 _ ltac:(unfold M; lra) W0 T0) as [W5 T5].
  destruct (shift_1 _ _ 3980 M ltac:(unfold M; lra) ltac:(unfold M; lra) ltac:(lra) W5) as (G1 & G2 & G3 & _). replace (M + L) with (3 * L) in * by (unfold M; ring).
  split; [|split]; unfold vvals, sadd; cbn [vx vy vz]; [apply (near_up _ _ _ _ _ G1)|apply (near_up _ _ _ _ _ G2)|apply (near_up _ _ _ _ _ G3)]; lra.
Qed.
(** the matrices multiplied first *)
Lemma turn5_combine W : turn5 (ssub (vvals p2) (vvals p1)) TH W = sadd (sadd (sscale (vx W) (T (V3 1 0 0))) (sscale (vy W) (T (V3 0 1 0)))) (sscale (vz W) (T (V3 0 0 1))).
Proof. unfold T, turn5. cbv zeta. destruct (ssub (vvals p2) (vvals p1)) as [a b c]. cbn [vx vy vz]. generalize (c / sqrt (b * b + c * c)) (b / sqrt (b * b + c * c)) (sqrt (b * b + c * c) / snorm (V3 a b c)) (a / snorm (V3 a b c)) (cos TH) (sin TH). intros r1 r2 r3 r4 r5 r6. destruct W as [x y z]. unfold turn_x, turn_y, turn_z. svec. vec_eq; ring. Qed.
Lemma turn5_len P : snorm P <= L -> snorm (T P) <= L.
Proof.
  intros SP. unfold T, turn5. cbv zeta. pose proof (mild_pos _ (sized_mild _ SN)) as N0. pose proof (mild_pos _ (sized_mild _ SV)) as V0.
    set (dd := ssub (vvals p2) (vvals p1)) in *. assert (EV : sqrt (vy dd * vy dd + vz dd * vz dd) = sqrt ((val (vy p2) - val (vy p1)) * (val (vy p2) - val (vy p1)) + (val (vz p2) - val (vz p1)) * (val (vz p2) - val (vz p1)))) by reflexivity. rewrite <- EV in V0. clear EV.
    pose proof (snorm_sq dd) as NN. assert (VV : sqrt (vy dd * vy dd + vz dd * vz dd) * sqrt (vy dd * vy dd + vz dd * vz dd) = vy dd * vy dd + vz dd * vz dd) by (apply sqrt_sqrt; nra).
    set (v := sqrt _) in *. set (l := snorm dd) in *. clearbody v l. set (a := vx dd) in *. set (b := vy dd) in *. set (c := vz dd) in *. clearbody a b c.
    assert (Q1 : c / v * (c / v) + b / v * (b / v) = 1) by (replace (c / v * (c / v) + b / v * (b / v)) with ((b * b + c * c) / (v * v)) by (field; lra); rewrite VV; field; nra).
    assert (Q2 : v / l * (v / l) + a / l * (a / l) = 1) by (replace (v / l * (v / l) + a / l * (a / l)) with ((a * a + v * v) / (l * l)) by (field; lra); rewrite VV, NN; field; nra).
    assert (Q3 : cos TH * cos TH + sin TH * sin TH = 1) by (pose proof (sin2_cos2 TH) as Q; unfold Rsqr in Q; lra).
    assert (Q1' : c / v * (c / v) + - (b / v) * - (b / v) = 1) by (rewrite <- Q1; ring). assert (Q2' : v / l * (v / l) + - (a / l) * - (a / l) = 1) by (rewrite <- Q2; ring).
    rewrite (proj1 (turn_norm _ _ _ Q1')), (proj1 (proj2 (turn_norm _ _ _ Q2'))), (proj2 (proj2 (turn_norm _ _ _ Q3))), (proj1 (proj2 (turn_norm _ _ _ Q2))), (proj1 (turn_norm _ _ _ Q1)). exact SP.
Qed.
Lemma line_split : srot_line (vvals p1) (vvals p2) TH (vvals p) = sadd (sadd (vvals p1) (T (sopp (vvals p1)))) (T (vvals p)).
Proof.
  rewrite line_turn5. fold T. pose proof (turn5_combine : forall W, T W = _) as TC. rewrite (TC (ssub (vvals p) (vvals p1))), (TC (sopp (vvals p1))), (TC (vvals p)). clear TC. generalize (T (V3 1 0 0)) (T (V3 0 1 0)) (T (V3 0 0 1)) (vvals p) (vvals p1). clear. intros T1 T2 T3 P P1. destruct P as [x y z], P1 as [x1 y1 z1], T1 as [t1 t2 t3], T2 as [t4 t5 t6], T3 as [t7 t8 t9]. svec. vec_eq; ring.
Qed.
Lemma columns_gen (o i : double) (m : @mat4 double) : is0 o -> is1 i -> columned p1 p2 th o i m ->
  (near 1 (wx (q0 m)) (vx (T (V3 1 0 0))) 3980 /\ near 1 (wx (q1 m)) (vy (T (V3 1 0 0))) 3980 /\ near 1 (wx (q2 m)) (vz (T (V3 1 0 0))) 3980) /\
  (near 1 (wy (q0 m)) (vx (T (V3 0 1 0))) 3980 /\ near 1 (wy (q1 m)) (vy (T (V3 0 1 0))) 3980 /\ near 1 (wy (q2 m)) (vz (T (V3 0 1 0))) 3980) /\
  (near 1 (wz (q0 m)) (vx (T (V3 0 0 1))) 3980 /\ near 1 (wz (q1 m)) (vy (T (V3 0 0 1))) 3980 /\ near 1 (wz (q2 m)) (vz (T (V3 0 0 1))) 3980) /\
  (near (L + L) (ww (q0 m)) (val (vx p1) + vx (T (sopp (vvals p1)))) (3980 + 2) /\ near (L + L) (ww (q1 m)) (val (vy p1) + vy (T (sopp (vvals p1)))) (3980 + 2) /\ near (L + L) (ww (q2 m)) (val (vz p1) + vz (T (sopp (vvals p1)))) (3980 + 2)) /\ snorm (T (sopp (vvals p1))) <= L.
Proof.
  intros Z0 Z1 (CX & CY & CZ & CW). assert (FP1' := FP1). destruct FP1' as (F11 & F12 & F13).
  destruct (comp_norm (vvals p1)) as (d1 & d2 & d3). unfold vvals in d1, d2, d3. cbn [vx vy vz] in d1, d2, d3. fold (vvals p1) in d1, d2, d3.
  assert (U0 : near 1 o 0 2) by (split; [apply Z0|]; rewrite (proj2 Z0), Rminus_0_r, Rabs_R0; pose proof u_pos; split; lra).
  assert (U1 : near 1 i 1 2) by (split; [apply Z1|]; rewrite (proj2 Z1), Rminus_eq_0, Rabs_R0, Rabs_R1; pose proof u_pos; split; lra).
  assert (N1 : forall x y z, x * x + y * y + z * z = 1 -> snorm (V3 x y z) <= 1) by (intros x y z Q; unfold snorm; cbn [vx vy vz]; replace (x ^ 2 + y ^ 2 + z ^ 2) with 1 by (rewrite <- Q; ring); rewrite sqrt_1; lra).
  destruct (chain_near 0 1 (V4 i o o o) (V3 1 0 0) ltac:(lra) ltac:(split; [|split; [|split]]; assumption) ltac:(apply N1; ring)) as [K1 B1].
  destruct (chain_near 0 1 (V4 o i o o) (V3 0 1 0) ltac:(lra) ltac:(split; [|split; [|split]]; assumption) ltac:(apply N1; ring)) as [K2 B2].
  destruct (chain_near 0 1 (V4 o o i o) (V3 0 0 1) ltac:(lra) ltac:(split; [|split; [|split]]; assumption) ltac:(apply N1; ring)) as [K3 B3].
  assert (NO : forall x : double, fin x -> Rabs (val x) <= L -> near L (@nopp _ D x) (- val x) 2) by (intros x Fx Bx; apply near_opp; apply (near_up _ _ _ 0); [apply near_exact; try assumption; lra|lra|lra]).
  destruct (chain_near 1 L (V4 (@nopp _ D (vx p1)) (@nopp _ D (vy p1)) (@nopp _ D (vz p1)) i) (sopp (vvals p1)) ltac:(lra)) as [K4 B4].
  { split; [|split; [|split; [|exact Z1]]]; unfold sopp, vvals; cbn [wx wy wz vx vy vz]; apply NO; try assumption; lra. }
  { rewrite norm_opp. exact S1. }
  fold T in K1, K2, K3, K4, B1, B2, B3, B4.
  apply shift_0 in K1. apply shift_0 in K2. apply shift_0 in K3. apply shift_1 in K4; [|lra|lra|lra]. cbv zeta in K1, K2, K3, K4. rewrite <- CX in K1. rewrite <- CY in K2. rewrite <- CZ in K3. rewrite <- CW in K4. unfold column in K1, K2, K3, K4. cbn [wx wy wz ww] in K1, K2, K3, K4.
  split; [exact K1|]. split; [exact K2|]. split; [exact K3|]. split; [|exact B4]. destruct K4 as (K4 & K5 & K6 & _). split; [exact K4|]. split; [exact K5|exact K6].
Qed.
Lemma columns_near : let m := @turning_matrix _ D p1 p2 th in
  (near 1 (wx (q0 m)) (vx (T (V3 1 0 0))) 3980 /\ near 1 (wx (q1 m)) (vy (T (V3 1 0 0))) 3980 /\ near 1 (wx (q2 m)) (vz (T (V3 1 0 0))) 3980) /\
  (near 1 (wy (q0 m)) (vx (T (V3 0 1 0))) 3980 /\ near 1 (wy (q1 m)) (vy (T (V3 0 1 0))) 3980 /\ near 1 (wy (q2 m)) (vz (T (V3 0 1 0))) 3980) /\
  (near 1 (wz (q0 m)) (vx (T (V3 0 0 1))) 3980 /\ near 1 (wz (q1 m)) (vy (T (V3 0 0 1))) 3980 /\ near 1 (wz (q2 m)) (vz (T (V3 0 0 1))) 3980) /\
  (near (L + L) (ww (q0 m)) (val (vx p1) + vx (T (sopp (vvals p1)))) (3980 + 2) /\ near (L + L) (ww (q1 m)) (val (vy p1) + vy (T (sopp (vvals p1)))) (3980 + 2) /\ near (L + L) (ww (q2 m)) (val (vz p1) + vz (T (sopp (vvals p1)))) (3980 + 2)) /\ snorm (T (sopp (vvals p1))) <= L.
Proof. destruct (zero_one e) as [Z0 Z1]. exact (columns_gen _ _ _ Z0 Z1 (turning_columns p1 p2 th)). Qed.
Lemma row_near (i : double) (Z1 : is1 i) r1 r2 r3 r4 X1 X2 X3 X4 : near 1 r1 X1 3980 -> near 1 r2 X2 3980 -> near 1 r3 X3 3980 -> near (L + L) r4 X4 (3980 + 2) -> Rabs (X4 + (val (vx p) * X1 + val (vy p) * X2 + val (vz p) * X3)) <= 3 * L ->
  near (3 * L) (@dot4 _ D (V4 r1 r2 r3 r4) (V4 (vx p) (vy p) (vz p) i)) (X4 + (val (vx p) * X1 + val (vy p) * X2 + val (vz p) * X3)) 6700.
Proof.
  destruct FP as (F1 & F2 & F3). destruct (comp_norm (vvals p)) as (c1 & c2 & c3). unfold vvals in c1, c2, c3. cbn [vx vy vz] in c1, c2, c3. fold (vvals p) in c1, c2, c3.
  intros H1 H2 H3 H4 BB. unfold dot4. cbn [wx wy wz ww].
    assert (PR : forall r X x, near 1 r X 3980 -> fin x -> Rabs (val x) <= L -> near L (@nmul _ D r x) (val x * X) 3982).
    { intros r X x Hr Fx Bx. pose proof (near_mul e 1 L r x X (val x) 3980 0 ltac:(ml) ltac:(ml) ltac:(fw) ltac:(fw) Hr (near_exact L x Fx Bx ltac:(lra))) as K. apply (near_scale (1 * L)); [|ring]. apply (near_up _ _ _ _ 3982) in K; [|lra|lra]. apply (near_at _ _ _ _ _ K). ring. }
    pose proof (PR _ _ _ H1 F1 ltac:(lra)) as M1. pose proof (PR _ _ _ H2 F2 ltac:(lra)) as M2. pose proof (PR _ _ _ H3 F3 ltac:(lra)) as M3.
    pose proof (near_add e L L _ _ _ _ 3982 3982 ltac:(ml) ltac:(lra) ltac:(lra) ltac:(fw) ltac:(fw) M1 M2) as Q1. rewrite Rmax_left in Q1 by lra. apply (near_up _ _ _ _ 3984) in Q1; [|lra|lra].
    pose proof (near_add e (L + L) L _ _ _ _ 3984 3982 ltac:(ml) ltac:(lra) ltac:(lra) ltac:(fw) ltac:(fw) Q1 M3) as Q2. rewrite Rmax_left in Q2 by lra. apply (near_up _ _ _ _ 3986) in Q2; [|lra|lra].
    assert (M4 : near (L + L) (@nmul _ D r4 i) X4 (3980 + 2)) by (apply (same_near _ _ r4); [apply mul1r; [exact Z1|apply (near_fin _ _ _ _ H4)]|exact H4]).
    pose proof (near_add e (L + L + L) (L + L) _ _ _ _ 3986 (3980 + 2) ltac:(ml) ltac:(lra) ltac:(lra) ltac:(fw) ltac:(fw) Q2 M4) as Q3. rewrite Rmax_left in Q3 by lra.
    apply (near_weaken (L + L + L + (L + L)) (3 * L) _ _ (3986 + 101 / 100)); [|exact BB|nra]. apply (near_at _ _ _ _ _ Q3). ring.
Qed.
Lemma near_matrix : vnear (3 * L) (@turn_by _ D (@turning_matrix _ D p1 p2 th) p) (srot_line (vvals p1) (vvals p2) TH (vvals p)) 6700.
Proof.
  rewrite line_split. destruct columns_near as ((A1 & A2 & A3) & (A4 & A5 & A6) & (A7 & A8 & A9) & (A10 & A11 & A12) & B4). set (m := @turning_matrix _ D p1 p2 th) in *. clearbody m.
  assert (ST3 : snorm (sadd (sadd (vvals p1) (T (sopp (vvals p1)))) (T (vvals p))) <= 3 * L).
  { pose proof (norm_add (sadd (vvals p1) (T (sopp (vvals p1)))) (T (vvals p))). pose proof (norm_add (vvals p1) (T (sopp (vvals p1)))). pose proof (turn5_len (vvals p) S). lra. }
  destruct (comp_norm (sadd (sadd (vvals p1) (T (sopp (vvals p1)))) (T (vvals p)))) as (t1 & t2 & t3).
  pose proof (Rle_trans _ _ _ t1 ST3) as t1'. pose proof (Rle_trans _ _ _ t2 ST3) as t2'. pose proof (Rle_trans _ _ _ t3 ST3) as t3'. clear t1 t2 t3 ST3.
  rewrite (turn5_combine (vvals p) : T (vvals p) = _) in t1', t2', t3' |- *. 
  revert A1 A2 A3 A4 A5 A6 A7 A8 A9 A10 A11 A12 t1' t2' t3'. generalize (T (V3 1 0 0)) (T (V3 0 1 0)) (T (V3 0 0 1)) (T (sopp (vvals p1))). intros T1 T2 T3 T4 A1 A2 A3 A4 A5 A6 A7 A8 A9 A10 A11 A12 t1 t2 t3.
  destruct (zero_one e) as [_ Z1]. change (is1 (@nZ _ D 1)) in Z1. set (i := @nZ _ D 1) in *.
  unfold turn_by, apply4. cbv zeta. fold i. clearbody i. destruct m as [[m1 m2 m3 m4] [m5 m6 m7 m8] [m9 m10 m11 m12] m13]. cbn [q0 q1 q2 q3 wx wy wz ww] in *. split; [|split].
  - exact (row_near i Z1 m1 m2 m3 m4 _ _ _ _ A1 A4 A7 A10 t1).
  - exact (row_near i Z1 m5 m6 m7 m8 _ _ _ _ A2 A5 A8 A11 t2).
  - exact (row_near i Z1 m9 m10 m11 m12 _ _ _ _ A3 A6 A9 A12 t3).
Qed.
(** in either order *)
Definition turned (r : vec double) : Prop := r = @rotate_point_around_arbitrary_axis _ D p1 p2 th p \/ r = @turn_by _ D (@turning_matrix _ D p1 p2 th) p.
Lemma near_turned r : turned r -> vnear (3 * L) r (srot_line (vvals p1) (vvals p2) TH (vvals p)) 6700.
Proof. intros [->| ->]; [|exact near_matrix]. destruct near_line as (A & B & C). split; [apply (near_up _ _ _ _ _ A); lra|split; [apply (near_up _ _ _ _ _ B); lra|apply (near_up _ _ _ _ _ C); lra]]. Qed.
End Chain.
End Line.
