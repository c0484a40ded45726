(** Properties C08 - C11: the airfoil. *)

From Coq Require Import ZArith Reals List Bool Lra Psatz Lia.
From Verif Require Import Num PyBase RNum Spec M_Airfoil L_List L_Rot L_Airfoil.
Import ListNotations.
Open Scope R_scope.

(** ** C08 *)
(** For every number system (a comparison with NaN is false, so NaN is rejected). *)
Theorem C08_parameters_any_number_system : forall (F : Type) (NF : Num F) (m p t : F) (n : nat),
  let inside (lo hi x : F) := (nleb x hi && nleb lo x)%bool in
  let ok := (inside (nZ 0) (ndec 3 1) m && inside (nZ 0) (ndec 9 1) p && inside (nZ 0) (ndec 4 1) t)%bool in
  (ok = false -> VlmAirfoil m p t n = Raise (SystemExit 1)) /\
  (ok = true -> forall e, VlmAirfoil m p t n = Raise e -> e = ValueError).
Proof.
  intros F NF m p t n inside ok. unfold VlmAirfoil, check_naca_params.
  fold (inside (nZ 0) (ndec 3 1) m). fold (inside (nZ 0) (ndec 9 1) p). fold (inside (nZ 0) (ndec 4 1) t).
  split; unfold ok; intros E.
  - destruct (inside _ (ndec 3 1) m); simpl in *; [|reflexivity].
    destruct (inside _ (ndec 9 1) p); simpl in *; [|reflexivity].
    destruct (inside _ (ndec 4 1) t); simpl in *; [discriminate | reflexivity].
  - apply andb_prop in E. destruct E as [E E3]. apply andb_prop in E. destruct E as [E1 E2].
    rewrite E1, E2, E3. simpl. intros e.
    destruct (mapM (get_y_camber m p) _) eqn:Y; simpl.
    + destruct (mapM (get_dy_dx_camber m p) _) eqn:D; simpl; [discriminate|].
      intros Q; injection Q as <-. apply mapM_raise in D. destruct D as [x [_ D]].
      unfold get_dy_dx_camber in D.
      repeat match type of D with context [if ?b then _ else _] => destruct b end; congruence.
    + intros Q; injection Q as <-. apply mapM_raise in Y. destruct Y as [x [_ Y]].
      unfold get_y_camber in Y.
      repeat match type of Y with context [if ?b then _ else _] => destruct b end; congruence.
Qed.
(** In exact arithmetic an accepted triple never fails, for any number of points. *)
Theorem C08_parameters_validated : forall (m p t : R) (n : nat),
  ((exists foil, VlmAirfoil m p t n = Ok foil) <-> accepted m p t) /\
  (~ accepted m p t -> VlmAirfoil m p t n = Raise (SystemExit 1)).
Proof.
  intros m p t n. split; [split|].
  - intros [foil H]. apply check_ok. unfold VlmAirfoil in H.
    destruct (check_naca_params m p t) as [[]|] eqn:E; [reflexivity | discriminate].
  - intros A. eexists. apply VlmAirfoil_ok, A.
  - intros A. unfold VlmAirfoil. rewrite check_bad by assumption. reflexivity.
Qed.
Example C08_case : accepted (1/10) (1/2) 0 /\ ~ accepted (1/10) (95/100) 0.
Proof. unfold accepted; lra. Qed.
Print Assumptions C08_parameters_any_number_system.
Print Assumptions C08_parameters_validated.

(** ** C09 *)
Theorem C09_camber_line : forall (m p t : R) (n : nat), accepted m p t -> 0 < p ->
  (exists foil, VlmAirfoil m p t n = Ok foil /\ length (af_yc foil) = n /\
     ((2 <= n)%nat -> forall k, (k < n)%nat ->
        nth_error (af_xc foil) k = Some (station n k) /\
        nth_error (af_yc foil) k = Some (scamber m p (station n k)))) /\
  scamber m p 0 = 0 /\ scamber m p 1 = 0 /\ scamber m p p = m /\
  (forall x, 0 <= x <= 1 -> 0 <= scamber m p x <= m) /\
  (forall x y, 0 <= x -> x <= y -> y <= p -> scamber m p x <= scamber m p y) /\
  (forall x y, p <= x -> x <= y -> y <= 1 -> scamber m p y <= scamber m p x).
Proof.
  intros m p t n A P. destruct A as (M & P' & T).
  split.
  { exists (foil_of m p t n). split; [apply VlmAirfoil_ok; repeat split; lra|].
    unfold foil_of; simpl. split; [rewrite map_length; apply linspace_length|].
    intros N k K. rewrite nth_error_map, linspace_nth by assumption. split; reflexivity. }
  repeat split; intros.
  - apply scamber_0; lra. - apply scamber_1; lra. - apply scamber_p; lra.
  - apply scamber_range; lra. - apply scamber_range; lra.
  - apply scamber_rises; lra. - apply scamber_falls; lra.
Qed.
(** p = 0 is accepted, but then the camber line starts at height m. *)
Theorem C09_camber_line_refuted : exists (m p t : R) (n : nat) (foil : airfoil R),
  accepted m p t /\ VlmAirfoil m p t n = Ok foil /\ nth_error (af_xc foil) 0 = Some 0 /\
  exists y, nth_error (af_yc foil) 0 = Some y /\ y <> 0.
Proof.
  exists (1/10), 0, 0, 2%nat. assert (A : accepted (1/10) 0 0) by (unfold accepted; lra).
  eexists. split; [exact A|]. split; [apply VlmAirfoil_ok, A|].
  unfold foil_of; simpl. split; [f_equal; field|].
  eexists. split; [reflexivity|]. unfold scamber.
  replace (0 * (1 / 1)) with 0 by field. destruct (Rlt_dec 0 0); [lra|].
  intros E. field_simplify in E. lra.
Qed.
Example C09_case : accepted (1/10) (1/2) 0 /\ 0 < 1/2 /\ scamber (1/10) (1/2) (1/4) = 75/1000.
Proof. unfold accepted, scamber. split; [lra|]. split; [lra|]. destruct Rlt_dec; lra. Qed.
Print Assumptions C09_camber_line.
Print Assumptions C09_camber_line_refuted.

(** ** C10 *)
Theorem C10_slope_is_derivative : forall (m p t : R) (n k : nat), accepted m p t -> 0 < p ->
  (2 <= n)%nat -> (k < n)%nat ->
  exists foil x y h d xu xl yu yl,
    VlmAirfoil m p t n = Ok foil /\
    nth_error (af_xc foil) k = Some x /\ nth_error (af_yc foil) k = Some y /\ nth_error (af_yt foil) k = Some h /\
    nth_error (af_xu foil) k = Some xu /\ nth_error (af_xl foil) k = Some xl /\
    nth_error (af_yu foil) k = Some yu /\ nth_error (af_yl foil) k = Some yl /\
    y = scamber m p x /\
    derivable_pt_lim (scamber m p) x d /\
    xu = x - h * sin (atan d) /\ xl = x + h * sin (atan d) /\
    yu = y + h * cos (atan d) /\ yl = y - h * cos (atan d).
Proof.
  intros m p t n k A P N K.
  exists (foil_of m p t n), (station n k). do 2 eexists. exists (sslope m p (station n k)). do 4 eexists.
  split; [apply VlmAirfoil_ok, A|]. unfold foil_of; simpl.
  rewrite !nth_error_map, linspace_nth by assumption. simpl.
  do 7 (split; [reflexivity|]). split; [reflexivity|].
  destruct A as (M & P' & T).
  split; [apply scamber_derivative; lra|]. repeat split; reflexivity.
Qed.
(* the junction x = p is a station here *)
Example C10_case : accepted (1/10) (1/2) (2/10) /\ 0 < 1/2 /\ station 3 1 = 1/2.
Proof. unfold accepted, station; simpl. lra. Qed.
Print Assumptions C10_slope_is_derivative.

(** ** C11 *)
Theorem C11_thickness : forall (m p t : R) (n k : nat), accepted m p t ->
  (2 <= n)%nat -> (k < n)%nat ->
  exists foil x y h xu xl yu yl,
    VlmAirfoil m p t n = Ok foil /\
    nth_error (af_xc foil) k = Some x /\ nth_error (af_yc foil) k = Some y /\ nth_error (af_yt foil) k = Some h /\
    nth_error (af_xu foil) k = Some xu /\ nth_error (af_xl foil) k = Some xl /\
    nth_error (af_yu foil) k = Some yu /\ nth_error (af_yl foil) k = Some yl /\
    0 <= h /\ (k = 0%nat \/ k = (n - 1)%nat -> h = 0) /\
    xu + xl = 2 * x /\ yu + yl = 2 * y /\
    sqrt ((xu - x) ^ 2 + (yu - y) ^ 2) = h /\ sqrt ((xl - x) ^ 2 + (yl - y) ^ 2) = h /\
    (t = 0 -> xu = x /\ xl = x /\ yu = y /\ yl = y).
Proof.
  intros m p t n k A N K.
  exists (foil_of m p t n), (station n k). do 6 eexists.
  split; [apply VlmAirfoil_ok, A|]. unfold foil_of; simpl.
  rewrite !nth_error_map, linspace_nth by assumption. simpl.
  do 7 (split; [reflexivity|]).
  destruct A as (M & P & T). pose proof (station_bounds n k N K) as S.
  set (x := station n k) in *. set (h := sthick t x). set (a := atan (sslope m p x)).
  assert (H0 : 0 <= h) by (apply sthick_nonneg; lra).
  pose proof (sincos1 a) as SC.
  assert (INR (n - 1) <> 0) by (apply not_0_INR; lia).
  assert (Q : forall z w, z * z + w * w = h * h -> sqrt (z ^ 2 + w ^ 2) = h).
  { intros z w E. replace (z ^ 2 + w ^ 2) with (h * h) by (rewrite <- E; ring). apply sqrt_square, H0. }
  split; [exact H0|]. split; [|repeat split].
  - intros [->| ->]; unfold h, x, station.
    + replace (INR 0 / INR (n - 1)) with 0 by (simpl; field; assumption). apply sthick_0.
    + replace (INR (n - 1) / INR (n - 1)) with 1 by (field; assumption). apply sthick_1.
  - ring. - ring.
  - apply Q. transitivity (h * h * (sin a * sin a + cos a * cos a)); [ring | rewrite SC; ring].
  - apply Q. transitivity (h * h * (sin a * sin a + cos a * cos a)); [ring | rewrite SC; ring].
  - subst t. unfold h, sthick. ring.
  - subst t. unfold h, sthick. ring.
  - subst t. unfold h, sthick. ring.
  - subst t. unfold h, sthick. ring.
Qed.
Example C11_case : accepted (1/10) (1/2) (2/10) /\ (2 <= 3)%nat /\ (1 < 3)%nat.
Proof. unfold accepted. split; [lra | lia]. Qed.
Print Assumptions C11_thickness.
