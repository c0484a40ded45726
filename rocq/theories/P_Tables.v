(** C50: the wind columns of the result tables; C75: the picture without colours. *)

From Coq Require Import String ZArith Reals List Bool Lra Psatz Lia.
From Verif Require Import Num PyBase RNum Spec M_Csys M_Panels M_Airfoil M_Mesher M_Coefs M_Forces M_Winds M_Vlm M_Interp M_Sail M_Results M_Hull M_Runner M_Plots
  L_List L_Rot L_Vel L_Csys L_Airfoil L_Mesh L_Sail L_Sail2 L_Lattice L_Vlm L_Vlm2 L_Results L_Demo L_DemoForce P_Rot P_Airfoil P_Sail P_Lattice P_Vlm P_Winds P_Results L_Runner P_Runner P_Run P_Plots L_Scene P_Scene.
Import ListNotations.
Open Scope R_scope.

(** ** Specification *)
(** the column [len] holds the lengths of the vectors of the columns [name].x, [name].y and [name].z *)
Definition length_column (t : list (column R)) (name len : string) : Prop :=
  forall k a, vec_at t name k = Some a -> num_at t len k = Some (snorm a).
(** ** Proofs *)
Definition half {A} (l : list A) : list A := firstn (length l - length l / 2) l.
Lemma half_map {A B} (f : A -> B) l : half (map f l) = map f (half l).
Proof. unfold half. rewrite map_length, firstn_map. reflexivity. Qed.
Lemma three_nth (l : list (vec R)) k a : match nth_error (map vx l) k, nth_error (map vy l) k, nth_error (map vz l) k with Some x, Some y, Some z => Some (V3 x y z) | _, _, _ => None end = Some a -> nth_error l k = Some a.
Proof. rewrite !nth_error_map. destruct (nth_error l k) as [[x y z]|]; cbn [option_map vx vy vz]; [|discriminate]. intros E. exact E. Qed.
Lemma components_cols v c fr s t : components_table v c fr s = Ok t -> exists sl0 g up names, py_nth (ss_sails s) 0 = Ok sl0 /\
  t = map col_above (flow_df_full fr) ++ map col_above (inlet_df_full (vl_inlet v) (sl_csys sl0)) ++ [NumCol "cp_points_upright.z" up; NumCol "girths" g; StrCol "sail_name" names].
Proof.
  unfold components_table. destruct (get_cp_z_as_girths_all _ _ _) as [[ga ua]|]; [|discriminate]. cbn [bind]. destruct (get_cp_z_as_girths_all_above _ _) as [[gb nm]|]; [|discriminate]. cbn [bind].
  destruct (array_split _ _) as [ups|]; [|discriminate]. cbn [bind]. destruct (py_nth _ _) as [sl0|]; [|discriminate]. cbn [bind]. intros [= <-]. repeat eexists.
Qed.
Theorem C50_lengths : forall v c fr s t, components_table v c fr s = Ok t ->
  length_column t "V_induced_COG" "V_induced_length" /\ length_column t "V_app_fs_COG" "V_app_fs_length" /\ length_column t "TWS_COG" "TWS_length" /\ length_column t "V_app_infs_COG" "V_app_infs_length".
Proof.
  intros v c fr s t E. destruct (components_cols _ _ _ _ _ E) as (sl0 & g & up & names & _ & ->). clear E.
  assert (K : forall (l : list (vec R)) k a, match nth_error (half (map vx l)) k, nth_error (half (map vy l)) k, nth_error (half (map vz l)) k with Some x, Some y, Some z => Some (V3 x y z) | _, _, _ => None end = Some a -> nth_error (half (map vnorm l)) k = Some (snorm a)).
  { intros l k a. rewrite !half_map. intros H. apply three_nth in H. rewrite nth_error_map, H. cbn [option_map]. f_equal. tospec. reflexivity. }
  split; [|split; [|split]]; intros k a H.
  - exact (K (fr_V_ind fr) k a H).
  - exact (K (fr_V_fs fr) k a H).
  - exact (K (in_tws (vl_inlet v)) k a H).
  - exact (K (in_V (vl_inlet v)) k a H).
Qed.

(** the other picture shows the panels (or rings) it is given, one for each pressure, without colours and without a scale, in the same water and the same axes as the coloured one *)
Theorem C75_rings : forall (v : vlm R) things pressure pic, display_panels_or_rings things pressure (map pv_lead (vl_vars v)) (map pv_trail (vl_vars v)) = Ok pic ->
  (forall k p, nth_error (pi_panels pic) k = Some p <-> exists thing d, nth_error things k = Some thing /\ nth_error pressure k = Some d /\ p = (thing, None)) /\ pi_scale pic = None /\
  forall by_ pic2, display_panels_xyz v by_ = Ok pic2 -> pi_water pic2 = pi_water pic /\ pi_sea pic2 = pi_sea pic /\ pi_axes pic2 = pi_axes pic.
Proof.
  intros v things pressure pic E. unfold display_panels_or_rings in E. destruct (water_size _ _) as [w|] eqn:EW; [|discriminate]. cbn [bind] in E. destruct (set_ax_eq _) as [a|] eqn:EA; [|discriminate]. cbn [bind] in E. injection E as <-. cbn [pi_panels pi_scale pi_water pi_sea pi_axes].
  split; [|split; [reflexivity|]].
  - intros k p. split.
    + intros H. apply nth_error_zipWith_inv in H. destruct H as (x & y & X & Y & ->). exists x, y. split; [exact X|]. split; [exact Y|reflexivity].
    + intros (x & y & X & Y & ->). exact (nth_error_zipWith (fun p _ => (p, None)) _ _ k x y X Y).
  - intros by_ pic2 E. unfold display_panels_xyz in E. cbv zeta in E. destruct (py_min _) as [lo|]; [|discriminate]. cbn [bind] in E. destruct (py_max _) as [hi|]; [|discriminate]. cbn [bind] in E. rewrite EW in E. cbn [bind] in E. rewrite EA in E. cbn [bind] in E. injection E as <-. split; [reflexivity|]. split; reflexivity.
Qed.

Example C50_lengths_case : exists v c fr s t a, components_table v c fr s = Ok t /\ vec_at t "V_app_infs_COG" 0 = Some a.
Proof.
  destruct C50_case as (nc & ns & sails & ss & rho & w & v & c & fr & NC & NS & B & S & EV & EF & NE & _). destruct (C50_rows nc ns sails ss rho w v c fr NC NS B S EV EF) as (t & up & ET & _ & _ & R).
  destruct sails as [|sl sails]; [congruence|]. destruct (R 0%nat sl eq_refl) as (top & _ & _ & Q). destruct (Q 0%nat ltac:(nia)) as (_ & _ & _ & _ & f & p & i & u & x & gam & pr & _ & _ & _ & _ & _ & VI & _). exists v, c, fr, ss, t, i. split; [exact ET|exact VI].
Qed.
Example C75_rings_case : forall sp, exists rr pic, run sp demo_conditions demo_solver (demo_rig (Some 4)) (Some demo_main) None szero szero = Ok rr /\
  display_panels_or_rings (vl_panels (rr_vlm rr)) (vl_pressure (rr_vlm rr)) (map pv_lead (vl_vars (rr_vlm rr))) (map pv_trail (vl_vars (rr_vlm rr))) = Ok pic.
Proof.
  intros sp. destruct (demo_figure sp) as (rr & fig & E & _ & D & _). exists rr. unfold cli_display, display_panels_xyz_and_winds in D. cbv zeta in D. apply bind_Ok in D. destruct D as (pic & D & _). 
  unfold display_panels_xyz in D. cbv zeta in D. apply bind_Ok in D. destruct D as (lo & _ & D). apply bind_Ok in D. destruct D as (hi & _ & D). apply bind_Ok in D. destruct D as (w & EW & D). apply bind_Ok in D. destruct D as (a & EA & _).
  eexists. split; [exact E|]. unfold display_panels_or_rings. rewrite EW. cbn [bind]. rewrite EA. reflexivity.
Qed.

Print Assumptions C50_lengths.
Print Assumptions C75_rings.
