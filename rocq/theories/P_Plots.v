(** Hull drawing and plots: C63, C64, C65, C66. *)

From Coq Require Import String ZArith Reals List Bool Lra Psatz Lia Arith.
From Verif Require Import Num PyBase RNum Spec M_Csys M_Panels M_Airfoil M_Mesher M_Coefs M_Forces M_Winds M_Vlm M_Interp M_Sail M_Results M_Hull M_Runner M_Plots
  L_List L_Rot L_Vel L_Csys L_Airfoil L_Mesh L_Sail L_Sail2 L_Lattice L_Vlm L_Vlm2 L_Results L_Demo P_Rot P_Airfoil P_Sail P_Vlm P_Winds P_Results L_Runner P_Runner P_Run.
Import ListNotations.
Open Scope R_scope.

(** ** C63 *)
(** the lines in the upright yacht: station [k] of 0 .. 50 from bow to stern *)
Definition hx (k : nat) : R := INR k / 50.
Definition upright (b sheer side : R) (k : nat) : vec R :=
  let foil_x := hx k in let foil_y := hx (50 - k) in
  let th x := atan (sslope (1/100) 0 x) in
  V3 (- 11/10 * b + 3 * b * (foil_x - side * sthick (28/100) foil_x * sin (th foil_x)))
     (3 * b * (scamber (1/100) 0 foil_y + side * sthick (28/100) foil_y * cos (th foil_y))) sheer.
Definition upright_centre (b sheer : R) (k : nat) : vec R := V3 (- 11/10 * b + 3 * b * hx k) 0 sheer.

Lemma hull_foil : @VlmAirfoil R RNum (ndec 1 2) (nZ 0) (ndec 28 2) 51 = Ok (foil_of (1/100) 0 (28/100) 51).
Proof.
  rewrite VlmAirfoil_ok.
  - reflexivity.
  - unfold accepted. change (ndec 1 2) with (1 / 100). change (ndec 28 2) with (28 / 100). change (nZ 0) with 0. lra.
Qed.
Lemma hull_station k : (k < 51)%nat -> nth_error (@linspace01 R RNum 51) k = Some (hx k).
Proof. intros K. rewrite linspace_nth by lia. f_equal. unfold station, hx. replace (INR (51 - 1)) with 50 by (simpl; lra). reflexivity. Qed.
Lemma hull_rev {A} (f : R -> A) k : (k < 51)%nat -> nth_error (rev (map f (@linspace01 R RNum 51))) k = Some (f (hx (50 - k))).
Proof.
  intros K. rewrite nth_error_rev by (rewrite map_length, linspace_length; assumption). rewrite map_length, linspace_length.
  replace (51 - 1 - k)%nat with (50 - k)%nat by lia. rewrite nth_error_map, hull_station by lia. reflexivity.
Qed.
Lemma deck_line_length (b s : R) x y : length x = length y -> length (deck_line b s x y) = length x.
Proof. intros L. unfold deck_line. rewrite zipWith_length. lia. Qed.

(** every line has 51 points; the deck lines are the turned upright lines and the underwater lines are their mirror images *)
Theorem C63_lines : forall b sheer c clr, 0 < sheer -> exists h, HullGeometry sheer (Some b) c clr = Ok h /\
  length (hu_centre h) = 51%nat /\ length (hu_port h) = 51%nat /\ length (hu_starboard h) = 51%nat /\ length (hu_port_under h) = 51%nat /\ length (hu_starboard_under h) = 51%nat /\
  (forall k, (k < 51)%nat ->
     let turn := sheel (heel_deg c) (leeway_deg c) in
     nth_error (hu_centre h) k = Some (turn (upright_centre b sheer k)) /\
     nth_error (hu_port h) k = Some (turn (upright b sheer 1 k)) /\
     nth_error (hu_starboard h) k = Some (turn (upright b sheer (-1) k)) /\
     nth_error (hu_port_under h) k = Some (smirror (turn (upright b sheer 1 k))) /\
     nth_error (hu_starboard_under h) k = Some (smirror (turn (upright b sheer (-1) k)))) /\
  hu_clr h = sheel (heel_deg c) (leeway_deg c) clr.
Proof.
  intros b sheer c clr S0. unfold HullGeometry. rewrite hull_foil. unfold bind. eexists. split; [reflexivity|].
  cbn [hu_centre hu_port hu_starboard hu_port_under hu_starboard_under hu_clr foil_of af_xc af_xu af_xl af_yu af_yl].
  rewrite !map_length, !deck_line_length by (rewrite ?rev_length, ?map_length; reflexivity). rewrite !map_length, linspace_length.
  repeat (split; [reflexivity|]). split.
  - intros k K. cbv zeta. rewrite !nth_error_map.
    assert (P : forall x y s a d, nth_error x k = Some a -> nth_error y k = Some d -> nth_error (deck_line b s x y) k = Some (V3 (- 11/10 * b + 3 * b * a) (3 * b * d) s)).
    { intros x y s a d X Y. unfold deck_line. erewrite nth_error_zipWith by eassumption. f_equal. rewrite ndec_R. rnum. simpl Z.pow. vec_eq; lra. }
    pose proof (hull_station k K) as ST.
    assert (Z : forall f : R -> R, nth_error (map f (@linspace01 R RNum 51)) k = Some (f (hx k))) by (intros f; rewrite nth_error_map, ST; reflexivity).
    erewrite !P by first [exact ST | apply Z | apply hull_rev; assumption]. cbn [option_map].
    split; [|split; [|split; [|split]]]; f_equal.
    + rewrite sheel_spec by (simpl; assumption). f_equal. unfold upright_centre. rnum. vec_eq; ring.
    + rewrite sheel_spec by (simpl; assumption). f_equal. unfold upright. cbv zeta. vec_eq; ring.
    + rewrite sheel_spec by (simpl; assumption). f_equal. unfold upright. cbv zeta. vec_eq; ring.
    + rewrite <- sheel_spec by (simpl; assumption). rewrite <- C05_mirror_image by (simpl; lra). f_equal. unfold upright, smirror. cbv zeta. cbn [vx vy vz]. rnum. vec_eq; ring.
    + rewrite <- sheel_spec by (simpl; assumption). rewrite <- C05_mirror_image by (simpl; lra). f_equal. unfold upright, smirror. cbv zeta. cbn [vx vy vz]. rnum. vec_eq; ring.
  - unfold rotate_point_without_mirror. rewrite leeway_apply, heel_apply. unfold sheel, heel_a, leeway_a.
    set (a := rad (heel_deg c)). set (d := rad (leeway_deg c)). clearbody a d. destruct clr; unfold srot; rewrite cos_neg, sin_neg; svec; vec_eq; ring.
Qed.
(** bow and stern: the lines meet; the bow is on the centre line, the stern is off it by 3 percent of the base *)
Theorem C63_ends : forall b sheer,
  upright b sheer 1 0 = upright_centre b sheer 0 /\ upright b sheer (-1) 0 = upright_centre b sheer 0 /\
  upright b sheer 1 50 = upright b sheer (-1) 50 /\ upright b sheer 1 50 = sadd (upright_centre b sheer 50) (V3 0 (3/100 * b) 0).
Proof.
  intros b sheer. unfold upright, upright_centre, hx. cbv zeta. simpl Nat.sub.
  replace (INR 0 / 50) with 0 by (simpl; lra). replace (INR 50 / 50) with 1 by (simpl; lra). rewrite sthick_0, sthick_1. unfold scamber, sadd. cbn [vx vy vz].
  destruct (Rlt_dec 1 0); [lra|]. destruct (Rlt_dec 0 0); [lra|]. repeat split; vec_eq; field.
Qed.
(** the two sides: how far they are from being mirror images about the centre plane *)
Theorem C63_sides : forall b sheer k, (k <= 50)%nat ->
  vy (upright b sheer 1 k) + vy (upright b sheer (-1) k) = 6/100 * b * (1 - hx (50 - k) ^ 2).
Proof.
  intros b sheer k K. unfold upright. cbv zeta. cbn [vy].
  assert (X : 0 <= hx (50 - k)). { unfold hx. apply Rmult_le_pos; [apply pos_INR | lra]. }
  unfold scamber. destruct (Rlt_dec (hx (50 - k)) 0); [lra|]. field.
Qed.
Theorem C63_refuted : exists b sheer c clr h p s, 0 < b /\ 0 < sheer /\ heel_deg c = 0 /\ leeway_deg c = 0 /\ HullGeometry sheer (Some b) c clr = Ok h /\
  nth_error (hu_port h) 50 = Some p /\ nth_error (hu_starboard h) 50 = Some s /\ p = s /\ vy p <> 0.
Proof.
  destruct (C63_lines 1 1 (Csys 0 0 szero) szero ltac:(lra)) as (h & E & _ & _ & _ & _ & _ & P & _).
  destruct (P 50%nat ltac:(lia)) as (_ & P1 & P2 & _). cbv zeta in P1, P2. destruct (C63_ends 1 1) as (_ & _ & EQ & OFF).
  exists 1, 1, (Csys 0 0 szero), szero, h. do 2 eexists. split; [lra|]. split; [lra|]. split; [reflexivity|]. split; [reflexivity|]. split; [exact E|]. split; [exact P1|]. split; [exact P2|].
  split; [rewrite EQ; reflexivity|]. rewrite OFF. cbn [heel_deg leeway_deg]. unfold sheel, srot. rewrite rad_0, Ropp_0, cos_0, sin_0. unfold upright_centre. svec. lra.
Qed.
Example C63_case : 0 < 12/10 /\ vy (upright 4 (12/10) 1 50) = 12/100.
Proof. split; [lra|]. destruct (C63_ends 4 (12/10)) as (_ & _ & _ & ->). unfold upright_centre. svec. lra. Qed.

(** ** C64 *)
Section Zero.
Context {F : Type} {NF : Num F}.
Lemma foil_lengths (m p t : F) n foil : VlmAirfoil m p t n = Ok foil -> length (af_xc foil) = n /\ length (af_yc foil) = n.
Proof.
  unfold VlmAirfoil. intros E. unbind. injection E as <-. cbn [af_xc af_yc]. split; [apply linspace_len|].
  match goal with H : mapM (get_y_camber m p) _ = Ok _ |- _ => rewrite (mapM_length _ _ _ H) end. apply linspace_len.
Qed.
Lemma zero_mesh_rect (a b : vec F) nc ns ch di ca mesh : zero_mesh a b nc ns ch di ca = Ok mesh -> rect mesh (S ns) (S nc).
Proof.
  unfold zero_mesh, make_airfoil_mesh. intros E. apply bind_Ok in E. destruct E as (te & T & E).
  assert (LT : length te = S ns).
  { unfold add_chords in T. destruct (Nat.eqb_spec (length (map (fun c => V3 c (nZ 0) (nZ 0)) ch)) (length (discrete_segment a b ns))) as [L|L].
    - injection T as <-. rewrite zipWith_length, L, segment_length. lia.
    - destruct (map _ ch) as [|x [|]]; try discriminate. injection T as <-. rewrite map_length. apply segment_length. }
  split.
  - rewrite (mapM_length _ _ _ E), !combine_length, seq_length, segment_length, LT. lia.
  - intros row I. apply In_nth_error in I. destruct I as [k I]. pose proof (nth_error_Some_lt _ _ _ I) as KL. rewrite (mapM_length _ _ _ E) in KL.
    destruct (nth_error_ex _ _ KL) as [x X]. destruct (mapM_nth _ _ _ _ _ E X) as (y & Y2 & Y1). rewrite I in Y2. injection Y2 as <-.
    unfold airfoil_section in Y1. unbind. injection Y1 as <-. match goal with H : VlmAirfoil _ _ _ _ = Ok _ |- _ => destruct (foil_lengths _ _ _ _ _ H) as [L1 L2] end.
    rewrite zipWith_length, !map_length, L1, L2. lia.
Qed.
Lemma zero_panels_length mesh nc ns ps te le : rect mesh (S ns) (S nc) -> @make_panels_from_mesh_spanwise F NF (transpose (nc + 1) v0 mesh) = Ok (ps, te, le) -> length ps = (nc * ns)%nat.
Proof.
  intros R E. destruct (transpose_spec v0 mesh _ _ R) as (RT & _). replace (S nc) with (nc + 1)%nat in RT by lia.
  assert (RT' : rect (transpose (nc + 1) v0 mesh) (S nc) (S ns)) by (replace (S nc) with (nc + 1)%nat by lia; exact RT).
  destruct (panels_spec _ nc ns RT') as (ps' & te' & le' & P & L & _). rewrite E in P. injection P as <- _ _. exact L.
Qed.
Lemma zero_lengths nc ns (s : sail F) : built nc ns s -> length (sl_above_zero s) = (nc * ns)%nat /\ length (sl_under_zero s) = (nc * ns)%nat.
Proof.
  intros (h & t & c & ch & tw & nm & md & ca & di & H). unfold SailGeometry in H. cbv zeta in H.
  repeat match type of H with
  | bind ?m _ = Ok _ => let x := fresh "x" in let E := fresh "E" in
      apply bind_Ok in H; destruct H as [x [E H]]; try (destruct x as [x ?]); try (destruct x as [x ?]) end.
  injection H as <-. cbn [sl_above_zero sl_under_zero].
  split; eapply zero_panels_length; try eassumption; eapply zero_mesh_rect; eassumption.
Qed.
(** the flat panels of the sail set have the same layout as its panels *)
Lemma zero_layout nc ns (sails : list (sail F)) ss : (forall s, In s sails -> built nc ns s) -> SailSet sails = Ok ss ->
  length (ss_zero ss) = (2 * length sails * (nc * ns))%nat /\
  forall g s k, nth_error sails g = Some s -> (k < nc * ns)%nat ->
    nth_error (ss_zero ss) (g * (nc * ns) + k) = nth_error (sl_above_zero s) k /\
    nth_error (ss_zero ss) ((length sails + g) * (nc * ns) + k) = nth_error (sl_under_zero s) k.
Proof.
  intros B E.
  assert (EZ : ss_zero ss = concat (map sl_above_zero sails) ++ concat (map sl_under_zero sails)).
  { unfold SailSet in E. destruct sails; [discriminate|]. apply (f_equal (fun r => match r with Ok x => ss_zero x | Raise _ => [] end)) in E. exact (eq_sym E). }
  rewrite EZ.
  assert (L1 : forall s, In s sails -> length (sl_above_zero s) = (nc * ns)%nat) by (intros s I; apply zero_lengths, B, I).
  assert (L2 : forall s, In s sails -> length (sl_under_zero s) = (nc * ns)%nat) by (intros s I; apply zero_lengths, B, I).
  pose proof (concat_const_length sl_above_zero sails _ L1) as C1. pose proof (concat_const_length sl_under_zero sails _ L2) as C2.
  split; [rewrite app_length; rewrite C1, C2; lia|]. intros g s k G K. pose proof (nth_error_Some_lt _ _ _ G) as GL. split.
  - rewrite nth_error_app1 by (rewrite C1; nia). apply concat_const_nth; assumption.
  - rewrite nth_error_app2 by (rewrite C1; nia). rewrite C1. replace ((length sails + g) * (nc * ns) + k - length sails * (nc * ns))%nat with (g * (nc * ns) + k)%nat by nia. apply concat_const_nth; assumption.
Qed.
End Zero.
(** a panel seen from the side, as a closed outline *)
Definition side_view (p : panel R) : list (R * R) :=
  map (fun q => (vx q, vz q)) [pp1 p; pp2 p; pp3 p; pp4 p; pp1 p].
Theorem C64_polygons : forall spline cd sv r main jib ref clr rr, run spline cd sv r main jib ref clr = Ok rr ->
  exists polys, cli_plot_cp rr = Ok polys /\ length polys = length (ss_panels (rr_set rr)) /\
  let n := length (ss_sails (rr_set rr)) in let m := (sv_nc sv * sv_ns sv)%nat in
  forall g s k, nth_error (ss_sails (rr_set rr)) g = Some s -> (k < m)%nat ->
    (exists z c, nth_error (sl_above_zero s) k = Some z /\ nth_error (vl_pcoef (rr_vlm rr)) (g * m + k) = Some c /\ nth_error polys (g * m + k) = Some (Polygon (side_view z) c) /\
       nth_error (ss_panels (rr_set rr)) (g * m + k) = nth_error (sl_above s) k) /\
    (exists z c, nth_error (sl_under_zero s) k = Some z /\ nth_error (vl_pcoef (rr_vlm rr)) ((n + g) * m + k) = Some c /\ nth_error polys ((n + g) * m + k) = Some (Polygon (side_view z) c) /\
       nth_error (ss_panels (rr_set rr)) ((n + g) * m + k) = nth_error (sl_under s) k).
Proof.
  intros spline cd sv r main jib ref clr rr E. destruct (run_inv _ _ _ _ _ _ _ _ _ E) as (w & EW & _ & EG & _ & EV & _).
  destruct (get_sail_set_inv _ _ _ _ _ _ _ EG) as (sails & SS & ES & _ & _ & B).
  set (ss := rr_set rr) in *. set (nc := sv_nc sv) in *. set (ns := sv_ns sv) in *. destruct (sail_set_flags nc ns sails ss B SS) as [LP FG].
  destruct (C60_complete_results _ _ _ _ _ _ _ _ (eq_trans (fl_te_len _ _ _ _ _ FG) (eq_sym LP)) EV) as (_ & _ & _ & _ & _ & _ & _ & _ & _ & _ & _ & _ & _ & _ & LC).
  destruct (zero_layout nc ns sails ss B SS) as [LZ Z]. destruct (sail_set_groups nc ns sails ss B SS) as (N & EP & _ & _).
  unfold cli_plot_cp, plot_cp. fold ss. cbv zeta. rewrite LC, LZ, LP, Nat.eqb_refl. simpl negb. cbv iota. eexists. split; [reflexivity|].
  rewrite zipWith_length, LC, LZ, LP. split; [lia|]. rewrite ES. intros g s k G K. pose proof (nth_error_Some_lt _ _ _ G) as GL. destruct (Z g s k G K) as [Z1 Z2].
  assert (LA : forall a, In a (map sl_above sails ++ map sl_under sails) -> length a = (nc * ns)%nat).
  { intros a I. apply in_app_or in I. destruct I as [I|I]; apply in_map_iff in I; destruct I as (s' & <- & I); [apply (lay_above nc ns) | apply (lay_under nc ns)]; apply built_layout, B; assumption. }
  destruct (zero_lengths nc ns s) as [L1 L2]; [apply B; eapply nth_error_In; eassumption|]. split.
  - destruct (nth_error_ex (sl_above_zero s) k) as [z HZ]; [lia|]. destruct (nth_error_ex (vl_pcoef (rr_vlm rr)) (g * (nc * ns) + k)) as [c HC]; [rewrite LC, LP; nia|].
    exists z, c. split; [exact HZ|]. split; [exact HC|]. split; [erewrite nth_error_zipWith; [reflexivity | rewrite Z1; exact HZ | exact HC]|].
    rewrite EP. apply concat_groups_nth; try assumption. rewrite nth_error_app1 by (rewrite map_length; assumption). rewrite nth_error_map, G. reflexivity.
  - destruct (nth_error_ex (sl_under_zero s) k) as [z HZ]; [lia|]. destruct (nth_error_ex (vl_pcoef (rr_vlm rr)) ((length sails + g) * (nc * ns) + k)) as [c HC]; [rewrite LC, LP; nia|].
    exists z, c. split; [exact HZ|]. split; [exact HC|]. split; [erewrite nth_error_zipWith; [reflexivity | rewrite Z2; exact HZ | exact HC]|].
    rewrite EP. apply concat_groups_nth; try assumption. rewrite nth_error_app2 by (rewrite map_length; lia). rewrite map_length. replace (length sails + g - length sails)%nat with g by lia. rewrite nth_error_map, G. reflexivity.
Qed.
(** the flat panels: corner by corner the sections of the sail before heel, leeway and twist *)
Theorem C64_flat_panels : forall head tack c ns nc chords twist camber dist mode name, good_sail head tack c ns nc chords twist camber dist mode ->
  exists s, SailGeometry head tack c ns nc chords twist name mode camber dist = Ok s /\
  let section k i d := ssection tack head (INR k / INR ns) (nth k chords 0) (nth k camber 0) d (INR i / INR nc) in
  let a := sheel (heel_deg c) (leeway_deg c) (onto_plane tack) in let b := sheel (heel_deg c) (leeway_deg c) (onto_plane head) in
  let turn k p := srot_line a b (rad (match mode with None => 0 | Some _ => nth k twist 0 end)) (sheel (heel_deg c) (leeway_deg c) p) in
  forall i j, (i < nc)%nat -> (j < ns)%nat ->
   (exists z p, nth_error (sl_above_zero s) (i * ns + j) = Some z /\ nth_error (sl_above s) (i * ns + j) = Some p /\
     z = Panel (section j (i + 1)%nat (nth j dist 0)) (section j i (nth j dist 0)) (section (j + 1)%nat i (nth (j + 1) dist 0)) (section (j + 1)%nat (i + 1)%nat (nth (j + 1) dist 0)) /\
     p = Panel (turn j (pp1 z)) (turn j (pp2 z)) (turn (j + 1)%nat (pp3 z)) (turn (j + 1)%nat (pp4 z))) /\
   (exists z p, nth_error (sl_under_zero s) (i * ns + j) = Some z /\ nth_error (sl_under s) (i * ns + j) = Some p /\
     z = Panel (smirror (section (ns - j)%nat (i + 1)%nat (nth j dist 0))) (smirror (section (ns - j)%nat i (nth j dist 0)))
           (smirror (section (ns - (j + 1))%nat i (nth (j + 1) dist 0))) (smirror (section (ns - (j + 1))%nat (i + 1)%nat (nth (j + 1) dist 0))) /\
     p = Panel (smirror (turn (ns - j)%nat (smirror (pp1 z)))) (smirror (turn (ns - j)%nat (smirror (pp2 z))))
           (smirror (turn (ns - (j + 1))%nat (smirror (pp3 z)))) (smirror (turn (ns - (j + 1))%nat (smirror (pp4 z))))).
Proof.
  intros head tack c ns nc chords twist camber dist mode name G.
  destruct (good_sail_spec _ _ _ _ _ _ _ _ _ _ name G) as (s & E & _ & _ & _ & _ & _ & _ & P). exists s. split; [exact E|]. intros section a b turn i j I J.
  destruct (P i j I J) as (P1 & P2 & P3 & P4). split.
  - do 2 eexists. split; [exact P3|]. split; [exact P1|]. split; reflexivity.
  - do 2 eexists. split; [exact P4|]. split; [exact P2|]. split; [reflexivity|]. cbn [pp1 pp2 pp3 pp4]. unfold uzpoint. rewrite !smirror_invol. reflexivity.
Qed.
Example C64_case : forall spline, exists rr, run spline demo_conditions demo_solver (demo_rig (Some 4)) (Some demo_main) None szero szero = Ok rr /\ length (ss_panels (rr_set rr)) = 2%nat.
Proof. intros sp. destruct (demo_run sp 4 szero) as (rr & s & E & _ & _ & _ & P & _). exists rr. rewrite P. auto. Qed.
Example C64_flat_case : good_sail (V3 (-1) 0 5) (V3 0 0 1) (Csys 0 0 szero) 1 1 [3; 2] [0; 30] [1/10; 1/20] [1/2; 1/4] (Some "real_twist"%string).
Proof. exact C19_case. Qed.

(** ** C65 *)
Lemma first_rows_spec {A} nc l ns (x : list A) : (0 < nc)%nat -> (0 < l)%nat -> length x = (l * (nc * ns))%nat ->
  exists y, first_rows nc l x = Ok y /\ length y = (l * ns)%nat /\
  forall g j, (g < l)%nat -> (j < ns)%nat -> nth_error y (g * ns + j) = nth_error x (cell nc ns g 0 j).
Proof.
  intros NC L LX. destruct (array_split_groups x (nc * l) ns) as (rows & E & LR & _ & W & N); [nia|nia|].
  unfold first_rows. rewrite (np_split_exact _ _ ns) by nia. rewrite E. unfold bind. eexists. split; [reflexivity|].
  set (gs := map (fun k => nth (k * nc) rows []) (seq 0 l)).
  assert (WG : forall a, In a gs -> length a = ns).
  { intros a I. apply in_map_iff in I. destruct I as (k & <- & I). apply in_seq in I. apply W. apply nth_In. rewrite LR. nia. }
  split; [rewrite (concat_groups_length _ _ WG); unfold gs; rewrite map_length, seq_length; reflexivity|].
  intros g j G J. assert (R : nth_error rows (g * nc) = Some (nth (g * nc) rows [])) by (apply nth_error_nth'; rewrite LR; nia).
  rewrite (concat_groups_nth gs ns g (nth (g * nc) rows [])) by (try assumption; unfold gs; rewrite nth_error_map, nth_error_seq by assumption; reflexivity).
  rewrite (N _ _ _ R J). f_equal. unfold cell. nia.
Qed.
Lemma counters_spec ns n i : (0 < ns)%nat -> forall k, (k < n)%nat -> nth_error (colour_counters ns i n ((i - 1) / ns)) k = Some ((i + k) / ns)%nat.
Proof.
  intros NS. revert i. induction n as [|n IH]; intros i k K; [lia|]. cbn [colour_counters].
  assert (C : (if ((i mod ns =? 0) && negb (i =? 0))%nat%bool then S ((i - 1) / ns) else (i - 1) / ns)%nat = ((S i - 1) / ns)%nat).
  { replace (S i - 1)%nat with i by lia. pose proof (Nat.div_mod i ns ltac:(lia)) as D. pose proof (Nat.mod_upper_bound i ns ltac:(lia)) as U.
    destruct (Nat.eqb_spec (i mod ns) 0) as [M|M]; destruct (Nat.eqb_spec i 0) as [I|I]; simpl.
    - subst i. reflexivity.
    - assert (Q : (0 < i / ns)%nat) by nia. replace (i / ns)%nat with (S (i / ns - 1)) by lia. f_equal. symmetry. apply (Nat.div_unique _ _ _ (ns - 1)%nat); nia.
    - subst i. reflexivity.
    - symmetry. apply (Nat.div_unique _ _ _ (i mod ns - 1)%nat); lia. }
  rewrite C. destruct k as [|k].
  - simpl nth_error. f_equal. f_equal. lia.
  - simpl nth_error. rewrite IH by lia. f_equal. f_equal. lia.
Qed.
Lemma counters_length ns n : forall i c, length (colour_counters ns i n c) = n.
Proof. induction n; intros; cbn [colour_counters length]; auto. Qed.

(** the arrow drawn for the wind [w] at the height of [p], starting above the point (sx, sy) *)
Definition wind_arrow {F} {NF : Num F} (colour : string) (sx sy : F) (w p : vec F) : arrow F :=
  Arrow colour (V3 sx sy (vz p)) (V3 (nadd sx (vx w)) (nadd sy (vy w)) (vz p)) (nltb (nZ 0) (vz p)).
Definition arrow_colours (n : nat) : list string := if (n =? 1)%nat then ["peru"; "red"]%string else ["peru"; "red"; "peru"; "red"]%string.
Theorem C65_arrows : forall (F : Type) (NF : Num F) water (ic : inlet F) induced ns nc n, (0 < ns)%nat -> (0 < nc)%nat -> (n = 1 \/ n = 2)%nat ->
  length (in_cp ic) = (2 * n * (nc * ns))%nat -> length (in_tws ic) = (2 * n * (nc * ns))%nat -> length (in_V ic) = (2 * n * (nc * ns))%nat ->
  (forall v, induced = Some v -> length v = (2 * n * (nc * ns))%nat) ->
  let N := (2 * n * ns)%nat in
  let mean := ndiv (nsum (in_awa_deg ic)) (nZ (Z.of_nat (length (in_awa_deg ic)))) in
  let sx := nmul (nmul (ndec (-925) 3) water) (ncos (deg2rad mean)) in let sy := nmul (nmul (ndec (-925) 3) water) (nsin (deg2rad mean)) in
  exists arrows, display_winds water ic induced ns nc = Ok arrows /\ length arrows = ((match induced with None => 2 | Some _ => 3 end) * N)%nat /\
  forall g j, (g < 2 * n)%nat -> (j < ns)%nat -> exists p t a,
    nth_error (in_cp ic) (cell nc ns g 0 j) = Some p /\ nth_error (in_tws ic) (cell nc ns g 0 j) = Some t /\ nth_error (in_V ic) (cell nc ns g 0 j) = Some a /\
    nth_error arrows (g * ns + j) = Some (wind_arrow "green" sx sy t p) /\ nth_error arrows (N + (g * ns + j)) = Some (wind_arrow "blue" sx sy a p) /\
    forall v, induced = Some v -> exists u colour, nth_error v (cell nc ns g 0 j) = Some u /\ nth_error (arrow_colours n) g = Some colour /\
      nth_error arrows (2 * N + (g * ns + j)) = Some (wind_arrow colour (vx p) (vy p) u p).
Proof.
  intros F NF water ic induced ns nc n NS NC HN LC LT LV LI N mean sx sy. unfold display_winds. cbv zeta.
  destruct (Nat.eqb_spec (ns * nc) 0) as [Z|_]; [nia|].
  replace (length (in_cp ic) / (ns * nc))%nat with (2 * n)%nat by (rewrite LC; replace (2 * n * (nc * ns))%nat with ((2 * n) * (ns * nc))%nat by nia; rewrite Nat.div_mul by nia; reflexivity).
  destruct (first_rows_spec nc (2 * n) ns (in_tws ic)) as (tws & E1 & L1 & P1); [lia..|]. destruct (first_rows_spec nc (2 * n) ns (in_V ic)) as (app & E2 & L2 & P2); [lia..|].
  destruct (first_rows_spec nc (2 * n) ns (in_cp ic)) as (pts & E3 & L3 & P3); [lia..|].
  rewrite E1. unfold bind at 1. rewrite E2. unfold bind at 1. rewrite E3. unfold bind at 1.
  assert (EI : exists ind, match induced with Some v => first_rows nc (2 * n) v | None => Ok [] end = Ok ind /\ length ind = (match induced with None => 0 | Some _ => 1 end * N)%nat /\
    forall v, induced = Some v -> length ind = N /\ forall g j, (g < 2 * n)%nat -> (j < ns)%nat -> nth_error ind (g * ns + j) = nth_error v (cell nc ns g 0 j)).
  { destruct induced as [v|]; [|exists []; repeat split; discriminate]. destruct (first_rows_spec nc (2 * n) ns v) as (y & EY & LY & PY); [lia|lia|apply LI; reflexivity|].
    exists y. split; [exact EY|]. split; [unfold N; lia|]. intros v' Q. injection Q as <-. auto. }
  destruct EI as (ind & -> & LN & PI). unfold bind at 1. rewrite L1, L2. replace (2 * n * ns)%nat with (ns * (2 * n))%nat by lia. rewrite Nat.eqb_refl. unfold guard at 1. unfold bind at 1. unfold guard at 1. unfold bind at 1.
  replace (match induced with Some _ => guard (length ind =? ns * (2 * n))%nat AssertionError | None => Ok tt end) with (Ok tt : res unit).
  2: { destruct induced as [v|]; [|reflexivity]. destruct (PI v eq_refl) as [-> _]. unfold N. replace (2 * n * ns)%nat with (ns * (2 * n))%nat by lia. rewrite Nat.eqb_refl. reflexivity. }
  unfold bind at 1.
  assert (EC : (if (2 * n =? 2)%nat then ["peru"; "red"]%string else ["peru"; "red"; "peru"; "red"]%string) = arrow_colours n) by (destruct HN as [-> | ->]; reflexivity).
  rewrite EC. replace (length (arrow_colours n) =? 2 * n)%nat with true by (destruct HN as [-> | ->]; reflexivity). unfold guard. unfold bind at 1.
  match goal with |- context [mapM ?f ?l] => set (F0 := f); set (L0 := l) end.
  assert (L0N : length L0 = length ind). { unfold L0. rewrite !combine_length, counters_length, L3. destruct induced as [v|]; [destruct (PI v eq_refl) as [-> _]; unfold N; lia|]. rewrite LN. lia. }
  assert (A0 : forall v g j, induced = Some v -> (g < 2 * n)%nat -> (j < ns)%nat -> exists u p, nth_error v (cell nc ns g 0 j) = Some u /\ nth_error (in_cp ic) (cell nc ns g 0 j) = Some p /\ nth_error L0 (g * ns + j) = Some (g, (u, p))).
  { intros v g j IV G J. destruct (PI v IV) as [LN' PI']. specialize (PI' g j G J). specialize (P3 g j G J).
    destruct (nth_error_ex ind (g * ns + j)) as [u U]; [unfold N in LN'; nia|]. destruct (nth_error_ex pts (g * ns + j)) as [p P]; [nia|]. exists u, p. rewrite <- PI', <- P3. split; [exact U|]. split; [exact P|].
    unfold L0. apply nth_error_combine; [|apply nth_error_combine; assumption].
    replace 0%nat with ((0 - 1) / ns)%nat at 2 by (simpl; apply Nat.div_0_l; lia). rewrite (counters_spec ns _ 0 NS) by (unfold N in LN'; nia). f_equal. simpl. rewrite Nat.div_add_l by lia. rewrite Nat.div_small by assumption. lia. }
  assert (CG : forall g, (g < 2 * n)%nat -> exists c, nth_error (arrow_colours n) g = Some c). { intros g G. apply nth_error_ex. destruct HN as [-> | ->]; simpl; lia. }
  destruct (mapM_total F0 L0) as [red RED].
  { intros [k [u p]] I. apply In_nth_error in I. destruct I as [q I]. pose proof (nth_error_Some_lt _ _ _ I) as QL. rewrite L0N in QL.
    destruct induced as [v|]; [|rewrite LN in QL; lia]. destruct (PI v eq_refl) as [LN' _]. rewrite LN' in QL.
    assert (QE : q = (q / ns * ns + q mod ns)%nat) by (rewrite (Nat.div_mod q ns) at 1; lia).
    assert (GL : (q / ns < 2 * n)%nat) by (apply Nat.div_lt_upper_bound; unfold N in QL; nia).
    destruct (A0 v (q / ns)%nat (q mod ns)%nat eq_refl GL ltac:(apply Nat.mod_upper_bound; lia)) as (u' & p' & _ & _ & X). rewrite <- QE, I in X. injection X as -> -> ->.
    destruct (CG _ GL) as [c C]. unfold F0. rewrite (py_nth_nat _ _ _ C). unfold bind. eauto. }
  rewrite RED. unfold bind at 1. eexists. split; [reflexivity|]. pose proof (mapM_length _ _ _ RED) as LR. rewrite L0N, LN in LR.
  split; [rewrite !app_length, !zipWith_length, L1, L2, L3, LR; unfold N; destruct induced; lia|].
  intros g j G J. specialize (P1 g j G J). specialize (P2 g j G J). specialize (P3 g j G J).
  assert (IX : (g * ns + j < 2 * n * ns)%nat) by nia.
  destruct (nth_error_ex tws (g * ns + j)) as [t T]; [lia|]. destruct (nth_error_ex app (g * ns + j)) as [a A]; [lia|]. destruct (nth_error_ex pts (g * ns + j)) as [p P]; [lia|].
  exists p, t, a. rewrite <- P1, <- P2, <- P3. repeat (split; [assumption|]). rewrite T in P1. rewrite A in P2. rewrite P in P3.
  split; [rewrite nth_error_app1 by (rewrite zipWith_length; lia); erewrite nth_error_zipWith by eassumption; reflexivity|]. split.
  - rewrite nth_error_app2 by (rewrite zipWith_length; unfold N; lia). rewrite zipWith_length, L1, L3, Nat.min_id. replace (N + (g * ns + j) - 2 * n * ns)%nat with (g * ns + j)%nat by (unfold N; lia).
    rewrite nth_error_app1 by (rewrite zipWith_length; lia). erewrite nth_error_zipWith by eassumption. reflexivity.
  - intros v IV. destruct (A0 v g j IV G J) as (u & p' & U & P' & X). rewrite <- P3 in P'. injection P' as ->. destruct (CG g G) as [c C]. exists u, c. split; [exact U|]. split; [exact C|].
    rewrite nth_error_app2 by (rewrite zipWith_length; unfold N; lia). rewrite zipWith_length, L1, L3, Nat.min_id. rewrite nth_error_app2 by (rewrite zipWith_length; unfold N; lia). rewrite zipWith_length, L2, L3, Nat.min_id.
    replace (2 * N + (g * ns + j) - 2 * n * ns - 2 * n * ns)%nat with (g * ns + j)%nat by (unfold N; lia).
    destruct (mapM_nth _ _ _ _ _ RED X) as (b & B2 & B1). unfold F0 in B1. rewrite (py_nth_nat _ _ _ C) in B1. unfold bind in B1. injection B1 as <-. rewrite B2. destruct p'; reflexivity.
Qed.
Theorem C65_other_numbers : forall (F : Type) (NF : Num F) water (ic : inlet F) ns nc n, (0 < ns)%nat -> (0 < nc)%nat -> (0 < n)%nat -> n <> 1%nat -> n <> 2%nat ->
  length (in_cp ic) = (2 * n * (nc * ns))%nat -> length (in_tws ic) = (2 * n * (nc * ns))%nat -> length (in_V ic) = (2 * n * (nc * ns))%nat ->
  display_winds water ic None ns nc = Raise AssertionError.
Proof.
  intros F NF water ic ns nc n NS NC N0 N1 N2 LC LT LV. unfold display_winds. cbv zeta.
  destruct (Nat.eqb_spec (ns * nc) 0) as [Z|_]; [nia|].
  replace (length (in_cp ic) / (ns * nc))%nat with (2 * n)%nat by (rewrite LC; replace (2 * n * (nc * ns))%nat with ((2 * n) * (ns * nc))%nat by nia; rewrite Nat.div_mul by nia; reflexivity).
  destruct (first_rows_spec nc (2 * n) ns (in_tws ic)) as (tws & E1 & L1 & P1); [lia..|]. destruct (first_rows_spec nc (2 * n) ns (in_V ic)) as (app & E2 & L2 & P2); [lia..|].
  destruct (first_rows_spec nc (2 * n) ns (in_cp ic)) as (pts & E3 & L3 & P3); [lia..|].
  rewrite E1. unfold bind at 1. rewrite E2. unfold bind at 1. rewrite E3. unfold bind at 1. unfold bind at 1. rewrite L1, L2. replace (2 * n * ns)%nat with (ns * (2 * n))%nat by lia. rewrite Nat.eqb_refl. unfold guard at 1. unfold bind at 1. unfold guard at 1. unfold bind at 1. unfold bind at 1.
  destruct (Nat.eqb_spec (2 * n) 2); [lia|]. replace (length ["peru"; "red"; "peru"; "red"]%string =? 2 * n)%nat with false by (symmetry; apply Nat.eqb_neq; simpl length; lia). reflexivity.
Qed.

(** every run: arrow [tail] to [head] = [tail] + wind, for the true and the apparent wind at the first row of panels *)
Theorem C65_run : forall water spline cd sv r main jib ref clr rr, (0 < sv_ns sv)%nat -> (0 < sv_nc sv)%nat -> run spline cd sv r main jib ref clr = Ok rr ->
  let ns := sv_ns sv in let nc := sv_nc sv in let n := length (ss_sails (rr_set rr)) in let N := (2 * n * ns)%nat in let ic := vl_inlet (rr_vlm rr) in
  let mean := rsum (in_awa_deg ic) / INR (length (in_awa_deg ic)) in
  let sx := - (925/1000) * water * cos (rad mean) in let sy := - (925/1000) * water * sin (rad mean) in
  exists arrows, cli_winds water sv rr = Ok arrows /\ length arrows = (2 * N)%nat /\
  forall g j, (g < 2 * n)%nat -> (j < ns)%nat -> exists p t a,
    nth_error (vl_cp (rr_vlm rr)) (cell nc ns g 0 j) = Some p /\ nth_error (in_tws ic) (cell nc ns g 0 j) = Some t /\ nth_error (in_V ic) (cell nc ns g 0 j) = Some a /\
    (exists strong, (strong = true <-> 0 < vz p) /\
      nth_error arrows (g * ns + j) = Some (Arrow "green" (V3 sx sy (vz p)) (sadd (V3 sx sy (vz p)) t) strong) /\
      nth_error arrows (N + (g * ns + j)) = Some (Arrow "blue" (V3 sx sy (vz p)) (sadd (V3 sx sy (vz p)) a) strong)).
Proof.
  intros water spline cd sv r main jib ref clr rr NS NC E ns nc n N ic mean sx sy.
  destruct (run_inv _ _ _ _ _ _ _ _ _ E) as (w & EW & _ & EG & _ & EV & _). destruct (get_sail_set_inv _ _ _ _ _ _ _ EG) as (sails & SS & ES & _ & NM & B).
  assert (HN : (n = 1 \/ n = 2)%nat). { unfold n. rewrite ES, <- (map_length sl_name), NM. unfold sail_names. destruct (String.eqb _ "jib"); [auto|]. destruct (String.eqb _ "main"); simpl; auto. }
  destruct (sail_set_flags _ _ sails _ B SS) as [LP FG]. fold nc ns in LP, FG.
  assert (LT : length (ss_te (rr_set rr)) = length (ss_panels (rr_set rr))) by (rewrite LP; apply FG).
  destruct (Vlm_inv _ _ _ _ _ _ _ _ LT EV) as (vars & ic' & g0 & net & CV & LV & IC & LI & VS & SO & FL).
  assert (EI : ic = ic') by apply (f_inlet _ _ _ _ _ _ _ _ _ _ _ _ _ _ FL).
  assert (ECP : vl_cp (rr_vlm rr) = in_cp ic /\ length (in_cp ic) = (2 * n * (nc * ns))%nat /\ length (in_tws ic) = (2 * n * (nc * ns))%nat /\
     (forall t, In t (in_tws ic) -> vz t = 0) /\ forall t, In t (in_V ic) -> vz t = 0).
  { rewrite EI. unfold n. rewrite ES. pose proof IC as IC'. unfold InletConditions in IC'. destruct (mapM _ (map pv_cp vars)) as [tws|] eqn:MT; [|discriminate]. injection IC' as <-. cbn [in_cp in_tws in_V].
    assert (VV : vl_vars (rr_vlm rr) = vars). { rewrite (f_vars _ _ _ _ _ _ _ _ _ _ _ _ _ _ FL). symmetry. apply list_tab. assumption. }
    assert (TZ : forall t, In t tws -> vz t = 0).
    { intros t I. apply In_nth_error in I. destruct I as [k I]. pose proof (nth_error_Some_lt _ _ _ I) as KL. rewrite (mapM_length _ _ _ MT) in KL. destruct (nth_error_ex _ _ KL) as [x X].
      destruct (mapM_nth _ _ _ _ _ MT X) as (y & Y2 & Y1). rewrite I in Y2. injection Y2 as <-. unfold get_true_wind_speed_at_h in Y1. apply bind_Ok in Y1. destruct Y1 as (u & _ & Y). injection Y as <-. unfold length_to_xyz_vector. reflexivity. }
    split; [unfold vl_cp; rewrite VV; reflexivity|]. split; [rewrite map_length, LV, LP; reflexivity|]. split; [rewrite (mapM_length _ _ _ MT), map_length, LV, LP; reflexivity|]. split; [exact TZ|].
    intros t I. apply in_map_iff in I. destruct I as (u & <- & I). unfold get_app_infs_at_h. cbn [vz]. apply TZ. assumption. }
  destruct ECP as (ECP & LC & LTW & TZ & AZ). assert (LA : length (in_V ic) = (2 * n * (nc * ns))%nat) by (rewrite EI, LI, LP; unfold n; rewrite ES; reflexivity).
  destruct (C65_arrows R RNum water ic None ns nc n NS NC HN LC LTW LA ltac:(discriminate)) as (arrows & D & LN & P).
  assert (ESX : forall x, nmul (nmul (ndec (-925) 3) water) x = - (925/1000) * water * x) by (intros x; rewrite ndec_R; rnum; change (10 ^ 3)%Z with 1000%Z; field).
  rewrite !ESX, !deg2rad_s, nsum_rsum in P. change (nZ (Z.of_nat (length (in_awa_deg ic)))) with (IZR (Z.of_nat (length (in_awa_deg ic)))) in P. rewrite <- INR_IZR_INZ in P.
  exists arrows. split; [exact D|]. split; [exact LN|]. intros g j G J. destruct (P g j G J) as (p & t & a & P1 & P2 & P3 & A1 & A2 & _).
  exists p, t, a. rewrite ECP. repeat (split; [assumption|]). exists (Rltb 0 (vz p)). split; [apply Rltb_true|].
  pose proof (TZ t (nth_error_In _ _ P2)) as Z1. pose proof (AZ a (nth_error_In _ _ P3)) as Z2.
  split; [rewrite A1 | unfold N; rewrite A2]; unfold wind_arrow, sadd; cbn [vx vy vz]; [rewrite Z1|rewrite Z2]; rewrite Rplus_0_r; reflexivity.
Qed.
Example C65_case : forall spline, exists rr arrows, run spline demo_conditions demo_solver (demo_rig (Some 4)) (Some demo_main) None szero szero = Ok rr /\
  cli_winds 22 demo_solver rr = Ok arrows /\ length arrows = 4%nat.
Proof.
  intros sp. destruct (demo_run sp 4 szero) as (rr & s & E & SS & _). exists rr.
  destruct (C65_run 22 _ _ demo_solver _ _ _ _ _ _ Nat.lt_0_1 Nat.lt_0_1 E) as (arrows & D & L & _). exists arrows. split; [exact E|]. split; [exact D|]. rewrite L. injection SS as <-. reflexivity.
Qed.
Example C65_other_case : exists ic : inlet R, length (in_cp ic) = (2 * 3 * (1 * 1))%nat /\ length (in_tws ic) = (2 * 3 * (1 * 1))%nat /\ length (in_V ic) = (2 * 3 * (1 * 1))%nat.
Proof. exists (Inlet (repeat szero 6) (repeat szero 6) (repeat szero 6) []). repeat split. Qed.

(** ** C66 *)
Theorem C66_arrows : forall (fr : flow_results R) (h : hull R), fr_F_total fr <> szero ->
  let mean := rsum (map snorm (fr_V_fs fr)) / INR (length (fr_V_fs fr)) in
  exists f, display_CE_CLR fr h = ((fr_coe fr, f), (hu_clr h, sopp f)) /\ snorm f = 8/10 * mean /\ scross f (fr_F_total fr) = szero /\ (0 < mean -> 0 < sdot f (fr_F_total fr)).
Proof.
  intros fr h NZ mean. set (T := fr_F_total fr) in *.
  assert (NP : 0 < snorm T). { destruct (Req_dec (snorm T) 0) as [Z|Z]; [exfalso; apply NZ; apply snorm_zero; assumption|]. pose proof (snorm_nonneg T). destruct (Rdichotomy _ _ Z); lra. }
  assert (MN : 0 <= mean). { unfold mean. destruct (fr_V_fs fr) as [|v l] eqn:EV; [simpl; unfold Rdiv; lra|]. apply Rmult_le_pos.
    - clear. generalize (v :: l). intros m. induction m as [|a m IH]; unfold rsum in *; simpl; [lra|]. pose proof (snorm_nonneg a). lra.
    - left. apply Rinv_0_lt_compat, lt_0_INR. simpl. lia. }
  exists (sscale (8/10 * mean / snorm T) T). split.
  - unfold display_CE_CLR, normalize. cbv zeta. fold T. rewrite (map_ext _ _ vnorm_s), !vnorm_s, map_length, nsum_rsum, ndec_R. change (nZ (Z.of_nat (length (fr_V_fs fr)))) with (IZR (Z.of_nat (length (fr_V_fs fr)))). rewrite <- INR_IZR_INZ. rnum. change (10 ^ 1)%Z with 10%Z. fold mean.
    set (k := snorm T) in *. clearbody k mean. destruct T as [a b c]. vnum. svec. repeat first [apply (f_equal2 pair) | reflexivity]; vec_eq; field; lra.
  - split; [|split].
    + rewrite snorm_scale. rewrite Rabs_right; [field; lra|]. apply Rle_ge. unfold Rdiv. apply Rmult_le_pos; [lra|]. left. apply Rinv_0_lt_compat. assumption.
    + destruct T. svec. vec_eq; ring.
    + intros MP. replace (sdot (sscale (8 / 10 * mean / snorm T) T) T) with (8/10 * mean / snorm T * sdot T T) by (destruct T; svec; ring).
      rewrite <- snorm_sq. apply Rmult_lt_0_compat; [|nra]. unfold Rdiv. apply Rmult_lt_0_compat; [lra|]. apply Rinv_0_lt_compat. assumption.
Qed.
(** the same for every run *)
Theorem C66_run : forall spline cd sv r main jib ref clr rr, 0 < rg_sheer r -> run spline cd sv r main jib ref clr = Ok rr -> fr_F_total (rr_flow rr) <> szero ->
  let V := fr_V_fs (rr_flow rr) in let mean := rsum (map snorm V) / INR (length V) in
  length V = length (ss_panels (rr_set rr)) /\
  exists f, cli_CE_CLR rr = ((fr_coe (rr_flow rr), f), (sheel (cd_heel cd) (cd_leeway cd) clr, sopp f)) /\ snorm f = 8/10 * mean /\ scross f (fr_F_total (rr_flow rr)) = szero /\
    (0 < mean -> 0 < sdot f (fr_F_total (rr_flow rr))).
Proof.
  intros spline cd sv r main jib ref clr rr SH E NZ V mean. destruct (run_inv _ _ _ _ _ _ _ _ _ E) as (w & EW & _ & EG & EH & EV & EF). split.
  - destruct (get_sail_set_inv _ _ _ _ _ _ _ EG) as (sails & SS & ES & _ & _ & B). destruct (sail_set_flags _ _ sails _ B SS) as [LP FG].
    destruct (C60_complete_results _ _ _ _ _ _ _ _ (eq_trans (fl_te_len _ _ _ _ _ FG) (eq_sym LP)) EV) as (_ & _ & _ & _ & _ & _ & _ & _ & _ & LV & _).
    unfold V. rewrite <- LV. unfold InviscidFlowResults in EF. cbv zeta in EF. unbind. injection EF as EF. rewrite <- EF. reflexivity.
  - destruct (C66_arrows (rr_flow rr) (rr_hull rr) NZ) as (f & F1 & F2). exists f. split; [|exact F2]. unfold cli_CE_CLR. rewrite F1.
    destruct (rg_base r) as [b|]; [|rewrite hull_none in EH; discriminate].
    destruct (C63_lines b (rg_sheer r) (Csys (cd_heel cd) (cd_leeway cd) ref) clr SH) as (h & H1 & _ & _ & _ & _ & _ & _ & H2). rewrite EH in H1. injection H1 as ->. rewrite H2. reflexivity.
Qed.
(** a force of 10 N to the side and 5 N forward at a mean apparent wind of 5 m/s *)
Example C66_case : exists fr : flow_results R, fr_F_total fr <> szero /\ rsum (map snorm (fr_V_fs fr)) / INR (length (fr_V_fs fr)) = 5.
Proof.
  exists (FlowResults (Csys 0 0 szero) [] [] [] [V3 4 3 0; V3 3 (-4) 0] [] [] (V3 (-5) 10 0) [] [] [] szero (V3 0 0 4) [] szero [] szero).
  cbn [fr_F_total fr_V_fs]. split; [intros Z; injection Z; lra|]. simpl map. rewrite !(snorm_val _ _ _ 5) by lra. unfold rsum. simpl. lra.
Qed.

Print Assumptions C63_lines.
Print Assumptions C63_ends.
Print Assumptions C63_sides.
Print Assumptions C63_refuted.
Print Assumptions C64_polygons.
Print Assumptions C64_flat_panels.
Print Assumptions C65_arrows.
Print Assumptions C65_other_numbers.
Print Assumptions C65_run.
Print Assumptions C66_arrows.
Print Assumptions C66_run.
