(** The geometry of a whole sail. *)

From Coq Require Import String ZArith Reals List Bool Lra Psatz Lia.
From Verif Require Import Num PyBase RNum Spec M_Airfoil M_Rotations M_Csys M_Mesher M_Panels M_Sail
  L_List L_Rot L_Csys L_Airfoil L_Mesh L_Sail.
Import ListNotations.
Open Scope R_scope.

(** ** The whole sail *)
Lemma ssection_mirror tack head t ch m d x :
  ssection (smirror head) (smirror tack) t ch m d x = smirror (ssection tack head (1 - t) ch m d x).
Proof.
  unfold ssection. cbv zeta. replace (slerp (smirror head) (smirror tack) t) with (smirror (slerp tack head (1 - t))).
  - generalize (slerp tack head (1 - t)). intros l. destruct l; svec; vec_eq; ring.
  - unfold slerp. vring.
Qed.
Lemma slerp_z_pos a b t : 0 < vz a -> 0 < vz b -> 0 <= t <= 1 -> 0 < vz (slerp a b t).
Proof. destruct a as [a1 a2 a3], b as [b1 b2 b3]. unfold slerp. svec. intros. nra. Qed.
Lemma ssection_luff tack head t ch m d : 0 < d -> ssection tack head t ch m d 0 = slerp (onto_plane tack) (onto_plane head) t.
Proof.
  intros D. unfold ssection. cbv zeta. replace (scamber m d 0) with 0.
  - destruct tack, head; unfold slerp, onto_plane; svec; vec_eq; ring.
  - unfold scamber. destruct (Rlt_dec 0 d); [|contradiction]. simpl. field. lra.
Qed.
Lemma frac_bounds k n : (1 <= n)%nat -> (k <= n)%nat -> 0 <= INR k / INR n <= 1.
Proof.
  intros N K. assert (0 < INR n) by (apply lt_0_INR; lia). pose proof (pos_INR k). pose proof (le_INR _ _ K).
  split; [apply Rmult_le_pos; [lra | left; apply Rinv_0_lt_compat; lra]|].
  apply (Rmult_le_reg_r (INR n)); [lra|]. unfold Rdiv. rewrite Rmult_assoc, Rinv_l by lra. lra.
Qed.
Lemma frac_rev k n : (1 <= n)%nat -> (k <= n)%nat -> 1 - INR k / INR n = INR (n - k) / INR n.
Proof. intros N K. rewrite minus_INR by assumption. field. apply not_0_INR. lia. Qed.

Lemma slerp_mirror a b t : smirror (slerp a b t) = slerp (smirror a) (smirror b) t.
Proof. unfold slerp. vring. Qed.
Definition twist_modes : list string := ["sheeting_angle_const"; "average_const"; "real_twist"]%string.

Section Whole.
Context (head tack : vec R) (c : csys R) (ns nc : nat) (ch tw m d : nat -> R) (name : string) (mode : option string).
Context (NC : (1 <= nc)%nat) (NS : (1 <= ns)%nat) (ZT : 0 < vz tack) (ZH : 0 < vz head)
        (AC : forall k, (k <= ns)%nat -> accepted (m k) (d k) 0 /\ 0 < d k).
Definition hl := sheel (heel_deg c) (leeway_deg c).
Definition luff_a := hl (onto_plane tack).
Definition luff_b := hl (onto_plane head).
Definition angle (k : nat) : R := match mode with None => 0 | Some _ => tw k end.
Definition zpoint (k i : nat) (dk : R) : vec R := ssection tack head (INR k / INR ns) (ch k) (m k) dk (INR i / INR nc).
Definition spoint (k i : nat) (dk : R) : vec R := srot_line luff_a luff_b (rad (angle k)) (hl (zpoint k i dk)).
Definition uzpoint (k i : nat) : vec R := smirror (zpoint (ns - k) i (d k)).
Definition upoint (k i : nat) : vec R := smirror (spoint (ns - k) i (d k)).
Context (MODE : match mode with None => True
                | Some s => In s twist_modes /\ (vy luff_a <> vy luff_b \/ vz luff_a <> vz luff_b) end).
Lemma zpoint_z k i dk : (k <= ns)%nat -> 0 < vz (zpoint k i dk).
Proof. intros K. unfold zpoint, ssection. simpl vz. apply slerp_z_pos; try assumption. apply frac_bounds; assumption. Qed.
Lemma luff_distinct : mode <> None -> luff_a <> luff_b.
Proof. intros M E. rewrite E in MODE. destruct mode; [destruct MODE as [_ [H|H]]; apply H; reflexivity | contradiction]. Qed.
Lemma zpoint_luff k dk : 0 < dk -> hl (zpoint k 0 dk) = slerp luff_a luff_b (INR k / INR ns).
Proof.
  intros D. unfold zpoint. simpl INR. unfold Rdiv at 2. rewrite Rmult_0_l, ssection_luff by assumption.
  apply (rm_slerp hl), sheel_rm.
Qed.
Lemma sail_geometry_spec : exists s,
  SailGeometry head tack c ns nc (stations ns ch) (stations ns tw) name mode (stations ns m) (stations ns d) = Ok s /\
  sl_name s = name /\ sl_csys s = c /\ sl_head s = head /\ sl_tack s = tack /\
  length (sl_above_zero s) = (nc * ns)%nat /\ length (sl_under_zero s) = (nc * ns)%nat /\
  forall i j, (i < nc)%nat -> (j < ns)%nat ->
    nth_error (sl_above s) (i * ns + j) =
      Some (Panel (spoint j (i + 1) (d j)) (spoint j i (d j)) (spoint (j + 1) i (d (j + 1)%nat)) (spoint (j + 1) (i + 1) (d (j + 1)%nat))) /\
    nth_error (sl_under s) (i * ns + j) =
      Some (Panel (upoint j (i + 1)) (upoint j i) (upoint (j + 1) i) (upoint (j + 1) (i + 1))) /\
    nth_error (sl_above_zero s) (i * ns + j) =
      Some (Panel (zpoint j (i + 1) (d j)) (zpoint j i (d j)) (zpoint (j + 1) i (d (j + 1)%nat)) (zpoint (j + 1) (i + 1) (d (j + 1)%nat))) /\
    nth_error (sl_under_zero s) (i * ns + j) =
      Some (Panel (uzpoint j (i + 1)) (uzpoint j i) (uzpoint (j + 1) i) (uzpoint (j + 1) (i + 1))).
Proof.
  assert (NZ : INR ns <> 0) by (apply not_0_INR; lia).
  unfold SailGeometry. cbv zeta.
  destruct (zero_mesh_spec tack head nc ns ch m d NC NS ltac:(intros; apply AC; assumption)) as (mesh & E1 & R1 & P1).
  rewrite E1. unfold bind at 1.
  destruct (transpose_spec v0 mesh _ _ R1) as (RT1 & QT1).
  assert (RT1' : rect (transpose (nc + 1) v0 mesh) (S nc) (S ns)) by (replace (S nc) with (nc + 1)%nat by lia; replace (S ns) with (ns + 1)%nat by lia; exact RT1).
  destruct (panels_spec _ nc ns RT1') as (za & zte & zle & Z1 & Z2 & _ & _ & Z3).
  rewrite Z1. unfold bind at 1.
  rewrite !stations_rev.
  destruct (zero_mesh_spec (smirror head) (smirror tack) nc ns (fun k => ch (ns - k)%nat) (fun k => m (ns - k)%nat) d NC NS) as (meshu & E2 & R2 & P2).
  { intros k K. destruct (AC k K) as [(A1 & A2 & A3) _]. destruct (AC (ns - k)%nat ltac:(lia)) as [(B1 & B2 & B3) _]. split; [assumption | split; assumption]. }
  change (mount_mirror head) with (smirror head). change (mount_mirror tack) with (smirror tack).
  rewrite E2. unfold bind at 1.
  destruct (transpose_spec v0 meshu _ _ R2) as (RT2 & QT2).
  assert (RT2' : rect (transpose (nc + 1) v0 meshu) (S nc) (S ns)) by (replace (S nc) with (nc + 1)%nat by lia; replace (S ns) with (ns + 1)%nat by lia; exact RT2).
  destruct (panels_spec _ nc ns RT2') as (zu & zte2 & zle2 & Y1 & Y2 & _ & _ & Y3).
  rewrite Y1. unfold bind at 1.
  (* heeled meshes *)
  set (fm := heel_mesh c (List.concat mesh)). set (fu := heel_mesh c (List.concat meshu)).
  assert (LM : length fm = ((ns + 1) * (nc + 1))%nat) by (unfold fm, heel_mesh; rewrite map_length; apply concat_length_rect; assumption).
  assert (LU : length fu = ((ns + 1) * (nc + 1))%nat) by (unfold fu, heel_mesh; rewrite map_length; apply concat_length_rect; assumption).
  assert (FM : forall k i, (k <= ns)%nat -> (i <= nc)%nat -> nth_error fm (k * (nc + 1) + i) = Some (hl (zpoint k i (d k)))).
  { intros k i K I. unfold fm, heel_mesh. rewrite nth_error_map, (concat_nth_rect mesh (ns + 1) (nc + 1)) by (assumption || lia).
    rewrite P1 by assumption. cbn [option_map]. f_equal. apply sheel_spec. apply (zpoint_z k i (d k) K). }
  assert (FU : forall k i, (k <= ns)%nat -> (i <= nc)%nat -> nth_error fu (k * (nc + 1) + i) = Some (smirror (hl (zpoint (ns - k) i (d k))))).
  { intros k i K I. unfold fu, heel_mesh. rewrite nth_error_map, (concat_nth_rect meshu (ns + 1) (nc + 1)) by (assumption || lia).
    rewrite P2 by assumption. cbn [option_map]. f_equal. rewrite ssection_mirror, frac_rev by assumption.
    fold (zpoint (ns - k) i (d k)). pose proof (zpoint_z (ns - k) i (d k) ltac:(lia)) as Z.
    rewrite rotate_mirror by lra. f_equal. apply sheel_spec. assumption. }
  (* twisted meshes *)
  match goal with |- context [bind ?x _] => set (tws := x) end.
  assert (TW : exists gm gu, tws = Ok (gm, gu) /\
     length gm = ((ns + 1) * (nc + 1))%nat /\ length gu = ((ns + 1) * (nc + 1))%nat /\
     (forall k i, (k <= ns)%nat -> (i <= nc)%nat -> nth_error gm (k * (nc + 1) + i) = Some (spoint k i (d k))) /\
     (forall k i, (k <= ns)%nat -> (i <= nc)%nat -> nth_error gu (k * (nc + 1) + i) = Some (upoint k i))).
  { unfold tws, upoint, spoint, angle. clear tws. pose proof luff_distinct as LD. destruct mode as [s|].
    - specialize (LD ltac:(discriminate)). destruct MODE as [M1 M2].
      assert (MN : exists t, py_min (stations ns tw) = Ok t) by (unfold stations; simpl; eauto).
      destruct MN as [t MN]. rewrite MN. unfold bind at 1.
      assert (ML : lookup_twist_mode s = Ok tt).
      { unfold lookup_twist_mode. replace (existsb _ _) with true; [reflexivity|]. symmetry. apply existsb_exists.
        exists s. split; [exact M1 | apply String.eqb_refl]. }
      rewrite ML. unfold bind at 1.
      destruct (spread_twist_spec ns nc tw) as (twl & S1 & S2 & S3). rewrite S1. unfold bind at 1.
      destruct (twist_mesh_spec ns nc fm twl tw (fun k i => hl (zpoint k i (d k))) luff_a luff_b LM S2 FM S3) as (gm & G1 & G2 & G3).
      + rewrite zpoint_luff by (apply AC; lia). simpl INR. unfold Rdiv. rewrite Rmult_0_l. apply slerp_0.
      + rewrite zpoint_luff by (apply AC; lia). unfold Rdiv. rewrite Rinv_r by assumption. apply slerp_1.
      + exact M2.
      + intros k K. exists (INR k / INR ns). apply zpoint_luff, AC. assumption.
      + destruct (twist_mesh_spec ns nc fu (rev twl) (fun k => tw (ns - k)%nat) (fun k i => smirror (hl (zpoint (ns - k) i (d k)))) (smirror luff_b) (smirror luff_a) LU) as (gu & U1 & U2 & U3).
        * rewrite rev_length. exact S2.
        * exact FU.
        * intros k i K I. rewrite nth_error_rev by (rewrite S2; nia). rewrite S2.
          replace ((ns + 1) * (nc + 1) - 1 - (k * (nc + 1) + i))%nat with ((ns - k) * (nc + 1) + (nc - i))%nat by nia.
          apply S3; lia.
        * rewrite zpoint_luff by (apply AC; lia). rewrite Nat.sub_0_r. unfold Rdiv. rewrite Rinv_r by assumption. rewrite slerp_1. reflexivity.
        * rewrite zpoint_luff by (apply AC; lia). rewrite Nat.sub_diag. simpl INR. unfold Rdiv. rewrite Rmult_0_l, slerp_0. reflexivity.
        * unfold smirror; cbn [vy vz]. destruct M2 as [M2|M2]; [left | right]; intros Q; apply M2; lra.
        * intros k K. exists (INR k / INR ns). rewrite zpoint_luff by (apply AC; lia).
          rewrite <- frac_rev by assumption. rewrite <- slerp_rev. apply slerp_mirror.
        * exists gm, gu. rewrite G1. unfold bind at 1. rewrite U1. unfold bind at 1. repeat split; try assumption.
          intros k i K I. rewrite U3 by assumption. f_equal. rewrite srot_line_mirror. f_equal. apply srot_line_swap. assumption.
    - exists fm, fu. repeat split; try assumption; intros k i K I; rewrite rad_0, srot_line_0; [apply FM | apply FU]; assumption. }
  destruct TW as (gm & gu & -> & GL1 & GL2 & G1 & G2). unfold bind at 1.
  destruct (reshape_spec gm (ns + 1) (nc + 1) GL1) as (rm & RM1 & RM2 & _). rewrite RM1. unfold bind at 1.
  destruct (reshape_spec gu (ns + 1) (nc + 1) GL2) as (ru & RU1 & RU2 & _). rewrite RU1. unfold bind at 1.
  destruct (transpose_spec v0 rm _ _ RM2) as (RT3 & _). destruct (transpose_spec v0 ru _ _ RU2) as (RT4 & _).
  assert (RT3' : rect (transpose (nc + 1) v0 rm) (S nc) (S ns)) by (replace (S nc) with (nc + 1)%nat by lia; replace (S ns) with (ns + 1)%nat by lia; exact RT3).
  assert (RT4' : rect (transpose (nc + 1) v0 ru) (S nc) (S ns)) by (replace (S nc) with (nc + 1)%nat by lia; replace (S ns) with (ns + 1)%nat by lia; exact RT4).
  destruct (panels_spec _ nc ns RT3') as (pa & te & le & A1 & _). destruct (panels_spec _ nc ns RT4') as (pu & teu & leu & B1 & _).
  destruct (panels_of_reshaped nc ns gm rm pa te le RM1 A1) as (A2 & A3 & A4 & A5).
  destruct (panels_of_reshaped nc ns gu ru pu teu leu RU1 B1) as (B2 & B3 & B4 & B5).
  rewrite A1. unfold bind at 1. rewrite B1. unfold bind at 1.
  assert (BE : forall x y : list bool, length x = (nc * ns)%nat -> length y = (nc * ns)%nat ->
     (forall i j, (i < nc)%nat -> (j < ns)%nat -> nth_error x (i * ns + j) = nth_error y (i * ns + j)) -> bools_eqb x y = true).
  { intros x y LX LY H. assert (x = y).
    { apply list_ext; [lia|]. intros k K. rewrite LX in K. destruct (divmod_lt k nc ns K) as (D1 & D2 & ->). apply H; assumption. }
    subst y. unfold bools_eqb. rewrite Nat.eqb_refl. simpl. apply forallb_forall. intros [u v] I.
    assert (u = v). { clear - I. induction x; simpl in I; [contradiction|]. destruct I as [I|I]; [congruence | auto]. }
    subst. simpl. apply eqb_reflx. }
  rewrite (BE te teu A3 B3), (BE le leu A4 B4).
  2,3: intros i j I J; destruct (A5 i j I J) as (_ & X1 & X2); destruct (B5 i j I J) as (_ & Y4 & Y5); congruence.
  unfold guard, bind. eexists. split; [reflexivity|]. cbn [sl_name sl_csys sl_head sl_tack sl_above sl_under sl_above_zero sl_under_zero].
  repeat (split; [solve [auto]|]). intros i j I J. repeat split.
  - destruct (A5 i j I J) as ((se & sw & nw & ne & H1 & H2 & H3 & H4 & ->) & _).
    rewrite G1 in H1, H2, H3, H4 by lia. congruence.
  - destruct (B5 i j I J) as ((se & sw & nw & ne & H1 & H2 & H3 & H4 & ->) & _).
    rewrite G2 in H1, H2, H3, H4 by lia. congruence.
  - destruct (Z3 i j I J) as ((se & sw & nw & ne & H1 & H2 & H3 & H4 & ->) & _).
    rewrite !QT1, !P1 in H1, H2, H3, H4 by lia. rewrite !Nat.add_1_r. unfold zpoint. congruence.
  - destruct (Y3 i j I J) as ((se & sw & nw & ne & H1 & H2 & H3 & H4 & ->) & _).
    rewrite !QT2, !P2 in H1, H2, H3, H4 by lia. rewrite ssection_mirror, frac_rev in H1, H2, H3, H4 by (assumption || lia). rewrite !Nat.add_1_r. unfold uzpoint, zpoint. congruence.
Qed.
End Whole.
