(** Points of snapshots and ends of bins: fixed periods, calendars, given values. *)
Require Import List Arith ZArith Bool Lia Sorted.
Require Import Verif.Common Verif.SegModel Verif.SegSpec Verif.SegProofs Verif.UserBinsSpec Verif.UserSnapSpec Verif.CalModel Verif.CalSpec Verif.CalProofs Verif.SnapPointsSpec Verif.GridProofs.
Require Import Verif.CsaModel Verif.CsaSegProofs Verif.CsaTimeProofs Verif.CsaRowsProofs.
Import ListNotations.
Local Open Scope Z_scope.

(** * Calendars *)
Section Cal.
Variable cg : cgrouper.
Hypothesis R : restartable cg.
Notation c := (cg_closed cg).
Definition cal_call (on : list Z) (b : option sbuf) := by_scale on (ByCal cg) None b.
Definition cal_restarts (v : Z) (b : sbuf) (K : Z) : Prop := sb_last_on b = None /\ exists r, sb_restart b = Some r /\ first_point cg r = first_point cg v + K * cg_n cg.
Notation edge := (fun v => bin_start cg (first_point cg v)).
Notation kap := (fun v => bin_of cg (first_point cg v)).
Notation lab := (fun v => bin_label cg (first_point cg v)).

Lemma cal_edge_inc : forall v i j, i < j -> edge v i < edge v j.
Proof. destruct R as (R1 & R2 & R3). intros v i j. apply bin_start_inc; auto. Qed.
Lemma cal_edge_kap : forall v k x, before c (edge v k) x = (kap v x <? k).
Proof. destruct R as (R1 & R2 & R3). intros v k x. apply bin_start_of; auto. Qed.
Lemma cal_lab_inc : forall v i j, i < j -> lab v i < lab v j.
Proof. destruct R as (R1 & R2 & R3). intros v i j. apply bin_label_inc; auto. Qed.
Lemma cal_k0 : forall v, 0 <= kap v v.
Proof. destruct R as (R1 & R2 & R3). intros v. apply first_bin; auto. Qed.
Lemma hd_last : forall on, on <> [] -> sorted on -> hd 0 on <= last on 0.
Proof. intros on H Hs. apply sorted_last_ge; auto. destruct on; [congruence|left; auto]. Qed.

Lemma cal_Honce : forall on, on <> [] -> sorted on -> cal_call on None = Ok (grid_seg c lab edge kap (hd 0 on) on 0, None).
Proof.
  destruct R as (R1 & R2 & R3). intros on H Hs. unfold cal_call, grid_seg.
  pose proof (by_scale_cal_is cg R1 R2 on (hd 0 on) (first_point cg (hd 0 on)) 0 None H Hs ltac:(lia)) as E. cbv zeta in E.
  apply E; auto. etransitivity; [apply (cal_k0 (hd 0 on))|]. apply (kmono c _ _ cal_edge_kap (hd 0 on)). apply hd_last; auto.
Qed.
Lemma cal_Hfirst : forall on, on <> [] -> sorted on -> exists b',
  cal_call on (Some sbuf_empty) = Ok (grid_seg c lab edge kap (hd 0 on) on 0, Some b') /\ cal_restarts (hd 0 on) b' (kap (hd 0 on) (last on 0)).
Proof.
  destruct R as (R1 & R2 & R3). intros on H Hs. unfold cal_call, grid_seg.
  pose proof (by_scale_cal_is cg R1 R2 on (hd 0 on) (first_point cg (hd 0 on)) 0 (Some sbuf_empty) H Hs ltac:(lia)) as E. cbv zeta in E.
  eexists. split; [apply E; auto|].
  - etransitivity; [apply (cal_k0 (hd 0 on))|]. apply (kmono c _ _ cal_edge_kap (hd 0 on)). apply hd_last; auto.
  - split; auto. eexists. split; [reflexivity|]. apply (restart_point cg R1 R2 R3); auto. apply (cal_k0 (hd 0 on)).
Qed.
Lemma cal_Hnext : forall v on b K, on <> [] -> sorted on -> cal_restarts v b K -> K <= kap v (hd 0 on) -> exists b',
  cal_call on (Some b) = Ok (grid_seg c lab edge kap v on K, Some b') /\ cal_restarts v b' (kap v (last on 0)).
Proof.
  destruct R as (R1 & R2 & R3). intros v on b K H Hs (B1 & r & B2 & B3) HK. unfold cal_call, grid_seg.
  pose proof (by_scale_cal_is cg R1 R2 on r (first_point cg v) K (Some b) H Hs B3) as E. cbv zeta in E.
  eexists. split; [apply E; auto|].
  - etransitivity; [exact HK|]. apply (kmono c _ _ cal_edge_kap v). apply hd_last; auto.
  - split; auto. rewrite B2. auto.
  - split; auto. eexists. split; [reflexivity|]. apply (restart_point cg R1 R2 R3); auto.
Qed.

Theorem cal_snapping_own : forall by_, (forall on b, cal_call on b = by_scale on by_ (Some c) b) ->
  snapping by_ c (grid_points lab edge kap (fun _ => 0)) (grid_after kap cal_restarts).
Proof. intros by_ Hc. exact (grid_snapping c lab edge kap (fun _ => 0) cal_edge_inc cal_edge_kap cal_lab_inc cal_k0 cal_call cal_restarts cal_Honce cal_Hfirst cal_Hnext by_ Hc). Qed.

Context {D : Type} (t : D -> Z).
Lemma cal_bin_ends_ : bin_ends t c (cal_by t cg) (cal_bins t cg) (cal_after t cg) (fun rows => sorted (map t rows))
  (grid_ends lab edge kap (fun _ => 0) t).
Proof.
  pose proof (grid_bin_ends c lab edge kap (fun _ => 0) cal_edge_inc cal_edge_kap cal_lab_inc cal_k0 cal_call cal_restarts cal_Honce cal_Hfirst cal_Hnext t) as G.
  destruct R as (R1 & R2 & R3).
  assert (Eb : forall rows, cal_bins t cg rows = grid_bins lab kap (fun _ => 0) t rows).
  { intros [|r0 rows0]; auto. rewrite cal_bins_cells by (auto; discriminate). reflexivity. }
  assert (Ea : forall rows b, cal_after t cg rows b -> grid_after kap cal_restarts (map t rows) b).
  { intros [|r0 rows0] b Ha; auto. apply (cal_after_is cg t) in Ha; [|discriminate]. exact Ha. }
  destruct G as [G1 G2 G3 G4 G5]. split; auto.
  - intros rows i j e r. rewrite Eb. apply G2.
  - intros rows more. rewrite Eb. apply G3.
  - intros rows more b sg b' Hm Hg Ha E. rewrite Eb. apply (G4 rows more b sg b'); auto.
Qed.
End Cal.



Theorem cal_snapping : forall cg c, restartable (with_closed cg c) -> snapping (ByCal cg) c (cal_points c cg) (cal_points_after c cg).
Proof.
  intros cg c R. pose proof (cal_snapping_own (with_closed cg c) R (ByCal cg) (fun on b => eq_refl)) as S. cbn [cg_closed with_closed] in S.
  assert (Ea : forall on b, cal_points_after c cg on b <-> grid_after (fun v => bin_of (with_closed cg c) (first_point (with_closed cg c) v)) (cal_restarts (with_closed cg c)) on b).
  { intros [|v on] b; [reflexivity|]. unfold cal_points_after. rewrite (cal_after_is (with_closed cg c) (fun v => v)) by discriminate. rewrite map_id. reflexivity. }
  assert (Ep : forall on, cal_points c cg on = grid_points (fun v => bin_label (with_closed cg c) (first_point (with_closed cg c) v)) (fun v => bin_start (with_closed cg c) (first_point (with_closed cg c) v))
    (fun v => bin_of (with_closed cg c) (first_point (with_closed cg c) v)) (fun _ => 0) on) by (intros [|v on]; reflexivity).
  destruct S as [[S1 S2 S3] S4 S5 S6 S7]. split; [split| | | |].
  - intros on. rewrite Ep. auto.
  - intros on. rewrite Ep. auto.
  - intros on. rewrite Ep. auto.
  - split; [reflexivity|]. apply Ea. apply S4.
  - intros on more. rewrite !Ep. auto.
  - intros on ps x. rewrite Ep. apply S6.
  - intros on more b Hm Hs Ha. apply Ea in Ha. destruct (S7 on more b Hm Hs Ha) as (ss & b' & E1 & E2 & E3). exists ss, b'. rewrite !Ep. split; auto. split; auto. apply Ea; auto.
Qed.

Theorem cal_bin_ends : forall {D} (t : D -> Z) cg, restartable cg ->
  bin_ends t (cg_closed cg) (cal_by t cg) (cal_bins t cg) (cal_after t cg) (fun rows => sorted (map t rows)) (cal_ends t cg).
Proof.
  intros D t cg R. pose proof (cal_bin_ends_ cg R t) as G.
  assert (Ee : forall rows, cal_ends t cg rows = grid_ends (fun v => bin_label cg (first_point cg v)) (fun v => bin_start cg (first_point cg v)) (fun v => bin_of cg (first_point cg v)) (fun _ => 0) t rows).
  { intros rows. destruct cg. reflexivity. }
  destruct G as [G1 G2 G3 G4 G5]. split.
  - intros rows. rewrite Ee. auto.
  - intros rows i j e r. rewrite Ee. apply G2.
  - intros rows more. rewrite !Ee. apply G3.
  - intros rows more b sg b'. rewrite Ee. apply G4.
  - intros rows sg b'. rewrite Ee. apply G5.
Qed.

(** * Periods of a fixed length *)
Section Time.
Variables (tg : tgrouper) (c : side).
Hypothesis Hf : 0 < tg_freq tg.
Hypothesis Hfix : fixed_periods tg.
Notation a := (anchor tg).
Notation f := (tg_freq tg).
Definition time_restarts (v : Z) (b : sbuf) (K : Z) : Prop := tg_buf_ok c tg b (Some K).
Notation edge := (fun (v : Z) k => a + k * f).
Notation kap := (fun (v : Z) => kappa c a f).
Notation lab := (fun (v : Z) => period_label (tg_label tg) a f).
Notation call := (fun on b => by_scale on (ByTG tg) (Some c) b).

Lemma time_edge_inc : forall v i j, i < j -> edge v i < edge v j.
Proof. intros v i j H. cbv beta. nia. Qed.
Lemma time_edge_kap : forall v k x, before c (edge v k) x = (kap v x <? k).
Proof. intros v k x. apply before_kappa; auto. Qed.
Lemma time_lab_inc : forall v i j, i < j -> lab v i < lab v j.
Proof. intros v i j H. destruct (tg_label tg); simpl; nia. Qed.
Lemma time_k0 : forall v, kap v v <= kap v v.
Proof. intros; lia. Qed.
Lemma time_Honce : forall on, on <> [] -> sorted on -> call on None = Ok (grid_seg c lab edge kap (hd 0 on) on (kappa c a f (hd 0 on)), None).
Proof.
  intros on H Hs. pose proof (by_scale_tg_gen tg (Some c) on (hd 0 on) a (kappa c a f (hd 0 on)) None) as E. cbv zeta in E. cbv beta. rewrite E; auto.
  - apply kappa_mono; auto. apply hd_last; auto.
  - rewrite gtre_fixed by auto. auto.
Qed.
Lemma time_Hfirst : forall on, on <> [] -> sorted on -> exists b',
  call on (Some sbuf_empty) = Ok (grid_seg c lab edge kap (hd 0 on) on (kappa c a f (hd 0 on)), Some b') /\ time_restarts (hd 0 on) b' (kap (hd 0 on) (last on 0)).
Proof.
  intros on H Hs. pose proof (by_scale_tg_fixed tg (Some c) on sbuf_empty None) as E. cbv zeta in E. destruct E as [E1 E2]; auto.
  - split; simpl; auto.
  - lia.
  - eexists. split; [exact E1|]. exact E2.
Qed.
Lemma time_Hnext : forall v on b K, on <> [] -> sorted on -> time_restarts v b K -> K <= kap v (hd 0 on) -> exists b',
  call on (Some b) = Ok (grid_seg c lab edge kap v on K, Some b') /\ time_restarts v b' (kap v (last on 0)).
Proof.
  intros v on b K H Hs Hb HK. pose proof (by_scale_tg_fixed tg (Some c) on b (Some K)) as E. cbv zeta in E. destruct E as [E1 E2]; auto.
  eexists. split; [exact E1|]. exact E2.
Qed.
End Time.

Definition time_points_after (c : side) (tg : tgrouper) (on : list Z) (b : sbuf) : Prop :=
  match on with [] => b = sbuf_empty | _ => tg_buf_ok c tg b (Some (kappa c (anchor tg) (tg_freq tg) (last on 0))) end.

Theorem time_snapping : forall tg c, 0 < tg_freq tg -> fixed_periods tg -> snapping (ByTG tg) c (time_points c tg) (time_points_after c tg).
Proof.
  intros tg c Hf Hfix.
  exact (grid_snapping c _ _ _ _ (time_edge_inc tg Hf) (time_edge_kap tg c Hf) (time_lab_inc tg Hf) (time_k0 tg c) _ (time_restarts tg c) (time_Honce tg c Hf Hfix) (time_Hfirst tg c Hf Hfix) (time_Hnext tg c Hf Hfix) (ByTG tg) (fun on b => eq_refl)).
Qed.

Definition time_after {D} (t : D -> Z) (tg : tgrouper) (rows : list D) (b : sbuf) : Prop := time_points_after (tg_closed tg) tg (map t rows) b.
Lemma time_groups_grid : forall {D} (t : D -> Z) tg rows, 0 < tg_freq tg ->
  time_groups_of t tg rows = grid_bins (fun _ => period_label (tg_label tg) (anchor tg) (tg_freq tg)) (fun _ => kappa (tg_closed tg) (anchor tg) (tg_freq tg)) (fun v => kappa (tg_closed tg) (anchor tg) (tg_freq tg) v) t rows.
Proof.
  intros D t tg rows Hf. unfold time_groups_of, grid_bins. destruct (map t rows); auto. apply map_ext. intro k. f_equal. apply filter_ext. intro r.
  apply eq_true_iff_eq. rewrite in_period_kappa by auto. rewrite Z.eqb_eq. split; auto.
Qed.
Theorem time_binning : forall {D} (t : D -> Z) tg, 0 < tg_freq tg -> fixed_periods tg ->
  binning (time_bins t tg) sbuf_empty (time_groups_of t tg) (time_after t tg) (fun rows => sorted (map t rows)).
Proof.
  intros D t tg Hf Hfix. set (c := tg_closed tg).
  pose proof (grid_binning c _ _ _ _ (time_edge_inc tg Hf) (time_edge_kap tg c Hf) (time_lab_inc tg Hf) (time_k0 tg c) _ (time_restarts tg c) (time_Honce tg c Hf Hfix) (time_Hfirst tg c Hf Hfix) (time_Hnext tg c Hf Hfix) t) as G.
  assert (Ec : forall rows b, time_bins t tg rows b = by_scale (map t rows) (ByTG tg) (Some c) b) by reflexivity.
  destruct G as [G1 G2 G3 G4 G5 G6]. split; auto.
  - intros rows. rewrite time_groups_grid by auto. apply G3.
  - intros rows more. rewrite !time_groups_grid by auto. apply G4.
  - intros rows more b Hm Hs Ha. destruct (G5 rows more b Hm Hs Ha) as (sg & b' & E1 & E2 & E3). exists sg, b'. split; auto. split; auto.
    unfold new_bins in *. rewrite !time_groups_grid by auto. auto.
  - intros rows H Hs. destruct (G6 rows H Hs) as (sg & E1 & E2). exists sg. split; auto. rewrite time_groups_grid by auto. auto.
Qed.
Theorem time_bin_ends : forall {D} (t : D -> Z) tg, 0 < tg_freq tg -> fixed_periods tg ->
  bin_ends t (tg_closed tg) (time_bins t tg) (time_groups_of t tg) (time_after t tg) (fun rows => sorted (map t rows)) (time_ends t tg).
Proof.
  intros D t tg Hf Hfix. set (c := tg_closed tg).
  pose proof (grid_bin_ends c _ _ _ _ (time_edge_inc tg Hf) (time_edge_kap tg c Hf) (time_lab_inc tg Hf) (time_k0 tg c) _ (time_restarts tg c) (time_Honce tg c Hf Hfix) (time_Hfirst tg c Hf Hfix) (time_Hnext tg c Hf Hfix) t) as G.
  destruct G as [G1 G2 G3 G4 G5]. split; auto.
  - intros rows i j e r. rewrite time_groups_grid by auto. apply G2.
  - intros rows more. rewrite !time_groups_grid by auto. apply G3.
  - intros rows more b sg b' Hm Hg Ha E. rewrite time_groups_grid by auto. apply (G4 rows more b sg b'); auto.
Qed.

Lemma take_until_prefix : forall {A} (P : A -> bool) l, exists m, l = take_until P l ++ m.
Proof. induction l as [|x l [m IH]]; [exists []; auto|]. simpl. destruct (P x); [exists l; auto|]. exists m. simpl. f_equal. auto. Qed.
Theorem vals_points_ok : forall k labels ends c, length labels = length ends -> ends <> [] -> sorted ends -> NoDup labels ->
  snap_points (ByVals k labels ends) c (vals_points c labels ends).
Proof.
  intros k labels ends c Hl He Hs Hn.
  assert (F1 : map fst (combine labels ends) = labels) by (clear -Hl; revert ends Hl; induction labels as [|x l IH]; intros [|y m] H; simpl in *; try discriminate; f_equal; auto).
  assert (F2 : map snd (combine labels ends) = ends) by (clear -Hl; revert ends Hl; induction labels as [|x l IH]; intros [|y m] H; simpl in *; try discriminate; f_equal; auto).
  split.
  - intros on _. unfold vals_points. destruct (take_until_prefix (fun le => forallb (before c (snd le)) on) (combine labels ends)) as (m & E).
    rewrite <- F1 in Hn. rewrite E, map_app in Hn. revert Hn. generalize (map fst (take_until (fun le => forallb (before c (snd le)) on) (combine labels ends))) as l.
    clear. induction l as [|x l IH]; intros H; constructor; inversion H; subst; auto. intro Q. apply H2. apply in_or_app; auto.
  - intros on _. unfold vals_points. destruct (take_until_prefix (fun le => forallb (before c (snd le)) on) (combine labels ends)) as (m & E).
    rewrite <- F2 in Hs. rewrite E, map_app in Hs. apply sorted_app in Hs. tauto.
  - intros on H Hon. destruct (vals_once (fun v => v) k labels ends c on H ltac:(rewrite map_id; auto) Hl He Hs Hn) as (ss & E & S1 & S2 & S3 & S4).
    rewrite map_id in *. exists ss. split; auto. change (combine (s_labels ss) (s_ends ss) = vals_points c labels ends on) in S4. destruct S1.
    assert (L : length (s_labels ss) = length (s_ends ss)) by congruence.
    split; auto.
    + rewrite <- S4. clear -L. revert L. generalize (s_labels ss), (s_ends ss). induction l as [|x l IH]; intros [|y m] H; simpl in *; try discriminate; f_equal; auto.
    + rewrite <- S4. clear -L. revert L. generalize (s_labels ss), (s_ends ss). induction l as [|x l IH]; intros [|y m] H; simpl in *; try discriminate; f_equal; auto.
    + rewrite S2, <- S4. clear -L. revert L. generalize (s_labels ss), (s_ends ss). induction l as [|x l IH]; intros [|y m] H; simpl in *; try discriminate; f_equal; auto.
Qed.

(** * Rows of snapshots *)
Theorem cal_shots : forall {D} (t : D -> Z) cg points rows, restartable cg -> sorted (map t rows) ->
  shots t (cg_closed cg) (cal_bins t cg) (cal_ends t cg) points rows = direct_shots t (cg_closed cg) (cal_ends t cg) points rows.
Proof.
  intros D t cg points rows R Hs. unfold shots, direct_shots. apply map_ext. intros p. f_equal.
  assert (Eb : cal_bins t cg rows = grid_bins (fun v => bin_label cg (first_point cg v)) (fun v => bin_of cg (first_point cg v)) (fun _ => 0) t rows).
  { destruct rows as [|r0 rows0]; auto. destruct R as (R1 & R2 & _). rewrite cal_bins_cells by (auto; discriminate). reflexivity. }
  pose proof (grid_shot (cg_closed cg) (fun v => bin_label cg (first_point cg v)) (fun v => bin_start cg (first_point cg v)) (fun v => bin_of cg (first_point cg v)) (fun _ => 0)
    (cal_edge_inc cg R) (cal_edge_kap cg R) (cal_k0 cg R) t rows (snd p) Hs) as G.
  assert (Ee : cal_ends t cg rows = grid_ends (fun v => bin_label cg (first_point cg v)) (fun v => bin_start cg (first_point cg v)) (fun v => bin_of cg (first_point cg v)) (fun _ => 0) t rows).
  { destruct cg. reflexivity. }
  rewrite <- Eb, <- Ee in G. exact G.
Qed.
Theorem time_shots : forall {D} (t : D -> Z) tg points rows, 0 < tg_freq tg -> sorted (map t rows) ->
  shots t (tg_closed tg) (time_groups_of t tg) (time_ends t tg) points rows = direct_shots t (tg_closed tg) (time_ends t tg) points rows.
Proof.
  intros D t tg points rows Hf Hs. unfold shots, direct_shots. apply map_ext. intros p. f_equal. rewrite time_groups_grid by auto. set (c := tg_closed tg).
  exact (grid_shot c _ _ _ _ (time_edge_inc tg Hf) (time_edge_kap tg c Hf) (time_k0 tg c) t rows (snd p) Hs).
Qed.
