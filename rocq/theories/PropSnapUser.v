(** Properties: snapshots along with any bins (C73). *)
Require Import List Arith ZArith Bool Lia Sorted.
Require Import Verif.Common Verif.AggModel Verif.AggSpec Verif.AggProofs.
Require Import Verif.SegModel Verif.SegSpec Verif.SegProofs Verif.CsaModel Verif.CsaSpec Verif.CsaProofs Verif.CsaPiecesProofs.
Require Import Verif.UserBinsSpec Verif.UserSnapSpec Verif.UserSnapProofs Verif.CalModel Verif.CalSpec Verif.CalProofs Verif.SnapPointsSpec Verif.UserSnapInst Verif.RowBinsProofs.
Require Import Verif.PropSeg Verif.PropCsa Verif.PropUser Verif.PropCal.
Import ListNotations.

(** * C73: snapshots along with any bins *)
(** One call. A snapshot is that of the bin in progress at its point, with its rows before this point. *)
Theorem C73_snapshots : forall {D V B} (N : dtype -> num V) (val : D -> cname -> V) agg dtypes (t : D -> Z) c bin_by (empty : B) bins after good ends by_ points eo rows,
  agg_valid agg dtypes -> NoDup (map fst agg) -> agg <> [] ->
  binning bin_by empty bins after good -> bin_ends t c bin_by bins after good ends -> snap_points by_ c points ->
  rows <> [] -> good rows -> sorted (map t rows) ->
  outcome N val agg dtypes eo (bins rows) (Some (shots t c bins ends points rows)) (fun b => b = None)
    (cumsegagg N val agg dtypes bin_by empty (Some t) (Some by_) eo rows None).
Proof. intros D V B N val agg dtypes t c bin_by empty bins after good ends by_ points eo rows H1 H2 H3 H4 H5 H6 H7 H8 H9. eapply snap_once; eauto. split; auto. Qed.
Print Assumptions C73_snapshots.

(** Successive calls: frames of pieces make the frames of a single call. *)
Theorem C73_snapshots_pieces : forall {D V B} (N : dtype -> num V) (val : D -> cname -> V) agg dtypes (t : D -> Z) c bin_by (empty : B) bins after good ends by_ points safter eo pieces,
  agg_valid agg dtypes -> NoDup (map fst agg) -> agg <> [] ->
  binning bin_by empty bins after good -> bin_ends t c bin_by bins after good ends -> snapping by_ c points safter ->
  concat pieces <> [] -> good (concat pieces) -> sorted (map t (concat pieces)) ->
  let csa := cumsegagg N val agg dtypes bin_by empty (Some t) (Some by_) in
  (eo = false -> exists rs b', run_pieces (csa eo) (Some csabuf_empty) pieces = Ok (rs, b')) /\
  (forall rs b', run_pieces (csa eo) (Some csabuf_empty) pieces = Ok (rs, b') ->
   exists fw sw, csa false (concat pieces) None = Ok (Some (fw, Some sw), None) /\ frames_make agg (bin_frames rs) fw /\ frames_make agg (snap_frames rs) sw).
Proof.
  intros D V B N val agg dtypes t c bin_by empty bins after good ends by_ points safter eo pieces H1 H2 H3 H4 H5 H6 H7 H8 H9.
  exact (snap_pieces N val agg dtypes H1 H2 H3 t c bin_by empty bins after good ends H4 H5 by_ points safter H6 eo pieces H7 (conj H8 H9)).
Qed.
Print Assumptions C73_snapshots_pieces.

(** Points of snapshots: periods of a fixed length, periods of a calendar, given values. *)
Theorem C73_points : forall c,
  (forall tg, (0 < tg_freq tg)%Z -> fixed_periods tg -> exists after, snapping (ByTG tg) c (time_points c tg) after) /\
  (forall cg, restartable (with_closed cg c) -> exists after, snapping (ByCal cg) c (cal_points c cg) after) /\
  (forall k labels ends, length labels = length ends -> ends <> [] -> sorted ends -> NoDup labels -> snap_points (ByVals k labels ends) c (vals_points c labels ends)).
Proof.
  intros c. split; [|split].
  - intros tg Hf Hp. eexists. apply time_snapping; auto.
  - intros cg R. eexists. apply cal_snapping; auto.
  - intros. apply vals_points_ok; auto.
Qed.
Print Assumptions C73_points.

(** Bins: periods of a fixed length, periods of a calendar, numbers of rows. *)
Theorem C73_bins : forall {D} (t : D -> Z),
  (forall tg, (0 < tg_freq tg)%Z -> fixed_periods tg -> exists after,
     binning (time_bins t tg) sbuf_empty (time_groups_of t tg) after (fun rows => sorted (map t rows)) /\
     bin_ends t (tg_closed tg) (time_bins t tg) (time_groups_of t tg) after (fun rows => sorted (map t rows)) (time_ends t tg)) /\
  (forall cg, restartable cg -> exists after,
     binning (cal_by t cg) sbuf_empty (cal_bins t cg) after (fun rows => sorted (map t rows)) /\
     bin_ends t (cg_closed cg) (cal_by t cg) (cal_bins t cg) after (fun rows => sorted (map t rows)) (cal_ends t cg)) /\
  (forall x c, (0 < x)%nat -> exists after,
     binning (row_bins t x c) None (row_groups_of t x) after (rows_apart t x c) /\
     bin_ends t c (row_bins t x c) (row_groups_of t x) after (rows_apart t x c) (row_ends t x c)).
Proof.
  intros D t. split; [|split].
  - intros tg Hf Hp. eexists. split; [apply time_binning; auto|apply time_bin_ends; auto].
  - intros cg R. pose proof R as (R1 & R2 & R3). eexists. split; [apply (cal_binning cg R1 R2 t R3)|apply cal_bin_ends; auto].
  - intros x c Hx. eexists. split; [apply (row_binning t x Hx c)|apply (row_bin_ends t x Hx c)].
Qed.
Print Assumptions C73_bins.

(** Bins and snapshots by calendars, in one call and in successive ones. *)
Theorem C73_calendar_snapshots : forall {D V} (N : dtype -> num V) (val : D -> cname -> V) agg dtypes (t : D -> Z) cg sg eo pieces,
  agg_valid agg dtypes -> NoDup (map fst agg) -> agg <> [] -> restartable cg -> restartable (with_closed sg (cg_closed cg)) ->
  concat pieces <> [] -> sorted (map t (concat pieces)) ->
  let rows := concat pieces in
  let csa := cumsegagg N val agg dtypes (cal_by t cg) sbuf_empty (Some t) (Some (ByCal sg)) in
  let snaps := direct_shots t (cg_closed cg) (cal_ends t cg) (cal_points (cg_closed cg) sg) rows in
  outcome N val agg dtypes eo (cal_bins t cg rows) (Some snaps) (fun b => b = None) (csa eo rows None) /\
  (eo = false -> exists rs b', run_pieces (csa eo) (Some csabuf_empty) pieces = Ok (rs, b')) /\
  (forall rs b', run_pieces (csa eo) (Some csabuf_empty) pieces = Ok (rs, b') ->
   exists fw sw, csa false rows None = Ok (Some (fw, Some sw), None) /\ frames_make agg (bin_frames rs) fw /\ frames_make agg (snap_frames rs) sw).
Proof.
  intros D V N val agg dtypes t cg sg eo pieces H1 H2 H3 R Rs Hne Hs rows csa snaps. pose proof R as (R1 & R2 & R3).
  pose proof (cal_binning cg R1 R2 t R3) as Hb. pose proof (cal_bin_ends t cg R) as He. pose proof (cal_snapping sg (cg_closed cg) Rs) as Hp.
  unfold snaps. rewrite <- cal_shots by auto.
  split; [apply (C73_snapshots N val agg dtypes t (cg_closed cg) (cal_by t cg) sbuf_empty _ _ _ _ (ByCal sg) _ eo rows H1 H2 H3 Hb He (sn_points _ _ _ _ Hp) Hne Hs Hs)|].
  exact (C73_snapshots_pieces N val agg dtypes t (cg_closed cg) (cal_by t cg) sbuf_empty _ _ _ _ (ByCal sg) _ _ eo pieces H1 H2 H3 Hb He Hp Hne Hs Hs).
Qed.
Print Assumptions C73_calendar_snapshots.

(** Bins of a fixed length, with snapshots by a calendar. *)
Theorem C73_calendar_snapshots_time_bins : forall {D V} (N : dtype -> num V) (val : D -> cname -> V) agg dtypes (t : D -> Z) tg sg eo pieces,
  agg_valid agg dtypes -> NoDup (map fst agg) -> agg <> [] -> (0 < tg_freq tg)%Z -> fixed_periods tg -> restartable (with_closed sg (tg_closed tg)) ->
  concat pieces <> [] -> sorted (map t (concat pieces)) ->
  let rows := concat pieces in
  let csa := cumsegagg N val agg dtypes (time_bins t tg) sbuf_empty (Some t) (Some (ByCal sg)) in
  let snaps := direct_shots t (tg_closed tg) (time_ends t tg) (cal_points (tg_closed tg) sg) rows in
  outcome N val agg dtypes eo (time_groups_of t tg rows) (Some snaps) (fun b => b = None) (csa eo rows None) /\
  (eo = false -> exists rs b', run_pieces (csa eo) (Some csabuf_empty) pieces = Ok (rs, b')) /\
  (forall rs b', run_pieces (csa eo) (Some csabuf_empty) pieces = Ok (rs, b') ->
   exists fw sw, csa false rows None = Ok (Some (fw, Some sw), None) /\ frames_make agg (bin_frames rs) fw /\ frames_make agg (snap_frames rs) sw).
Proof.
  intros D V N val agg dtypes t tg sg eo pieces H1 H2 H3 Hf Hp Rs Hne Hs rows csa snaps.
  pose proof (time_binning t tg Hf Hp) as Hb. pose proof (time_bin_ends t tg Hf Hp) as He. pose proof (cal_snapping sg (tg_closed tg) Rs) as Hq.
  unfold snaps. rewrite <- time_shots by auto.
  split; [apply (C73_snapshots N val agg dtypes t (tg_closed tg) (time_bins t tg) sbuf_empty _ _ _ _ (ByCal sg) _ eo rows H1 H2 H3 Hb He (sn_points _ _ _ _ Hq) Hne Hs Hs)|].
  exact (C73_snapshots_pieces N val agg dtypes t (tg_closed tg) (time_bins t tg) sbuf_empty _ _ _ _ (ByCal sg) _ _ eo pieces H1 H2 H3 Hb He Hq Hne Hs Hs).
Qed.
Print Assumptions C73_calendar_snapshots_time_bins.

(** * A function written by the user *)
(** As [generic_bin_by], the end of a bin being the value of the first row of the next one. *)
Definition first_value {D} (t : D -> Z) (rows : list D) : Z := match rows with [] => 0%Z | r :: _ => t r end.
Definition ends_bin_by {D} (t : D -> Z) (bins : list D -> list (Z * list D)) (more : list D) (buffer : option (list D)) : res (seg * option (list D)) :=
  let seen := match buffer with Some b => b | None => [] end in
  let* (sg, b') := generic_bin_by bins more buffer in
  Ok (mkSeg (s_starts sg) (s_labels sg) (s_nnull sg) SLeft (map (fun b => first_value t (snd b)) (tl (new_bins bins seen more)) ++ [last (map t more) 0%Z]) true 0, b').
Definition next_ends {D} (t : D -> Z) (bins : list D -> list (Z * list D)) (rows : list D) : list Z := map (fun b => first_value t (snd b)) (tl (bins rows)).

Lemma sorted_nth_intro : forall l, (forall i j, i <= j -> j < length l -> (nth i l 0 <= nth j l 0)%Z) -> sorted l.
Proof.
  induction l as [|a l IH]; intros H; constructor.
  - apply IH. intros i j H1 H2. apply (H (S i) (S j)); simpl; lia.
  - rewrite Forall_forall. intros z Hz. apply (In_nth _ _ 0%Z) in Hz as (k & Hk & <-). apply (H 0 (S k)); simpl; lia.
Qed.
Section Own.
Context {D : Type}.
Variable t : D -> Z.
Variable bins : list D -> list (Z * list D).
Hypothesis Hnone : bins [] = [].
Hypothesis Hlabels : forall rows, NoDup (map fst (bins rows)).
Hypothesis Hmore : forall rows more, rows <> [] -> exists bs l r r' bs', bins rows = bs ++ [(l, r)] /\ r <> [] /\ bins (rows ++ more) = bs ++ (l, r ++ r') :: bs'.
Hypothesis Hall : forall rows, concat (map snd (bins rows)) = rows.
Hypothesis Hrows : forall rows b, In b (bins rows) -> snd b <> [].
Notation good := (fun rows => sorted (map t rows)).

Lemma own_good : forall rows more : list D, sorted (map t (rows ++ more)) -> sorted (map t rows).
Proof. intros rows more H. rewrite map_app in H. apply sorted_app in H. tauto. Qed.
Lemma own_ne : forall rows, rows <> [] -> bins rows <> [].
Proof. intros rows H. destruct (Hmore rows [] H) as (bs & l & r & _ & _ & E & _). rewrite E. destruct bs; discriminate. Qed.
Lemma new_ne : forall rows more, more <> [] -> new_bins bins rows more <> [].
Proof.
  intros rows more Hm. unfold new_bins. destruct rows as [|r0 rows0]; [rewrite Hnone; simpl; apply own_ne; auto|].
  destruct (Hmore (r0 :: rows0) more ltac:(discriminate)) as (bs & l & r & r' & bs' & E1 & _ & E2). rewrite E1, E2, app_length. simpl length.
  rewrite Nat.add_sub, skipn_app, skipn_all, Nat.sub_diag. discriminate.
Qed.
Lemma own_binning : binning (ends_bin_by t bins) [] bins (fun rows b => b = rows) good.
Proof.
  pose proof (generic_binning bins good own_good Hnone (fun rows _ => Hlabels rows) (fun rows more H _ => Hmore rows more H) (fun rows _ => Hall rows)) as [G1 G2 G3 G4 G5 G6].
  assert (HD : forall seen more sg running, more <> [] -> describes sg running more (new_bins bins seen more) ->
    describes (mkSeg (s_starts sg) (s_labels sg) (s_nnull sg) SLeft (map (fun b => first_value t (snd b)) (tl (new_bins bins seen more)) ++ [last (map t more) 0%Z]) true 0) running more (new_bins bins seen more)).
  { intros seen more sg running Hm [D1 D2 D3 D4 D5 D6 D7 D8]. split; auto. cbn [s_ends]. rewrite app_length, map_length. pose proof (new_ne seen more Hm) as Q.
    destruct (new_bins bins seen more); [congruence|]. simpl. lia. }
  split; auto.
  - intros rows more b Hm Hg ->. destruct (G5 rows more rows Hm Hg eq_refl) as (sg & b' & E & Eb & Ds). eexists _, b'. unfold ends_bin_by. rewrite E. split; [reflexivity|]. split; auto.
  - intros rows Hm Hg. destruct (G6 rows Hm Hg) as (sg & E & Ds). eexists. unfold ends_bin_by. rewrite E. split; [reflexivity|].
    pose proof (HD [] rows sg [] Hm) as W. unfold new_bins in *. rewrite Hnone in *. apply W. exact Ds.
Qed.
Lemma tl_skipn : forall {A} k (l : list A), tl (skipn k l) = skipn k (tl l).
Proof. intros A. induction k as [|k IH]; intros [|x l]; simpl; auto. rewrite IH. destruct l; auto. destruct k; auto. Qed.
Lemma first_In : forall rows : list D, rows <> [] -> exists r, In r rows /\ first_value t rows = t r.
Proof. intros [|r rows] H; [congruence|]. exists r. split; [left|]; auto. Qed.
Lemma concat_split : forall (l : list (list D)) j, concat l = concat (firstn j l) ++ concat (skipn j l).
Proof. intros. rewrite <- concat_app, firstn_skipn. auto. Qed.
Lemma bins_order : forall rows j j' r r', sorted (map t rows) -> j < j' -> In r (nth j (map snd (bins rows)) []) -> In r' (nth j' (map snd (bins rows)) []) -> (t r <= t r')%Z.
Proof.
  intros rows j j' r r' Hs Hj Hr Hr'. rewrite <- (Hall rows) in Hs. rewrite (concat_split _ j'), map_app in Hs. apply sorted_app in Hs as (_ & _ & S).
  assert (L : forall k z, In z (nth k (map snd (bins rows)) []) -> k < length (map snd (bins rows))).
  { intros k z Hz. destruct (le_lt_dec (length (map snd (bins rows))) k) as [Q|Q]; auto. rewrite nth_overflow in Hz by auto. destruct Hz. }
  pose proof (L _ _ Hr) as L1. pose proof (L _ _ Hr') as L2. apply S; apply in_map; apply in_concat.
  - exists (nth j (map snd (bins rows)) []). split; auto. rewrite <- (nth_firstn_lt _ j' j []) by auto. apply nth_In. rewrite firstn_length. lia.
  - exists (nth j' (map snd (bins rows)) []). split; auto. replace j' with (j' + 0) at 1 by lia. rewrite <- nth_skipn_. apply nth_In. rewrite skipn_length. lia.
Qed.
Lemma bin_ne : forall rows j, j < length (bins rows) -> nth j (map snd (bins rows)) [] <> [].
Proof.
  intros rows j Hj. rewrite (nth_indep _ [] (snd (0%Z, @nil D))) by (rewrite map_length; auto). rewrite map_nth. apply (Hrows rows). apply nth_In. auto.
Qed.
Lemma next_ends_nth : forall rows i, S i < length (bins rows) -> nth_error (next_ends t bins rows) i = Some (first_value t (nth (S i) (map snd (bins rows)) [])).
Proof.
  intros rows i Hi. unfold next_ends. destruct (bins rows) as [|b0 bs]; [simpl in Hi; lia|]. cbn [tl map nth].
  rewrite <- map_map. rewrite (map_nth_error (first_value t) i (map snd bs) (d := nth i (map snd bs) [])); auto. apply nth_error_nth'. rewrite map_length. simpl in Hi. lia.
Qed.
Lemma next_ends_length : forall rows, length (next_ends t bins rows) = length (bins rows) - 1.
Proof. intros rows. unfold next_ends. rewrite map_length. destruct (bins rows); simpl; lia. Qed.
Lemma next_ends_sorted : forall rows, sorted (map t rows) -> sorted (next_ends t bins rows).
Proof.
  intros rows Hs. apply sorted_nth_intro. intros i j Hi Hj. pose proof (next_ends_length rows) as L.
  assert (G : forall k, k < length (next_ends t bins rows) -> nth k (next_ends t bins rows) 0%Z = first_value t (nth (S k) (map snd (bins rows)) [])).
  { intros k Hk. apply nth_error_nth. apply next_ends_nth. lia. }
  rewrite !G by lia. destruct (Nat.eq_dec i j) as [->|Hn]; [lia|].
  destruct (first_In _ (bin_ne rows (S i) ltac:(lia))) as (r & R1 & ->). destruct (first_In _ (bin_ne rows (S j) ltac:(lia))) as (r' & R1' & ->).
  apply (bins_order rows (S i) (S j)); auto. lia.
Qed.
Lemma own_call : forall rows more, more <> [] -> sorted (map t (rows ++ more)) ->
  let ends := map (fun b => first_value t (snd b)) (tl (new_bins bins rows more)) in
  removelast (ends ++ [last (map t more) 0%Z]) = skipn (length (bins rows) - 1) (next_ends t bins (rows ++ more)) /\ sorted (ends ++ [last (map t more) 0%Z]).
Proof.
  intros rows more Hm Hs ends. assert (E : ends = skipn (length (bins rows) - 1) (next_ends t bins (rows ++ more))).
  { unfold ends, new_bins, next_ends. rewrite tl_skipn, skipn_map. auto. }
  rewrite removelast_last. split; auto. apply sorted_app. split; [|split; [repeat constructor|]].
  - rewrite E. pose proof (next_ends_sorted (rows ++ more) Hs) as W. rewrite <- (firstn_skipn (length (bins rows) - 1)) in W. apply sorted_app in W. tauto.
  - intros a b Ha [<-|[]]. rewrite E in Ha. assert (Ha' : In a (next_ends t bins (rows ++ more))) by (rewrite <- (firstn_skipn (length (bins rows) - 1)); apply in_or_app; auto).
    unfold next_ends in Ha'. apply in_map_iff in Ha' as (b & <- & Hb). assert (Hb' : In b (bins (rows ++ more))) by (destruct (bins (rows ++ more)); [destruct Hb|right; auto]).
    destruct (first_In _ (Hrows _ _ Hb')) as (r & R1 & ->). rewrite map_app in Hs. rewrite <- (last_app_ne (map t rows) (map t more) 0%Z) by (destruct more; [congruence|discriminate]).
    apply sorted_last_ge; auto. rewrite <- map_app. apply in_map. rewrite <- (Hall (rows ++ more)). apply in_concat. exists (snd b). split; auto. apply in_map. auto.
Qed.
Lemma own_bin_ends : bin_ends t SLeft (ends_bin_by t bins) bins (fun rows b => b = rows) good (next_ends t bins).
Proof.
  split.
  - apply next_ends_sorted.
  - intros rows i j e r Hs Hi Hr.
    assert (Hl : S i < length (bins rows)).
    { assert (Q : nth_error (next_ends t bins rows) i <> None) by congruence. apply nth_error_Some in Q. rewrite next_ends_length in Q. lia. }
    rewrite next_ends_nth in Hi by auto. injection Hi as <-. destruct (first_In _ (bin_ne rows (S i) Hl)) as (r' & R1 & E). rewrite E. destruct (Nat.leb_spec j i) as [Q|Q].
    + apply (bins_order rows j (S i)); auto. lia.
    + cbn [before]. apply Z.ltb_ge. destruct (Nat.eq_dec j (S i)) as [->|Hn]; [|apply (bins_order rows (S i) j); auto; lia].
      (* first row of the bin *)
      assert (Hs' : sorted (map t (nth (S i) (map snd (bins rows)) []))).
      { rewrite <- (Hall rows) in Hs. rewrite (concat_split _ (S i)), map_app in Hs. apply sorted_app in Hs as (_ & Hs & _).
        assert (L : S i < length (map snd (bins rows))) by (rewrite map_length; auto). revert Hs L. generalize (map snd (bins rows)). clear. intros l Hs L.
        replace (skipn (S i) l) with (nth (S i) l [] :: skipn (S (S i)) l) in Hs.
        - simpl concat in Hs. rewrite map_app in Hs. apply sorted_app in Hs. tauto.
        - clear Hs. revert L. generalize (S i) as k. intros k. revert l. induction k as [|k IH]; intros [|a l] L; simpl in *; try lia; auto. apply IH. lia. }
      rewrite <- E. destruct (nth (S i) (map snd (bins rows)) []) as [|r1 rs]; [destruct Hr|]. simpl. change (t r1) with (hd 0%Z (map t (r1 :: rs))). apply sorted_hd_le; auto. apply in_map. auto.
  - intros rows more H Hs. destruct (Hmore rows more H) as (bs & l & r & r' & bs' & E1 & Er & E2). unfold next_ends. rewrite E1, E2, app_length. simpl length. rewrite Nat.add_sub.
    destruct bs as [|b0 bs]; [reflexivity|]. cbn [app tl length]. rewrite !map_app. simpl map. rewrite <- (map_length (fun b => first_value t (snd b)) bs).
    assert (F : first_value t (r ++ r') = first_value t r) by (destruct r; [congruence|reflexivity]). rewrite F.
    change (S (length (map (fun b => first_value t (snd b)) bs))) with (1 + length (map (fun b => first_value t (snd b)) bs)).
    rewrite Nat.add_comm. rewrite !firstn_app_2. reflexivity.
  - intros rows more b sg b' Hm Hs -> E. unfold ends_bin_by in E. destruct (generic_bin_by bins more (Some rows)) as [[sg0 b0]|]; cbn [bind] in E; [|discriminate]. injection E as <- <-.
    destruct (own_call rows more Hm Hs) as [C1 C2]. split; [reflexivity|]. split; [exact C2|]. exact C1.
  - intros rows sg b' Hm Hs E. unfold ends_bin_by in E. destruct (generic_bin_by bins rows None) as [[sg0 b0]|]; cbn [bind] in E; [|discriminate]. injection E as <- <-.
    destruct (own_call [] rows Hm Hs) as [C1 C2]. split; [reflexivity|]. split; [exact C2|]. rewrite Hnone in C1. exact C1.
Qed.
End Own.

(** * Concrete cases *)
Local Open Scope Z_scope.
(** By month, with a snapshot per week. *)
Definition ex_snap_pieces := [firstn 1 ex_cal_rows; []; firstn 2 (skipn 1 ex_cal_rows); firstn 1 (skipn 3 ex_cal_rows)].
Example ex_C73_calendar : restartable by_month /\ restartable (with_closed by_week SLeft) /\ sorted (map fst (concat ex_snap_pieces)) /\
  map (fun b => (fst b, map snd (snd b))) (direct_shots fst SLeft (cal_ends fst by_month) (cal_points SLeft by_week) (concat ex_snap_pieces)) =
    [(at_ 2020 1 19 0, [1]); (at_ 2020 1 26 0, [1]); (at_ 2020 2 2 0, [3]); (at_ 2020 2 9 0, [3]); (at_ 2020 2 16 0, [3]); (at_ 2020 2 23 0, [3]); (at_ 2020 3 1 0, [3; 4])] /\
  match run_pieces (ex_csa (cal_by fst by_month) sbuf_empty (Some fst) (Some (ByCal by_week)) true) (Some csabuf_empty) ex_snap_pieces with
  | Ok (rs, _) =>
      map f_labels (bin_frames rs) = [[at_ 2020 1 1 0]; [at_ 2020 1 1 0; at_ 2020 2 1 0]; [at_ 2020 2 1 0]] /\
      map (fcol 10%nat) (bin_frames rs) = [[Some 1]; [Some 3; Some 3]; [Some 7]] /\
      map f_labels (snap_frames rs) = [[at_ 2020 1 19 0]; [at_ 2020 1 19 0; at_ 2020 1 26 0; at_ 2020 2 2 0]; [at_ 2020 2 2 0; at_ 2020 2 9 0; at_ 2020 2 16 0; at_ 2020 2 23 0; at_ 2020 3 1 0]] /\
      map (fcol 10%nat) (snap_frames rs) = [[Some 1]; [Some 1; Some 1; Some 3]; [Some 3; Some 3; Some 3; Some 3; Some 7]]
  | Err _ => False
  end.
Proof.
  split; [split; [exact MonthProofs.month_starts_ok|split; [reflexivity|auto]]|]. split; [split; [apply MonthProofs.weeks_ok|split; [reflexivity|auto]]|].
  split; [apply IterProofs.sortedb_iff; vm_compute; reflexivity|]. split; [vm_compute; reflexivity|]. vm_compute. auto.
Qed.

(** Bins of 5 days, with a snapshot per month. *)
Definition by_5_days := mkTG (5 * day) SLeft SLeft OEpoch 0.
Example ex_C73_time_bins : fixed_periods by_5_days /\ restartable (with_closed by_month SLeft) /\
  match run_pieces (ex_csa (time_bins fst by_5_days) sbuf_empty (Some fst) (Some (ByCal by_month)) true) (Some csabuf_empty) ex_snap_pieces with
  | Ok (rs, _) =>
      map f_labels (bin_frames rs) = [[at_ 2020 1 14 0]; [at_ 2020 1 14 0; at_ 2020 1 19 0; at_ 2020 1 24 0; at_ 2020 1 29 0]; [at_ 2020 1 29 0; at_ 2020 2 3 0; at_ 2020 2 8 0; at_ 2020 2 13 0; at_ 2020 2 18 0; at_ 2020 2 23 0; at_ 2020 2 28 0]] /\
      map f_labels (snap_frames rs) = [[at_ 2020 1 1 0]; [at_ 2020 1 1 0; at_ 2020 2 1 0]; [at_ 2020 2 1 0]] /\
      map (fcol 10%nat) (snap_frames rs) = [[None]; [Some 2; None]; [Some 4]]
  | Err _ => False
  end.
Proof.
  split; [exact I|]. split; [split; [exact MonthProofs.month_starts_ok|split; [reflexivity|auto]]|]. vm_compute. auto.
Qed.

(** Runs of equal values, with snapshots. *)
Lemma runs_rows : forall rows b, In b (runs rows) -> snd b <> [].
Proof.
  induction rows as [|r rows IH] using rev_ind; intros b Hb; [destruct Hb|]. rewrite runs_snoc in Hb. unfold add_to_runs in Hb.
  destruct (rev (runs rows)) as [|[l [|r0 rs]] bs] eqn:E; [destruct Hb as [<-|[]]; discriminate|destruct Hb as [<-|[]]; discriminate|].
  destruct (snd r0 =? snd r); apply in_app_or in Hb as [Hb|[<-|[]]]; try discriminate; apply IH; auto.
  assert (Hr : runs rows = rev bs ++ [(l, r0 :: rs)]) by (rewrite <- (rev_involutive (runs rows)), E; reflexivity). rewrite Hr in *. rewrite removelast_last in Hb. apply in_or_app. auto.
Qed.
Example ex_C73_user :
  binning (ends_bin_by fst runs) [] runs (fun rows b => b = rows) (fun rows => sorted (map fst rows)) /\
  bin_ends fst SLeft (ends_bin_by fst runs) runs (fun rows b => b = rows) (fun rows => sorted (map fst rows)) (next_ends fst runs) /\
  let rows := [(1, 5); (2, 5); (4, 3); (9, 3); (9, 3); (10, 5)] in
  next_ends fst runs rows = [4; 10] /\
  map (fun b => (fst b, map snd (snd b))) (shots fst SLeft runs (next_ends fst runs) (time_points SLeft ex_snap) rows) = [(0, [5]); (2, [5; 5]); (4, [3]); (6, [3]); (8, [3; 3; 3]); (10, [5])] /\
  match run_pieces (ex_csa (ends_bin_by fst runs) [] (Some fst) (Some (ByTG ex_snap)) true) (Some csabuf_empty) [firstn 3 rows; []; [nth 3 rows (0, 0)]; skipn 4 rows] with
  | Ok (rs, _) => map f_labels (snap_frames rs) = [[0; 2; 4]; [4; 6; 8]; [8; 10]] /\ map (fcol 10%nat) (snap_frames rs) = [[Some 5; Some 10; Some 3]; [Some 3; Some 3; Some 6]; [Some 9; Some 5]]
  | Err _ => False
  end.
Proof.
  pose proof runs_binning as [_ [N1 _] L1 M1 _ _].
  assert (A1 : forall rows more : list (Z * Z), rows <> [] -> exists bs l r r' bs', runs rows = bs ++ [(l, r)] /\ r <> [] /\ runs (rows ++ more) = bs ++ (l, r ++ r') :: bs') by (intros; apply M1; auto).
  assert (A2 : forall rows, concat (map snd (runs rows)) = rows) by (intros rows; destruct (runs_shape rows) as [[-> ->]|(bs & l & r0 & rs & _ & _ & _ & _ & Ec)]; auto).
  split; [apply own_binning; auto|]. split; [apply own_bin_ends; auto; apply runs_rows|]. vm_compute. auto.
Qed.

(** It is false for multiples, if bins are closed on the left: once a piece lies in a single period, next periods are made from the first row of this
    piece. Labels of snapshots are then other ones, without exception. *)
Theorem C73_multiple_refuted : exists (cg sg : cgrouper) (pieces : list (list (Z * Z))),
  restartable cg /\ calendar_ok (cg_cal sg) /\ cg_n sg = 2 /\ cg_closed cg = SLeft /\ sorted (map fst (concat pieces)) /\
  let csa := ex_csa (cal_by fst cg) sbuf_empty (Some fst) (Some (ByCal sg)) true in
  match run_pieces csa (Some csabuf_empty) pieces with Ok (rs, _) => last (concat (map f_labels (snap_frames rs))) 0 = at_ 2020 2 1 0 | Err _ => False end /\
  match csa (concat pieces) None with Ok (Some (_, Some f), _) => f_labels f = [at_ 2020 1 1 0; at_ 2020 3 1 0] | _ => False end.
Proof.
  exists by_month, by_2_months, [[(at_ 2020 1 10 0, 1)]; [(at_ 2020 2 10 0, 2)]; [(at_ 2020 3 10 0, 3)]].
  split; [split; [exact MonthProofs.month_starts_ok|split; [reflexivity|auto]]|]. split; [exact MonthProofs.month_starts_ok|]. split; [reflexivity|]. split; [reflexivity|].
  split; [apply IterProofs.sortedb_iff; vm_compute; reflexivity|]. split; vm_compute; reflexivity.
Qed.
Print Assumptions C73_multiple_refuted.

(** Bins of 2 rows closed on the right, with a snapshot per month. *)
Example ex_C73_rows : rows_apart fst 2 SRight (concat ex_snap_pieces) /\ restartable (with_closed by_month SRight) /\
  map (fun b => (fst b, map snd (snd b))) (shots fst SRight (row_groups_of fst 2) (row_ends fst 2 SRight) (cal_points SRight by_month) (concat ex_snap_pieces)) =
    [(at_ 2020 1 1 0, [3]); (at_ 2020 2 1 0, [])].
Proof.
  split; [split; [apply IterProofs.sortedb_iff; vm_compute; reflexivity|]|].
  - intros [|[|b]] H1 H2; [lia|vm_compute; reflexivity|simpl in H2; lia].
  - split; [split; [exact MonthProofs.month_starts_ok|split; [reflexivity|auto]]|]. vm_compute. reflexivity.
Qed.
