(** Bins of rows as a binning function, and their ends. *)
Require Import List Arith ZArith Bool Lia Sorted.
Require Import Verif.Common Verif.SegModel Verif.SegSpec Verif.SegProofs Verif.SegRowsProofs Verif.UserBinsSpec Verif.UserSnapSpec Verif.SnapPointsSpec.
Require Import Verif.CsaModel Verif.MergeProofs Verif.CsaPiecesProofs Verif.CsaSegProofs Verif.CsaTimeProofs Verif.CsaRowsProofs.
Import ListNotations.

Lemma Ok_inj_ : forall {A} (a b : A), Ok a = Ok b -> a = b.
Proof. congruence. Qed.
Lemma nth_firstn_lt : forall {A} (l : list A) n i d, i < n -> nth i (firstn n l) d = nth i l d.
Proof. induction l as [|a l IH]; intros [|n] [|i] d H; simpl; auto; try lia. apply IH. lia. Qed.
Lemma nth_skipn_ : forall {A} (l : list A) n i d, nth i (skipn n l) d = nth (n + i) l d.
Proof. induction l as [|a l IH]; intros [|n] i d; simpl; auto. destruct i; auto. Qed.

Section RowBins.
Context {D : Type}.
Variable t : D -> Z.
Variable x : nat.
Hypothesis Hx : 0 < x.
Variable c : side.
Definition row_after (rows : list D) (ob : option xbuf) : Prop := xbuf_ok x c (map t rows) ob.

Lemma groups_is : forall rows : list D, rows <> [] -> row_groups_of t x rows = row_groups t x 0 (S ((length rows - 1) / x)) rows.
Proof. intros rows H. unfold row_groups_of. rewrite ceil_div_S; auto. destruct rows; [congruence|simpl; lia]. Qed.
Lemma groups_nil : row_groups_of t x [] = [].
Proof. unfold row_groups_of, ceil_div. simpl length. rewrite Nat.div_small by lia. auto. Qed.
Lemma groups_last : forall rows : list D, length (row_groups_of t x rows) - 1 = xb0 x (length rows).
Proof.
  intros [|r rows]; [rewrite groups_nil; unfold xb0; simpl; rewrite Nat.div_small by lia; auto|].
  rewrite groups_is by discriminate. unfold row_groups. rewrite map_length, seq_length. unfold xb0. lia.
Qed.
Lemma skipn_map_seq : forall {A} (g : nat -> A) k n, skipn k (map g (seq 0 n)) = map g (seq k (n - k)).
Proof.
  intros A g k n. destruct (le_lt_dec k n) as [H|H].
  - replace n with (k + (n - k)) at 1 by lia. rewrite seq_app, map_app, skipn_app, skipn_all2 by (rewrite map_length, seq_length; lia).
    rewrite map_length, seq_length, Nat.sub_diag. auto.
  - rewrite skipn_all2 by (rewrite map_length, seq_length; lia). replace (n - k) with 0 by lia. auto.
Qed.
Lemma firstn_map_seq : forall {A} (g : nat -> A) k n, k <= n -> firstn k (map g (seq 0 n)) = map g (seq 0 k).
Proof.
  intros A g k n H. replace n with (k + (n - k)) by lia. rewrite seq_app, map_app, firstn_app, firstn_all2 by (rewrite map_length, seq_length; lia).
  rewrite map_length, seq_length, Nat.sub_diag. simpl. apply app_nil_r.
Qed.
Lemma new_rgb : forall H p : list D, p <> [] -> new_bins (row_groups_of t x) H p = rgb t x H p.
Proof.
  intros H p Hp. unfold new_bins. rewrite groups_last. rewrite groups_is by (intro Q; apply app_eq_nil in Q; tauto).
  unfold row_groups. rewrite skipn_map_seq. unfold rgb, row_groups, xb1. rewrite app_length.
  assert (HL : 0 < length p) by (destruct p; [congruence|simpl; lia]). destruct (xb_facts x (length H) (length p) Hx HL) as (F1 & F2 & F3 & F4 & F5 & F6).
  unfold xb1 in F4. f_equal. f_equal. lia.
Qed.
Lemma last_row_bin : forall H : list D, UserBinsSpec.last_rows (row_groups_of t x H) = row_bin x (xb0 x (length H)) H.
Proof.
  intros [|r H]; unfold UserBinsSpec.last_rows; [rewrite groups_nil, row_bin_nil; auto|].
  rewrite groups_is by discriminate. unfold row_groups. rewrite map_map. rewrite (last_seq x Hx (fun b => snd (nth (b * x) (map t (r :: H)) 0%Z, row_bin x b (r :: H)))) by lia. cbn [snd]. f_equal. unfold xb0. lia.
Qed.
Lemma row_describes : forall H p nn, p <> [] -> (length (filter is_nil (map snd (rgb t x H p))) <= nn)%nat ->
  describes (row_seg t x c H p nn) (row_bin x (xb0 x (length H)) H) p (rgb t x H p).
Proof.
  intros H p nn Hp Hnn. assert (HL : 0 < length p) by (destruct p; [congruence|simpl; lia]).
  destruct (row_seg_ok t x Hx c H p HL nn) as [S1 S2 S3 S4 S5 S6].
  assert (Hl : length (s_starts (row_seg t x c H p nn)) = length (rgb t x H p)) by (unfold row_seg, rgb, row_groups, xbins; cbn [s_starts]; rewrite !map_length; auto).
  assert (Hg : map snd (rgb t x H p) = bin_groups (row_bin x (xb0 x (length H)) H) (s_starts (row_seg t x c H p nn)) p).
  { unfold row_seg. cbn [s_starts]. rewrite rows_bin_groups by auto. unfold rgb, row_groups. rewrite map_map. reflexivity. }
  split; auto.
  - unfold row_seg, rgb, row_groups. cbn [s_labels]. rewrite map_map. reflexivity.
  - rewrite S2. auto.
  - intros n Hn. assert (Q : 1 < length (s_starts (row_seg t x c H p nn))) by lia. specialize (S6 Q). rewrite Hn in S6. replace (S (S n) - 2) with n in S6 by lia.
    assert (nth n (s_starts (row_seg t x c H p nn)) 0 <= length p); [|lia]. rewrite <- S5. apply SSorted_le_In; auto. apply nth_In. lia.
Qed.
Lemma rgb_null : forall H p : list D, p <> [] -> filter is_nil (map snd (rgb t x H p)) = [].
Proof.
  intros H p Hp. assert (HL : 0 < length p) by (destruct p; [congruence|simpl; lia]).
  destruct (xb_facts x (length H) (length p) Hx HL) as (F1 & F2 & F3 & F4 & F5 & F6). apply filter_none. intros r Hr. unfold rgb, row_groups in Hr.
  rewrite map_map in Hr. apply in_map_iff in Hr as (b & <- & Hb). cbn [snd]. apply in_seq in Hb.
  destruct (row_bin x b (H ++ p)) eqn:E; auto. exfalso. revert E. apply row_bin_ne; auto. rewrite app_length.
  assert (b <= xb1 x (length H) (length p)) by lia. nia.
Qed.

Lemma apart_app : forall H p : list D, rows_apart t x c (H ++ p) -> rows_apart t x c H.
Proof.
  intros H p [A1 A2]. rewrite map_app in *. split; [apply sorted_app in A1; tauto|]. intros b Hb Hl.
  specialize (A2 b Hb ltac:(rewrite app_length; lia)). destruct c; rewrite !app_nth1 in A2 by (rewrite map_length; nia); auto.
Qed.
Lemma labels_inc : forall rows b b', rows_apart t x c rows -> b < b' -> b' * x < length rows -> (nth (b * x) (map t rows) 0 < nth (b' * x) (map t rows) 0)%Z.
Proof.
  intros rows b b' [A1 A2] Hb Hl. specialize (A2 b' ltac:(lia) Hl).
  eapply Z.le_lt_trans; [|exact A2]. destruct c; apply sorted_nth_le; rewrite ?map_length; auto; nia.
Qed.

Theorem row_binning : binning (row_bins t x c) None (row_groups_of t x) row_after (rows_apart t x c).
Proof.
  split.
  - apply apart_app.
  - split; [apply groups_nil|]. reflexivity.
  - intros rows Ha. destruct rows as [|r0 rows0]; [rewrite groups_nil; constructor|]. set (rows := r0 :: rows0) in *. assert (Hn : rows <> []) by discriminate. clearbody rows.
    rewrite groups_is by auto. unfold row_groups. rewrite map_map. cbn [fst].
    assert (Hlen : 0 < length rows) by (destruct rows; [congruence|simpl; lia]).
    destruct (xb_facts x 0 (length rows) Hx Hlen) as (_ & _ & _ & _ & F5 & _). unfold xb1 in F5. rewrite !Nat.add_0_l in F5.
    assert (G : forall m b, (b + m) * x < length rows + x -> NoDup (map (fun k => nth (k * x) (map t rows) 0%Z) (seq b m))); [|apply G; nia].
    induction m as [|m IH]; intros b Hb; cbn [seq map]; constructor; [|apply IH; nia].
    intro Q. apply in_map_iff in Q as (k & E & Hk). apply in_seq in Hk. pose proof (labels_inc rows b k Ha ltac:(lia) ltac:(nia)). lia.
  - intros rows more Hn Ha.
    assert (Hlen : 0 < length rows) by (destruct rows; [congruence|simpl; lia]).
    destruct (xb_facts x 0 (length rows) Hx Hlen) as (_ & _ & _ & _ & F5 & F6). unfold xb1 in F5, F6. rewrite !Nat.add_0_l in F5, F6.
    assert (F7 : (length rows - 1) / x <= (length (rows ++ more) - 1) / x) by (apply Nat.div_le_mono; rewrite ?app_length; lia).
    rewrite groups_is by auto. rewrite groups_is by (intro Q; apply app_eq_nil in Q; tauto). set (b0 := (length rows - 1) / x) in *. set (b1 := (length (rows ++ more) - 1) / x) in *.
    unfold row_groups. rewrite map_seq_snoc. replace (S b1) with (b0 + S (b1 - b0)) by lia. rewrite seq_app, map_app, !Nat.add_0_l.
    cbn [seq map]. eexists _, _, _, (firstn (x - (length rows - b0 * x)) more), _. split; [reflexivity|]. split; [apply row_bin_ne; auto|].
    assert (Q1 : map (fun b => (nth (b * x) (map t (rows ++ more)) 0%Z, row_bin x b (rows ++ more))) (seq 0 b0) = map (fun b => (nth (b * x) (map t rows) 0%Z, row_bin x b rows)) (seq 0 b0)).
    { apply map_ext_in. intros b Hb. apply in_seq in Hb. f_equal; [rewrite map_app, app_nth1; auto; rewrite map_length; nia|apply row_bin_app; nia]. }
    assert (Q2 : nth (b0 * x) (map t (rows ++ more)) 0%Z = nth (b0 * x) (map t rows) 0%Z) by (rewrite map_app, app_nth1; auto; rewrite map_length; auto).
    assert (Q3 : row_bin x b0 (rows ++ more) = row_bin x b0 rows ++ firstn (x - (length rows - b0 * x)) more).
    { unfold row_bin. rewrite skipn_app_le by lia. rewrite firstn_app, skipn_length. auto. }
    rewrite Q1, Q2, Q3. reflexivity.
  - intros rows more b Hm Ha Hb. assert (Hmn := map_ne t more Hm).
    destruct (by_x_rows_spec x c (map t rows) (map t more) b Hx Hmn Hb) as (b' & E & B'). cbv zeta in E. rewrite !map_length, <- map_app in E.
    eexists _, (Some b'). split; [exact E|]. split; [red; rewrite map_app; exact B'|].
    rewrite last_row_bin, new_rgb by auto. apply (row_describes rows more); auto. rewrite rgb_null by auto. simpl. lia.
  - intros rows Hn Ha. assert (Hmn := map_ne t rows Hn).
    destruct (by_x_rows_spec x c [] (map t rows) None Hx Hmn eq_refl) as (b' & E & _). cbv zeta in E. simpl length in E. rewrite map_length in E.
    eexists. split; [eapply by_x_rows_nobuf; exact E|].
    pose proof (row_describes [] rows 0 Hn ltac:(rewrite rgb_null; auto)) as G. rewrite row_bin_nil in G. rewrite <- new_rgb in G by auto. unfold new_bins in G. rewrite groups_nil in G. exact G.
Qed.

Lemma row_ends_is : forall rows : list D, row_ends t x c rows = map (rkey t x c [] rows) (seq 0 ((length rows + soff c - 1) / x)).
Proof. intros rows. unfold row_ends, rkey, soff. destruct c; rewrite ?Nat.add_0_r, ?Nat.add_sub; auto. apply map_ext. intro b. rewrite Nat.sub_0_r. auto. Qed.
Lemma known_done : forall sg, length (s_ends sg) = length (s_starts sg) -> known_ends sg = map fst (done_bins sg).
Proof.
  intros sg H. assert (E : map fst (combine (s_ends sg) (s_starts sg)) = s_ends sg).
  { revert H. generalize (s_ends sg), (s_starts sg). induction l as [|a l IH]; intros [|b m] H; simpl in *; try discriminate; f_equal; auto. }
  unfold known_ends, done_bins, seg_bins. destruct (s_unknown_last_end sg); auto. rewrite <- E at 1. clear.
  generalize (combine (s_ends sg) (s_starts sg)) as l. induction l as [|a [|b l] IH]; auto. cbn [map removelast] in *. f_equal. exact IH.
Qed.
Lemma row_known : forall H p nn, p <> [] -> known_ends (row_seg t x c H p nn) = skipn (xb0 x (length H)) (row_ends t x c (H ++ p)).
Proof.
  intros H p nn Hp. assert (HL : 0 < length p) by (destruct p; [congruence|simpl; lia]).
  rewrite known_done by (apply (so_ends _ _ (row_seg_ok t x Hx c H p HL nn))). rewrite row_done by auto. rewrite map_map. cbn [fst].
  rewrite row_ends_is, skipn_map_seq. unfold ndone. rewrite app_length. reflexivity.
Qed.

Theorem row_bin_ends : bin_ends t c (row_bins t x c) (row_groups_of t x) row_after (rows_apart t x c) (row_ends t x c).
Proof.
  assert (Hq : forall rows : list D, forall b, b < (length rows + soff c - 1) / x -> (b + 1) * x - soff c < length rows).
  { intros rows b Hb. apply (div_lt_iff x Hx) in Hb. destruct c; simpl soff in *; nia. }
  split.
  - intros rows [A1 _]. rewrite row_ends_is. generalize (Hq rows). generalize ((length rows + soff c - 1) / x). intros q Hb.
    assert (G : forall m b, b + m <= q -> sorted (map (rkey t x c [] rows) (seq b m))); [|apply G; lia].
    induction m as [|m IH]; intros b Hm; cbn [seq map]; constructor; [apply IH; lia|]. rewrite Forall_forall. intros z Hz. apply in_map_iff in Hz as (k & <- & Hk).
    apply in_seq in Hk. unfold rkey. simpl app. apply sorted_nth_le; auto; [nia|]. rewrite map_length. apply Hb. lia.
  - intros rows i j e r [A1 A2] Hi Hr. rewrite row_ends_is in Hi.
    assert (Hiq : i < (length rows + soff c - 1) / x).
    { assert (Q : nth_error (map (rkey t x c [] rows) (seq 0 ((length rows + soff c - 1) / x))) i <> None) by congruence. apply nth_error_Some in Q. rewrite map_length, seq_length in Q. auto. }
    assert (He : e = nth ((i + 1) * x - soff c) (map t rows) 0%Z).
    { apply (nth_error_nth _ _ 0%Z) in Hi. rewrite (nth_indep _ 0%Z (rkey t x c [] rows 0)) in Hi by (rewrite map_length, seq_length; auto).
      rewrite map_nth, seq_nth in Hi by auto. symmetry. exact Hi. }
    assert (Hrow : In r (row_bin x j rows)).
    { destruct rows as [|r0 rows0]; [rewrite groups_nil in Hr; destruct j; destruct Hr|]. rewrite groups_is in Hr by discriminate. unfold row_groups in Hr. rewrite map_map in Hr. cbn [snd] in Hr.
      destruct (le_lt_dec (S ((length (r0 :: rows0) - 1) / x)) j) as [Q|Q]; [rewrite nth_overflow in Hr by (rewrite map_length, seq_length; auto); destruct Hr|].
      rewrite (nth_indep _ [] (row_bin x 0 (r0 :: rows0))) in Hr by (rewrite map_length, seq_length; auto).
      rewrite (map_nth (fun b => row_bin x b (r0 :: rows0))), seq_nth in Hr by auto. exact Hr. }
    apply (In_nth _ _ r) in Hrow as (k & Hk & Ek). unfold row_bin in Hk, Ek. rewrite firstn_length, skipn_length in Hk.
    rewrite nth_firstn_lt in Ek by lia. rewrite nth_skipn_ in Ek.
    assert (Et : t r = nth (j * x + k) (map t rows) 0%Z) by (rewrite (nth_indep _ 0%Z (t r)) by (rewrite map_length; lia); rewrite map_nth, Ek; auto).
    pose proof (Hq rows i Hiq) as Hin. rewrite Et, He. destruct (Nat.leb_spec j i) as [Q|Q].
    + apply sorted_nth_le; auto; [destruct c; simpl soff in *; nia|rewrite map_length; auto].
    + destruct c; simpl soff in *; cbn [before].
      * apply Z.ltb_ge. apply sorted_nth_le; auto; [nia|rewrite map_length; lia].
      * apply Z.leb_gt. specialize (A2 (i + 1) ltac:(lia) ltac:(nia)). cbv iota in A2. eapply Z.lt_le_trans; [exact A2|]. apply sorted_nth_le; auto; [nia|rewrite map_length; lia].
  - intros rows more Hn _. rewrite groups_last, !row_ends_is.
    assert (Hlen : 0 < length rows) by (destruct rows; [congruence|simpl; lia]).
    assert (F1 : xb0 x (length rows) <= (length rows + soff c - 1) / x) by (unfold xb0; apply Nat.div_le_mono; lia).
    assert (F2 : (length rows + soff c - 1) / x <= (length (rows ++ more) + soff c - 1) / x) by (apply Nat.div_le_mono; rewrite ?app_length; lia).
    rewrite !firstn_map_seq by lia. apply map_ext_in. intros b Hb. apply in_seq in Hb. unfold rkey. simpl app. rewrite map_app, app_nth1; auto. rewrite map_length. apply Hq. lia.
  - intros rows more b sg b' Hm [A1 _] Hb E. assert (Hmn := map_ne t more Hm).
    destruct (by_x_rows_spec x c (map t rows) (map t more) b Hx Hmn Hb) as (b2 & E2 & _). cbv zeta in E2. rewrite !map_length, <- map_app in E2.
    unfold row_bins in E. rewrite E2 in E. apply Ok_inj_ in E. apply pair_equal_spec in E as [<- _]. split; [reflexivity|].
    assert (HL : 0 < length more) by (destruct more; [congruence|simpl; lia]). split.
    + apply (row_ends_sorted t x Hx c rows more HL A1).
    + rewrite groups_last. exact (row_known rows more _ Hm).
  - intros rows sg b' Hn [A1 _] E. assert (Hmn := map_ne t rows Hn).
    destruct (by_x_rows_spec x c [] (map t rows) None Hx Hmn eq_refl) as (b2 & E2 & _). cbv zeta in E2. simpl length in E2. rewrite map_length in E2. apply by_x_rows_nobuf in E2.
    unfold row_bins in E. rewrite E2 in E. apply Ok_inj_ in E. apply pair_equal_spec in E as [<- _]. split; [reflexivity|].
    assert (HL : 0 < length rows) by (destruct rows; [congruence|simpl; lia]). split.
    + apply (row_ends_sorted t x Hx c [] rows HL A1).
    + etransitivity; [exact (row_known [] rows _ Hn)|]. unfold xb0. simpl length. rewrite Nat.div_small by lia. reflexivity.
Qed.
End RowBins.
