(** 'cumsegagg' on bins of a number of rows. *)
Require Import List Arith ZArith Bool Lia Sorted Permutation.
Require Import Verif.Common Verif.AggModel Verif.AggSpec Verif.AggProofs.
Require Import Verif.SegModel Verif.SegSpec Verif.SegProofs Verif.SegRowsProofs Verif.MergeProofs Verif.EventProofs.
Require Import Verif.CsaModel Verif.CsaSpec Verif.CsaProofs Verif.CsaLoopProofs Verif.CsaSegProofs Verif.CsaTimeProofs Verif.CsaPiecesProofs.
Import ListNotations.

(** * Lists *)
Lemma skipn_app_le : forall {A} (l m : list A) k, k <= length l -> skipn k (l ++ m) = skipn k l ++ m.
Proof. intros. rewrite skipn_app. replace (k - length l) with 0 by lia. auto. Qed.
Lemma skipn_app_ge : forall {A} (l m : list A) k, length l <= k -> skipn k (l ++ m) = skipn (k - length l) m.
Proof. intros. rewrite skipn_app. rewrite skipn_all2 by lia. auto. Qed.
Lemma firstn_min : forall {A} (p : list A) k, firstn (Nat.min (length p) k) p = firstn k p.
Proof. intros. destruct (Nat.le_gt_cases k (length p)); [rewrite Nat.min_r by lia; auto|].
  rewrite Nat.min_l, firstn_all, firstn_all2 by lia. auto. Qed.

Lemma firstn_min_skipn : forall {A} (p : list A) s x,
  firstn (Nat.min (length p) (s + x) - Nat.min (length p) s) (skipn (Nat.min (length p) s) p) = firstn x (skipn s p).
Proof.
  intros A p s x. destruct (Nat.le_gt_cases s (length p)) as [L|L].
  - rewrite (Nat.min_r _ s) by lia.
    replace (Nat.min (length p) (s + x) - s) with (Nat.min (length (skipn s p)) x) by (rewrite skipn_length; lia).
    apply firstn_min.
  - rewrite !Nat.min_l by lia. rewrite (skipn_all2 p (n := s)) by lia. rewrite skipn_all, !firstn_nil. auto.
Qed.

Lemma sorted_nth_le : forall l i j, sorted l -> i <= j -> j < length l -> (nth i l 0 <= nth j l 0)%Z.
Proof.
  induction l as [|x l IH]; intros i j Hs Hij Hj; simpl in *; [lia|]. inversion Hs; subst. rewrite Forall_forall in H2.
  destruct j as [|j]; destruct i as [|i]; try lia.
  - apply H2. apply nth_In. lia.
  - apply IH; auto; lia.
Qed.

Lemma before_nth : forall c l e i, sorted l -> i < length l -> before c e (nth i l 0%Z) = (i <? n_before c l e).
Proof.
  intros c l e i Hs Hi. rewrite (filter_before_split c e l Hs) at 1.
  unfold n_before. set (A := filter (before c e) l). set (B := filter (fun v => negb (before c e v)) l).
  assert (HL : length A + length B = length l) by (rewrite <- app_length; unfold A, B; rewrite <- filter_before_split; auto).
  destruct (i <? length A) eqn:E.
  - apply Nat.ltb_lt in E. rewrite app_nth1 by auto.
    assert (Q : In (nth i A 0%Z) A) by (apply nth_In; auto). apply filter_In in Q. tauto.
  - apply Nat.ltb_ge in E. rewrite app_nth2 by auto.
    assert (Q : In (nth (i - length A) B 0%Z) B) by (apply nth_In; lia). apply filter_In in Q as [_ Q].
    apply negb_true_iff in Q. auto.
Qed.

Lemma xb_facts : forall x n L, 0 < x -> 0 < L ->
  xb0 x n * x <= n /\ n <= (xb0 x n + 1) * x /\ (0 < n -> xb0 x n * x < n) /\
  xb0 x n <= xb1 x n L /\ xb1 x n L * x < n + L /\ n + L <= (xb1 x n L + 1) * x.
Proof.
  intros x n L Hx HL. unfold xb0, xb1.
  pose proof (Nat.div_mod (n - 1) x ltac:(lia)) as D1. pose proof (Nat.mod_upper_bound (n - 1) x ltac:(lia)) as M1.
  pose proof (Nat.div_mod (n + L - 1) x ltac:(lia)) as D2. pose proof (Nat.mod_upper_bound (n + L - 1) x ltac:(lia)) as M2.
  assert (Q : (n - 1) / x <= (n + L - 1) / x) by (apply Nat.div_le_mono; lia).
  revert D1 D2 Q. generalize ((n - 1) / x), ((n + L - 1) / x). intros b0 b1 D1 D2 Q.
  assert (n = 0 -> b0 = 0) by nia.
  repeat split; try nia.
Qed.

Section Rows.
Context {D : Type}.
Variable t : D -> Z.
Variable x : nat.
Hypothesis Hx : 0 < x.

Lemma row_bin_nil : forall b, row_bin x b (@nil D) = [].
Proof. intros. unfold row_bin. rewrite skipn_nil, firstn_nil. auto. Qed.

Lemma row_bin_app : forall b (H p : list D), (b + 1) * x <= length H -> row_bin x b (H ++ p) = row_bin x b H.
Proof.
  intros b H p Hb. unfold row_bin. rewrite skipn_app_le by nia. rewrite firstn_app.
  rewrite skipn_length. replace (x - (length H - b * x)) with 0 by nia. simpl. apply app_nil_r.
Qed.

Lemma row_bin_ne : forall b (rows : list D), b * x < length rows -> row_bin x b rows <> [].
Proof.
  intros b rows Hb Q. apply (f_equal (@length D)) in Q. unfold row_bin in Q. rewrite firstn_length, skipn_length in Q. simpl in Q. lia.
Qed.

Lemma rows_bin_groups : forall (H p : list D), p <> [] ->
  let n := length H in let L := length p in
  bin_groups (row_bin x (xb0 x n) H) (map (xstart x n L) (xbins x n L)) p
  = map (fun b => row_bin x b (H ++ p)) (xbins x n L).
Proof.
  intros H p Hne n L. assert (HL : 0 < L) by (unfold L; destruct p; [congruence|simpl; lia]).
  destruct (xb_facts x n L Hx HL) as (F1 & F2 & F3 & F4 & F5 & F6).
  unfold xbins. set (b0 := xb0 x n) in *. simpl seq. simpl map. unfold bin_groups. f_equal.
  - unfold row_bin. rewrite skipn_app_le by auto. rewrite firstn_app, skipn_length.
    unfold slice. rewrite Nat.sub_0_r. simpl skipn. unfold xstart. unfold L. rewrite firstn_min. fold n.
    f_equal. f_equal. lia.
  - generalize (xb1 x n L - b0). intro m.
    assert (G : forall m b, b0 <= b -> cut (xstart x n L b) (map (xstart x n L) (seq (S b) m)) p = map (fun b => row_bin x b (H ++ p)) (seq (S b) m)).
    { clear m. induction m as [|m IH]; intros b Hb; simpl; auto. f_equal.
      - unfold row_bin, xstart. rewrite skipn_app_ge by (fold n; nia). fold n.
        replace ((S b + 1) * x - n) with ((S b * x - n) + x) by nia. replace ((b + 1) * x - n) with (S b * x - n) by nia.
        apply firstn_min_skipn.
      - apply IH. lia. }
    apply G. lia.
Qed.

Definition soff (c : side) : nat := match c with SLeft => 0 | SRight => 1 end.

Lemma div_lt_iff : forall b k, b < k / x <-> (b + 1) * x <= k.
Proof.
  intros b k. split; intro Q.
  - pose proof (Nat.div_mod k x ltac:(lia)). nia.
  - assert ((b + 1) * x / x <= k / x) by (apply Nat.div_le_mono; lia). rewrite Nat.div_mul in H by lia. lia.
Qed.

Lemma filter_seq_lt : forall b0 m q, q - b0 <= m -> filter (fun b => b <? q) (seq b0 m) = seq b0 (q - b0).
Proof.
  intros b0 m q Hq. replace m with ((q - b0) + (m - (q - b0))) by lia. rewrite seq_app, filter_app, filter_all, filter_none, app_nil_r; auto.
  - intros b Hb. apply in_seq in Hb. apply Nat.ltb_ge. lia.
  - intros b Hb. apply in_seq in Hb. apply Nat.ltb_lt. lia.
Qed.

Lemma last_seq : forall {A} (g : nat -> A) b m d, 0 < m -> last (map g (seq b m)) d = g (b + m - 1).
Proof.
  intros A g b m d Hm. destruct m as [|m]; [lia|]. rewrite map_seq_snoc, last_last. f_equal. lia.
Qed.

(** Rows from a bin start to row number [N0]. *)
Lemma row_bin_upto : forall (H p : list D) q N0, let n := length H in let L := length p in let b0 := xb0 x n in
  0 < L -> b0 <= q -> n <= N0 -> N0 <= n + L -> q * x <= N0 -> N0 <= (q + 1) * x ->
  (if q =? b0 then row_bin x b0 H ++ slice 0 (N0 - n) p else slice (q * x - n) (N0 - n) p) = row_bin x q (firstn N0 (H ++ p)).
Proof.
  intros H p q N0 n L b0 HL Hq H1 H2 H3 H4. destruct (xb_facts x n L Hx HL) as (F1 & F2 & F3 & F4 & F5 & F6). fold b0 in F1, F2, F3, F4.
  rewrite firstn_app. fold n. rewrite (firstn_all2 (n := N0) H) by (fold n; lia).
  unfold row_bin, slice. destruct (q =? b0) eqn:E.
  - apply Nat.eqb_eq in E. subst q. rewrite skipn_app_le by (fold n; lia). rewrite Nat.sub_0_r. simpl skipn.
    rewrite (firstn_all2 (n := x) (skipn (b0 * x) H)) by (rewrite skipn_length; fold n; lia).
    rewrite (firstn_all2 (n := x)); auto. rewrite app_length, skipn_length, firstn_length. fold n. lia.
  - apply Nat.eqb_neq in E. assert (n <= q * x) by nia. rewrite skipn_app_ge by (fold n; lia). fold n.
    rewrite skipn_firstn_comm. replace (N0 - n - (q * x - n)) with (N0 - q * x) by lia.
    rewrite firstn_firstn. rewrite Nat.min_r by lia. auto.
Qed.

Section Call.
Variable c : side.
Variables H p : list D.
Let n := length H.
Let L := length p.
Let all := map t (H ++ p).
Hypothesis HL : 0 < L.

Definition row_seg (nn : nat) : seg :=
  mkSeg (map (xstart x n L) (xbins x n L)) (map (xlabel x all) (xbins x n L)) nn c (map (xend x c all) (xbins x n L))
    (match c with SLeft => true | SRight => negb ((n + L) mod x =? 0) end) 0.

Lemma all_length : length all = n + L.
Proof. unfold all, n, L. rewrite map_length, app_length. auto. Qed.

Lemma last_xbins : forall {A} (g : nat -> A) d, last (map g (xbins x n L)) d = g (xb1 x n L).
Proof.
  intros A g d. destruct (xb_facts x n L Hx HL) as (F1 & F2 & F3 & F4 & F5 & F6).
  unfold xbins. rewrite last_seq by lia. f_equal. lia.
Qed.

Lemma row_seg_ok : forall nn, seg_ok p (row_seg nn).
Proof.
  intro nn. destruct (xb_facts x n L Hx HL) as (F1 & F2 & F3 & F4 & F5 & F6).
  unfold row_seg. constructor; cbn [s_labels s_starts s_ends]; rewrite ?map_length; auto.
  - unfold xbins. generalize (xb0 x n), (S (xb1 x n L - xb0 x n)). intros b m. revert b.
    induction m as [|m IH]; intros b; cbn [map seq]; constructor; auto.
    apply Forall_forall. intros q Hq. apply in_map_iff in Hq as (b' & <- & Hb'). apply in_seq in Hb'. unfold xstart.
    apply Nat.min_le_compat_l. nia.
  - discriminate.
  - rewrite last_xbins. unfold xstart. fold L. lia.
  - intros H2 Q. unfold xbins in Q, H2. rewrite seq_length in Q, H2.
    assert (E : nth (S (xb1 x n L - xb0 x n) - 2) (map (xstart x n L) (seq (xb0 x n) (S (xb1 x n L - xb0 x n)))) 0
      = xstart x n L (xb1 x n L - 1)).
    { rewrite (nth_indep _ 0 (xstart x n L 0)) by (rewrite map_length, seq_length; lia).
      rewrite map_nth, seq_nth by lia. f_equal. lia. }
    rewrite E in Q. unfold xstart in Q. fold L in Q. nia.
Qed.

Lemma row_ends_sorted : sorted all -> sorted (map (xend x c all) (xbins x n L)).
Proof.
  intros Hs. unfold xbins. generalize (xb0 x n), (S (xb1 x n L - xb0 x n)). intros b m. revert b.
  induction m as [|m IH]; intros b; cbn [map seq]; constructor; [apply IH|].
  apply Forall_forall. intros q Hq. apply in_map_iff in Hq as (b' & <- & Hb'). apply in_seq in Hb'. unfold xend.
  apply sorted_nth_le; auto.
  - apply Nat.min_le_compat_l. destruct c; nia.
  - rewrite all_length. lia.
Qed.

Definition rkey (b : nat) : Z := nth ((b + 1) * x - soff c) all 0%Z.
Definition ndone : nat := (n + L + soff c - 1) / x - xb0 x n.

Lemma row_done : forall nn, done_bins (row_seg nn) = map (fun b => (rkey b, (b + 1) * x - n)) (seq (xb0 x n) ndone).
Proof.
  intro nn. destruct (xb_facts x n L Hx HL) as (F1 & F2 & F3 & F4 & F5 & F6).
  assert (E : forall m, xb0 x n + m <= (n + L + soff c - 1) / x ->
    map (fun b => (xend x c all b, xstart x n L b)) (seq (xb0 x n) m) = map (fun b => (rkey b, (b + 1) * x - n)) (seq (xb0 x n) m)).
  { intros m Hm. apply map_ext_in. intros b Hb. apply in_seq in Hb.
    assert (Q : (b + 1) * x <= n + L + soff c - 1) by (apply div_lt_iff; lia).
    unfold xend, rkey, xstart. rewrite all_length. f_equal.
    - f_equal. destruct c; simpl soff in *; lia.
    - destruct c; simpl soff in *; lia. }
  unfold done_bins, seg_bins, row_seg. cbn [s_ends s_starts s_unknown_last_end]. rewrite combine_map2.
  unfold xbins. rewrite map_seq_snoc. unfold ndone. destruct c; simpl soff in *.
  - rewrite removelast_last. rewrite Nat.add_0_r in *. apply E. fold (xb1 x n L). lia.
  - rewrite Nat.add_sub in *. destruct ((n + L) mod x =? 0) eqn:Em; cbn [negb].
    + rewrite <- map_seq_snoc. apply Nat.eqb_eq in Em. pose proof (Nat.div_mod (n + L) x ltac:(lia)) as Dm. rewrite Em in Dm.
      assert (Q : (n + L) / x = S (xb1 x n L)).
      { unfold xb1. set (k := (n + L) / x) in *. assert (1 <= k) by nia.
        enough ((n + L - 1) / x = k - 1) by lia. symmetry. apply Nat.div_unique with (r := x - 1); [lia|]. nia. }
      rewrite Q in *. replace (S (xb1 x n L) - xb0 x n) with (S (xb1 x n L - xb0 x n)) by lia. apply E. lia.
    + rewrite removelast_last. apply Nat.eqb_neq in Em. pose proof (Nat.div_mod (n + L) x ltac:(lia)) as Dm.
      pose proof (Nat.mod_upper_bound (n + L) x ltac:(lia)).
      assert (Q : (n + L) / x = xb1 x n L).
      { unfold xb1. apply Nat.div_unique with (r := (n + L) mod x - 1); lia. }
      rewrite Q in *. apply E. lia.
Qed.

(** Conditions under which the end of bins and snapshots are in the same order as their positions. *)
Hypothesis Hs : sorted all.
Hypothesis Hstr : c = SRight -> no_straddle t x (H ++ p).

Section Snap.
Variable e : Z.
Hypothesis Hbe : forall h, In h H -> before c e (t h) = true.
Let M := n_before SLeft all e.
Let N0 := n_before c all e.
Let q := (M + soff c - 1) / x.

Lemma n_before_app : forall c l m e, n_before c (l ++ m) e = n_before c l e + n_before c m e.
Proof. intros. unfold n_before. rewrite filter_app, app_length. auto. Qed.

Lemma snap_pos : N0 = n + n_before c (map t p) e.
Proof.
  unfold N0, all. rewrite map_app, n_before_app. f_equal. unfold n_before, n. rewrite filter_all.
  - apply map_length.
  - intros v Hv. apply in_map_iff in Hv as (h & <- & Hh). auto.
Qed.

Lemma rkey_lt : forall b, b < xb0 x n + ndone -> (rkey b <? e)%Z = (b <? q).
Proof.
  intros b Hb. unfold rkey, ndone in *. pose proof (before_nth SLeft all e ((b + 1) * x - soff c) Hs) as B. unfold before in B.
  fold M in B.
  assert (Q : (b + 1) * x <= n + L + soff c - 1).
  { apply div_lt_iff. destruct (Nat.le_gt_cases (xb0 x n) ((n + L + soff c - 1) / x)) as [G|G]; [lia|].
    exfalso. replace ((n + L + soff c - 1) / x - xb0 x n) with 0 in Hb by lia.
    destruct (xb_facts x n L Hx HL) as (F1 & F2 & F3 & F4 & F5 & F6).
    assert (xb1 x n L <= (n + L + soff c - 1) / x) by (unfold xb1; apply Nat.div_le_mono; lia). lia. }
  rewrite B by (rewrite all_length; destruct c; simpl soff in *; lia).
  destruct (b <? q) eqn:E.
  - apply Nat.ltb_lt in E. unfold q in E. apply div_lt_iff in E. apply Nat.ltb_lt. destruct c; simpl soff in *; nia.
  - apply Nat.ltb_ge in E. apply Nat.ltb_ge. destruct (Nat.le_gt_cases M ((b + 1) * x - soff c)) as [G|G]; auto. exfalso.
    assert (b < q); [|lia]. unfold q. apply div_lt_iff. destruct c; simpl soff in *; nia.
Qed.

Lemma M_le_N : M <= N0.
Proof. unfold M, N0, n_before. destruct c; auto. clear. induction all as [|v l IH]; simpl; auto.
  destruct (v <? e)%Z eqn:E; destruct (v <=? e)%Z eqn:E2; simpl; try lia. Qed.

(** All rows between [M] and [N0] have the same time stamp. *)
Lemma tie_rows : c = SRight -> forall i, M <= i -> i < N0 -> nth i all 0%Z = e.
Proof.
  intros Ec i H1 H2. assert (HN : N0 <= length all) by (unfold N0, n_before; apply filter_length_le_).
  pose proof (before_nth SLeft all e i Hs ltac:(lia)) as B1. pose proof (before_nth SRight all e i Hs ltac:(lia)) as B2.
  fold M in B1. unfold N0 in H2. rewrite Ec in H2. unfold before in B1, B2.
  replace (i <? M) with false in B1 by (symmetry; apply Nat.ltb_ge; lia).
  replace (i <? n_before SRight all e) with true in B2 by (symmetry; apply Nat.ltb_lt; lia).
  apply Z.ltb_ge in B1. apply Z.leb_le in B2. lia.
Qed.

Lemma no_tie : c = SRight -> forall b, 0 < b -> M < b * x -> b * x < N0 -> False.
Proof.
  intros Ec b Hb H1 H2. assert (HN : N0 <= length all) by (unfold N0, n_before; apply filter_length_le_).
  pose proof (Hstr Ec b Hb) as S. fold all in S. rewrite app_length in S. fold n L in S. rewrite all_length in HN.
  specialize (S ltac:(lia)). rewrite (tie_rows Ec (b * x - 1)), (tie_rows Ec (b * x)) in S by lia. lia.
Qed.

Lemma snap_q : xb0 x n <= q /\ q <= (n + L + soff c - 1) / x /\ q * x <= N0 /\ N0 <= (q + 1) * x.
Proof.
  destruct (xb_facts x n L Hx HL) as (F1 & F2 & F3 & F4 & F5 & F6).
  pose proof snap_pos as HN. pose proof M_le_N as MN. pose proof no_tie as NT.
  assert (HM : M <= n + L) by (rewrite <- all_length; unfold M, n_before; apply filter_length_le_).
  pose proof (Nat.div_mod (M + soff c - 1) x ltac:(lia)) as Dq. pose proof (Nat.mod_upper_bound (M + soff c - 1) x ltac:(lia)) as Mq.
  fold q in Dq. split; [|split; [|split]].
  - destruct c eqn:Ec; simpl soff in *.
    + unfold q. rewrite Nat.add_0_r. apply Nat.div_le_mono; [lia|]. change M with N0. lia.
    + rewrite Nat.add_sub in *. destruct (Nat.le_gt_cases (xb0 x n) q) as [G|G]; auto. exfalso.
      destruct (Nat.eq_dec n 0) as [Z|Z]; [unfold xb0 in G; rewrite Z in G; simpl in G; rewrite Nat.div_small in G; lia|].
      specialize (F3 ltac:(lia)).
      apply (NT eq_refl (xb0 x n)); [lia| |lia]. nia.
  - unfold q. apply Nat.div_le_mono; lia.
  - destruct c; simpl soff in *; nia.
  - destruct c eqn:Ec; simpl soff in *.
    + change N0 with M. nia.
    + destruct (Nat.le_gt_cases N0 ((q + 1) * x)) as [G|G]; auto. exfalso.
      apply (NT eq_refl (q + 1)); [lia| |lia]. nia.
Qed.

Lemma rows_snap : forall nn, snap_rows p (row_bin x (xb0 x n) H) (done_bins (row_seg nn)) (e, n_before c (map t p) e)
  = snap_of_rows t x c e (H ++ p).
Proof.
  intro nn. destruct snap_q as (Q1 & Q2 & Q3 & Q4). pose proof snap_pos as HN.
  rewrite row_done. unfold snap_rows. cbn [fst snd].
  assert (F : filter (fun b : Z * nat => (fst b <? e)%Z) (map (fun b => (rkey b, (b + 1) * x - n)) (seq (xb0 x n) ndone))
     = map (fun b => (rkey b, (b + 1) * x - n)) (seq (xb0 x n) (q - xb0 x n))).
  { rewrite <- (filter_seq_lt (xb0 x n) ndone q) by (unfold ndone; lia).
    assert (G : forall b, In b (seq (xb0 x n) ndone) -> (rkey b <? e)%Z = (b <? q)).
    { intros b Hb. apply in_seq in Hb. apply rkey_lt. lia. }
    revert G. generalize (seq (xb0 x n) ndone). induction l as [|b l IH]; intros G; simpl; auto.
    rewrite (G b) by (left; auto). rewrite IH by (intros; apply G; right; auto). destruct (b <? q); auto. }
  rewrite F, is_nil_map, map_map. cbn [snd].
  assert (HNle : N0 <= n + L) by (rewrite <- all_length; unfold N0, n_before; apply filter_length_le_).
  assert (T : snap_of_rows t x c e (H ++ p) = row_bin x q (firstn N0 (H ++ p))).
  { unfold snap_of_rows. rewrite <- (rows_firstn t c e (H ++ p)) by exact Hs. fold all. fold N0. cbv zeta.
    replace (match c with SLeft => _ | SRight => _ end) with q; auto. unfold q, M. destruct c eqn:Ec; simpl soff.
    - rewrite firstn_length, app_length. fold n L. rewrite Nat.min_l by lia. unfold N0. f_equal. lia.
    - rewrite Nat.add_sub. unfold all. rewrite n_before_map. auto. }
  rewrite T, <- row_bin_upto; fold n L; try lia.
  replace (n_before c (map t p) e) with (N0 - n) by lia.
  destruct (q =? xb0 x n) eqn:E.
  - apply Nat.eqb_eq in E. rewrite E, Nat.sub_diag. auto.
  - apply Nat.eqb_neq in E. destruct (q - xb0 x n) as [|k] eqn:Ek; [lia|]. cbn [seq is_nil]. change (xb0 x n :: seq (S (xb0 x n)) k) with (seq (xb0 x n) (S k)).
    rewrite last_seq by lia. replace (xb0 x n + S k - 1 + 1) with q by lia. auto.
Qed.

Lemma row_compat1 : forall nn b, In b (done_bins (row_seg nn)) ->
  ((e <= fst b)%Z -> n_before c (map t p) e <= snd b) /\ ((fst b < e)%Z -> snd b <= n_before c (map t p) e).
Proof.
  intros nn b Hb. rewrite row_done in Hb. apply in_map_iff in Hb as (b' & <- & Hb). cbn [fst snd]. apply in_seq in Hb.
  pose proof (rkey_lt b' ltac:(lia)) as R. destruct snap_q as (Q1 & Q2 & Q3 & Q4). pose proof snap_pos as HN.
  split; intro G.
  - assert (E : (rkey b' <? e)%Z = false) by (apply Z.ltb_ge; lia). rewrite E in R. symmetry in R. apply Nat.ltb_ge in R. nia.
  - assert (E : (rkey b' <? e)%Z = true) by (apply Z.ltb_lt; lia). rewrite E in R. symmetry in R. apply Nat.ltb_lt in R. nia.
Qed.
End Snap.
End Call.
End Rows.

Lemma by_x_rows_nobuf : forall x c on sg b', by_x_rows x c on (Some None) = Ok (sg, b') -> by_x_rows x c on None = Ok (sg, None).
Proof.
  intros x c on sg b' E. unfold by_x_rows in *. cbv zeta iota in *. cbn [bind] in *. injection E as <- _. reflexivity.
Qed.

(** Snapshots at given values, one call. *)
Lemma vals_once : forall {D} (t : D -> Z) k labels ends c data, data <> [] -> sorted (map t data) ->
  length labels = length ends -> ends <> [] -> sorted ends -> NoDup labels ->
  exists ss, by_scale (map t data) (ByVals k labels ends) (Some c) None = Ok (ss, None) /\
    snap_ok data ss /\ s_starts ss = map (n_before c (map t data)) (s_ends ss) /\ NoDup (s_labels ss) /\
    combine (s_labels ss) (s_ends ss) = take_until (fun le => forallb (fun r => before c (snd le) (t r)) data) (combine labels ends).
Proof.
  intros D t k labels ends c data Hne Hs Hlen Hene Hes Hnd. assert (Hmn := map_ne t data Hne).
  set (n := length (until (length (map t data)) (map (n_before c (map t data)) ends))).
  assert (Hn : until (length (map t data)) (map (n_before c (map t data)) ends) = map (n_before c (map t data)) (firstn n ends)).
  { unfold n. clear. induction ends as [|e es IH]; simpl; auto.
    destruct (n_before c (map t data) e =? length (map t data))%nat; simpl; f_equal. auto. }
  assert (Hle : (n <= length ends)%nat).
  { unfold n. clear. induction ends as [|e es IH]; simpl; auto.
    destruct (n_before c (map t data) e =? length (map t data))%nat; simpl; lia. }
  assert (Hfn : forall e, forallb (fun r => before c e (t r)) data = (n_before c (map t data) e =? length (map t data))%nat).
  { intro e. rewrite n_before_map, map_length. clear. induction data as [|r l IH]; simpl; auto.
    destruct (before c e (t r)); simpl; auto.
    symmetry. apply Nat.eqb_neq. pose proof (filter_length_le_ (fun r => before c e (t r)) l). lia. }
  assert (Htu : take_until (fun le => forallb (fun r => before c (snd le) (t r)) data) (combine labels ends)
     = combine (firstn n labels) (firstn n ends)).
  { unfold n. clear -Hlen Hfn. revert labels Hlen. induction ends as [|e es IH]; intros [|l ls] Hlen; simpl in *; auto; try lia.
    rewrite Hfn. destruct (n_before c (map t data) e =? length (map t data))%nat; simpl; auto.
    f_equal. apply IH. lia. }
  rewrite Htu.
  set (ps := map (n_before c (map t data)) (firstn n ends)) in *.
  exists (mkSeg ps (firstn n labels) (n_empty 0 ps) c (firstn n ends) false 0).
  split; [|split; [|split; [|split]]]; try reflexivity.
  - unfold by_scale. rewrite Hlen, Nat.eqb_refl. simpl negb. cbv iota. cbn [bind].
    assert (Hm : forall T (x y : T), match ends with [] => x | _ :: _ => y end = y) by (clear -Hene; destruct ends; [congruence|auto]).
    rewrite Hm. unfold by_scale_finish. rewrite (next_chunk_starts_spec c (map t data) ends) by auto.
    cbv zeta. rewrite Hn. assert (Hlp : length ps = n) by (unfold ps; rewrite map_length, firstn_length; apply Nat.min_l; exact Hle).
    rewrite Hlp.
    destruct (existsb (Nat.eqb (length (map t data))) (map (n_before c (map t data)) ends)) eqn:Ex.
    + cbn [bind]. destruct k; reflexivity.
    + assert (Hall : n = length ends).
      { unfold n. clear -Ex. induction ends as [|e es IH]; simpl in *; auto.
        apply orb_false_iff in Ex as [E1 E2]. rewrite Nat.eqb_sym, E1. simpl. auto. }
      replace (firstn n ends) with ends by (rewrite Hall, firstn_all; auto).
      replace (firstn n labels) with labels by (rewrite Hall, <- Hlen, firstn_all; auto).
      cbn [bind]. destruct k; reflexivity.
  - constructor; simpl; auto.
    + unfold ps. rewrite map_length, !firstn_length. lia.
    + unfold ps. rewrite map_length. auto.
    + apply sorted_firstn; auto.
    + unfold ps. assert (Q : sorted (firstn n ends)) by (apply sorted_firstn; auto). revert Q. clear.
      generalize (firstn n ends). induction l as [|x l IH]; intros Q; simpl; constructor; inversion Q; subst; auto.
      rewrite Forall_forall in *. intros q Hq. apply in_map_iff in Hq as (y & <- & Hy). apply n_before_mono; auto.
    + intros q Hq. apply in_map_iff in Hq as (y & <- & Hy). etransitivity; [apply n_before_le|]. rewrite map_length; auto.
  - simpl. apply NoDup_firstn_; auto.
Qed.

Section RowCsa.
Context {D V : Type}.
Variable N : dtype -> num V.
Variable val : D -> cname -> V.
Variables (agg : aggspec) (dtypes : list (cname * dtype)).
Hypothesis Hvalid : agg_valid agg dtypes.
Hypothesis Hnodup : NoDup (map fst agg).
Hypothesis Hagg : agg <> [].
Variable t : D -> Z.
Variable x : nat.
Hypothesis Hx : 0 < x.
Variable c : side.

Notation csa := (cumsegagg N val agg dtypes).

Definition rgb (H p : list D) : list (Z * list D) :=
  row_groups t x (xb0 x (length H)) (S (xb1 x (length H) (length p) - xb0 x (length H))) (H ++ p).

Definition ready (H : list D) (p : list D) (buffer : option (csabuf (option xbuf) V)) bb' : Prop :=
  by_x_rows x c (map t p) (bin_buffer None buffer) =
    Ok (row_seg t x c H p (if (0 <? length H) && (length H mod x =? 0) then 1 else 0), bb') /\
  running N val agg dtypes buffer (row_bin x (xb0 x (length H)) H) (nth (xb0 x (length H) * x) (map t (H ++ p)) 0%Z).

Lemma rows_consistent : forall H p, p <> [] -> label_consistent (rgb H p).
Proof.
  intros H p Hp l r1 r2 H1 H2. assert (HL : 0 < length p) by (destruct p; [congruence|simpl; lia]).
  destruct (xb_facts x (length H) (length p) Hx HL) as (F1 & F2 & F3 & F4 & F5 & F6).
  assert (G : forall r, In (l, r) (rgb H p) -> is_nil r = false).
  { intros r Hr. unfold rgb, row_groups in Hr. apply in_map_iff in Hr as (b & Q & Hb). injection Q as _ <-. apply in_seq in Hb.
    destruct (row_bin x b (H ++ p)) eqn:E; auto. exfalso. revert E. apply row_bin_ne; auto. rewrite app_length.
    assert (b <= xb1 x (length H) (length p)) by lia. nia. }
  rewrite (G r1), (G r2); auto.
Qed.

Lemma rows_groups : forall H p nn, p <> [] ->
  combine (s_labels (row_seg t x c H p nn)) (bin_groups (row_bin x (xb0 x (length H)) H) (s_starts (row_seg t x c H p nn)) p) = rgb H p.
Proof.
  intros H p nn Hp. unfold row_seg. cbn [s_labels s_starts]. rewrite rows_bin_groups by auto. rewrite combine_map2. reflexivity.
Qed.

Lemma rows_null : forall H p nn, p <> [] ->
  length (filter is_nil (bin_groups (row_bin x (xb0 x (length H)) H) (s_starts (row_seg t x c H p nn)) p)) <= s_nnull (row_seg t x c H p nn).
Proof.
  intros H p nn Hp. assert (HL : 0 < length p) by (destruct p; [congruence|simpl; lia]).
  destruct (xb_facts x (length H) (length p) Hx HL) as (F1 & F2 & F3 & F4 & F5 & F6).
  unfold row_seg. cbn [s_starts]. rewrite rows_bin_groups by auto. rewrite filter_none; [simpl; lia|].
  intros r Hr. apply in_map_iff in Hr as (b & <- & Hb). apply in_seq in Hb.
  destruct (row_bin x b (H ++ p)) eqn:E; auto. exfalso. revert E. apply row_bin_ne; auto. rewrite app_length.
  assert (b <= xb1 x (length H) (length p)) by lia. nia.
Qed.

Definition rnext (H p : list D) (buffer : option (csabuf (option xbuf) V)) bb' ws bs :=
  main_next N val agg dtypes None buffer bb' ws bs (nth (xb1 x (length H) (length p) * x) (map t (H ++ p)) 0%Z)
    (row_bin x (xb1 x (length H) (length p)) (H ++ p)).

Lemma row_call : forall ordered eo H p buffer bb', p <> [] ->
  match ordered with Some o => sorted (map o p) | None => True end ->
  ready H p buffer bb' ->
  outcome N val agg dtypes eo (rgb H p) None (rnext H p buffer bb' false None)
    (csa (row_bins t x c) None ordered None eo p buffer).
Proof.
  intros ordered eo H p buffer bb' Hp Ho [E Hr]. assert (HL : 0 < length p) by (destruct p; [congruence|simpl; lia]).
  set (sg := row_seg t x c H p _) in *. set (acc := row_bin x (xb0 x (length H)) H) in *.
  pose proof (cumsegagg_gen N val agg dtypes Hvalid Hnodup Hagg (row_bins t x c) None ordered eo p buffer acc sg bb') as G.
  cbv zeta in G. unfold sg, acc in G. rewrite rows_groups in G by auto. fold sg acc in G.
  unfold rnext. replace (nth (xb1 x (length H) (length p) * x) (map t (H ++ p)) 0%Z) with (last (s_labels sg) 0%Z).
  2:{ unfold sg, row_seg. cbn [s_labels]. rewrite last_xbins; auto. }
  replace (row_bin x (xb1 x (length H) (length p)) (H ++ p)) with (last (bin_groups acc (s_starts sg) p) []).
  2:{ unfold sg, acc, row_seg. cbn [s_starts]. rewrite rows_bin_groups by auto.
      rewrite (last_xbins x Hx H p HL (fun b => row_bin x b (H ++ p))). auto. }
  apply G; auto.
  - apply row_seg_ok; auto.
  - apply rows_null; auto.
  - apply rows_consistent; auto.
Qed.

Lemma row_call_snap : forall sb eo H p buffer bb' ss bs sbuf0, p <> [] -> sorted (map t (H ++ p)) ->
  (c = SRight -> no_straddle t x (H ++ p)) ->
  ready H p buffer bb' -> snap_buffer buffer sbuf0 ->
  by_scale (map t p) sb (Some c) sbuf0 = Ok (ss, bs) ->
  snap_ok p ss -> s_starts ss = map (n_before c (map t p)) (s_ends ss) -> NoDup (s_labels ss) ->
  (forall h e, In h H -> In e (s_ends ss) -> before c e (t h) = true) ->
  outcome N val agg dtypes eo (rgb H p)
    (Some (combine (s_labels ss) (map (fun e => snap_of_rows t x c e (H ++ p)) (s_ends ss))))
    (rnext H p buffer bb' true bs)
    (csa (row_bins t x c) None (Some t) (Some sb) eo p buffer).
Proof.
  intros sb eo H p buffer bb' ss bs sbuf0 Hp Hs Hstr [E Hr] Hsb Ebs Hsok Hst Hnd Hbe.
  assert (HL : 0 < length p) by (destruct p; [congruence|simpl; lia]).
  assert (Hsp : sorted (map t p)) by (rewrite map_app in Hs; apply sorted_app in Hs; tauto).
  set (sg := row_seg t x c H p _) in *. set (acc := row_bin x (xb0 x (length H)) H) in *.
  assert (Hsn : seg_bins ss = map (fun e => (e, n_before c (map t p) e)) (s_ends ss)).
  { unfold seg_bins. rewrite Hst. rewrite <- (map_id (s_ends ss)) at 1. rewrite combine_map2. auto. }
  assert (Hgs : snap_groups p acc sg ss = map (fun e => snap_of_rows t x c e (H ++ p)) (s_ends ss)).
  { unfold snap_groups. rewrite Hsn, map_map. apply map_ext_in. intros e He. unfold sg, acc. apply rows_snap; auto. }
  pose proof (cumsegagg_gen_snap N val agg dtypes Hvalid Hnodup Hagg (row_bins t x c) None t sb eo p buffer acc sg bb' ss bs sbuf0) as G.
  cbv zeta in G. rewrite Hgs in G. unfold sg, acc in G. rewrite rows_groups in G by auto. fold sg acc in G.
  unfold rnext. replace (nth (xb1 x (length H) (length p) * x) (map t (H ++ p)) 0%Z) with (last (s_labels sg) 0%Z).
  2:{ unfold sg, row_seg. cbn [s_labels]. rewrite last_xbins; auto. }
  replace (row_bin x (xb1 x (length H) (length p)) (H ++ p)) with (last (bin_groups acc (s_starts sg) p) []).
  2:{ unfold sg, acc, row_seg. cbn [s_starts]. rewrite rows_bin_groups by auto.
      rewrite (last_xbins x Hx H p HL (fun b => row_bin x b (H ++ p))). auto. }
  apply G; auto.
  - apply row_seg_ok; auto.
  - unfold sg, row_seg. cbn [s_ends]. apply row_ends_sorted; auto.
  - intros s b H1 H2. rewrite Hsn in H1. apply in_map_iff in H1 as (e & <- & He). cbn [fst snd].
    apply (row_compat1 t x Hx c H p HL Hs Hstr e) with (nn := (if (0 <? length H) && (length H mod x =? 0) then 1 else 0)); auto.
  - apply rows_null; auto.
  - apply rows_consistent; auto.
  - apply NoDup_consistent. rewrite map_fst_combine_; auto. rewrite map_length. destruct Hsok. congruence.
Qed.

(** One call. *)
Lemma ready_once : forall p, p <> [] -> ready [] p None None.
Proof.
  intros p Hp. assert (Hmn := map_ne t p Hp). split; simpl; auto.
  - destruct (by_x_rows_spec x c [] (map t p) None Hx Hmn eq_refl) as (b' & E & _). cbv zeta in E. simpl length in E.
    rewrite map_length in E. eapply by_x_rows_nobuf. exact E.
  - rewrite row_bin_nil. auto.
Qed.

Lemma row_once : forall ordered eo data, data <> [] ->
  match ordered with Some o => sorted (map o data) | None => True end ->
  outcome N val agg dtypes eo (row_groups t x 0 (S ((length data - 1) / x)) data) None (fun b => b = None)
    (csa (row_bins t x c) None ordered None eo data None).
Proof.
  intros ordered eo data Hne Ho.
  pose proof (row_call ordered eo [] data None None Hne Ho (ready_once data Hne)) as O.
  unfold rgb in O. simpl length in O. unfold xb0, xb1 in O. rewrite Nat.div_small in O by lia. rewrite Nat.sub_0_r in O. simpl app in O.
  eapply outcome_impl; [exact O|]. simpl. auto.
Qed.

Lemma row_once_vals : forall k labels ends eo data, data <> [] -> sorted (map t data) -> (c = SRight -> no_straddle t x data) ->
  length labels = length ends -> ends <> [] -> sorted ends -> NoDup labels ->
  outcome N val agg dtypes eo (row_groups t x 0 (S ((length data - 1) / x)) data)
    (Some (map (fun le => (fst le, snap_of_rows t x c (snd le) data))
             (take_until (fun le => forallb (fun r => before c (snd le) (t r)) data) (combine labels ends))))
    (fun b => b = None)
    (csa (row_bins t x c) None (Some t) (Some (ByVals k labels ends)) eo data None).
Proof.
  intros k labels ends eo data Hne Hs Hstr Hlen Hene Hes Hnd.
  destruct (vals_once t k labels ends c data Hne Hs Hlen Hene Hes Hnd) as (ss & E & S1 & S2 & S3 & S4).
  pose proof (row_call_snap (ByVals k labels ends) eo [] data None None ss None None Hne Hs Hstr (ready_once data Hne) eq_refl E S1 S2 S3) as O.
  unfold rgb in O. simpl length in O. unfold xb0, xb1 in O. rewrite Nat.div_small in O by lia. rewrite Nat.sub_0_r in O. simpl app in O.
  replace (map (fun le => (fst le, snap_of_rows t x c (snd le) data)) (take_until _ _))
    with (combine (s_labels ss) (map (fun e => snap_of_rows t x c e data) (s_ends ss))).
  2:{ rewrite <- S4. assert (Q : length (s_labels ss) = length (s_ends ss)) by (destruct S1; congruence). clear -Q.
      revert Q. generalize (s_labels ss), (s_ends ss). induction l as [|y l IH]; intros [|z m] Q; simpl in *; try discriminate; auto.
      f_equal. apply IH. lia. }
  eapply outcome_impl; [apply O|]; simpl; auto.
Qed.

Definition row_snaps (s : tgrouper) (a : Z) (j0 j1 : Z) (rows : list D) : list (Z * list D) :=
  map (fun j => (period_label (tg_label s) a (tg_freq s) j, snap_of_rows t x c (period_end a (tg_freq s) j) rows)) (zrange j0 j1).

Lemma row_once_tgsnap : forall s eo data, (0 < tg_freq s)%Z -> data <> [] -> sorted (map t data) -> (c = SRight -> no_straddle t x data) ->
  let f := tg_freq s in let a := origin_ts (tg_origin s) (tg_offset s) (hd 0%Z (map t data)) in
  outcome N val agg dtypes eo (row_groups t x 0 (S ((length data - 1) / x)) data)
    (Some (row_snaps s a (kappa c a f (hd 0%Z (map t data))) (kappa c a f (last (map t data) 0%Z)) data))
    (fun b => b = None)
    (csa (row_bins t x c) None (Some t) (Some (ByTG s)) eo data None).
Proof.
  intros s eo data Hf Hne Hs Hstr f a.
  destruct (time_seg_once t s (Some c) data Hf Hne Hs) as [Hk E]. cbv zeta in Hk, E. cbv iota in Hk, E. fold f a in Hk, E.
  match type of E with _ = Ok (?x, _) => set (ss := x) in * end.
  assert (S1 : snap_ok data ss) by (apply time_snap_ok; auto).
  assert (S2 : s_starts ss = map (n_before c (map t data)) (s_ends ss)) by (simpl; unfold pstarts; rewrite map_map; auto).
  assert (S3 : NoDup (s_labels ss)) by (simpl; apply NoDup_labels; auto).
  pose proof (row_call_snap (ByTG s) eo [] data None None ss None None Hne Hs Hstr (ready_once data Hne) eq_refl E S1 S2 S3) as O.
  unfold rgb in O. simpl length in O. unfold xb0, xb1 in O. rewrite Nat.div_small in O by lia. rewrite Nat.sub_0_r in O. simpl app in O.
  unfold row_snaps. replace (map _ (zrange _ _)) with (combine (s_labels ss) (map (fun e => snap_of_rows t x c e data) (s_ends ss))).
  2:{ simpl. rewrite map_map, combine_map2. auto. }
  eapply outcome_impl; [apply O|]; simpl; auto.
Qed.

(** * Restart *)
Variable snap : option tgrouper.
Hypothesis Hsnap : forall s, snap = Some s -> (0 < tg_freq s)%Z /\ fixed_periods s.

Definition rok (ordered : bool) (l : list D) : Prop :=
  (ordered = true -> sorted (map t l)) /\ (snap <> None -> sorted (map t l) /\ (c = SRight -> no_straddle t x l)).

Definition rinv (H : list D) (buffer : option (csabuf (option xbuf) V)) : Prop :=
  exists b, buffer = Some b /\
  match H with
  | [] => b = csabuf_empty
  | _ => (exists xb, mb_bin (cb_main b) = Some (Some xb) /\ xbuf_ok x c (map t H) (Some xb))
      /\ mb_last_label (cb_main b) = Some (nth (xb0 x (length H) * x) (map t H) 0%Z)
      /\ (exists r, cb_last b = Some r /\ last_is N val agg dtypes (row_bin x (xb0 x (length H)) H) r)
      /\ (forall s, snap = Some s -> exists ssb, mb_snap (cb_main b) = Some ssb
             /\ tg_buf_ok c s ssb (Some (kappa c (anchor s) (tg_freq s) (last (map t H) 0%Z))))
  end.

Definition first_snap (s : tgrouper) (H p : list D) : Z :=
  match H with [] => kappa c (anchor s) (tg_freq s) (hd 0%Z (map t p)) | _ => kappa c (anchor s) (tg_freq s) (last (map t H) 0%Z) end.

Definition rgs (H p : list D) : option (list (Z * list D)) :=
  option_map (fun s => row_snaps s (anchor s) (first_snap s H p) (kappa c (anchor s) (tg_freq s) (last (map t (H ++ p)) 0%Z)) (H ++ p)) snap.

Lemma row_step : forall ordered eo H p b, p <> [] -> rok ordered (H ++ p) -> rinv H b ->
  outcome N val agg dtypes eo (rgb H p) (rgs H p) (rinv (H ++ p))
    (csa (row_bins t x c) None (if ordered then Some t else match snap with Some _ => Some t | None => None end) (option_map ByTG snap) eo p b).
Proof.
  intros ordered eo H p b Hne [Ho Hok] (cb & -> & Hinv). assert (Hmn := map_ne t p Hne).
  assert (HL : 0 < length p) by (destruct p; [congruence|simpl; lia]).
  destruct (xb_facts x (length H) (length p) Hx HL) as (F1 & F2 & F3 & F4 & F5 & F6).
  set (ob := match mb_bin (cb_main cb) with Some o => o | None => None end).
  assert (Hbok : xbuf_ok x c (map t H) ob).
  { unfold ob. destruct H as [|h0 H']; [subst cb; simpl; auto|]. destruct Hinv as ((xb & -> & Hb) & _). auto. }
  destruct (by_x_rows_spec x c (map t H) (map t p) ob Hx Hmn Hbok) as (b' & E & Hb'). cbv zeta in E.
  rewrite !map_length in E. rewrite <- map_app in E, Hb'.
  assert (Hready : ready H p (Some cb) (Some (Some b'))).
  { split; [exact E|]. unfold running. destruct H as [|h0 H'] eqn:EH; [subst cb; simpl; rewrite row_bin_nil; auto|]. rewrite <- EH in *.
    destruct Hinv as (_ & -> & (r & -> & Hr) & _). specialize (F3 ltac:(subst H; simpl; lia)). split; [|split; [|eauto]].
    - rewrite map_app, app_nth1; auto. rewrite map_length. auto.
    - apply row_bin_ne; auto. }
  assert (Hxb : xb0 x (length (H ++ p)) = xb1 x (length H) (length p)) by (unfold xb0, xb1; rewrite app_length; auto).
  assert (Hmain : forall ws bs b2, rnext H p (Some cb) (Some (Some b')) ws bs b2 ->
     (forall s, snap = Some s -> ws = true /\ exists ssb, bs = Some ssb /\ tg_buf_ok c s ssb (Some (kappa c (anchor s) (tg_freq s) (last (map t (H ++ p)) 0%Z)))) ->
     rinv (H ++ p) b2).
  { intros ws bs b2 (r & -> & Hr) Hs. eexists. split; [reflexivity|].
    destruct (H ++ p) as [|y l] eqn:Ex; [apply app_eq_nil in Ex as [_ Ex]; congruence|]. rewrite <- Ex in *. rewrite Hxb. cbn [cb_main mb_bin mb_last_label cb_last mb_snap].
    split; [eauto|]. split; auto. split; [eauto|].
    intros s Es. destruct (Hs s Es) as (-> & ssb & -> & Hk). eauto. }
  unfold rgs. destruct snap as [s|] eqn:Es; simpl option_map.
  - destruct (Hsnap s eq_refl) as [Hf' Hfix']. set (f' := tg_freq s) in *. set (a' := anchor s) in *.
    destruct (Hok ltac:(congruence)) as [Hsrt Hstr].
    pose proof Hsrt as Hsrt2. rewrite map_app in Hsrt2. apply sorted_app in Hsrt2 as (HsH & Hsp & Hcross).
    assert (HlastA : last (map t (H ++ p)) 0%Z = last (map t p) 0%Z) by (rewrite map_app; apply last_app_ne; auto).
    set (j0 := first_snap s H p). set (j1 := kappa c a' f' (last (map t p) 0%Z)).
    assert (Hj0 : (j0 <= kappa c a' f' (hd 0%Z (map t p)))%Z /\ (forall h, In h H -> (kappa c a' f' (t h) <= j0)%Z)).
    { unfold j0, first_snap. destruct H as [|h0 H'] eqn:EH; [split; [apply Z.le_refl|contradiction]|]. rewrite <- EH in *.
      assert (HmH : map t H <> []) by (subst H; discriminate).
      assert (Hhd : In (hd 0%Z (map t p)) (map t p)) by (destruct (map t p); [congruence|left; auto]). split.
      - apply kappa_mono; auto. apply Hcross; auto. apply last_In; auto.
      - intros h Hh. apply kappa_last_ge; auto. apply in_map; auto. }
    destruct Hj0 as [Hj0 HHj].
    set (sbf := match H with [] => sbuf_empty | _ => match mb_snap (cb_main cb) with Some x => x | None => sbuf_empty end end).
    set (J := match H with [] => None | _ => Some (kappa c a' f' (last (map t H) 0%Z)) end).
    assert (Hsok : tg_buf_ok c s sbf J).
    { unfold sbf, J. destruct H as [|h0 H']; [split; simpl; auto|].
      destruct Hinv as (_ & _ & _ & Hs). destruct (Hs s eq_refl) as (ssb & -> & Hk). auto. }
    pose proof (by_scale_tg_fixed s (Some c) (map t p) sbf J) as E'. cbv zeta in E'. cbv iota in E'. fold f' a' in E'.
    replace (match J with Some k => k | None => kappa c a' f' (hd 0%Z (map t p)) end) with j0 in E'
      by (unfold j0, J, first_snap; destruct H; auto).
    fold j1 in E'. destruct E' as [E' Hnext']; auto.
    match type of E' with _ = Ok (?x, _) => set (ss := x) in * end.
    assert (Hj : (j0 <= j1)%Z).
    { etransitivity; [exact Hj0|]. apply kappa_hd_le; auto. apply last_In. auto. }
    rewrite HlastA. fold j1.
    replace (if ordered then Some t else Some t) with (Some t) by (destruct ordered; auto).
    eapply outcome_impl.
    + replace (row_snaps s a' j0 j1 (H ++ p)) with (combine (s_labels ss) (map (fun e => snap_of_rows t x c e (H ++ p)) (s_ends ss))).
      2:{ simpl. unfold row_snaps. fold f'. rewrite map_map, combine_map2. auto. }
      apply (row_call_snap (ByTG s) eo H p (Some cb) (Some (Some b')) ss (Some (tg_next_buffer c a' f' (map t p) j0 j1)) (Some sbf)); auto.
      * unfold snap_buffer, sbf. destruct H as [|h0 H']; [subst cb; simpl; auto|].
        destruct Hinv as ((xb & -> & _) & _ & _ & Hs). destruct (Hs s eq_refl) as (ssb & -> & _). split; auto. congruence.
      * apply time_snap_ok; auto.
      * simpl. unfold pstarts. rewrite map_map. auto.
      * simpl. apply NoDup_labels; auto.
      * intros h e Hh He. simpl in He. apply in_map_iff in He as (j & <- & Hjj). apply zrange_In in Hjj.
        unfold period_end. rewrite before_kappa by auto. apply Z.ltb_lt. apply (Z.le_lt_trans _ j0); [exact (HHj h Hh)|lia].
    + intros b2 Hb2. eapply Hmain; [exact Hb2|]. intros s0 Q. injection Q as <-. split; auto.
      eexists. split; [reflexivity|]. rewrite HlastA. auto.
  - eapply outcome_impl; [apply row_call; auto; [|exact Hready]|].
    + destruct ordered; auto. specialize (Ho eq_refl). rewrite map_app in Ho. apply sorted_app in Ho. tauto.
    + intros b2 Hb2. eapply Hmain; [exact Hb2|]. intros s0 Q. discriminate.
Qed.

(** Stitching. *)
Lemma rgb_stitch : forall H p, H <> [] -> p <> [] -> rgb [] (H ++ p) = removelast (rgb [] H) ++ rgb H p.
Proof.
  intros H p HneH Hne. assert (HL : 0 < length p) by (destruct p; [congruence|simpl; lia]).
  assert (Hn : 0 < length H) by (destruct H; [congruence|simpl; lia]).
  destruct (xb_facts x (length H) (length p) Hx HL) as (F1 & F2 & F3 & F4 & F5 & F6). specialize (F3 Hn).
  unfold rgb, row_groups. change (length (@nil D)) with 0. rewrite app_length. change ([] ++ H ++ p) with (H ++ p). change ([] ++ H) with H.
  assert (E0 : xb0 x 0 = 0) by (unfold xb0; apply Nat.div_small; lia). rewrite !E0.
  replace (xb1 x 0 (length H + length p)) with (xb1 x (length H) (length p)) by reflexivity.
  replace (xb1 x 0 (length H)) with (xb0 x (length H)) by reflexivity. rewrite !Nat.sub_0_r.
  set (b0 := xb0 x (length H)) in *. set (b1 := xb1 x (length H) (length p)) in *.
  rewrite (map_seq_snoc _ 0 b0), removelast_last.
  replace (S b1) with (b0 + S (b1 - b0)) at 1 by lia. rewrite seq_app, map_app. f_equal.
  apply map_ext_in. intros b Hb. apply in_seq in Hb. f_equal.
  - rewrite map_app, app_nth1; auto. rewrite map_length. nia.
  - apply row_bin_app; auto. nia.
Qed.

Lemma rgs_stitch : forall H p, H <> [] -> p <> [] -> (snap <> None -> sorted (map t (H ++ p))) ->
  rgs [] (H ++ p) = match rgs [] H, rgs H p with Some x, Some y => Some (removelast x ++ y) | _, _ => None end.
Proof.
  intros H p HneH Hne Hs. unfold rgs. destruct snap as [s|]; simpl; auto.
  destruct (Hsnap s eq_refl) as [Hf' Hfix']. specialize (Hs ltac:(congruence)). f_equal.
  assert (HmH := map_ne t H HneH). assert (Hmn := map_ne t p Hne).
  assert (HlastA : last (map t (H ++ p)) 0%Z = last (map t p) 0%Z) by (rewrite map_app; apply last_app_ne; auto).
  assert (Hhd : hd 0%Z (map t (H ++ p)) = hd 0%Z (map t H)) by (destruct H; [congruence|auto]).
  rewrite map_app in Hs. apply sorted_app in Hs as (HsH & Hsp & Hcross).
  change (first_snap s [] (H ++ p)) with (kappa c (anchor s) (tg_freq s) (hd 0%Z (map t (H ++ p)))). change (first_snap s [] H) with (kappa c (anchor s) (tg_freq s) (hd 0%Z (map t H))). rewrite Hhd. replace (first_snap s H p) with (kappa c (anchor s) (tg_freq s) (last (map t H) 0%Z)) by (destruct H; [congruence|auto]).
  rewrite HlastA. set (a0 := anchor s). set (f0 := tg_freq s) in *.
  set (k0 := kappa c a0 f0 (hd 0%Z (map t H))). set (K := kappa c a0 f0 (last (map t H) 0%Z)).
  set (k1 := kappa c a0 f0 (last (map t p) 0%Z)).
  assert (k0 <= K)%Z by (apply kappa_hd_le; auto; apply last_In; auto).
  assert (K <= k1)%Z by (apply kappa_mono; auto; apply Hcross; apply last_In; auto).
  unfold row_snaps. fold f0. rewrite zrange_removelast by auto. rewrite (zrange_app k0 (K - 1) k1) by lia. rewrite map_app.
  replace (K - 1 + 1)%Z with K by lia. f_equal.
  apply map_ext_in. intros k Hk. apply zrange_In in Hk. f_equal. unfold snap_of_rows.
  assert (Hp : forall r, In r p -> before c (period_end a0 f0 k) (t r) = false).
  { intros r Hr. unfold period_end. rewrite before_kappa by auto. apply Z.ltb_ge.
    assert (K <= kappa c a0 f0 (t r))%Z; [|lia]. apply kappa_mono; auto. apply Hcross; [apply last_In; auto|apply in_map; auto]. }
  assert (Hp2 : forall r, In r p -> (t r <? period_end a0 f0 k)%Z = false).
  { intros r Hr. specialize (Hp r Hr). destruct c; simpl in Hp; auto. apply Z.leb_gt in Hp. apply Z.ltb_ge. lia. }
  rewrite !filter_app. rewrite (filter_none _ p Hp), (filter_none _ p Hp2), !app_nil_r. auto.
Qed.

Lemma row_fixed_once : forall ordered eo data, data <> [] -> rok ordered data ->
  let ord := if ordered then Some t else match snap with Some _ => Some t | None => None end in
  outcome N val agg dtypes eo (rgb [] data) (rgs [] data) (fun b => b = None)
    (csa (row_bins t x c) None ord (option_map ByTG snap) eo data None).
Proof.
  intros ordered eo data Hne Hok ord.
  assert (Hg : row_groups t x 0 (S ((length data - 1) / x)) data = rgb [] data).
      { unfold rgb. simpl length. unfold xb0, xb1. rewrite (Nat.div_small (0 - 1)) by lia. rewrite Nat.sub_0_r. auto. }
      destruct Hok as [Ho Hok]. unfold rgs, ord. destruct snap as [s|] eqn:Es; simpl option_map.
      - destruct (Hok ltac:(congruence)) as [Hs Hstr]. destruct (Hsnap s eq_refl) as [Hf' Hfix'].
        replace (if ordered then Some t else Some t) with (Some t) by (destruct ordered; auto).
        assert (Hmn := map_ne t _ Hne).
        assert (E' : by_scale (map t data) (ByTG s) (Some c) None =
           Ok (mkSeg (pstarts c (anchor s) (tg_freq s) (map t data) (first_snap s [] data) (kappa c (anchor s) (tg_freq s) (last (map t data) 0%Z)))
              (map (period_label (tg_label s) (anchor s) (tg_freq s)) (zrange (first_snap s [] data) (kappa c (anchor s) (tg_freq s) (last (map t data) 0%Z))))
              (n_empty 0 (pstarts c (anchor s) (tg_freq s) (map t data) (first_snap s [] data) (kappa c (anchor s) (tg_freq s) (last (map t data) 0%Z)))) c
              (map (period_end (anchor s) (tg_freq s)) (zrange (first_snap s [] data) (kappa c (anchor s) (tg_freq s) (last (map t data) 0%Z)))) false 0, None)).
        { pose proof (by_scale_tg_gen s (Some c) (map t data) (hd 0%Z (map t data)) (anchor s) (first_snap s [] data) None) as E.
          cbv zeta in E. apply E; auto.
          - apply kappa_hd_le; auto; apply last_In; auto.
          - rewrite gtre_fixed by auto. auto. }
        match type of E' with _ = Ok (?x, _) => set (ss := x) in * end.
        assert (S1 : snap_ok data ss).
        { apply time_snap_ok; auto. apply kappa_hd_le; auto; apply last_In; auto. }
        assert (S2 : s_starts ss = map (n_before c (map t data)) (s_ends ss)) by (simpl; unfold pstarts; rewrite map_map; auto).
        assert (S3 : NoDup (s_labels ss)) by (simpl; apply NoDup_labels; auto).
        pose proof (row_call_snap (ByTG s) eo [] data None None ss None None Hne Hs Hstr (ready_once _ Hne) eq_refl E' S1 S2 S3) as O.
        unfold row_snaps. replace (map _ (zrange _ _)) with (combine (s_labels ss) (map (fun e => snap_of_rows t x c e data) (s_ends ss))).
        2:{ simpl. rewrite map_map, combine_map2. auto. }
        eapply outcome_impl; [apply O|]; simpl; auto.
      - rewrite <- Hg. apply row_once; auto. destruct ordered; auto.
Qed.

Lemma row_pieces : forall ordered eo pieces,
  concat pieces <> [] -> rok ordered (concat pieces) ->
  let ord := if ordered then Some t else match snap with Some _ => Some t | None => None end in
  let piece p b := csa (row_bins t x c) None ord (option_map ByTG snap) eo p b in
  (eo = false -> exists rs b', run_pieces piece (Some csabuf_empty) pieces = Ok (rs, b')) /\
  (forall rs b', run_pieces piece (Some csabuf_empty) pieces = Ok (rs, b') ->
   exists fw sw,
     csa (row_bins t x c) None ord (option_map ByTG snap) false (concat pieces) None = Ok (Some (fw, sw), None)
     /\ frames_make agg (bin_frames rs) fw
     /\ match sw with Some w => frames_make agg (snap_frames rs) w | None => snap_frames rs = [] end).
Proof.
  intros ordered eo pieces Hne Hok ord piece.
  assert (Hinv : rinv [] (Some csabuf_empty)) by (exists csabuf_empty; split; auto).
  assert (Happ : forall H p : list D, rok ordered (H ++ p) -> rok ordered H).
  { intros H p [A1 A2]. assert (S : sorted (map t (H ++ p)) -> sorted (map t H)).
    { intro Q. rewrite map_app in Q. apply sorted_app in Q. tauto. }
    split; auto. intro Q. destruct (A2 Q) as [B1 B2]. split; auto. intros Ec b Hb Hlt.
    specialize (B2 Ec b Hb). rewrite app_length in B2. specialize (B2 ltac:(lia)).
    rewrite map_app, !app_nth1 in B2 by (rewrite map_length; lia). auto. }
  split.
  - intros Heo. apply (run_total N val agg dtypes piece eo (rok ordered) rinv rgb rgs) with (H := []); auto.
    intros H p b. apply row_step.
  - intros rs b' Hrun.
    assert (O : outcome N val agg dtypes false (rgb [] (concat pieces)) (rgs [] (concat pieces)) (fun b => b = None)
      (csa (row_bins t x c) None ord (option_map ByTG snap) false (concat pieces) None)).
    { apply row_fixed_once; auto. }
    destruct (proj2 O) as (fw0 & sw0 & bw0 & E0 & _ & _ & ->); [intros [Q _]; discriminate|].
    pose proof (pieces_whole N val agg dtypes Hvalid piece eo (rok ordered) rinv rgb rgs
      Happ (fun b => eq_refl) (fun H p b => row_step ordered eo H p b)
      (fun H p A B _ => rgb_stitch H p A B) (fun H p A B C => rgs_stitch H p A B (fun Q => proj1 (proj2 C Q)))) as W.
    destruct (W ltac:(intros; unfold rgs; destruct snap; simpl; split; congruence)
      pieces (Some csabuf_empty) rs b'
      (csa (row_bins t x c) None ord (option_map ByTG snap) false (concat pieces) None))
      as (fw & sw & bw & E & F1 & F2); auto.
    + apply (outcome_impl N val agg dtypes _ _ _ _ _ _ O). auto.
    + rewrite E0 in E. injection E as <- <- <-. eauto.
Qed.
End RowCsa.
