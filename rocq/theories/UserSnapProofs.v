(** 'cumsegagg' with any binning function and snapshots. *)
Require Import List Arith ZArith Bool Lia Sorted Permutation.
Require Import Verif.Common Verif.AggModel Verif.AggSpec Verif.AggProofs.
Require Import Verif.SegModel Verif.SegSpec Verif.SegProofs Verif.SegRowsProofs Verif.MergeProofs Verif.EventProofs.
Require Import Verif.CsaModel Verif.CsaSpec Verif.CsaProofs Verif.CsaLoopProofs Verif.CsaSegProofs Verif.CsaTimeProofs.
Require Import Verif.CsaPiecesProofs Verif.UserBinsSpec Verif.UserBinsProofs Verif.UserSnapSpec.
Import ListNotations.

(** * Cuts *)
Lemma cut_firstn : forall {A} (rows : list A) i ps from, firstn i (cut from ps rows) = cut from (firstn i ps) rows.
Proof. induction i as [|i IH]; intros [|p ps] from; simpl; auto. f_equal. auto. Qed.
Lemma last_cons_ : forall {A} (l : list A) x d, last (x :: l) d = last l x.
Proof. induction l as [|y l IH]; intros x d; auto. change (last (y :: l) d = last (y :: l) x). rewrite !IH. auto. Qed.
Lemma cut_skipn : forall {A} (rows : list A) i ps from, skipn i (cut from ps rows) = cut (last (firstn i ps) from) (skipn i ps) rows.
Proof. induction i as [|i IH]; intros [|p ps] from; auto. cbn [cut skipn firstn]. rewrite IH, last_cons_. auto. Qed.
Lemma cut_concat_ : forall {A} (rows : list A) ps from, StronglySorted le (from :: ps) -> concat (cut from ps rows) = slice from (last ps from) rows.
Proof.
  induction ps as [|p ps IH]; intros from H; [simpl; rewrite slice_nil; auto|]. apply StronglySorted_inv in H as [H1 H2]. pose proof (Forall_inv H2) as Hfp.
  rewrite last_cons_. cbn [cut concat]. rewrite IH by auto. fold (slice from p rows). rewrite <- slice_split; auto.
  apply StronglySorted_inv in H1 as [_ H1]. destruct ps as [|q ps]; auto. rewrite Forall_forall in H1. apply H1. apply last_In. discriminate.
Qed.
Lemma nth_hd_skipn : forall {A} i (l : list A) d, nth i l d = hd d (skipn i l).
Proof. induction i as [|i IH]; intros [|x l] d; simpl; auto. Qed.
Lemma nth_cut : forall {A} (rows : list A) i ps from, i < length ps -> nth i (cut from ps rows) [] = slice (last (firstn i ps) from) (nth i ps 0) rows.
Proof.
  intros A rows i ps from Hi. rewrite nth_hd_skipn, cut_skipn, (nth_hd_skipn i ps 0).
  destruct (skipn i ps) eqn:E; auto.
Qed.
Lemma SSorted_firstn : forall i l, StronglySorted le l -> StronglySorted le (firstn i l).
Proof.
  induction i as [|i IH]; intros [|x l] H; simpl; try constructor; inversion H; subst; auto.
  rewrite Forall_forall in *. intros y Hy. apply H3. rewrite <- (firstn_skipn i l). apply in_or_app. auto.
Qed.
Lemma SSorted_skipn : forall i l, StronglySorted le l -> StronglySorted le (skipn i l).
Proof. induction i as [|i IH]; intros [|x l] H; simpl; auto. inversion H; auto. Qed.
Lemma SSorted_from_0 : forall l, StronglySorted le l -> StronglySorted le (0 :: l).
Proof. intros l H. constructor; auto. apply Forall_forall. intros; lia. Qed.
Lemma last_firstn : forall i (l : list nat), i < length l -> last (firstn (S i) l) 0 = nth i l 0.
Proof.
  induction i as [|i IH]; intros [|x l] H; simpl in H; try lia; auto.
  cbn [firstn]. rewrite last_cons_. cbn [nth]. rewrite <- IH by lia. destruct l as [|y l]; [simpl in H; lia|]. cbn [firstn]. rewrite !last_cons_. auto.
Qed.
Lemma SSorted_skipn_from : forall i l, StronglySorted le l -> i < length l -> StronglySorted le (nth i l 0 :: skipn (S i) l).
Proof.
  induction i as [|i IH]; intros [|x l] H Hi; simpl in Hi; try lia.
  - exact H.
  - inversion H; subst. apply (IH l); auto. lia.
Qed.
Lemma last_skipn_ : forall i (l : list nat) d, i < length l -> last (skipn (S i) l) (nth i l d) = last l d.
Proof.
  induction i as [|i IH]; intros [|x l] d H; simpl in H; try lia.
  - cbn [skipn nth]. rewrite last_cons_. auto.
  - cbn [nth]. rewrite last_cons_. change (skipn (S (S i)) (x :: l)) with (skipn (S i) l). rewrite (nth_indep l d x) by lia. apply IH. lia.
Qed.

Lemma nth_firstn_ : forall {A} n (l : list A) i d, i < n -> nth i (firstn n l) d = nth i l d.
Proof. induction n as [|n IH]; intros l i d H; [lia|]. destruct l as [|x l]; [destruct i; auto|]. destruct i as [|i]; simpl; auto. apply IH. lia. Qed.
Lemma nth_skipn_ : forall {A} n (l : list A) i d, nth i (skipn n l) d = nth (n + i) l d.
Proof. induction n as [|n IH]; intros [|x l] i d; simpl; auto. destruct i; auto. Qed.

(** Rows up to the position [i], and after it. *)
Lemma In_firstn_cut : forall {A} (rows : list A) ps i x, StronglySorted le ps -> i < length ps -> In x (firstn (nth i ps 0) rows) ->
  exists j, j <= i /\ In x (nth j (cut 0 ps rows) []).
Proof.
  intros A rows ps i x H Hi Hx.
  assert (E : firstn (nth i ps 0) rows = concat (firstn (S i) (cut 0 ps rows))).
  { rewrite cut_firstn, cut_concat_ by (apply SSorted_from_0, SSorted_firstn; auto). rewrite last_firstn by auto. unfold slice. simpl. rewrite Nat.sub_0_r. auto. }
  rewrite E in Hx. apply in_concat in Hx as (l & Hl & Hx). apply (In_nth _ _ []) in Hl as (j & Hj & <-).
  rewrite firstn_length, cut_length in Hj. exists j. split; [lia|]. rewrite nth_firstn_ in Hx; auto. lia.
Qed.
Lemma In_skipn_cut : forall {A} (rows : list A) ps i x, StronglySorted le ps -> i < length ps -> last ps 0 = length rows -> In x (skipn (nth i ps 0) rows) ->
  exists j, i < j /\ In x (nth j (cut 0 ps rows) []).
Proof.
  intros A rows ps i x H Hi Hl Hx.
  assert (E : skipn (nth i ps 0) rows = concat (skipn (S i) (cut 0 ps rows))).
  { rewrite cut_skipn. rewrite last_firstn by auto. rewrite cut_concat_ by (apply SSorted_skipn_from; auto). rewrite last_skipn_, Hl by auto.
    unfold slice. symmetry. apply firstn_all2. rewrite skipn_length. lia. }
  rewrite E in Hx. apply in_concat in Hx as (l & Hl' & Hx). apply (In_nth _ _ []) in Hl' as (j & Hj & <-).
  rewrite nth_skipn_ in Hx. exists (S i + j). split; [lia|auto].
Qed.

Lemma removelast_combine : forall {A B} (a : list A) (b : list B), length a = length b -> removelast (combine a b) = combine (removelast a) b.
Proof.
  induction a as [|x a IH]; intros [|y b] H; simpl in H; try discriminate; auto.
  destruct a as [|x' a]; destruct b as [|y' b]; simpl in H; try discriminate; auto.
  change (combine (x :: x' :: a) (y :: y' :: b)) with ((x, y) :: combine (x' :: a) (y' :: b)).
  change (removelast (x :: x' :: a)) with (x :: removelast (x' :: a)). change (combine (x :: removelast (x' :: a)) (y :: y' :: b)) with ((x, y) :: combine (removelast (x' :: a)) (y' :: b)).
  rewrite <- IH by (simpl; lia). auto.
Qed.
Lemma filter_sorted_firstn : forall {A} (f : A -> Z) (l : list A) e, sorted (map f l) ->
  filter (fun x => f x <? e)%Z l = firstn (length (filter (fun k => k <? e)%Z (map f l))) l.
Proof.
  intros A f l e H. induction l as [|x l IH]; simpl; auto. simpl in H. inversion H; subst. destruct (f x <? e)%Z eqn:E; simpl.
  - f_equal. auto.
  - assert (G : forall y, In y (map f l) -> (y <? e)%Z = false).
    { intros y Hy. rewrite Forall_forall in H3. specialize (H3 y Hy). apply Z.ltb_ge in E. apply Z.ltb_ge. lia. }
    rewrite (filter_none _ (map f l) G). simpl. apply filter_none. intros y Hy. apply G. apply in_map; auto.
Qed.
Lemma filter_lt_firstn : forall l e, sorted l -> filter (fun k => k <? e)%Z l = firstn (length (filter (fun k => k <? e)%Z l)) l.
Proof. intros l e H. pose proof (filter_sorted_firstn (fun x => x) l e) as Q. rewrite map_id in Q. auto. Qed.
Lemma filter_length_le_ : forall {A} (f : A -> bool) l, length (filter f l) <= length l.
Proof. induction l as [|x l IH]; simpl; auto. destruct (f x); simpl; lia. Qed.

Section Shot.
Context {D : Type}.
Variables (t : D -> Z) (c : side).
Notation bf e := (fun r : D => before c e (t r)).

Lemma before_lt : forall e k v, (k < e)%Z -> (v <= k)%Z -> before c e v = true.
Proof. intros e k v H1 H2. destruct c; simpl; [apply Z.ltb_lt|apply Z.leb_le]; lia. Qed.
Lemma not_before_le : forall e k v, (e <= k)%Z -> before c k v = false -> before c e v = false.
Proof. intros e k v H1. destruct c; simpl; [rewrite !Z.ltb_ge|rewrite !Z.leb_gt]; lia. Qed.

(** Position of a known end and the number of rows before a point. *)
Section Piece.
Variables (sg : seg) (running p : list D) (bs : list (Z * list D)).
Hypothesis Hp : p <> [].
Hypothesis Hbs : bs <> [].
Hypothesis Hd : describes sg running p bs.
Hypothesis Hs : sorted (map t p).
Hypothesis Hk : sorted (known_ends sg).
Hypothesis Hsep : forall i j k r, nth_error (known_ends sg) i = Some k -> In r (nth j (cut 0 (s_starts sg) p) []) ->
  if (j <=? i)%nat then (t r <= k)%Z else before c k (t r) = false.
Notation S_ := (s_starts sg).
Notation K_ := (known_ends sg).

Lemma lengths : length (s_ends sg) = length S_ /\ length S_ = length bs /\ 0 < length S_.
Proof. destruct Hd. split; [congruence|]. split; auto. rewrite ds_starts. destruct bs; [congruence|simpl; lia]. Qed.
Lemma removelast_length_ : forall {A} (l : list A), length (removelast l) = length l - 1.
Proof. intros A l. destruct l as [|x l]; auto. destruct (exists_last (l := x :: l) ltac:(discriminate)) as (l' & y & E). rewrite E, removelast_last, app_length. simpl. lia. Qed.
Lemma known_length : length K_ = if s_unknown_last_end sg then length S_ - 1 else length S_.
Proof. destruct lengths as (L1 & _). unfold known_ends. destruct (s_unknown_last_end sg); auto. rewrite removelast_length_. lia. Qed.
Lemma known_le : length K_ <= length S_.
Proof. rewrite known_length. destruct (s_unknown_last_end sg); lia. Qed.
Lemma done_bins_is : done_bins sg = combine K_ S_.
Proof. destruct lengths as (L1 & _). unfold done_bins, known_ends, seg_bins. destruct (s_unknown_last_end sg); auto. apply removelast_combine; auto. Qed.

Lemma pos_before : forall i k e, nth_error K_ i = Some k -> (k < e)%Z -> nth i S_ 0 <= n_before c (map t p) e.
Proof.
  intros i k e Hi He. assert (Li : i < length S_) by (pose proof known_le; assert (i < length K_) by (apply nth_error_Some; congruence); lia).
  rewrite n_before_map. rewrite <- (firstn_skipn (nth i S_ 0) p), filter_app, app_length.
  rewrite (filter_all (bf e) (firstn (nth i S_ 0) p)).
  - rewrite firstn_length_le; [lia|]. destruct Hd. rewrite <- ds_last. apply SSorted_le_In; auto; [intro Q; rewrite Q in Li; simpl in Li; lia|]. apply nth_In; auto.
  - intros r Hr. destruct Hd. apply In_firstn_cut in Hr as (j & Hj & Hr); auto. specialize (Hsep i j k r Hi Hr).
    apply Nat.leb_le in Hj. rewrite Hj in Hsep. eapply before_lt; eauto.
Qed.
Lemma pos_after : forall i k e, nth_error K_ i = Some k -> (e <= k)%Z -> n_before c (map t p) e <= nth i S_ 0.
Proof.
  intros i k e Hi He. assert (Li : i < length S_) by (pose proof known_le; assert (i < length K_) by (apply nth_error_Some; congruence); lia).
  rewrite n_before_map. rewrite <- (firstn_skipn (nth i S_ 0) p), filter_app, app_length.
  rewrite (filter_none (bf e) (skipn (nth i S_ 0) p)).
  - simpl. rewrite Nat.add_0_r. etransitivity; [apply filter_length_le_|]. rewrite firstn_length. lia.
  - intros r Hr. destruct Hd. apply In_skipn_cut in Hr as (j & Hj & Hr); auto. specialize (Hsep i j k r Hi Hr).
    assert (Q : (j <=? i)%nat = false) by (apply Nat.leb_gt; auto). rewrite Q in Hsep. eapply not_before_le; eauto.
Qed.

Lemma In_done : forall b, In b (done_bins sg) -> exists i, nth_error K_ i = Some (fst b) /\ nth i S_ 0 = snd b.
Proof.
  intros b Hb. rewrite done_bins_is in Hb. apply (In_nth_error) in Hb as (i & Hi). exists i. revert Hi. generalize K_, S_. clear. revert b.
  induction i as [|i IH]; intros b [|k K] [|s S] H; simpl in *; try discriminate.
  - injection H as <-. auto.
  - apply IH; auto.
Qed.

Lemma piece_compat : forall snaps, (forall s, In s snaps -> snd s = n_before c (map t p) (fst s)) -> compat snaps (done_bins sg).
Proof.
  intros snaps Hsn s b Hs' Hb. apply In_done in Hb as (i & Hi & <-). rewrite (Hsn s Hs'). split; intro Q.
  - eapply pos_after; eauto.
  - eapply pos_before; eauto.
Qed.

Lemma filter_slice : forall e a b, a <= n_before c (map t p) e -> n_before c (map t p) e <= b -> b <= length p ->
  filter (bf e) (slice a b p) = slice a (n_before c (map t p) e) p.
Proof.
  intros e a b H1 H2 H3. set (n := n_before c (map t p) e) in *.
  assert (Hin : forall r, In r (firstn n p) -> before c e (t r) = true).
  { intros r Hr. unfold n in Hr. rewrite rows_firstn in Hr by auto. apply filter_In in Hr. tauto. }
  assert (Hout : forall r, In r (skipn n p) -> before c e (t r) = false).
  { intros r Hr. pose proof (rows_split t c e p Hs) as E. rewrite <- (rows_firstn t c e p Hs) in E. fold n in E. rewrite <- (firstn_skipn n p) in E at 1. apply app_inv_head in E.
    rewrite E in Hr. apply filter_In in Hr as [_ Hr]. apply negb_true_iff in Hr. auto. }
  rewrite (slice_split p a n b H1 H2), filter_app, filter_all, filter_none; [apply app_nil_r| |].
  - intros r Hr. apply Hout. unfold slice in Hr. rewrite <- (firstn_skipn (b - n) (skipn n p)). apply in_or_app. auto.
  - intros r Hr. apply Hin. unfold slice in Hr. rewrite <- (firstn_skipn a (firstn n p)). apply in_or_app. right. rewrite skipn_firstn_comm. auto.
Qed.

Lemma piece_shot : forall e, (forall r, In r running -> before c e (t r) = true) ->
  snap_rows p running (done_bins sg) (e, n_before c (map t p) e) = shot t c bs K_ e.
Proof.
  intros e Hrun. destruct lengths as (L1 & L2 & L3). unfold snap_rows, shot. cbn [fst snd].
  set (i2 := length (filter (fun k => k <? e)%Z K_)). set (n := n_before c (map t p) e).
  assert (Hi2 : i2 <= length K_) by apply filter_length_le_. pose proof known_le as HKS.
  assert (Ef : map fst (done_bins sg) = K_).
  { rewrite done_bins_is. revert HKS. generalize K_, S_. clear. induction l as [|k l IH]; intros [|s S] H; simpl in *; try lia; f_equal; auto. apply IH. lia. }
  assert (Es : map snd (done_bins sg) = firstn (length K_) S_).
  { rewrite done_bins_is. revert HKS. generalize K_, S_. clear. induction l as [|k l IH]; intros [|s S] H; simpl in *; try lia; f_equal; auto. apply IH. lia. }
  assert (Ep : filter (fun b => (fst b <? e)%Z) (done_bins sg) = firstn i2 (done_bins sg)).
  { rewrite filter_sorted_firstn by (rewrite Ef; auto). rewrite Ef. auto. }
  rewrite Ep. rewrite <- firstn_map, Es, firstn_firstn, Nat.min_l by auto.
  assert (Enil : is_nil (firstn i2 (done_bins sg)) = (i2 =? 0)%nat).
  { assert (Ld : length (done_bins sg) = length K_) by (rewrite <- Ef, map_length; auto). destruct i2 as [|i2']; auto.
    destruct (done_bins sg); [simpl in Ld; lia|auto]. }
  rewrite Enil. pose proof (ds_rows _ _ _ _ Hd) as Hr. pose proof (ds_last _ _ _ _ Hd) as Hl. pose proof (ds_order _ _ _ _ Hd) as Ho.
  set (from := last (firstn i2 S_) 0).
  assert (Hfrom : from <= n).
  { unfold from. destruct i2 as [|i] eqn:E; [simpl; lia|]. rewrite last_firstn by lia.
    assert (Hik : exists k, nth_error K_ i = Some k /\ (k < e)%Z).
    { assert (In (nth i K_ 0%Z) (filter (fun k => k <? e)%Z K_)).
      { rewrite filter_lt_firstn by auto. fold i2. rewrite E. rewrite <- (nth_firstn_ (S i) K_ i 0%Z) by lia. apply nth_In. rewrite firstn_length. lia. }
      apply filter_In in H as [_ H]. apply Z.ltb_lt in H. exists (nth i K_ 0%Z). split; auto. apply nth_error_nth'. lia. }
    destruct Hik as (k & Q1 & Q2). eapply pos_before; eauto. }
  destruct (Nat.lt_ge_cases i2 (length S_)) as [Hlt|Hge].
  - assert (Hto : n <= nth i2 S_ 0).
    { destruct (Nat.lt_ge_cases i2 (length K_)) as [Q|Q].
      - apply (pos_after i2 (nth i2 K_ 0%Z)); [apply nth_error_nth'; auto|].
        destruct (Z.lt_ge_cases (nth i2 K_ 0%Z) e) as [Z|Z]; [|lia]. exfalso.
        assert (In (nth i2 K_ 0%Z) (skipn i2 K_)) by (rewrite nth_hd_skipn; destruct (skipn i2 K_) eqn:X; [pose proof (skipn_length i2 K_) as Y; rewrite X in Y; simpl in Y; lia|left; auto]).
        assert (G : filter (fun k => k <? e)%Z (skipn i2 K_) = []).
        { assert (length (filter (fun k => (k <? e)%Z) K_) = i2) by auto. rewrite <- (firstn_skipn i2 K_), filter_app, app_length in H0.
          rewrite (filter_all _ (firstn i2 K_)), firstn_length_le in H0 by (auto; unfold i2; rewrite <- filter_lt_firstn by auto; intros x Hx; apply filter_In in Hx; tauto).
          apply length_zero_iff_nil. lia. }
        assert (In (nth i2 K_ 0%Z) (filter (fun k => k <? e)%Z (skipn i2 K_))) by (apply filter_In; split; auto; apply Z.ltb_lt; auto).
        rewrite G in H0. contradiction.
      - pose proof known_length as KL. destruct (s_unknown_last_end sg); [|lia]. assert (i2 = length S_ - 1) by lia.
        replace (nth i2 S_ 0) with (length p); [rewrite <- (map_length t p); apply n_before_le|].
        rewrite <- Hl, <- (last_firstn i2 S_) by auto. rewrite firstn_all2 by lia. auto. }
    assert (Hend : nth i2 S_ 0 <= length p).
    { rewrite <- Hl. apply SSorted_le_In; auto; [intro Q; rewrite Q in L3; simpl in L3; lia|]. apply nth_In; auto. }
    assert (En : nth i2 (map snd bs) [] = (if (i2 =? 0)%nat then running else []) ++ slice from (nth i2 S_ 0) p).
    { rewrite Hr. pose proof (nth_cut p i2 S_ 0 Hlt) as E. fold from in E. rewrite <- E.
      destruct S_ as [|s S]; [simpl in L3; lia|]. cbn [cut]. destruct i2 as [|i]; auto. }
    rewrite En, filter_app, filter_slice by auto. f_equal. destruct (i2 =? 0)%nat; auto. symmetry. apply filter_all. auto.
  - assert (i2 = length S_) by lia. rewrite nth_overflow by (rewrite map_length; lia). simpl.
    assert (Efrom : from = length p) by (unfold from; rewrite firstn_all2 by lia; auto).
    assert (Hn : n <= length p) by (unfold n; rewrite <- (map_length t p); apply n_before_le).
    destruct i2 as [|i]; [lia|]. simpl. unfold slice. replace (n - from) with 0 by lia. auto.
Qed.
End Piece.
End Shot.

(** * Bins, ends and points of more rows *)
Lemma count_firstn : forall e l m, sorted l -> length (filter (fun k => k <? e)%Z l) <= m ->
  length (filter (fun k => k <? e)%Z l) = length (filter (fun k => k <? e)%Z (firstn m l)).
Proof.
  intros e. induction l as [|x l IH]; intros m H L; [rewrite firstn_nil; auto|]. apply StronglySorted_inv in H as [H1 H2]. simpl in L |- *.
  destruct (x <? e)%Z eqn:E.
  - destruct m as [|m]; simpl in L; [lia|]. cbn [firstn filter]. rewrite E. simpl. f_equal. apply IH; auto. lia.
  - assert (G : filter (fun k => k <? e)%Z l = []).
    { apply filter_none. intros y Hy. rewrite Forall_forall in H2. specialize (H2 y Hy). apply Z.ltb_ge in E. apply Z.ltb_ge. lia. }
    rewrite G in *. destruct m as [|m]; auto. cbn [firstn filter]. rewrite E. rewrite filter_none; auto.
    intros y Hy. rewrite Forall_forall in H2. specialize (H2 y ltac:(rewrite <- (firstn_skipn m l); apply in_or_app; auto)). apply Z.ltb_ge in E. apply Z.ltb_ge. lia.
Qed.

Section Ends.
Context {D B : Type}.
Variables (t : D -> Z) (c : side).
Variable bin_by : list D -> option B -> res (seg * option B).
Variable empty : B.
Variable bins : list D -> list (Z * list D).
Variable after : list D -> B -> Prop.
Variable good : list D -> Prop.
Variable ends : list D -> list Z.
Hypothesis Hbin : binning bin_by empty bins after good.
Hypothesis Hends : bin_ends t c bin_by bins after good ends.
Notation m_ H := (length (bins H) - 1).

Lemma bins_concat : forall rows, good rows -> concat (map snd (bins rows)) = rows.
Proof.
  intros rows Hg. destruct rows as [|r0 rows0]; [destruct (bn_nothing _ _ _ _ _ Hbin) as [-> _]; auto|]. set (rows := r0 :: rows0) in *.
  destruct (bn_once _ _ _ _ _ Hbin rows ltac:(discriminate) Hg) as (sg & _ & Hd). destruct Hd. rewrite ds_rows.
  transitivity (concat (cut 0 (s_starts sg) rows)); [destruct (cut 0 (s_starts sg) rows); auto|].
  rewrite cut_concat_ by (apply SSorted_from_0; auto). rewrite ds_last. unfold slice. simpl skipn. rewrite Nat.sub_0_r. apply firstn_all.
Qed.
Lemma ends_length : forall rows, rows <> [] -> good rows -> m_ rows <= length (ends rows) <= length (bins rows).
Proof.
  intros rows Hr Hg. destruct (bn_once _ _ _ _ _ Hbin rows Hr Hg) as (sg & E & Hd).
  destruct (be_once _ _ _ _ _ _ _ Hends rows sg None Hr Hg E) as (_ & _ & <-). destruct Hd. rewrite <- ds_ends.
  unfold known_ends. destruct (s_unknown_last_end sg); [|lia]. rewrite removelast_length_. lia.
Qed.
Lemma bins_more : forall H p, H <> [] -> good (H ++ p) -> exists bs l r r' bs',
  bins H = bs ++ [(l, r)] /\ r <> [] /\ bins (H ++ p) = bs ++ (l, r ++ r') :: bs' /\ H = concat (map snd bs) ++ r /\ p = r' ++ concat (map snd bs').
Proof.
  intros H p HH Hg. destruct (bn_more _ _ _ _ _ Hbin H p HH Hg) as (bs & l & r & r' & bs' & E1 & E2 & E3).
  exists bs, l, r, r', bs'. pose proof (bins_concat H (bn_good _ _ _ _ _ Hbin H p Hg)) as C1. pose proof (bins_concat (H ++ p) Hg) as C2.
  rewrite E1, map_app, concat_app in C1. simpl in C1. rewrite app_nil_r in C1.
  rewrite E3, map_app, concat_app in C2. simpl in C2. rewrite <- C1, <- !app_assoc in C2. apply app_inv_head in C2. apply app_inv_head in C2.
  repeat (split; auto).
Qed.

Lemma shot_new : forall H p e, good (H ++ p) -> (forall r, In r H -> before c e (t r) = true) ->
  shot t c (new_bins bins H p) (skipn (m_ H) (ends (H ++ p))) e = shot t c (bins (H ++ p)) (ends (H ++ p)) e.
Proof.
  intros H p e Hg He. destruct H as [|h0 H0].
  { destruct (bn_nothing _ _ _ _ _ Hbin) as [N1 _]. unfold new_bins. rewrite N1. reflexivity. }
  set (H := h0 :: H0) in *. assert (HH : H <> []) by discriminate. clearbody H. clear h0 H0.
  destruct (bins_more H p HH Hg) as (bs & l & r & r' & bs' & E1 & Er & E2 & E3 & E4).
  assert (Hm : m_ H = length bs) by (rewrite E1, app_length; simpl; lia). unfold new_bins. rewrite Hm.
  assert (HL : length bs <= length (ends (H ++ p))).
  { pose proof (ends_length (H ++ p) ltac:(destruct H; simpl; congruence) Hg) as Q. rewrite E2, app_length in Q. simpl in Q. lia. }
  assert (Hlt : forall k, In k (firstn (length bs) (ends (H ++ p))) -> (k <? e)%Z = true).
  { intros k Hk. apply Z.ltb_lt. apply (In_nth_error) in Hk as (i & Hi). assert (Li : i < length bs).
    { assert (Lq : i < length (firstn (length bs) (ends (H ++ p)))) by (apply nth_error_Some; congruence). rewrite firstn_length in Lq. lia. }
    assert (Hi' : nth_error (ends (H ++ p)) i = Some k).
    { rewrite <- (firstn_skipn (length bs) (ends (H ++ p))). rewrite nth_error_app1; auto. rewrite firstn_length. lia. }
    destruct r as [|x r]; [congruence|]. assert (Hx : In x (nth (length bs) (map snd (bins (H ++ p))) [])).
    { rewrite E2, map_app, app_nth2 by (rewrite map_length; lia). rewrite map_length, Nat.sub_diag. left. auto. }
    pose proof (be_rows _ _ _ _ _ _ _ Hends (H ++ p) i (length bs) k x Hg Hi' Hx) as Q.
    replace (length bs <=? i)%nat with false in Q by (symmetry; apply Nat.leb_gt; auto).
    specialize (He x ltac:(rewrite E3; apply in_or_app; right; left; auto)). destruct c; simpl in Q, He.
    - apply Z.ltb_ge in Q. apply Z.ltb_lt in He. lia.
    - apply Z.leb_gt in Q. apply Z.leb_le in He. lia. }
  unfold shot. f_equal.
  rewrite <- (firstn_skipn (length bs) (ends (H ++ p))) at 2. rewrite filter_app, app_length, (filter_all _ (firstn _ _) Hlt), firstn_length_le by auto.
  rewrite <- skipn_map, nth_skipn_. auto.
Qed.

Lemma shot_same : forall H p e, H <> [] -> good (H ++ p) -> sorted (map t (H ++ p)) -> before c e (last (map t H) 0%Z) = false ->
  shot t c (bins (H ++ p)) (ends (H ++ p)) e = shot t c (bins H) (ends H) e.
Proof.
  intros H p e HH Hg Hs He. destruct (bins_more H p HH Hg) as (bs & l & r & r' & bs' & E1 & Er & E2 & E3 & E4).
  assert (GH : good H) by (eapply bn_good; eauto).
  destruct (exists_last Er) as (r1 & x & Ex). assert (Elast : last (map t H) 0%Z = t x) by (rewrite E3, Ex, !map_app; simpl; rewrite app_assoc, last_last; auto).
  rewrite Elast in He.
  assert (Hm : m_ H = length bs) by (rewrite E1, app_length; simpl; lia).
  assert (Hcount : forall F rows, good rows -> ends rows = F -> In x (nth (length bs) (map snd (bins rows)) []) -> length (filter (fun k => k <? e)%Z F) <= length bs).
  { intros F rows Hgr EF Hx. destruct (le_lt_dec (length (filter (fun k => k <? e)%Z F)) (length bs)) as [Q|Q]; auto. exfalso.
    assert (SF : sorted F) by (subst F; apply (be_order _ _ _ _ _ _ _ Hends); auto).
    pose proof (filter_length_le_ (fun k => k <? e)%Z F) as LF.
    assert (Hin : In (nth (length bs) F 0%Z) (filter (fun k => k <? e)%Z F)).
    { rewrite (filter_lt_firstn F e SF). rewrite <- (nth_firstn_ (length (filter (fun k => k <? e)%Z F)) F (length bs) 0%Z) by auto. apply nth_In. rewrite firstn_length. lia. }
    apply filter_In in Hin as [_ Hin]. apply Z.ltb_lt in Hin.
    pose proof (be_rows _ _ _ _ _ _ _ Hends rows (length bs) (length bs) (nth (length bs) F 0%Z) x Hgr) as R.
    assert (LB : length bs < length F) by lia. rewrite EF, Nat.leb_refl in R. specialize (R (nth_error_nth' F 0%Z LB) Hx).
    rewrite (before_lt c e _ _ Hin R) in He. discriminate. }
  assert (X1 : In x (nth (length bs) (map snd (bins H)) [])).
  { rewrite E1, map_app, app_nth2 by (rewrite map_length; lia). rewrite map_length, Nat.sub_diag. cbn [map nth snd]. rewrite Ex. apply in_or_app. right. left. auto. }
  assert (X2 : In x (nth (length bs) (map snd (bins (H ++ p))) [])).
  { rewrite E2, map_app, app_nth2 by (rewrite map_length; lia). rewrite map_length, Nat.sub_diag. cbn [map nth snd]. rewrite Ex. apply in_or_app. left. apply in_or_app. right. left. auto. }
  pose proof (Hcount _ H GH eq_refl X1) as C1. pose proof (Hcount _ (H ++ p) Hg eq_refl X2) as C2.
  assert (EC : length (filter (fun k => k <? e)%Z (ends (H ++ p))) = length (filter (fun k => k <? e)%Z (ends H))).
  { rewrite (count_firstn e (ends (H ++ p)) (length bs)) by (auto; apply (be_order _ _ _ _ _ _ _ Hends); auto).
    rewrite (count_firstn e (ends H) (length bs)) by (auto; apply (be_order _ _ _ _ _ _ _ Hends); auto).
    rewrite <- Hm. rewrite (be_more _ _ _ _ _ _ _ Hends H p HH Hg). auto. }
  unfold shot. rewrite EC. set (i := length (filter (fun k => k <? e)%Z (ends H))) in *.
  rewrite E1, E2, !map_app. destruct (le_lt_dec (length bs) i) as [Q|Q].
  - assert (i = length bs) by lia. rewrite !app_nth2 by (rewrite map_length; lia). rewrite map_length. replace (i - length bs) with 0 by lia. cbn [map nth snd].
    rewrite filter_app, (filter_none _ r'), app_nil_r; auto. intros y Hy.
    assert (t x <= t y)%Z.
    { rewrite map_app in Hs. apply sorted_app in Hs as (_ & _ & Hs). apply Hs; apply in_map; [rewrite E3, Ex; apply in_or_app; right; apply in_or_app; right; left; auto|].
      rewrite E4. apply in_or_app. auto. }
    destruct (before c e (t y)) eqn:Q2; auto. apply (before_mono_v c e (t x)) in Q2; auto. congruence.
  - rewrite !app_nth1 by (rewrite map_length; lia). auto.
Qed.

Variable by_ : byspec.
Variable points : list Z -> list (Z * Z).
Variable safter : list Z -> sbuf -> Prop.
Hypothesis Hsnap : snapping by_ c points safter.

Notation shots_ := (shots t c bins ends points).
Notation new_shots_ := (new_shots t c bins ends points).

Lemma new_points : forall H p, H <> [] -> sorted (map t (H ++ p)) -> exists ps x ps',
  points (map t H) = ps ++ [x] /\ points (map t (H ++ p)) = ps ++ x :: ps' /\ skipn (length (points (map t H)) - 1) (points (map t (H ++ p))) = x :: ps' /\
  (forall r pt, In r H -> In pt (x :: ps') -> before c (snd pt) (t r) = true) /\
  (forall pt, In pt ps -> before c (snd pt) (last (map t H) 0%Z) = false).
Proof.
  intros H p HH Hs. assert (Hm : map t H <> []) by (destruct H; simpl; congruence).
  assert (SH : sorted (map t H)) by (rewrite map_app in Hs; apply sorted_app in Hs; tauto).
  destruct (sn_more _ _ _ _ Hsnap (map t H) (map t p) Hm ltac:(rewrite <- map_app; auto)) as (ps & x & ps' & E1 & E2).
  rewrite <- map_app in E2. exists ps, x, ps'. split; auto. split; auto. split.
  { rewrite E1, E2, app_length. simpl. rewrite Nat.add_sub, skipn_app, skipn_all, Nat.sub_diag. auto. }
  destruct (sn_between _ _ _ _ Hsnap (map t H) ps x Hm SH E1) as [B1 B2]. split; auto.
  intros r pt Hr [->|Hpt]; [apply B1; apply in_map; auto|].
  pose proof (sp_order _ _ _ (sn_points _ _ _ _ Hsnap) (map t (H ++ p)) Hs) as O. rewrite E2, map_app in O. apply sorted_app in O as (_ & O & _). simpl in O.
  apply StronglySorted_inv in O as [_ O]. rewrite Forall_forall in O. specialize (O (snd pt) (in_map snd _ _ Hpt)).
  eapply before_mono_e; [exact O|]. apply B1. apply in_map; auto.
Qed.

Lemma new_shots_hd : forall p, new_shots_ [] p = shots_ p.
Proof. intro p. unfold new_shots. destruct (sn_nothing _ _ _ _ Hsnap) as [E _]. cbn [map app]. rewrite E. reflexivity. Qed.

Lemma new_shots_stitch : forall H p, H <> [] -> good (H ++ p) -> sorted (map t (H ++ p)) -> shots_ (H ++ p) = removelast (shots_ H) ++ new_shots_ H p.
Proof.
  intros H p HH Hg Hs. destruct (new_points H p HH Hs) as (ps & x & ps' & E1 & E2 & E3 & _ & E5).
  unfold new_shots, shots. rewrite E1, E2, !map_app. cbn [map]. rewrite removelast_last, app_length. cbn [length]. rewrite Nat.add_sub.
  rewrite <- (map_length (fun p0 => (fst p0, shot t c (bins (H ++ p)) (ends (H ++ p)) (snd p0))) ps) at 1. rewrite skipn_app, skipn_all, Nat.sub_diag. cbn [app skipn]. f_equal.
  apply map_ext_in. intros pt Hpt. f_equal. apply shot_same; auto.
Qed.

Lemma tells_snap_ok : forall ss (p : list D) pts, sorted (map snd pts) -> tells c ss (map t p) pts -> snap_ok p ss.
Proof.
  intros ss p pts Hs [T1 T2 T3 T4 T5]. split; auto.
  - rewrite T1, T3, !map_length. auto.
  - rewrite T2, T3, !map_length. auto.
  - rewrite T2. auto.
  - rewrite T3. clear -Hs. induction pts as [|x l IH]; simpl in *; constructor; apply StronglySorted_inv in Hs as [H1 H2]; auto.
    rewrite Forall_forall in *. intros y Hy. apply in_map_iff in Hy as (z & <- & Hz). apply n_before_mono. apply H2. apply in_map; auto.
  - rewrite T3. intros q Hq. apply in_map_iff in Hq as (z & <- & _). rewrite <- (map_length t p). apply n_before_le.
Qed.
Lemma tells_bins : forall ss (p : list D) pts, tells c ss (map t p) pts -> seg_bins ss = map (fun pt => (snd pt, n_before c (map t p) (snd pt))) pts.
Proof. intros ss p pts [T1 T2 T3 T4 T5]. unfold seg_bins. rewrite T2, T3, combine_map2. auto. Qed.

(** Rows of the pieces of a call. *)
Lemma call_sep : forall H p sg, p <> [] -> good (H ++ p) -> describes sg (last_rows (bins H)) p (new_bins bins H p) ->
  known_ends sg = skipn (m_ H) (ends (H ++ p)) -> forall i j k r, nth_error (known_ends sg) i = Some k -> In r (nth j (cut 0 (s_starts sg) p) []) ->
  if (j <=? i)%nat then (t r <= k)%Z else before c k (t r) = false.
Proof.
  intros H p sg Hp Hg Hd Hk i j k r Hi Hr.
  assert (Hr2 : In r (nth j (map snd (new_bins bins H p)) [])).
  { rewrite (ds_rows _ _ _ _ Hd). destruct (cut 0 (s_starts sg) p) as [|g gs]; [destruct j; contradiction|]. destruct j as [|j]; simpl in *; auto. apply in_or_app; auto. }
  unfold new_bins in Hr2. rewrite <- skipn_map, nth_skipn_ in Hr2. rewrite Hk in Hi.
  assert (Hi2 : nth_error (ends (H ++ p)) (m_ H + i) = Some k).
  { rewrite <- Hi. generalize (m_ H) as n, (ends (H ++ p)) as l. clear. induction n as [|n IH]; intros [|y l]; simpl; auto. destruct i; auto. }
  pose proof (be_rows _ _ _ _ _ _ _ Hends (H ++ p) (m_ H + i) (m_ H + j) k r Hg Hi2 Hr2) as Q.
  destruct (j <=? i)%nat eqn:E.
  - apply Nat.leb_le in E. replace (m_ H + j <=? m_ H + i)%nat with true in Q by (symmetry; apply Nat.leb_le; lia). auto.
  - apply Nat.leb_gt in E. replace (m_ H + j <=? m_ H + i)%nat with false in Q by (symmetry; apply Nat.leb_gt; lia). auto.
Qed.
End Ends.

(** * Calls *)
Section UserSnap.
Context {D V B : Type}.
Variable N : dtype -> num V.
Variable val : D -> cname -> V.
Variables (agg : aggspec) (dtypes : list (cname * dtype)).
Hypothesis Hvalid : agg_valid agg dtypes.
Hypothesis Hnodup : NoDup (map fst agg).
Hypothesis Hagg : agg <> [].
Variables (t : D -> Z) (c : side).
Variable bin_by : list D -> option B -> res (seg * option B).
Variable empty : B.
Variable bins : list D -> list (Z * list D).
Variable after : list D -> B -> Prop.
Variable good : list D -> Prop.
Variable ends : list D -> list Z.
Hypothesis Hbin : binning bin_by empty bins after good.
Hypothesis Hends : bin_ends t c bin_by bins after good ends.
Variable by_ : byspec.
Variable points : list Z -> list (Z * Z).
Notation csa := (cumsegagg N val agg dtypes).
Notation shots_ := (shots t c bins ends points).
Notation new_shots_ := (new_shots t c bins ends points).

Definition sok (l : list D) : Prop := good l /\ sorted (map t l).

(** One call, on rows [p] after rows [H]. *)
Lemma snap_call : forall eo H p buffer sg bb' ss bs sbuf0 pts, p <> [] -> sok (H ++ p) ->
  bin_by p (bin_buffer empty buffer) = Ok (sg, bb') -> describes sg (last_rows (bins H)) p (new_bins bins H p) ->
  new_bins bins H p <> [] -> NoDup (map fst (new_bins bins H p)) ->
  s_closed sg = c -> sorted (s_ends sg) -> known_ends sg = skipn (length (bins H) - 1) (ends (H ++ p)) ->
  running N val agg dtypes buffer (last_rows (bins H)) (hd 0%Z (map fst (new_bins bins H p))) ->
  snap_buffer buffer sbuf0 -> by_scale (map t p) by_ (Some c) sbuf0 = Ok (ss, bs) -> tells c ss (map t p) pts ->
  sorted (map snd pts) -> NoDup (map fst pts) -> (forall r pt, In r H -> In pt pts -> before c (snd pt) (t r) = true) ->
  outcome N val agg dtypes eo (new_bins bins H p) (Some (map (fun pt => (fst pt, shot t c (bins (H ++ p)) (ends (H ++ p)) (snd pt))) pts))
    (main_next N val agg dtypes empty buffer bb' true bs (last (map fst (new_bins bins H p)) 0%Z) (last (map snd (new_bins bins H p)) []))
    (csa bin_by empty (Some t) (Some by_) eo p buffer).
Proof.
  intros eo H p buffer sg bb' ss bs sbuf0 pts Hp [Hg Hs] E Hd Hnb Hnd Hc Hse Hke Hrun Hsb Ebs Ht Hso Hsl HH.
  assert (Hsp : sorted (map t p)) by (rewrite map_app in Hs; apply sorted_app in Hs; tauto).
  assert (Hrows : forall r, In r (last_rows (bins H)) -> In r H).
  { intros r Hr. rewrite <- (bins_concat bin_by empty bins after good Hbin H) by (eapply bn_good; eauto).
    unfold last_rows in Hr. destruct (map snd (bins H)) as [|g gs]; [contradiction|]. apply in_concat. exists (last (g :: gs) []). split; auto. apply last_In. discriminate. }
  pose proof (call_sep t c bin_by bins after good ends Hends H p sg Hp Hg Hd Hke) as Hsep.
  assert (HkS : sorted (known_ends sg)) by (rewrite Hke; apply sorted_skipn; apply (be_order _ _ _ _ _ _ _ Hends); auto).
  destruct (describes_seg_ok sg (last_rows (bins H)) p (new_bins bins H p) Hp Hnb Hd) as (Sok & Scomb & Sg).
  pose proof (tells_bins t c ss p pts Ht) as Esn.
  assert (Hgs : combine (s_labels ss) (snap_groups p (last_rows (bins H)) sg ss) =
    map (fun pt => (fst pt, shot t c (bins (H ++ p)) (ends (H ++ p)) (snd pt))) pts).
  { unfold snap_groups. rewrite Esn, map_map, (tl_labels _ _ _ _ Ht), combine_map2. apply map_ext_in. intros pt Hpt. f_equal.
    rewrite (piece_shot t c sg (last_rows (bins H)) p (new_bins bins H p)); auto.
    rewrite Hke. apply (shot_new t c bin_by empty bins after good ends Hbin Hends); auto. }
  pose proof (cumsegagg_gen_snap N val agg dtypes Hvalid Hnodup Hagg bin_by empty t by_ eo p buffer (last_rows (bins H)) sg bb' ss bs sbuf0) as G.
  cbv zeta in G. rewrite Scomb, Sg, Hgs, (ds_labels _ _ _ _ Hd), Hc in G. apply G; auto.
  - eapply tells_snap_ok; eauto.
  - apply (piece_compat t c sg (last_rows (bins H)) p (new_bins bins H p)); auto.
    intros s Hin. rewrite Esn in Hin. apply in_map_iff in Hin as (pt & <- & _). auto.
  - apply (ds_null _ _ _ _ Hd).
  - apply NoDup_consistent. auto.
  - apply NoDup_consistent. rewrite map_map. auto.
Qed.

Lemma snap_once : forall eo rows, snap_points by_ c points -> rows <> [] -> sok rows ->
  outcome N val agg dtypes eo (bins rows) (Some (shots_ rows)) (fun b => b = None) (csa bin_by empty (Some t) (Some by_) eo rows None).
Proof.
  intros eo rows Hpts Hne Hok. destruct Hok as [Hg Hs]. destruct (bn_once _ _ _ _ _ Hbin rows Hne Hg) as (sg & E & Hd).
  destruct (be_once _ _ _ _ _ _ _ Hends rows sg None Hne Hg E) as (B1 & B2 & B3).
  assert (Hm : map t rows <> []) by (destruct rows; simpl; congruence).
  destruct (sp_once _ _ _ Hpts (map t rows) Hm Hs) as (ss & Es & Ht). destruct (bn_nothing _ _ _ _ _ Hbin) as [N1 _].
  assert (EN : new_bins bins [] rows = bins rows) by (unfold new_bins; rewrite N1; auto).
  assert (EL : last_rows (bins []) = []) by (rewrite N1; auto).
  pose proof (snap_call eo [] rows None sg None ss None None (points (map t rows)) Hne (conj Hg Hs) E) as O.
  rewrite EN, EL in O. cbn [app] in O. rewrite N1 in O.
  eapply outcome_impl; [apply O; auto|].
  - apply (bins_ne bin_by empty bins after good Hbin); auto.
  - apply (bn_labels _ _ _ _ _ Hbin); auto.
  - reflexivity.
  - reflexivity.
  - apply (sp_order _ _ _ Hpts); auto.
  - apply (sp_labels _ _ _ Hpts); auto.
  - auto.
Qed.

Variable safter : list Z -> sbuf -> Prop.
Hypothesis Hsnap : snapping by_ c points safter.

Definition sinv (H : list D) (b : option (csabuf B V)) : Prop :=
  exists cb, b = Some cb /\
  match H with
  | [] => cb = csabuf_empty
  | _ => (exists bb, mb_bin (cb_main cb) = Some bb /\ after H bb) /\ mb_last_label (cb_main cb) = Some (last (map fst (bins H)) 0%Z) /\
         (exists r, cb_last cb = Some r /\ last_is N val agg dtypes (last_rows (bins H)) r) /\
         exists sb, mb_snap (cb_main cb) = Some sb /\ safter (map t H) sb
  end.

Lemma snap_step : forall eo H p b, p <> [] -> sok (H ++ p) -> sinv H b ->
  outcome N val agg dtypes eo (new_bins bins H p) (Some (new_shots_ H p)) (sinv (H ++ p)) (csa bin_by empty (Some t) (Some by_) eo p b).
Proof.
  intros eo H p b Hp Hok (cb & -> & Hinv). pose proof Hok as [Hg Hs].
  destruct (bn_nothing _ _ _ _ _ Hbin) as [N1 N2]. destruct (sn_nothing _ _ _ _ Hsnap) as [P1 P2].
  assert (Hb0 : exists bb, after H bb /\ bin_buffer empty (Some cb) = Some bb).
  { unfold bin_buffer. destruct H; [subst cb; simpl; eauto|]. destruct Hinv as ((bb & -> & Hb) & _). eauto. }
  destruct Hb0 as (bb0 & Hb0 & Eb0).
  assert (Hs0 : exists sb, safter (map t H) sb /\ snap_buffer (Some cb) (Some sb)).
  { unfold snap_buffer. destruct H; [subst cb; simpl; eauto|]. destruct Hinv as ((bb & -> & Hb) & _ & _ & sb & -> & Hsb). exists sb. split; auto. split; congruence. }
  destruct Hs0 as (sb0 & Hs0 & Es0).
  destruct (bn_call _ _ _ _ _ Hbin H p bb0 Hp Hg Hb0) as (sg & bb' & E & Hb' & Hd).
  destruct (be_call _ _ _ _ _ _ _ Hends H p bb0 sg (Some bb') Hp Hg Hb0 E) as (B1 & B2 & B3).
  assert (Hmp : map t p <> []) by (destruct p; simpl; congruence).
  destruct (sn_call _ _ _ _ Hsnap (map t H) (map t p) sb0 Hmp ltac:(rewrite <- map_app; auto) Hs0) as (ss & sb' & Es & Hs' & Ht).
  rewrite <- map_app in Ht, Hs'. set (pts := skipn (length (points (map t H)) - 1) (points (map t (H ++ p)))) in *.
  assert (Hpts : (forall r pt, In r H -> In pt pts -> before c (snd pt) (t r) = true)).
  { destruct H as [|h0 H0]; [contradiction|]. destruct (new_points t c by_ points safter Hsnap (h0 :: H0) p ltac:(discriminate) Hs) as (ps & x & ps' & _ & _ & F3 & F4 & _).
    unfold pts. rewrite F3. exact F4. }
  assert (Hskip : forall A (l : list A) n, NoDup l -> NoDup (skipn n l)).
  { intros A l n Q. rewrite <- (firstn_skipn n l) in Q. revert Q. generalize (firstn n l). induction l0 as [|z l0 IH]; simpl; auto. intro Q. inversion Q; auto. }
  assert (Hpl : sorted (map snd pts)) by (unfold pts; rewrite <- skipn_map; apply sorted_skipn; apply (sp_order _ _ _ (sn_points _ _ _ _ Hsnap)); auto).
  assert (Hpn : NoDup (map fst pts)) by (unfold pts; rewrite <- skipn_map; apply Hskip; apply (sp_labels _ _ _ (sn_points _ _ _ _ Hsnap)); auto).
  assert (Hnb : new_bins bins H p <> [] /\ NoDup (map fst (new_bins bins H p))
     /\ last (map fst (new_bins bins H p)) 0%Z = last (map fst (bins (H ++ p))) 0%Z
     /\ last_rows (bins (H ++ p)) = last (map snd (new_bins bins H p)) []).
  { destruct H as [|h0 H'].
    - unfold new_bins. rewrite N1. simpl. split; [apply (bins_ne bin_by empty bins after good Hbin); auto|]. split; auto. apply (bn_labels _ _ _ _ _ Hbin); auto.
    - destruct (new_bins_hd bin_by empty bins after good Hbin (h0 :: H') p ltac:(discriminate) Hp Hg) as (_ & A1 & _ & A2 & A3 & A4). auto. }
  destruct Hnb as (Hnb & Hnd & Hll & Hlr).
  assert (Hrun : running N val agg dtypes (Some cb) (last_rows (bins H)) (hd 0%Z (map fst (new_bins bins H p)))).
  { unfold running. destruct H as [|h0 H']; [subst cb; simpl; rewrite N1; auto|].
    destruct (new_bins_hd bin_by empty bins after good Hbin (h0 :: H') p ltac:(discriminate) Hp Hg) as (A1 & _ & A2 & _).
    destruct Hinv as (_ & -> & Hr & _). split; auto. }
  replace (new_shots_ H p) with (map (fun pt => (fst pt, shot t c (bins (H ++ p)) (ends (H ++ p)) (snd pt))) pts).
  2:{ unfold new_shots, shots, pts. rewrite <- skipn_map. auto. }
  rewrite <- Eb0 in E.
  eapply outcome_impl; [exact (snap_call eo H p (Some cb) sg (Some bb') ss (Some sb') (Some sb0) pts Hp Hok E Hd Hnb Hnd B1 B2 B3 Hrun Es0 Es Ht Hpl Hpn Hpts)|].
  intros b' (r & -> & Hr). eexists. split; [reflexivity|].
  destruct (H ++ p) as [|y l] eqn:Ex; [apply app_eq_nil in Ex as [_ Ex]; congruence|]. rewrite <- Ex in *.
  simpl. split; [eauto|]. split; [f_equal; auto|]. split; [|eauto]. exists r. split; auto. rewrite Hlr. auto.
Qed.

Lemma snap_pieces : forall eo pieces, concat pieces <> [] -> sok (concat pieces) ->
  let piece p b := csa bin_by empty (Some t) (Some by_) eo p b in
  (eo = false -> exists rs b', run_pieces piece (Some csabuf_empty) pieces = Ok (rs, b')) /\
  (forall rs b', run_pieces piece (Some csabuf_empty) pieces = Ok (rs, b') ->
   exists fw sw, csa bin_by empty (Some t) (Some by_) false (concat pieces) None = Ok (Some (fw, Some sw), None)
     /\ frames_make agg (bin_frames rs) fw /\ frames_make agg (snap_frames rs) sw).
Proof.
  intros eo pieces Hne Hok piece. destruct (bn_nothing _ _ _ _ _ Hbin) as [N1 N2].
  assert (Hinv : sinv [] (Some csabuf_empty)) by (exists csabuf_empty; split; auto).
  assert (Happ : forall H p : list D, sok (H ++ p) -> sok H).
  { intros H p [G Q]. split; [eapply bn_good; eauto|]. rewrite map_app in Q. apply sorted_app in Q. tauto. }
  assert (Hnil : forall p, new_bins bins [] p = bins p) by (intros p; unfold new_bins; rewrite N1; auto).
  split.
  - intros Heo. apply (run_total N val agg dtypes piece eo sok sinv (new_bins bins) (fun H p => Some (new_shots_ H p))) with (H := []); auto.
    intros H p b. apply snap_step.
  - intros rs b' Hrun.
    pose proof (snap_once false (concat pieces) (sn_points _ _ _ _ Hsnap) Hne Hok) as O.
    destruct (proj2 O) as (fw0 & sw0 & bw0 & E0 & _ & Hsw & ->); [intros [Q _]; discriminate|].
    destruct sw0 as [sw0|]; [|contradiction].
    pose proof (pieces_whole N val agg dtypes Hvalid piece eo sok sinv (new_bins bins) (fun H p => Some (new_shots_ H p))
      Happ (fun b => eq_refl) (fun H p b => snap_step eo H p b)) as W.
    destruct (W ltac:(intros H p A1 A2 [A3 _]; rewrite !Hnil; apply (new_bins_stitch bin_by empty bins after good Hbin); auto)
      ltac:(intros H p A1 A2 [A3 A4]; rewrite !(new_shots_hd t c bins ends by_ points safter Hsnap); f_equal; apply (new_shots_stitch t c bin_by empty bins after good ends Hbin Hends by_ points safter Hsnap); auto)
      ltac:(intros; split; congruence)
      pieces (Some csabuf_empty) rs b' (csa bin_by empty (Some t) (Some by_) false (concat pieces) None))
      as (fw & sw & bw & E & F1 & F2); auto.
    + rewrite Hnil, (new_shots_hd t c bins ends by_ points safter Hsnap). apply (outcome_impl N val agg dtypes _ _ _ _ _ _ O). auto.
    + rewrite E0 in E. injection E as <- <- <-. eauto.
Qed.
End UserSnap.
