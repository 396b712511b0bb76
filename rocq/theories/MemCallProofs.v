(** Successive calls write within their arrays. *)
Require Import List Arith ZArith Bool Lia Sorted.
Require Import Verif.Common Verif.AggModel Verif.SegModel Verif.SegSpec Verif.SegProofs Verif.SegRowsProofs.
Require Import Verif.EventProofs Verif.CsaModel Verif.CalModel Verif.CalSpec Verif.GridProofs Verif.CalProofs Verif.CsaSegProofs Verif.CsaPiecesProofs Verif.CsaRowsProofs.
Require Import Verif.UserBinsSpec Verif.UserSnapSpec Verif.UserSnapProofs Verif.MemSpec Verif.MemProofs.
Import ListNotations.
Local Open Scope nat_scope.

(** * 'by_scale' for bins, with any buffer *)
Lemma before_start : forall c l e v, sorted l -> In v (firstn (n_before c l e) l) -> (v <= e)%Z.
Proof.
  intros c l e v Hs Hv. rewrite firstn_n_before in Hv by auto. apply filter_In in Hv as [_ Hv]. unfold before in Hv.
  destruct c; [apply Z.ltb_lt in Hv|apply Z.leb_le in Hv]; lia.
Qed.

Lemma fit_ends : forall {D} (t : D -> Z) data sg, sorted (map t data) -> s_starts sg <> [] ->
  snaps_fit (s_closed sg) (map t data) sg -> ends_after_rows t data sg.
Proof.
  intros D t data sg Hs Hne [F1 F2 F3 F4]. split; auto. split; auto. intros i p e Hp He _ r Hr.
  rewrite F3, nth_error_map, He in Hp. simpl in Hp. injection Hp as <-.
  apply (before_start (s_closed sg) (map t data)); auto. rewrite firstn_map. apply in_map; auto.
Qed.

Lemma getitem_nil : forall k off i v, getitem k off [] i <> Ok v.
Proof.
  intros k off i v. unfold getitem. assert (E : forall j, nth_error (@nil Z) j = None) by (destruct j; auto). rewrite !E.
  destruct k; [discriminate|]. destruct (off <=? i); discriminate.
Qed.

Lemma by_scale_finish_some : forall k off on c labels ends b sg b', on <> [] -> sorted on -> sorted ends -> length labels = length ends ->
  by_scale_finish true k off on c labels ends (Some b) = Ok (sg, b') -> s_starts sg <> [].
Proof.
  intros k off on c labels ends b sg b' Hne Hs He Hl H Q.
  pose proof (by_scale_finish_fit _ _ _ _ _ _ _ _ _ _ Hne Hs He Hl H) as [F1 F2 F3 F4]. unfold by_scale_finish in H.
  destruct (next_chunk_starts on ends (side_eqb c SRight)) as [[starts nn] tr] eqn:E.
  assert (starts = []).
  { destruct tr; match type of H with bind ?X _ = _ => destruct X end; try discriminate; cbn [bind] in H; injection H as <- <-; auto. }
  subst starts. destruct ends as [|e ends].
  - unfold next_chunk_starts in E. simpl in E. injection E as _ <-. destruct (getitem k off [] (length (@nil nat) - 1)) as [v|] eqn:G; [apply getitem_nil in G; contradiction|discriminate].
  - unfold next_chunk_starts in E. simpl in E. match type of E with (let '(_, _) := ?X in _) = _ => destruct X as [loc pb] end.
    match type of E with (if ?X then _ else _) = _ => destruct X end; [discriminate|].
    match type of E with (let '(_, _) := ?X in _) = _ => destruct X end. match type of E with (let '(_, _) := ?X in _) = _ => destruct X as [[? ?] ?] end. discriminate.
Qed.

Lemma by_scale_tg_ends : forall {D} (t : D -> Z) data tg b sg b', data <> [] -> sorted (map t data) -> (0 < tg_freq tg)%Z ->
  by_scale (map t data) (ByTG tg) None b = Ok (sg, b') -> ends_after_rows t data sg.
Proof.
  intros D t data tg b sg b' Hne Hs Hf H. assert (Hmn := map_ne t data Hne).
  destruct (by_scale_fit _ (ByTG tg) None b sg b' Hmn Hs Hf H) as [F _]. cbv iota in F. apply fit_ends; auto.
  destruct b as [b|].
  - unfold by_scale in H. match type of H with bind ?X _ = _ => destruct X end; [|discriminate]. cbn [bind] in H.
    destruct (gtre _ _ _ _ _ _) as [g1 g2]. apply by_scale_finish_some in H; auto.
    + apply sorted_tl, date_range_sorted; auto.
    + destruct (tg_label tg); auto. apply length_tl_removelast.
  - destruct (time_seg_once t tg None data Hf Hne Hs) as [Hk E]. cbv zeta in E. rewrite E in H. injection H as <- _. cbn [s_starts].
    unfold pstarts. intro Q. apply map_eq_nil in Q. apply (f_equal (@length Z)) in Q. unfold zrange in Q. rewrite map_length, seq_length in Q. simpl length in Q. lia.
Qed.

Lemma by_scale_cal_ends : forall {D} (t : D -> Z) data cg b sg b', data <> [] -> sorted (map t data) -> points_in_order (ByCal cg) ->
  by_scale (map t data) (ByCal cg) None b = Ok (sg, b') -> ends_after_rows t data sg.
Proof.
  intros D t data cg b sg b' Hne Hs [Hc Hn] H. assert (Hmn := map_ne t data Hne).
  destruct (by_scale_fit _ (ByCal cg) None b sg b' Hmn Hs (conj Hc Hn) H) as [F _]. cbv iota in F. apply fit_ends; auto.
  destruct b as [b|].
  - unfold by_scale in H. match type of H with bind ?X _ = _ => destruct X end; [|discriminate]. cbn [bind] in H.
    destruct (gtre_cal _ _ _ _ _) as [g1 g2]. apply by_scale_finish_some in H; auto.
    + apply sorted_tl, date_range_cal_sorted; auto.
    + destruct (cg_label cg); auto. apply length_tl_removelast.
  - set (s := first_point cg (hd 0%Z (map t data))).
    pose proof (by_scale_cal_is cg Hc Hn (map t data) (hd 0%Z (map t data)) s 0%Z None Hmn Hs) as E. cbv zeta in E.
    assert (K : (0 <= bin_of cg s (last (map t data) 0))%Z).
    { etransitivity; [exact (first_bin cg Hc Hn (hd 0%Z (map t data)))|]. fold s.
      apply (kap_mono (cg_closed cg) (bin_start cg s) (bin_of cg s) (bin_start_of cg Hc Hn s)). apply sorted_last_ge; auto. destruct (map t data); [congruence|left; auto]. }
    rewrite E in H; [|lia|auto|auto]. injection H as <- _. cbn [s_starts].
    unfold gstarts. intro Q. apply map_eq_nil in Q. apply (f_equal (@length Z)) in Q. unfold zrange in Q. rewrite map_length, seq_length in Q. simpl length in Q. lia.
Qed.

(** * Bins of rows *)
Section RowEnds.
Context {D : Type}.
Variable t : D -> Z.
Variable x : nat.
Hypothesis Hx : 0 < x.
Variable c : side.

Lemma xstart_inc : forall n L b, 0 < L -> xb0 x n <= b -> b < xb1 x n L -> xstart x n L b < xstart x n L (S b).
Proof.
  intros n L b HL Hb0 Hb. unfold xstart, xb1, xb0 in *.
  assert ((b + 1) * x <= n + L - 1).
  { assert (b + 1 <= (n + L - 1) / x) by lia. pose proof (Nat.mul_div_le (n + L - 1) x ltac:(lia)). nia. }
  assert (n <= (b + 1) * x).
  { pose proof (Nat.div_mod (n - 1) x ltac:(lia)). pose proof (Nat.mod_upper_bound (n - 1) x ltac:(lia)). nia. }
  replace ((S b + 1) * x) with ((b + 1) * x + x) by ring. lia.
Qed.

Lemma row_seg_ends : forall seen more nn b2, more <> [] -> sorted (map t (seen ++ more)) ->
  let n := length seen in let L := length more in let all := map t (seen ++ more) in
  let sg := mkSeg (map (xstart x n L) (xbins x n L)) (map (xlabel x all) (xbins x n L)) nn c (map (xend x c all) (xbins x n L)) b2 0 in
  (c = SLeft -> b2 = true) ->
  null_announced (match seen with [] => false | _ => true end) sg /\ ends_after_rows t more sg.
Proof.
  intros seen more nn b2 Hne Hs n L all sg Hb2. assert (HL : 0 < L) by (unfold L; destruct more; [congruence|simpl; lia]).
  assert (Hb01 : xb0 x n <= xb1 x n L) by (unfold xb0, xb1; apply Nat.div_le_mono; lia).
  assert (Hal : length all = n + L) by (unfold all, n, L; rewrite map_length, app_length; auto).
  assert (Inc : forall m b, xb0 x n <= b -> b + m <= xb1 x n L -> n_empty (xstart x n L b) (map (xstart x n L) (seq (S b) m)) = 0).
  { induction m as [|m IH]; intros b H1 H2; simpl; auto. pose proof (xstart_inc n L b HL H1 ltac:(lia)).
    destruct (xstart x n L b =? xstart x n L (S b)) eqn:E; [apply Nat.eqb_eq in E; lia|]. apply IH; lia. }
  split.
  - unfold null_announced, sg, xbins. cbn [s_starts s_nnull seq map].
    destruct seen as [|r seen].
    + cbn [n_empty]. rewrite Inc by lia.
      assert (0 < xstart x n L (xb0 x n)).
      { unfold xstart, xb0, n. simpl length. rewrite Nat.div_small by lia. lia. }
      destruct (0 =? xstart x n L (xb0 x n)) eqn:E; [apply Nat.eqb_eq in E; lia|lia].
    + rewrite Inc by lia. lia.
  - unfold sg, ends_after_rows. cbn [s_starts s_ends s_unknown_last_end]. split; [|split].
    + unfold xbins. discriminate.
    + unfold xbins. generalize (xb0 x n), (S (xb1 x n L - xb0 x n)). intros b m. revert b.
      induction m as [|m IH]; intros b; cbn [map seq]; constructor; [apply IH|].
      apply Forall_forall. intros q Hq. apply in_map_iff in Hq as (b' & <- & Hb'). apply in_seq in Hb'. unfold xend.
      apply sorted_nth_le; auto; [|lia]. apply Nat.min_le_compat_l. destruct c; nia.
    + intros i p e Hp He Hu r Hr. rewrite nth_error_map in Hp, He.
      destruct (nth_error (xbins x n L) i) as [b|] eqn:Hi; [|discriminate]. simpl in Hp, He. injection Hp as <-. injection He as <-.
      assert (Hlen : i < length (xbins x n L)) by (apply nth_error_Some; congruence). 
      assert (Hb : b = xb0 x n + i).
      { unfold xbins in Hi, Hlen. rewrite seq_length in Hlen. apply (nth_error_nth _ _ 0) in Hi. rewrite seq_nth in Hi by auto. auto. }
      unfold xbins in Hlen, Hu. rewrite map_length, seq_length in Hu. rewrite seq_length in Hlen.
      apply (In_nth _ _ r) in Hr as (k & Hk & Ek). rewrite firstn_length in Hk. unfold xstart in Hk. fold L in Hk.
      assert (Et : t r = nth (n + k) all 0%Z).
      { unfold all. rewrite map_app. rewrite app_nth2; rewrite map_length; fold n; [|lia]. replace (n + k - n) with k by lia.
        rewrite (nth_indep _ 0%Z (t r)) by (rewrite map_length; fold L; lia). rewrite map_nth. f_equal.
        rewrite <- (firstn_skipn (xstart x n L b) more), app_nth1; [auto|]. rewrite firstn_length. unfold xstart. fold L. lia. }
      rewrite Et. unfold xend. apply sorted_nth_le; auto; [|lia]. rewrite Hal. destruct c.
      * specialize (Hu (Hb2 eq_refl)). lia.
      * lia.
Qed.
End RowEnds.

(** * Successive calls, with any binning function *)
Lemma segmentby_main : forall {D B} (bin_by : list D -> option B -> res (seg * option B)) empty ordered snap data m so main',
  segmentby bin_by empty ordered snap data (Some m) = Ok (so, main') ->
  exists sg bb' m', bin_by data (Some (match mb_bin m with Some x => x | None => empty end)) = Ok (sg, bb')
    /\ main' = Some m' /\ mb_bin m' = bb' /\ mb_last_label m' <> None.
Proof.
  intros D B bin_by empty ordered snap data m so main' H. unfold segmentby in H.
  destruct (setup_mainbuffer _ _ _) as [[[bb bsn] main]|] eqn:Em0; [|discriminate]. cbn [bind] in H.
  pose proof (setup_mainbuffer_bin empty (Some m) _ _ _ _ Em0) as ->.
  assert (Q : exists m', main = Some m').
  { unfold setup_mainbuffer in Em0. destruct (match snap with Some _ => true | None => false end); [destruct (mb_snap _)|]; try discriminate; injection Em0 as _ _ <-; eauto. }
  destruct Q as (m' & ->).
  match type of H with bind ?X _ = _ => destruct X eqn:Ho end; [|discriminate]. cbn [bind] in H.
  destruct (bin_by data _) as [[sg bb']|] eqn:Hb; [|discriminate]. cbn [bind] in H.
  destruct (negb (length (s_starts sg) =? length (s_labels sg))); [discriminate|].
  destruct (negb (length (s_starts sg) =? length (s_ends sg))); [discriminate|].
  match type of H with bind ?X _ = _ => destruct X end; [|discriminate]. cbn [bind] in H.
  match type of H with bind ?X _ = _ => destruct X as [[[[[? ?] ?] ?] ?]|] end; [|discriminate]. cbn [bind] in H. injection H as <- <-.
  exists sg, bb'. eexists. split; [reflexivity|]. split; [reflexivity|]. simpl. split; [auto|discriminate].
Qed.

Section Calls.
Context {D B V : Type}.
Variable N : dtype -> num V.
Variable val : D -> cname -> V.
Variables (agg : aggspec) (dtypes : list (cname * dtype)).
Variable bin_by : list D -> option B -> res (seg * option B).
Variable empty : B.
Variable t : D -> Z.
Variable Inv : list D -> B -> Prop.
Variable good : list D -> Prop.
Hypothesis Inv0 : Inv [] empty.
Hypothesis good_app : forall a b, good (a ++ b) -> good a.
Hypothesis call : forall seen more b, more <> [] -> good (seen ++ more) -> Inv seen b ->
  exists sg b', bin_by more (Some b) = Ok (sg, Some b') /\ Inv (seen ++ more) b' /\
    null_announced (match seen with [] => false | _ => true end) sg /\ ends_after_rows t more sg.

Lemma calls_safe : forall (calls : list (list D * option byspec)) eo,
  (forall m x, In (m, Some x) calls -> points_in_order x) -> good (concat (map fst calls)) ->
  run_pieces (fun pm b => cumsegagg N val agg dtypes bin_by empty (Some t) (snd pm) eo (fst pm) b) (Some csabuf_empty) calls <> Err OutOfBounds.
Proof.
  intros calls eo. 
  assert (G : forall calls seen cb, (forall m x, In (m, Some x) calls -> points_in_order x) -> good (seen ++ concat (map fst calls)) ->
    Inv seen (match mb_bin (cb_main cb) with Some x => x | None => empty end) ->
    restarted (Some cb) = match seen with [] => false | _ => true end ->
    run_pieces (fun pm b => cumsegagg N val agg dtypes bin_by empty (Some t) (snd pm) eo (fst pm) b) (Some cb) calls <> Err OutOfBounds).
  { clear calls. induction calls as [|[m x] calls IH]; intros seen cb Hp Hg HI Hr; simpl; [discriminate|].
    simpl in Hg. destruct m as [|r m].
    - cbn [cumsegagg]. simpl in Hg. specialize (IH seen cb). destruct (run_pieces _ (Some cb) calls) as [[rs b']|e] eqn:E; [discriminate|].
      intro Q. injection Q as ->. apply IH; auto. intros m0 x0 H0. eapply Hp. right. exact H0.
    - set (rows := r :: m) in *. assert (Hne : rows <> []) by discriminate. rewrite app_assoc in Hg.
      destruct (call seen rows _ Hne (good_app _ _ Hg) HI) as (sg & b' & Eb & HI' & Hnull & Hends).
      assert (S : cumsegagg N val agg dtypes bin_by empty (Some t) x eo rows (Some cb) <> Err OutOfBounds).
      { apply cumsegagg_safe.
        - unfold bin_state. rewrite Eb. discriminate.
        - unfold bin_state. rewrite Eb. intros sg0 b0 Q. injection Q as <- <-. rewrite Hr. auto.
        - intros o x0 Q1 Q2. injection Q1 as <-. split; [eapply Hp; left; rewrite Q2; reflexivity|].
          unfold bin_state. rewrite Eb. intros sg0 b0 Q. injection Q as <- <-. auto. }
      destruct (cumsegagg N val agg dtypes bin_by empty (Some t) x eo rows (Some cb)) as [[rs b'']|e] eqn:E; [|congruence].
      assert (Q : exists cb', b'' = Some cb' /\ mb_bin (cb_main cb') = Some b' /\ mb_last_label (cb_main cb') <> None).
      { clear - E Eb Hne. unfold cumsegagg in E. destruct rows as [|r0 rows0]; [congruence|]. destruct agg; [discriminate|].
        destruct (setup_cumsegagg _ _) as [cfg|]; [|discriminate]. cbn [bind] in E. unfold cumsegagg_cfg in E. cbn [option_map] in E.
        destruct (segmentby _ _ _ _ _ _) as [[so main']|] eqn:Es; [|discriminate]. cbn [bind] in E.
        apply segmentby_main in Es as (sg0 & bb & m' & E1 & -> & E3 & E4). rewrite Eb in E1. injection E1 as <- <-.
        destruct (csa_loop _ _ _ _ _ _ _ _ _ _); [|discriminate]. cbn [bind] in E.
        match type of E with bind ?X _ = _ => destruct X end; [|discriminate]. cbn [bind] in E.
        match type of E with (if ?X then _ else _) = _ => destruct X end; [discriminate|]. injection E as _ <-. eexists. split; [reflexivity|]. auto. }
      destruct Q as (cb' & -> & Q1 & Q2). specialize (IH (seen ++ rows) cb').
      destruct (run_pieces _ (Some cb') calls) as [[rs' b3]|e] eqn:E2; [discriminate|]. intro Q. injection Q as ->. apply IH; auto.
      + intros m0 x0 H0. eapply Hp. right. exact H0.
      + rewrite Q1. auto.
      + unfold restarted. destruct (mb_last_label (cb_main cb')); [|congruence]. destruct seen; auto. }
  intros Hp Hg. apply (G calls [] csabuf_empty); auto.
Qed.
End Calls.

(** * Binning functions of a user *)
Lemma nth_error_skipn_ : forall {A} n (l : list A) i, nth_error (skipn n l) i = nth_error l (n + i).
Proof. induction n as [|n IH]; intros [|x l] i; simpl; auto. destruct i; auto. Qed.

Section User.
Context {D : Type}.
Variable t : D -> Z.

Lemma described_null : forall sg (running more : list D) bs (restart : bool), (restart = false -> running = []) ->
  describes sg running more bs -> null_announced restart sg.
Proof.
  intros sg running more bs restart Hr [].
  assert (Hle : forall p, In p (s_starts sg) -> p <= length more).
  { intros p Hp. rewrite <- ds_last. apply SSorted_le_In; auto. intro Q. rewrite Q in Hp. destruct Hp. }
  unfold null_announced. etransitivity; [|exact ds_null]. rewrite ds_rows. destruct restart.
  - destruct (s_starts sg) as [|p ps] eqn:Es; simpl; [lia|]. rewrite (n_empty_cut more) by (auto; intros; apply Hle; right; auto).
    destruct (is_nil _); simpl; lia.
  - rewrite (Hr eq_refl). simpl. rewrite (n_empty_cut more); [|constructor; auto; apply Forall_forall; lia|auto].
    destruct (cut 0 (s_starts sg) more); simpl; lia.
Qed.

Lemma described_ends : forall sg (running more : list D) bs, more <> [] ->
  describes sg running more bs -> sorted (s_ends sg) ->
  (forall i j e r, nth_error (known_ends sg) i = Some e -> j <= i -> In r (nth j (map snd bs) []) -> (t r <= e)%Z) ->
  ends_after_rows t more sg.
Proof.
  intros sg running more bs Hne [] He Hr. split; [|split]; auto.
  - intro Q. rewrite Q in ds_last. destruct more; [congruence|discriminate].
  - intros i p e Hp Hi Hu r Hin.
    assert (Hk : nth_error (known_ends sg) i = Some e).
    { unfold known_ends. destruct (s_unknown_last_end sg); auto. specialize (Hu eq_refl).
      assert (L : S i < length (s_ends sg)) by lia. revert L Hi. clear. generalize (s_ends sg). induction i as [|i IH]; intros [|x [|y l]] L H; simpl in *; try lia; auto.
      apply (IH (y :: l)); auto. simpl. lia. }
    assert (Hlen : i < length (s_starts sg)) by (apply nth_error_Some; congruence).
    rewrite <- (nth_error_nth _ _ 0 Hp) in Hin. apply In_firstn_cut in Hin as (j & Hj & Hin); auto.
    apply (Hr i j e r Hk Hj). rewrite ds_rows. destruct (cut 0 (s_starts sg) more) as [|c0 cs]; [destruct j; destruct Hin|].
    destruct j; simpl in *; auto. apply in_app_iff; auto.
Qed.

Context {B V : Type}.
Variable bin_by : list D -> option B -> res (seg * option B).
Variable empty : B.
Variables (bins : list D -> list (Z * list D)) (after : list D -> B -> Prop) (good : list D -> Prop) (c : side) (ends : list D -> list Z).
Hypothesis Hb : binning bin_by empty bins after good.
Hypothesis He : bin_ends t c bin_by bins after good ends.

Lemma user_call : forall seen more b, more <> [] -> good (seen ++ more) -> after seen b ->
  exists sg b', bin_by more (Some b) = Ok (sg, Some b') /\ after (seen ++ more) b' /\
    null_announced (match seen with [] => false | _ => true end) sg /\ ends_after_rows t more sg.
Proof.
  intros seen more b Hne Hg Ha. destruct (bn_call _ _ _ _ _ Hb seen more b Hne Hg Ha) as (sg & b' & E & A' & Hd).
  exists sg, b'. split; auto. split; auto. split.
  - eapply described_null; [|exact Hd]. destruct seen; [|discriminate]. intros _. rewrite (proj1 (bn_nothing _ _ _ _ _ Hb)). auto.
  - destruct (be_call _ _ _ _ _ _ _ He seen more b sg (Some b') Hne Hg Ha E) as (_ & E2 & E3).
    eapply (described_ends sg _ more _); [exact Hne|exact Hd|exact E2|].
    intros i j e r Hi Hj Hr. rewrite E3 in Hi. unfold new_bins in Hr.
    pose proof (be_rows _ _ _ _ _ _ _ He (seen ++ more) (length (bins seen) - 1 + i) (length (bins seen) - 1 + j) e r Hg) as Q.
    replace (length (bins seen) - 1 + j <=? length (bins seen) - 1 + i) with true in Q by (symmetry; apply Nat.leb_le; lia). apply Q.
    + rewrite <- Hi. symmetry. apply nth_error_skipn_.
    + rewrite <- skipn_map in Hr. rewrite nth_skipn_ in Hr. auto.
Qed.

Lemma user_once : forall rows, rows <> [] -> good rows ->
  exists sg, bin_by rows None = Ok (sg, None) /\ null_announced false sg /\ ends_after_rows t rows sg.
Proof.
  intros rows Hne Hg. destruct (bn_once _ _ _ _ _ Hb rows Hne Hg) as (sg & E & Hd). exists sg. split; auto. split.
  - eapply described_null; [|exact Hd]. auto.
  - destruct (be_once _ _ _ _ _ _ _ He rows sg None Hne Hg E) as (_ & E2 & E3).
    eapply (described_ends sg _ rows _); [exact Hne|exact Hd|exact E2|].
    intros i j e r Hi Hj Hr. rewrite E3 in Hi.
    pose proof (be_rows _ _ _ _ _ _ _ He rows i j e r Hg Hi Hr) as Q.
    replace (j <=? i) with true in Q by (symmetry; apply Nat.leb_le; lia). exact Q.
Qed.
End User.
