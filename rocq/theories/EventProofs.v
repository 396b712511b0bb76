(** From merged bins and snapshots to the rows each of them aggregates. *)
Require Import List Arith ZArith Bool Lia Sorted.
Require Import Verif.Common Verif.AggModel Verif.AggSpec Verif.AggProofs.
Require Import Verif.SegModel Verif.SegSpec Verif.SegProofs Verif.MergeProofs.
Import ListNotations.
Local Open Scope nat_scope.

(** * Kinds of chunks *)
Lemma kinds_off : forall l idx, kinds idx SnapsOff l = map (fun x => (x, true)) l.
Proof. induction l; intros; simpl; auto. rewrite IHl. auto. Qed.

Lemma nonzero_from_ge : forall {A} (p : A -> bool) l k i, In i (nonzero_from k p l) -> k <= i.
Proof.
  induction l as [|x l IH]; intros k i H; simpl in H; [contradiction|].
  destruct (p x); [destruct H as [->|H]; auto|]; apply IH in H; lia.
Qed.

Lemma nonzero_from_nil : forall {A} (p : A -> bool) l k, nonzero_from k p l = [] -> forall x, In x l -> p x = false.
Proof.
  induction l as [|x l IH]; intros k H y Hy; [contradiction|]. simpl in H.
  destruct (p x) eqn:E; [discriminate|]. destruct Hy as [->|Hy]; eauto.
Qed.

Lemma kinds_exhausted : forall (m : list event) idx bi l, (forall x, In x m -> ev_is_bin x = false) ->
  match bi with [] => True | b :: _ => b < idx end ->
  kinds idx (SnapsOn bi l) (map ev_pos m) = map snd m.
Proof.
  induction m as [|e m IH]; intros idx bi l H Hb; simpl; auto.
  destruct e as [k [p isb]]. assert (isb = false) by (apply (H (k, (p, isb))); left; auto). subst.
  destruct bi as [|b bi]; simpl.
  - f_equal. apply IH; auto. intros; apply H; right; auto.
  - destruct (idx =? b) eqn:E; [apply Nat.eqb_eq in E; lia|]. simpl. f_equal.
    apply IH; [intros; apply H; right; auto|simpl; lia].
Qed.

Lemma kinds_on : forall (m : list event) idx l,
  last (nonzero_from idx ev_is_bin m) l = l ->
  kinds idx (SnapsOn (nonzero_from idx ev_is_bin m) l) (map ev_pos m) = map snd m.
Proof.
  induction m as [|e m IH]; intros idx l Hl; simpl; auto.
  destruct e as [k [p isb]]. unfold ev_is_bin in *. simpl in *. fold ev_is_bin in *.
  destruct isb.
  - rewrite Nat.eqb_refl. destruct (idx =? l) eqn:E.
    + simpl. f_equal. apply Nat.eqb_eq in E. subst l.
      assert (Hn : nonzero_from (S idx) ev_is_bin m = []).
      { destruct (nonzero_from (S idx) ev_is_bin m) eqn:F; auto. exfalso.
        change (last (n :: l) idx = idx) in Hl.
        assert (In idx (n :: l)).
        { rewrite <- Hl at 1. apply (last_In (n :: l) idx). congruence. }
        rewrite <- F in H. apply nonzero_from_ge in H. lia. }
      rewrite Hn. apply kinds_exhausted; [|lia]. 
      exact (nonzero_from_nil _ _ _ Hn).
    + simpl. f_equal. apply IH.
      simpl in Hl. destruct (nonzero_from (S idx) ev_is_bin m) eqn:F; auto.
  - destruct (nonzero_from (S idx) ev_is_bin m) as [|b bi] eqn:F.
    + simpl. f_equal. apply kinds_exhausted; auto. exact (nonzero_from_nil _ _ _ F).
    + assert (S idx <= b) by (apply (nonzero_from_ge ev_is_bin m); rewrite F; left; auto).
      simpl. destruct (idx =? b) eqn:E; [apply Nat.eqb_eq in E; lia|]. simpl. f_equal.
      rewrite <- F. apply IH. rewrite F. auto.
Qed.

(** * Rows of each chunk *)
Definition tok_ev := (nat * bool)%type.

(** [bs] is the position of the last bin end, [acc] the rows of the running bin before this data. *)
Fixpoint ev_rows {R} (data : list R) (acc : list R) (bs : nat) (evs : list tok_ev) : list (sev R) :=
  match evs with
  | [] => []
  | (p, true) :: evs' => EBin (acc ++ slice bs p data) :: ev_rows data [] p evs'
  | (p, false) :: evs' => ESnap (acc ++ slice bs p data) :: ev_rows data acc bs evs'
  end.


Lemma skipn_add : forall {R} (l : list R) a b, skipn a (skipn b l) = skipn (b + a) l.
Proof.
  induction l as [|x l IH]; intros a b; [rewrite !skipn_nil; auto|].
  destruct b; simpl; auto.
Qed.

Lemma slice_split : forall {R} (data : list R) a b c, a <= b -> b <= c ->
  slice a c data = slice a b data ++ slice b c data.
Proof.
  intros R data a b c H1 H2. unfold slice.
  rewrite <- (firstn_skipn (b - a) (firstn (c - a) (skipn a data))).
  rewrite firstn_firstn. rewrite Nat.min_l by lia. f_equal.
  rewrite skipn_firstn_comm, skipn_add. f_equal; [lia|]. f_equal. lia.
Qed.

Lemma slice_nil : forall {R} (data : list R) a, slice a a data = [].
Proof. intros. unfold slice. rewrite Nat.sub_diag. auto. Qed.

Lemma spec_events_ev_rows : forall {R} (data : list R) evs acc bs from,
  bs <= from -> nondecr from (map fst evs) ->
  spec_events (acc ++ slice bs from data) (timeline data from evs) = ev_rows data acc bs evs.
Proof.
  induction evs as [|[p isb] evs IH]; intros acc bs from Hb Hn; simpl; auto.
  destruct Hn as [Hp Hn]. simpl in Hp.
  change (firstn (p - from) (skipn from data)) with (slice from p data).
  rewrite spec_events_rows. rewrite <- app_assoc, <- slice_split by auto.
  destruct isb; simpl; f_equal.
  - rewrite <- (IH [] p p) by auto. rewrite slice_nil. auto.
  - rewrite <- (IH acc bs p) by (auto; lia). auto.
Qed.

Lemma spec_events_ev_rows0 : forall {R} (data : list R) evs acc,
  nondecr 0 (map fst evs) ->
  spec_events acc (timeline data 0 evs) = ev_rows data acc 0 evs.
Proof.
  intros. rewrite <- (spec_events_ev_rows data evs acc 0 0) by auto. rewrite slice_nil, app_nil_r. auto.
Qed.

(** Bins: rows between successive bin ends. *)
Lemma ev_rows_bins : forall {R} (data : list R) (m : list event) acc bs,
  ebins (ev_rows data acc bs (map snd m)) =
  match map ev_pos (filter ev_is_bin m) with
  | [] => []
  | p :: ps => (acc ++ slice bs p data) :: cut p ps data
  end.
Proof.
  induction m as [|[k [p isb]] m IH]; intros acc bs; simpl; auto.
  unfold ev_is_bin at 1. simpl. destruct isb; simpl.
  - f_equal. rewrite IH. destruct (map ev_pos (filter ev_is_bin m)); simpl; auto.
  - apply IH.
Qed.

(** Snapshots: rows since the last bin end with a smaller key. *)
Definition snap_rows {R} (data acc : list R) (bins : list (Z * nat)) (s : Z * nat) : list R :=
  let prior := filter (fun b => (fst b <? fst s)%Z) bins in
  (if is_nil prior then acc else []) ++ slice (last (map snd prior) 0) (snd s) data.

Lemma filter_lt_split : forall (done rest : list (Z * nat)) k,
  (forall b, In b done -> (fst b < k)%Z) -> (forall b, In b rest -> (k <= fst b)%Z) ->
  filter (fun b => (fst b <? k)%Z) (done ++ rest) = done.
Proof.
  intros done rest k H1 H2. rewrite filter_app, filter_all, filter_none.
  - apply app_nil_r.
  - intros x Hx. apply Z.ltb_ge. auto.
  - intros x Hx. apply Z.ltb_lt. auto.
Qed.

Lemma last_map_snoc : forall {A B} (g : A -> B) l x d, last (map g (l ++ [x])) d = g x.
Proof. intros. rewrite map_app. simpl. apply last_last. Qed.

Lemma ev_rows_snaps_aux : forall {R} (data : list R) (m : list event) acc done snaps bins,
  StronglySorted ev_le m ->
  filter (fun e => negb (ev_is_bin e)) m = map snap_ev snaps ->
  filter ev_is_bin m = map bin_ev bins ->
  (forall b s, In b done -> In s snaps -> (fst b < fst s)%Z) ->
  esnaps (ev_rows data (if is_nil done then acc else []) (last (map snd done) 0) (map snd m)) =
  map (snap_rows data acc (done ++ bins)) snaps.
Proof.
  induction m as [|[k [p isb]] m IH]; intros acc done snaps bins Hs Hsn Hbn Hd.
  - simpl in *. destruct snaps; [auto|discriminate].
  - inversion Hs; subst. destruct isb.
    + unfold ev_is_bin in Hsn, Hbn. simpl in Hsn, Hbn.
      destruct bins as [|b bins]; [discriminate|]. simpl in Hbn. injection Hbn as E1 E2 Hbn.
      simpl.
      specialize (IH acc (done ++ [b]) snaps bins H1 Hsn Hbn).
      rewrite last_map_snoc in IH. 
      replace (is_nil (done ++ [b])) with false in IH by (destruct done; auto).
      rewrite <- app_assoc in IH. simpl in IH. rewrite E2. apply IH.
      intros b' s Hb' Hs'. apply in_app_iff in Hb' as [Hb'|[<-|[]]]; auto.
      (* the bin strictly precedes the remaining snapshots *)
      assert (Hin : In (snap_ev s) m).
      { assert (In (snap_ev s) (map snap_ev snaps)) by (apply in_map; auto).
        rewrite <- Hsn in H. apply filter_In in H. tauto. }
      rewrite Forall_forall in H2. specialize (H2 _ Hin). unfold ev_le in H2. simpl in H2.
      rewrite <- E1. destruct H2 as [H2|[_ [H2|H2]]]; [exact H2|discriminate|discriminate].
    + unfold ev_is_bin in Hsn, Hbn. simpl in Hsn, Hbn.
      destruct snaps as [|s snaps]; [discriminate|]. simpl in Hsn. injection Hsn as E1 E2 Hsn.
      simpl. f_equal.
      * unfold snap_rows.
        rewrite filter_lt_split.
        -- rewrite E2. auto.
        -- intros b Hb. apply Hd; [auto|left; auto].
        -- intros b Hb. assert (Hin : In (bin_ev b) m).
           { assert (In (bin_ev b) (map bin_ev bins)) by (apply in_map; auto).
             rewrite <- Hbn in H. apply filter_In in H. tauto. }
           rewrite Forall_forall in H2. specialize (H2 _ Hin). unfold ev_le in H2. simpl in H2.
           rewrite <- E1. lia.
      * apply IH; auto. intros b' s' Hb' Hs'. apply Hd; auto. right; auto.
Qed.

Lemma ev_rows_app_snaps : forall {R} (data : list R) m acc bs p,
  esnaps (ev_rows data acc bs (m ++ [(p, true)])) = esnaps (ev_rows data acc bs m).
Proof.
  induction m as [|[q isb] m IH]; intros acc bs p; simpl; auto.
  destruct isb; simpl; auto. f_equal. auto.
Qed.

Lemma ev_rows_snaps : forall {R} (data : list R) (m : list event) acc snaps bins force,
  is_merge snaps bins force m ->
  esnaps (ev_rows data acc 0 (map snd m)) =
  map (snap_rows data acc (if force then removelast bins else bins)) snaps.
Proof.
  intros R data m acc snaps bins force (H1 & H2 & H3). destruct force.
  - destruct H3 as (m' & b & -> & Hb & Hs).
    rewrite filter_app in H1, H2. simpl in H1, H2. rewrite Hb in H1, H2. simpl in H1, H2.
    rewrite app_nil_r in H1.
    assert (HB : filter ev_is_bin m' = map bin_ev (removelast bins)).
    { rewrite <- map_removelast, <- H2. rewrite removelast_last. auto. }
    rewrite map_app. simpl. destruct b as [k [p isb]]. unfold ev_is_bin in Hb. simpl in Hb. subst isb.
    simpl. rewrite ev_rows_app_snaps.
    apply (ev_rows_snaps_aux data m' acc [] snaps (removelast bins)); auto. contradiction.
  - apply (ev_rows_snaps_aux data m acc [] snaps bins); auto. contradiction.
Qed.

(** * Row positions are non-decreasing *)
Definition pos_le {A} (x y : A * nat) : Prop := snd x <= snd y.

(** Keys and positions agree between bins and snapshots. *)
Definition compat (snaps bins : list (Z * nat)) : Prop :=
  forall s b, In s snaps -> In b bins ->
    ((fst s <= fst b)%Z -> snd s <= snd b) /\ ((fst b < fst s)%Z -> snd b <= snd s).

Lemma merge_sorted_positions : forall (m : list event) snaps bins,
  StronglySorted ev_le m ->
  filter (fun e => negb (ev_is_bin e)) m = map snap_ev snaps ->
  filter ev_is_bin m = map bin_ev bins ->
  StronglySorted pos_le snaps -> StronglySorted pos_le bins -> compat snaps bins ->
  StronglySorted le (map ev_pos m).
Proof.
  induction m as [|[k [p isb]] m IH]; intros snaps bins Hs Hsn Hbn Ps Pb Hc; simpl; [constructor|].
  inversion Hs; subst. rewrite Forall_forall in H2.
  destruct isb.
  - change (filter (fun e => negb (ev_is_bin e)) m = map snap_ev snaps) in Hsn.
    change ((k, (p, true)) :: filter ev_is_bin m = map bin_ev bins) in Hbn.
    destruct bins as [|b bins]; [discriminate|]. simpl in Hbn. injection Hbn as E1 E2 Hbn.
    inversion Pb; subst. rewrite Forall_forall in H4.
    constructor.
    + apply (IH snaps bins); auto. intros s b' Hs' Hb'. apply Hc; auto. right; auto.
    + apply Forall_forall. intros q Hq. apply in_map_iff in Hq as (e & <- & He).
      unfold ev_pos at 1. simpl. destruct e as [k' [p' isb']]. destruct isb'.
      * assert (In (k', (p', true)) (filter ev_is_bin m)) by (apply filter_In; auto).
        rewrite Hbn in H. apply in_map_iff in H as (b' & Q & Hb'). injection Q as <- <-.
        apply (H4 b' Hb').
      * assert (In (k', (p', false)) (filter (fun e => negb (ev_is_bin e)) m)) by (apply filter_In; auto).
        rewrite Hsn in H. apply in_map_iff in H as (s' & Q & Hs'). injection Q as <- <-.
        destruct (Hc s' b Hs' (or_introl eq_refl)) as [_ C]. apply C.
        specialize (H2 _ He). unfold ev_le in H2. simpl in H2. destruct H2 as [H2|[_ [H2|H2]]]; [exact H2|discriminate|discriminate].
  - change ((k, (p, false)) :: filter (fun e => negb (ev_is_bin e)) m = map snap_ev snaps) in Hsn.
    change (filter ev_is_bin m = map bin_ev bins) in Hbn.
    destruct snaps as [|s snaps]; [discriminate|]. simpl in Hsn. injection Hsn as E1 E2 Hsn.
    inversion Ps; subst. rewrite Forall_forall in H4.
    constructor.
    + apply (IH snaps bins); auto. intros s' b' Hs' Hb'. apply Hc; auto. right; auto.
    + apply Forall_forall. intros q Hq. apply in_map_iff in Hq as (e & <- & He).
      unfold ev_pos at 1. simpl. destruct e as [k' [p' isb']]. destruct isb'.
      * assert (In (k', (p', true)) (filter ev_is_bin m)) by (apply filter_In; auto).
        rewrite Hbn in H. apply in_map_iff in H as (b' & Q & Hb'). injection Q as <- <-.
        destruct (Hc s b' (or_introl eq_refl) Hb') as [C _]. apply C.
        specialize (H2 _ He). unfold ev_le in H2. simpl in H2. lia.
      * assert (In (k', (p', false)) (filter (fun e => negb (ev_is_bin e)) m)) by (apply filter_In; auto).
        rewrite Hsn in H. apply in_map_iff in H as (s' & Q & Hs'). injection Q as <- <-.
        apply (H4 s' Hs').
Qed.

Lemma sorted_nondecr : forall l, StronglySorted le l -> nondecr 0 l.
Proof.
  intros l H. assert (G : forall from, (forall x, In x l -> from <= x) -> nondecr from l).
  { induction H as [|x l H IH F]; intros from Hf; simpl; auto.
    split; [apply Hf; left; auto|]. apply IH. rewrite Forall_forall in F. auto. }
  apply G. intros; lia.
Qed.

Lemma StronglySorted_snoc : forall {A} (R : A -> A -> Prop) l x,
  StronglySorted R l -> (forall y, In y l -> R y x) -> StronglySorted R (l ++ [x]).
Proof.
  intros A R l x H. induction H as [|y l H IH F]; intros Hx; simpl.
  - repeat constructor.
  - constructor; [apply IH; intros; apply Hx; right; auto|].
    apply Forall_app. split; auto. constructor; auto. apply Hx. left; auto.
Qed.

(** The forced last bin lies after every snapshot. *)
Lemma merge_positions : forall m snaps bins force,
  is_merge snaps bins force m ->
  StronglySorted pos_le snaps -> StronglySorted pos_le bins ->
  compat snaps (if force then removelast bins else bins) ->
  (force = true -> forall s, In s snaps -> snd s <= last (map snd bins) 0) ->
  StronglySorted le (map ev_pos m).
Proof.
  intros m snaps bins force (H1 & H2 & H3) Ps Pb Hc Hl. destruct force.
  - destruct H3 as (m' & b & -> & Hb & Hs).
    rewrite filter_app in H1, H2. simpl in H1, H2. rewrite Hb in H1, H2. simpl in H1, H2.
    rewrite app_nil_r in H1.
    assert (HB : filter ev_is_bin m' = map bin_ev (removelast bins)).
    { rewrite <- map_removelast, <- H2. rewrite removelast_last. auto. }
    assert (Hne : bins <> []) by (intro Q; rewrite Q in H2; destruct (filter ev_is_bin m'); discriminate).
    assert (HL : ev_pos b = last (map snd bins) 0).
    { replace (map snd bins) with (map ev_pos (map bin_ev bins)) by (rewrite map_map; reflexivity).
      rewrite <- H2. rewrite map_app. simpl. rewrite last_last. auto. }
    rewrite map_app. simpl. apply StronglySorted_snoc.
    + apply (merge_sorted_positions m' snaps (removelast bins)); auto.
      apply StronglySorted_removelast; auto.
    + intros p Hp. apply in_map_iff in Hp as ([k' [p' isb']] & <- & He). rewrite HL.
      unfold ev_pos; simpl. destruct isb'.
      * assert (In (k', (p', true)) (filter ev_is_bin m')) by (apply filter_In; auto).
        rewrite HB in H. apply in_map_iff in H as (b' & Q & Hb'). injection Q as <- <-.
        assert (Hx : forall l : list (Z * nat), StronglySorted pos_le l -> forall y, In y (removelast l) -> snd y <= last (map snd l) 0).
        { clear. induction l as [|x [|y l] IH]; intros H z Hz; simpl in Hz; [contradiction|contradiction|].
          inversion H; subst. destruct Hz as [->|Hz].
          - rewrite Forall_forall in H3. change (last (map snd (z :: y :: l)) 0) with (last (map snd (y :: l)) 0).
            assert (In (last (map snd (y :: l)) 0) (map snd (y :: l))) by (apply last_In; simpl; congruence).
            apply in_map_iff in H0 as (w & Q & Hw). rewrite <- Q. apply H3. exact Hw.
          - apply (IH H2 z Hz). }
        apply Hx; auto.
      * assert (In (k', (p', false)) (filter (fun e => negb (ev_is_bin e)) m')) by (apply filter_In; auto).
        rewrite H1 in H. apply in_map_iff in H as (s' & Q & Hs'). injection Q as <- <-. auto.
  - apply (merge_sorted_positions m snaps bins); auto.
Qed.

(** * Counting empty snapshots *)
Fixpoint adjc (prev : option nat) (evs : list tok_ev) : nat :=
  match evs with
  | [] => 0
  | (p, true) :: evs' => adjc (Some p) evs'
  | (p, false) :: evs' =>
      match prev with Some b => if b =? p then 1 else 0 | None => 0 end + adjc None evs'
  end.

Definition snap_positions (evs : list tok_ev) : list nat :=
  map fst (filter (fun e => negb (snd e)) evs).

Lemma slice_length : forall {R} (data : list R) a b, b <= length data -> length (slice a b data) = b - a.
Proof. intros. unfold slice. rewrite firstn_length, skipn_length. lia. Qed.

Lemma n_empty_le : forall ps a b, n_empty a ps <= 1 + n_empty b ps.
Proof. destruct ps as [|p ps]; intros; simpl; [lia|]. destruct (a =? p), (b =? p); lia. Qed.

Lemma null_snaps_bound : forall {R} (data : list R) evs acc bs ps from prev,
  nondecr from (map fst evs) -> (forall p, In p (map fst evs) -> p <= length data) ->
  bs <= from ->
  match prev with Some b => b = bs | None => ps = from end ->
  length (filter is_nil (esnaps (ev_rows data acc bs evs)))
    <= n_empty ps (snap_positions evs) + adjc prev evs.
Proof.
  induction evs as [|[p isb] evs IH]; intros acc bs ps from prev Hn Hl Hb Hp; simpl; [lia|].
  destruct Hn as [Hfp Hn]. simpl in Hfp.
  assert (Hl' : forall q, In q (map fst evs) -> q <= length data) by (intros; apply Hl; right; auto).
  destruct isb; simpl.
  - unfold snap_positions in *. simpl. apply (IH [] p ps p (Some p)); auto.
  - unfold snap_positions in *. simpl.
    specialize (IH acc bs p p None Hn Hl' ltac:(lia) eq_refl).
    assert (Hpl : p <= length data) by (apply Hl; left; auto).
    destruct (is_nil (acc ++ slice bs p data)) eqn:E; simpl.
    + assert (bs = p).
      { destruct acc; [|discriminate]. simpl in E.
        pose proof (slice_length data bs p Hpl). destruct (slice bs p data); [simpl in H; lia|discriminate]. }
      subst p. destruct prev as [b|].
      * subst b. rewrite Nat.eqb_refl. destruct (ps =? bs); lia.
      * assert (ps = bs) by lia. rewrite H. rewrite Nat.eqb_refl. lia.
    + destruct (ps =? p); destruct prev as [b|]; try destruct (b =? p); lia.
Qed.

(** The count made by 'segmentby' of bins followed by a snapshot at the same row. *)
Lemma bins_followed_adjc : forall (m pre : list event),
  let starts := map ev_pos (pre ++ m) in
  let k := length pre in
  length (filter (fun b => nth b starts 0 =? nth (S b) starts 0)
            (bins_followed (nonzero_from k ev_is_bin m) (length starts)))
  = adjc None (map snd m).
Proof.
  induction m as [|e m IH]; intros pre starts k; simpl; auto.
  assert (Hst : starts = map ev_pos ((pre ++ [e]) ++ m)) by (unfold starts; rewrite <- app_assoc; auto).
  specialize (IH (pre ++ [e])). cbv zeta in IH. rewrite <- Hst in IH.
  rewrite app_length in IH. simpl length in IH. rewrite Nat.add_1_r in IH. fold k in IH.
  assert (Hnk : nth k starts 0 = ev_pos e).
  { unfold starts. rewrite map_app. rewrite app_nth2; rewrite map_length; fold k; [|lia].
    rewrite Nat.sub_diag. auto. }
  assert (Hlen : length starts = k + S (length m)).
  { unfold starts. rewrite map_length, app_length. auto. }
  destruct e as [ke [p isb]]. unfold ev_is_bin at 1. simpl. destruct isb; [|simpl in *; exact IH].
  destruct m as [|e' m].
  - simpl. rewrite Hlen. simpl. replace (k + 1 - k - 1) with 0 by lia. auto.
  - assert (Hnk1 : nth (S k) starts 0 = ev_pos e').
    { rewrite Hst. rewrite map_app. rewrite app_nth2; rewrite map_length, app_length; change (length pre) with k; simpl length; [|lia].
      replace (S k - (k + 1)) with 0 by lia. auto. }
    clearbody starts. destruct e' as [ke' [p' isb']].
    destruct isb'.
    + change (nonzero_from (S k) ev_is_bin ((ke', (p', true)) :: m))
        with (S k :: nonzero_from (S (S k)) ev_is_bin m) in *.
      change (bins_followed (k :: S k :: nonzero_from (S (S k)) ev_is_bin m) (length starts))
        with (if S k - k - 1 =? 0 then bins_followed (S k :: nonzero_from (S (S k)) ev_is_bin m) (length starts)
              else k :: bins_followed (S k :: nonzero_from (S (S k)) ev_is_bin m) (length starts)).
      replace (S k - k - 1) with 0 by lia. exact IH.
    + change (nonzero_from (S k) ev_is_bin ((ke', (p', false)) :: m))
        with (nonzero_from (S (S k)) ev_is_bin m) in *.
      simpl bins_followed.
      assert (Hne : (match nonzero_from (S (S k)) ev_is_bin m with [] => length starts | b' :: _ => b' end - k - 1 =? 0) = false).
      { apply Nat.eqb_neq. destruct (nonzero_from (S (S k)) ev_is_bin m) eqn:F.
        - rewrite Hlen. simpl. lia.
        - assert (S (S k) <= n) by (apply (nonzero_from_ge ev_is_bin m); rewrite F; left; auto). lia. }
      rewrite Hne.
      change (adjc (Some p) (map snd ((ke', (p', false)) :: m)))
        with ((if p =? p' then 1 else 0) + adjc None (map snd m)).
      change (adjc None (map snd ((ke', (p', false)) :: m))) with (adjc None (map snd m)) in IH.
      cbn [filter]. rewrite Hnk, Hnk1. change (ev_pos (ke, (p, true))) with p. change (ev_pos (ke', (p', false))) with p'.
      destruct (p =? p'); cbn [length]; rewrite IH; auto.
Qed.
