(** Results of 'cumsegagg' from the results of the binning functions. *)
Require Import List Arith ZArith Bool Lia Sorted Permutation.
Require Import Verif.Common Verif.AggModel Verif.AggSpec Verif.AggProofs.
Require Import Verif.SegModel Verif.SegSpec Verif.SegProofs Verif.SegRowsProofs Verif.MergeProofs Verif.EventProofs.
Require Import Verif.CsaModel Verif.CsaSpec Verif.CsaProofs Verif.CsaLoopProofs.
Import ListNotations.

Lemma sortedb_sorted : forall l, sorted l -> sortedb l = true.
Proof.
  induction l as [|x l IH]; intros H; auto. inversion H; subst. simpl. destruct l as [|y l]; auto.
  rewrite IH by auto. rewrite Forall_forall in H3. rewrite (proj2 (Z.leb_le x y)); auto. apply H3. left; auto.
Qed.

Lemma last_indep : forall {A} (l : list A) d d', l <> [] -> last l d = last l d'.
Proof. induction l as [|x l IH]; intros d d' H; [congruence|]. destruct l; auto. apply IH. congruence. Qed.
Lemma last_idem : forall {A} (l : list A) d, last l (last l d) = last l d.
Proof. intros A [|x l] d; auto. apply last_indep. congruence. Qed.

(** Rows of bins, from the rows of the running bin and the ends of bins. *)
Definition bin_groups {R} (acc : list R) (starts : list nat) (data : list R) : list (list R) :=
  match starts with
  | [] => []
  | p :: ps => (acc ++ slice 0 p data) :: cut p ps data
  end.

Lemma cut_length : forall {A} (data : list A) ps from, length (cut from ps data) = length ps.
Proof. induction ps; intros; simpl; auto. Qed.

Lemma bin_groups_length : forall {R} (acc : list R) starts data, length (bin_groups acc starts data) = length starts.
Proof. intros. destruct starts; simpl; auto. rewrite cut_length. auto. Qed.

Lemma ev_rows_only_snaps : forall {R} (data : list R) (m : list event) acc bs la,
  filter ev_is_bin m = [] -> (forall x, In x m -> ev_pos x = bs) -> acc = [] ->
  lastne la (ev_rows data acc bs (map snd m)) = la.
Proof.
  intros R data. unfold lastne. induction m as [|[k [p isb]] m IH]; intros acc bs la Hf Hp ->; auto.
  unfold ev_is_bin in Hf. simpl in Hf. destruct isb; [discriminate|].
  assert (p = bs) by (apply (Hp (k, (p, false))); left; auto). subst p.
  simpl. rewrite slice_nil. simpl. apply IH; auto. intros; apply Hp; right; auto.
Qed.

Lemma lastne_last : forall {R} (data : list R) (m : list event) acc bs la,
  StronglySorted le (map ev_pos m) -> (forall x, In x m -> ev_pos x <= length data) ->
  filter ev_is_bin m <> [] -> last (map ev_pos (filter ev_is_bin m)) 0 = length data ->
  last (ebins (ev_rows data acc bs (map snd m))) [] <> [] ->
  lastne la (ev_rows data acc bs (map snd m)) = last (ebins (ev_rows data acc bs (map snd m))) [].
Proof.
  intros R data. induction m as [|[k [p isb]] m IH]; intros acc bs la Hs Hle Hne Hl Hnn; [simpl in Hne; congruence|].
  simpl map in Hs. inversion Hs; subst.
  assert (Hle' : forall x, In x m -> ev_pos x <= length data) by (intros; apply Hle; right; auto).
  destruct isb.
  - change (last (map ev_pos ((k, (p, true)) :: filter ev_is_bin m)) 0 = length data) in Hl.
    destruct (filter ev_is_bin m) as [|b bs'] eqn:E.
    + simpl in Hl. unfold ev_pos in Hl. simpl in Hl.
      assert (Hm : forall x, In x m -> ev_pos x = p).
      { intros x Hx. rewrite Forall_forall in H2. specialize (H2 (ev_pos x) (in_map ev_pos m x Hx)).
        unfold ev_pos in H2 at 1. simpl in H2. specialize (Hle' x Hx). lia. }
      simpl in Hnn |- *.
      assert (Heb : ebins (ev_rows data [] p (map snd m)) = []).
      { rewrite ev_rows_bins, E. auto. }
      change (ebins (?x :: ?l)) with (ebins [x] ++ ebins l) in *.
      unfold ebins in *. simpl in *. rewrite Heb in *. simpl in *.
      unfold lastne. simpl. fold (lastne (match acc ++ slice bs p data with [] => la | r => r end) (ev_rows data [] p (map snd m))).
      rewrite ev_rows_only_snaps by auto. destruct (acc ++ slice bs p data); congruence.
    + assert (Hq : ebins (ev_rows data acc bs (map snd ((k, (p, true)) :: m))) =
                   (acc ++ slice bs p data) :: ebins (ev_rows data [] p (map snd m))) by reflexivity.
      rewrite Hq in *.
      assert (Hc : ebins (ev_rows data [] p (map snd m)) <> []).
      { rewrite ev_rows_bins, E. simpl. congruence. }
      assert (Hlst : forall (x : list R) l, l <> [] -> last (x :: l) [] = last l []) by (intros x [|]; [congruence|auto]).
      rewrite Hlst in * by auto. unfold lastne. simpl.
      apply IH; auto; congruence.
  - change (last (map ev_pos (filter ev_is_bin m)) 0 = length data) in Hl.
    change (filter ev_is_bin m <> []) in Hne.
    simpl in Hnn |- *. unfold lastne. simpl. apply IH; auto.
Qed.

Lemma last_bin_groups : forall {R} (data acc : list R) starts,
  StronglySorted le starts -> starts <> [] -> last starts 0 = length data -> data <> [] ->
  (1 < length starts -> nth (length starts - 2) starts 0 <> length data) ->
  last (bin_groups acc starts data) [] <> [].
Proof.
  intros R data acc [|p ps] Hs Hne Hl Hd Hn2; [congruence|]. simpl.
  destruct ps as [|q ps].
  - simpl in *. subst p. unfold slice. rewrite Nat.sub_0_r. simpl. rewrite firstn_all.
    destruct data; [congruence|]. destruct acc; discriminate.
  - assert (Hlast : forall ps p q, last (cut p (q :: ps) data) [] = slice (nth (length ps) (p :: q :: ps) 0) (last (q :: ps) 0) data).
    { clear. induction ps as [|r ps IH]; intros p q; auto.
      change (last (cut q (r :: ps) data) [] = slice (nth (length ps) (q :: r :: ps) 0) (last (r :: ps) 0) data). apply IH. }
    change (last (cut p (q :: ps) data) [] <> []). rewrite Hlast.
    change (last (p :: q :: ps) 0) with (last (q :: ps) 0) in Hl. rewrite Hl.
    simpl length in Hn2. specialize (Hn2 ltac:(lia)). replace (S (S (length ps)) - 2) with (length ps) in Hn2 by lia.
    assert (Hle : nth (length ps) (p :: q :: ps) 0 <= length data).
    { rewrite <- Hl. clear -Hs. revert p q Hs. induction ps as [|r ps IH]; intros p q Hs.
      - simpl. inversion Hs; subst. inversion H2; subst. auto.
      - change (nth (length ps) (q :: r :: ps) 0 <= last (r :: ps) 0). apply IH. inversion Hs; auto. }
    intro Q. apply (f_equal (@length R)) in Q. rewrite slice_length in Q by lia. simpl length in Q. lia.
Qed.

Section Gen.
Context {D V B : Type}.
Variable N : dtype -> num V.
Variable val : D -> cname -> V.
Variables (agg : aggspec) (dtypes : list (cname * dtype)).
Hypothesis Hvalid : agg_valid agg dtypes.
Hypothesis Hnodup : NoDup (map fst agg).
Hypothesis Hagg : agg <> [].

(** State of the buffer before a call, when the running bin has rows [acc]. *)
Definition running (buffer : option (csabuf B V)) (acc : list D) (first_label : Z) : Prop :=
  match buffer with
  | None => acc = []
  | Some b => match mb_last_label (cb_main b) with
              | None => acc = [] /\ cb_last b = None
              | Some l => l = first_label /\ acc <> [] /\ exists r, cb_last b = Some r /\ last_is N val agg dtypes acc r
              end
  end.

Definition bin_buffer (empty : B) (buffer : option (csabuf B V)) : option B :=
  match buffer with
  | None => None
  | Some b => Some (match mb_bin (cb_main b) with Some x => x | None => empty end)
  end.

(** Buffer given to 'by_scale' for snapshots. *)
Definition snap_buffer (buffer : option (csabuf B V)) (sb : option sbuf) : Prop :=
  match buffer with
  | None => sb = None
  | Some b => match mb_bin (cb_main b) with
              | None => sb = Some sbuf_empty
              | Some _ => sb = mb_snap (cb_main b) /\ sb <> None
              end
  end.

Record seg_ok (data : list D) (sg : seg) : Prop := {
  so_labels : length (s_labels sg) = length (s_starts sg);
  so_ends : length (s_ends sg) = length (s_starts sg);
  so_starts : StronglySorted le (s_starts sg);
  so_ne : s_starts sg <> [];
  so_last : last (s_starts sg) 0 = length data;
  so_last2 : 1 < length (s_starts sg) -> nth (length (s_starts sg) - 2) (s_starts sg) 0 <> length data }.

Record snap_ok (data : list D) (ss : seg) : Prop := {
  sn_labels : length (s_labels ss) = length (s_starts ss);
  sn_ends : length (s_ends ss) = length (s_starts ss);
  sn_keys : sorted (s_ends ss);
  sn_starts : StronglySorted le (s_starts ss);
  sn_le : forall p, In p (s_starts ss) -> p <= length data;
  sn_null : n_empty 0 (s_starts ss) <= s_nnull ss;
  sn_idx : s_label_idx ss = 0 }.

Definition seg_bins (sg : seg) : list (Z * nat) := combine (s_ends sg) (s_starts sg).
Definition done_bins (sg : seg) : list (Z * nat) :=
  if s_unknown_last_end sg then removelast (seg_bins sg) else seg_bins sg.
Definition snap_groups (data acc : list D) (sg ss : seg) : list (list D) :=
  map (snap_rows data acc (done_bins sg)) (seg_bins ss).

Lemma SSorted_le_In : forall l x, StronglySorted le l -> l <> [] -> In x l -> x <= last l 0.
Proof.
  induction l as [|y l IH]; intros x Hs Hne Hx; [congruence|]. inversion Hs; subst.
  destruct l as [|z l]; [destruct Hx as [->|[]]; simpl; auto|].
  destruct Hx as [->|Hx].
  - rewrite Forall_forall in H2. apply H2. apply (last_In (z :: l) 0). congruence.
  - apply IH; auto. congruence.
Qed.

Lemma combine_pos_sorted : forall (ks : list Z) ls, StronglySorted le ls -> StronglySorted pos_le (combine ks ls).
Proof.
  induction ks as [|k ks IH]; intros [|l ls] H; simpl; try constructor.
  - apply IH. inversion H; auto.
  - inversion H; subst. rewrite Forall_forall in *. intros [k' l'] Hin. apply in_combine_r in Hin.
    unfold pos_le. simpl. auto.
Qed.

Definition main_next (empty : B) (buffer : option (csabuf B V)) (bb' : option B) (with_snap : bool) (bs : option sbuf) (last_label : Z)
  (last_rows : list D) (b' : option (csabuf B V)) : Prop :=
  match buffer with
  | None => b' = None
  | Some b => exists r, b' = Some (mkCsabuf (mkMain bb'
       (if with_snap then bs else mb_snap (cb_main b)) (Some last_label)) (Some r)) /\ last_is N val agg dtypes last_rows r
  end.

Lemma map_snd_ev_bins : forall (m : list event) bins, filter ev_is_bin m = map bin_ev bins ->
  map ev_pos (filter ev_is_bin m) = map snd bins.
Proof. intros m bins ->. rewrite map_map. apply map_ext. intros []; auto. Qed.

(** Without snapshots. *)
Lemma cumsegagg_gen : forall (bin_by : list D -> option B -> res (seg * option B)) empty ordered eo data buffer acc sg bb',
  data <> [] ->
  match ordered with Some o => sorted (map o data) | None => True end ->
  bin_by data (bin_buffer empty buffer) = Ok (sg, bb') ->
  seg_ok data sg -> running buffer acc (hd 0%Z (s_labels sg)) ->
  let gb := combine (s_labels sg) (bin_groups acc (s_starts sg) data) in
  length (filter is_nil (bin_groups acc (s_starts sg) data)) <= s_nnull sg ->
  label_consistent gb ->
  outcome N val agg dtypes eo gb None
    (main_next empty buffer bb' false None (last (s_labels sg) 0%Z) (last (bin_groups acc (s_starts sg) data) []))
    (cumsegagg N val agg dtypes bin_by empty ordered None eo data buffer).
Proof.
  intros bin_by empty ordered eo data buffer acc sg bb' Hdata Hord Hbb [S1 S2 S4 S5 S6 S7] Hrun gb Hnull Hcons.
  set (so := mkSegout (s_starts sg) [] (s_labels sg) (s_nnull sg) None 0).
  set (main' := match buffer with None => None | Some b => Some (mkMain bb' (mb_snap (cb_main b)) (Some (last (s_labels sg) 0%Z))) end).
  set (evs := map (fun x => (x, true)) (s_starts sg)).
  assert (Hm : exists m : list event, evs = map snd m /\ map ev_pos m = s_starts sg /\ filter ev_is_bin m = m).
  { exists (map (fun x => (0%Z, (x, true))) (s_starts sg)). unfold evs. rewrite !map_map. split; auto.
    split; [rewrite <- map_id; apply map_ext; auto|]. apply filter_all. intros x Hx.
    apply in_map_iff in Hx as (y & <- & _). auto. }
  destruct Hm as (m & Hm1 & Hm2 & Hm3).
  assert (Hg : ebins (ev_rows data acc 0 evs) = bin_groups acc (s_starts sg) data).
  { rewrite Hm1, ev_rows_bins, Hm3, Hm2. unfold bin_groups. auto. }
  assert (Hs : esnaps (ev_rows data acc 0 evs) = []).
  { unfold evs. clear. generalize (s_starts sg), acc, 0. induction l; intros; simpl; auto. }
  assert (Hlast : lastne acc (ev_rows data acc 0 evs) = last (bin_groups acc (s_starts sg) data) []).
  { rewrite <- Hg. rewrite Hm1. apply lastne_last.
    - rewrite Hm2; auto.
    - intros x Hx. rewrite <- S6. apply SSorted_le_In; auto. rewrite <- Hm2. apply in_map; auto.
    - rewrite Hm3. intro Q. subst m. simpl in Hm2. congruence.
    - rewrite Hm3, Hm2. auto.
    - rewrite <- Hm1, Hg. apply last_bin_groups; auto. }
  destruct (cumsegagg_of_seg N val agg dtypes Hvalid Hnodup bin_by empty ordered None eo data buffer so main' acc evs)
    as [Z1 Z2]; auto; simpl g_starts in *; simpl g_bin_labels in *.
  { unfold segmentby.
    assert (Hsm : setup_mainbuffer empty (option_map cb_main buffer) false =
       Ok (bin_buffer empty buffer, None, match buffer with None => None | Some b =>
             Some (mkMain (bin_buffer empty buffer) (mb_snap (cb_main b)) (mb_last_label (cb_main b))) end)).
    { destruct buffer as [b|]; auto. unfold setup_mainbuffer, option_map, bin_buffer.
      destruct b as [[mb ms ml] lr]. simpl. destruct mb; auto. }
    rewrite Hsm. cbn [bind].
    replace (match ordered with Some o => if sortedb (map o data) then Ok tt else Err ValueError | None => Ok tt end) with (Ok tt).
    2:{ destruct ordered; auto. rewrite sortedb_sorted; auto. }
    cbn [bind]. rewrite Hbb. cbn [bind]. rewrite S1, S2, Nat.eqb_refl. simpl negb. cbv iota.
    destruct buffer as [b|]; [|reflexivity].
    destruct (s_starts sg) as [|st0 sts] eqn:Est; [congruence|]. rewrite <- Est in *.
    rewrite S6, Nat.eqb_refl. simpl negb. cbv iota.
    replace ((1 <? length (s_starts sg)) && (nth (length (s_starts sg) - 2) (s_starts sg) 0 =? length data)) with false.
    2:{ symmetry. destruct (1 <? length (s_starts sg)) eqn:E; auto. simpl. apply Nat.eqb_neq. apply S7. apply Nat.ltb_lt; auto. }
    simpl mb_last_label. unfold running in Hrun.
    destruct (mb_last_label (cb_main b)) as [l|].
    - destruct Hrun as (-> & _). rewrite Z.eqb_refl. cbn [bind]. unfold so, main'. rewrite <- Est. reflexivity.
    - cbn [bind]. unfold so, main'. rewrite <- Est. reflexivity. }
  { unfold main'. destruct buffer; auto. congruence. }
  { reflexivity. }
  { apply sorted_nondecr; auto. }
  { intros p Hp. rewrite <- S6. apply SSorted_le_In; auto. }
  { simpl. apply kinds_off. }
  { rewrite Hg, bin_groups_length. auto. }
  { rewrite Hs. auto. }
  { rewrite Hg. auto. }
  { rewrite Hs. auto. }
  { rewrite Hg. exact Hcons. }
  { rewrite Hs. intros l r1 r2 []. }
  { rewrite Hlast. apply last_bin_groups; auto. }
  rewrite Hg, Hs in *. simpl combine in *. fold gb in Z1, Z2.
  assert (Hzr : zero_refused N val agg dtypes eo gb None <->
    (eo = true /\ (some_zero N val agg dtypes gb \/ some_zero N val agg dtypes []))).
  { unfold zero_refused. split; intros [H1 H2]; split; auto; destruct H2 as [H2|H2]; auto.
    - destruct H2 as (g & Q & _). discriminate.
    - destruct H2 as (o1 & o2 & o3 & o4 & o5 & o6 & _ & _ & [] & _). }
  split.
  - intro H. apply Z1. apply Hzr; auto.
  - intro H. destruct Z2 as (fb & fs & b' & E1 & E2 & E3 & E4).
    { intro Q. apply H. apply Hzr. auto. }
    exists fb, fs, b'. split; auto. split; auto. split.
    + destruct fs; auto. destruct E3; congruence.
    + unfold main_next. unfold main' in E4. destruct buffer; auto. rewrite <- Hlast. exact E4.
Qed.

(** With snapshots. *)
Lemma cumsegagg_gen_snap : forall (bin_by : list D -> option B -> res (seg * option B)) empty o sb eo data buffer acc sg bb' ss bs sbuf0,
  data <> [] -> sorted (map o data) ->
  bin_by data (bin_buffer empty buffer) = Ok (sg, bb') ->
  seg_ok data sg -> sorted (s_ends sg) -> running buffer acc (hd 0%Z (s_labels sg)) ->
  snap_buffer buffer sbuf0 ->
  by_scale (map o data) sb (Some (s_closed sg)) sbuf0 = Ok (ss, bs) -> snap_ok data ss ->
  compat (seg_bins ss) (done_bins sg) ->
  let gb := combine (s_labels sg) (bin_groups acc (s_starts sg) data) in
  let gs := combine (s_labels ss) (snap_groups data acc sg ss) in
  length (filter is_nil (bin_groups acc (s_starts sg) data)) <= s_nnull sg ->
  label_consistent gb -> label_consistent gs ->
  outcome N val agg dtypes eo gb (Some gs)
    (main_next empty buffer bb' true bs (last (s_labels sg) 0%Z) (last (bin_groups acc (s_starts sg) data) []))
    (cumsegagg N val agg dtypes bin_by empty (Some o) (Some sb) eo data buffer).
Proof.
  intros bin_by empty o sb eo data buffer acc sg bb' ss bs sbuf0 Hdata Hord Hbb [S1 S2 S4 S5 S6 S7] S3 Hrun Hsb Hbs
    [T1 T2 T3 T4 T5 T6 T7] Hcompat gb gs Hnull Hcons Hconss.
  set (bins := seg_bins sg) in *. set (snaps := seg_bins ss) in *.
  assert (Bf : map fst bins = s_ends sg) by (apply map_fst_combine_; auto).
  assert (Bs : map snd bins = s_starts sg) by (apply map_snd_combine_; auto).
  assert (Sf : map fst snaps = s_ends ss) by (apply map_fst_combine_; auto).
  assert (Ss : map snd snaps = s_starts ss) by (apply map_snd_combine_; auto).
  assert (Hbne : bins <> []) by (intro Q; rewrite Q in Bs; simpl in Bs; congruence).
  destruct (mergesort_spec snaps bins (s_unknown_last_end sg)) as (m & M1 & M2);
    [apply combine_fst_sorted; auto|apply combine_fst_sorted; auto|auto|].
  rewrite Bf, Bs, Sf, Ss in M1.
  assert (Hpos : StronglySorted le (map ev_pos m)).
  { apply (merge_positions m snaps bins (s_unknown_last_end sg)); auto; try (apply combine_pos_sorted; auto).
    intros _ s Hs. rewrite Bs, S6. apply T5. rewrite <- Ss. apply in_map; auto. }
  destruct M2 as (M2a & M2b & M2c).
  assert (Hle : forall x, In x m -> ev_pos x <= length data).
  { intros [k [p isb]] Hx. unfold ev_pos. simpl. destruct isb.
    - assert (Hin : In (k, (p, true)) (filter ev_is_bin m)) by (apply filter_In; auto).
      rewrite M2b in Hin. apply in_map_iff in Hin as ([k' p'] & Q & Hin). unfold bin_ev in Q. simpl in Q.
      injection Q as -> ->. rewrite <- S6. apply SSorted_le_In; auto. rewrite <- Bs. apply (in_map snd) in Hin. auto.
    - assert (Hin : In (k, (p, false)) (filter (fun e => negb (ev_is_bin e)) m)) by (apply filter_In; auto).
      rewrite M2a in Hin. apply in_map_iff in Hin as ([k' p'] & Q & Hin). unfold snap_ev in Q. simpl in Q.
      injection Q as -> ->. apply T5. rewrite <- Ss. apply (in_map snd) in Hin. auto. }
  set (so := mkSegout (map ev_pos m) (indices ev_is_bin m) (s_labels sg) (s_nnull sg) (Some (s_labels ss, 0))
               (s_nnull ss + adjc None (map snd m))).
  set (main' := match buffer with None => None | Some b => Some (mkMain bb' bs (Some (last (s_labels sg) 0%Z))) end).
  set (evs := map snd m).
  assert (Hg : ebins (ev_rows data acc 0 evs) = bin_groups acc (s_starts sg) data).
  { unfold evs. rewrite ev_rows_bins. rewrite (map_snd_ev_bins m bins M2b), Bs. auto. }
  assert (Hs : esnaps (ev_rows data acc 0 evs) = snap_groups data acc sg ss).
  { unfold evs. rewrite (ev_rows_snaps data m acc snaps bins (s_unknown_last_end sg)) by (split; auto). auto. }
  assert (Hlast : lastne acc (ev_rows data acc 0 evs) = last (bin_groups acc (s_starts sg) data) []).
  { rewrite <- Hg. apply lastne_last; auto.
    - rewrite M2b. destruct bins; [congruence|discriminate].
    - rewrite (map_snd_ev_bins m bins M2b), Bs. auto.
    - fold evs. rewrite Hg. apply last_bin_groups; auto. }
  assert (Hnull_s : length (filter is_nil (esnaps (ev_rows data acc 0 evs))) <= s_nnull ss + adjc None (map snd m)).
  { etransitivity; [apply (null_snaps_bound data evs acc 0 0 0 None)|]; auto.
    - replace (map fst evs) with (map ev_pos m) by (unfold evs; rewrite map_map; auto). apply sorted_nondecr; auto.
    - unfold evs. rewrite map_map. intros p Hp. apply in_map_iff in Hp as (x & <- & Hx). apply Hle; auto.
    - fold evs. replace (snap_positions evs) with (s_starts ss); [lia|].
      rewrite <- Ss. unfold snap_positions, evs. change (map snd snaps) with (map (fun x => ev_pos (snap_ev x)) snaps).
      rewrite <- (map_map snap_ev ev_pos snaps). rewrite <- M2a. clear. induction m as [|[k [p []]] m IH]; auto. unfold ev_is_bin. simpl. f_equal. auto. }
  assert (Hsl : length (s_labels ss) = length (snap_groups data acc sg ss)).
  { unfold snap_groups. rewrite map_length. fold snaps. rewrite <- (map_length snd snaps), Ss. auto. }
  destruct (cumsegagg_of_seg N val agg dtypes Hvalid Hnodup bin_by empty (Some o) (Some sb) eo data buffer so main' acc evs)
    as [Z1 Z2]; auto; simpl g_starts in *; simpl g_bin_labels in *; simpl g_bin_indices in *; simpl g_snap_labels in *;
    cbv iota beta in *.
  { unfold segmentby.
    assert (Hsm : setup_mainbuffer empty (option_map cb_main buffer) true =
       Ok (bin_buffer empty buffer, sbuf0, match buffer with None => None | Some b =>
             Some (mkMain (bin_buffer empty buffer) sbuf0 (mb_last_label (cb_main b))) end)).
    { unfold setup_mainbuffer, option_map, bin_buffer, snap_buffer in *.
      destruct buffer as [[[mb ms ml] lr]|]; simpl in *; [|subst; auto].
      destruct mb; simpl in *.
      - destruct Hsb as [Q1 Q2]. subst. destruct ms; [auto|congruence].
      - subst. auto. }
    rewrite Hsm. cbn [bind].
    rewrite sortedb_sorted by auto. cbn [bind].
    rewrite Hbb. cbn [bind]. rewrite S1, S2, Nat.eqb_refl. simpl negb. cbv iota.
    match goal with |- context [bind ?x _] => replace x with (@Ok unit tt) end.
    2:{ destruct buffer as [b|]; [|reflexivity].
        destruct (s_starts sg) as [|st0 sts] eqn:Est; [congruence|]. rewrite <- Est in *.
        rewrite S6, Nat.eqb_refl. simpl negb. cbv iota.
        replace ((1 <? length (s_starts sg)) && (nth (length (s_starts sg) - 2) (s_starts sg) 0 =? length data)) with false.
        2:{ symmetry. destruct (1 <? length (s_starts sg)) eqn:E; auto. simpl. apply Nat.eqb_neq. apply S7. apply Nat.ltb_lt; auto. }
        simpl mb_last_label. unfold running in Hrun.
        destruct (mb_last_label (cb_main b)) as [l|].
        - destruct Hrun as (-> & _). rewrite Z.eqb_refl. reflexivity.
        - reflexivity. }
    cbn [bind]. rewrite Hbs. cbn [bind]. rewrite M1. cbn [bind].
    pose proof (bins_followed_adjc m []) as Hadj. cbv zeta in Hadj. simpl app in Hadj. simpl length in Hadj at 2.
    rewrite nonzero_from_0 in Hadj. rewrite Hadj. rewrite T7. unfold so, main'. destruct buffer; reflexivity. }
  { unfold main'. destruct buffer; auto. congruence. }
  { split; auto. congruence. }
  { apply sorted_nondecr; auto. }
  { intros p Hp. apply in_map_iff in Hp as (x & <- & Hx). apply Hle; auto. }
  { destruct (length (s_labels ss) =? 0) eqn:E.
    - apply Nat.eqb_eq in E. rewrite kinds_off. unfold evs. rewrite map_map.
      apply map_ext_in. intros [k [p isb]] Hx. unfold ev_pos. simpl. f_equal.
      destruct isb; auto. assert (Hin : In (k, (p, false)) (filter (fun e => negb (ev_is_bin e)) m)) by (apply filter_In; auto).
      rewrite M2a in Hin. exfalso. destruct snaps as [|s l]; [contradiction|].
      apply (f_equal (@length nat)) in Ss. simpl in Ss. lia.
    - unfold evs. rewrite <- nonzero_from_0. apply kinds_on.
      apply last_idem. }
  { rewrite Hg, bin_groups_length. auto. }
  { rewrite Hs. auto. }
  { rewrite Hg. auto. }
  { rewrite Hg. exact Hcons. }
  { rewrite Hs. exact Hconss. }
  { rewrite Hlast. apply last_bin_groups; auto. }
  rewrite Hg, Hs in *. fold gb gs in Z1, Z2.
  assert (Hzr : zero_refused N val agg dtypes eo gb (Some gs) <->
    (eo = true /\ (some_zero N val agg dtypes gb \/ some_zero N val agg dtypes gs))).
  { unfold zero_refused. split; intros [H1 H2]; split; auto; destruct H2 as [H2|H2]; auto.
    - destruct H2 as (g & Q & H2). injection Q as <-. auto.
    - right. eauto. }
  split.
  - intro H. apply Z1. apply Hzr; auto.
  - intro H. destruct Z2 as (fb & fs & b' & E1 & E2 & E3 & E4).
    { intro Q. apply H. apply Hzr. auto. }
    exists fb, fs, b'. split; auto. split; auto. split.
    + destruct fs; [tauto|congruence].
    + unfold main_next. unfold main' in E4. destruct buffer; auto. rewrite <- Hlast. exact E4.
Qed.
End Gen.
