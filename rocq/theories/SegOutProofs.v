(** Output of 'segmentby', and segmentation in pieces. *)
Require Import List Arith ZArith Bool Lia Sorted Permutation.
Require Import Verif.Common Verif.AggModel Verif.AggSpec Verif.AggProofs.
Require Import Verif.SegModel Verif.SegSpec Verif.SegProofs Verif.SegRowsProofs Verif.MergeProofs Verif.EventProofs.
Require Import Verif.CsaModel Verif.CsaSpec Verif.CsaProofs Verif.CsaLoopProofs Verif.CsaSegProofs Verif.CsaTimeProofs Verif.CsaPiecesProofs Verif.CsaRowsProofs.
Import ListNotations.

Lemma combine_split_eq : forall {A B} (l : list (A * B)), combine (map fst l) (map snd l) = l.
Proof. induction l as [|[x y] l IH]; simpl; congruence. Qed.
Lemma last_map : forall {A B} (g : A -> B) l d, last (map g l) (g d) = g (last l d).
Proof. induction l as [|x [|y l] IH]; intros d; auto. simpl in *. apply IH. Qed.

(** One call of 'segmentby' with snapshots. *)
Lemma segout_once : forall {D B} (bin_by : list D -> option B -> res (seg * option B)) empty o sb data sg ss bb' bs,
  data <> [] -> sorted (map o data) ->
  bin_by data None = Ok (sg, bb') -> seg_ok data sg -> sorted (s_ends sg) ->
  by_scale (map o data) sb (Some (s_closed sg)) None = Ok (ss, bs) -> snap_ok data ss ->
  compat (seg_bins ss) (done_bins sg) ->
  exists so m, segmentby bin_by empty (Some o) (Some sb) data None = Ok (so, None)
    /\ g_starts so = map ev_pos m /\ g_bin_indices so = indices ev_is_bin m
    /\ g_bin_labels so = s_labels sg /\ option_map fst (g_snap_labels so) = Some (s_labels ss)
    /\ is_merge (seg_bins ss) (seg_bins sg) (s_unknown_last_end sg) m
    /\ StronglySorted le (g_starts so) /\ last (g_starts so) 0 = length data
    /\ g_n_null_bins so = s_nnull sg
    /\ length (filter is_nil (map (snap_rows data [] (done_bins sg)) (seg_bins ss))) <= g_n_max_null_snaps so.
Proof.
  intros D B bin_by empty o sb data sg ss bb' bs Hdata Hord Hbb [S1 S2 S4 S5 S6 S7] S3 Hbs [T1 T2 T3 T4 T5 T6 T7] Hcompat.
  set (bins := seg_bins sg) in *. set (snaps := seg_bins ss) in *.
  assert (Bf : map fst bins = s_ends sg) by (apply map_fst_combine_; auto).
  assert (Bs : map snd bins = s_starts sg) by (apply map_snd_combine_; auto).
  assert (Sf : map fst snaps = s_ends ss) by (apply map_fst_combine_; auto).
  assert (Ss : map snd snaps = s_starts ss) by (apply map_snd_combine_; auto).
  assert (Hbne : bins <> []) by (intro Q; rewrite Q in Bs; simpl in Bs; congruence).
  destruct (mergesort_spec snaps bins (s_unknown_last_end sg)) as (m & M1 & M2);
    [apply combine_fst_sorted; auto|apply combine_fst_sorted; auto|auto|].
  rewrite Bf, Bs, Sf, Ss in M1.
  assert (Hpos : StronglySorted le (map ev_pos m)).
  { apply (merge_positions m snaps bins (s_unknown_last_end sg)); auto; try (apply combine_pos_sorted; auto).
    intros _ s Hs. rewrite Bs, S6. apply T5. rewrite <- Ss. apply in_map; auto. }
  exists (mkSegout (map ev_pos m) (indices ev_is_bin m) (s_labels sg) (s_nnull sg) (Some (s_labels ss, 0))
               (s_nnull ss + adjc None (map snd m))), m.
  pose proof M2 as M2'. destruct M2 as (M2a & M2b & M2c).
  assert (Hle : forall x, In x m -> ev_pos x <= length data).
  { intros [k [p isb]] Hx. unfold ev_pos. simpl. destruct isb.
    - assert (Hin : In (k, (p, true)) (filter ev_is_bin m)) by (apply filter_In; auto).
      rewrite M2b in Hin. apply in_map_iff in Hin as ([k' p'] & Q & Hin). unfold bin_ev in Q. simpl in Q.
      injection Q as -> ->. rewrite <- S6. apply SSorted_le_In; auto. rewrite <- Bs. apply (in_map snd) in Hin. auto.
    - assert (Hin : In (k, (p, false)) (filter (fun e => negb (ev_is_bin e)) m)) by (apply filter_In; auto).
      rewrite M2a in Hin. apply in_map_iff in Hin as ([k' p'] & Q & Hin). unfold snap_ev in Q. simpl in Q.
      injection Q as -> ->. apply T5. rewrite <- Ss. apply (in_map snd) in Hin. auto. }
  cbn [g_starts g_bin_indices g_bin_labels g_snap_labels g_n_null_bins g_n_max_null_snaps option_map fst].
  split; [|split; [|split; [|split; [|split; [|split; [|split; [|split; [|split]]]]]]]]; auto.
  - unfold segmentby. cbn [setup_mainbuffer bind]. rewrite sortedb_sorted by auto. cbn [bind].
    rewrite Hbb. cbn [bind]. rewrite S1, S2, Nat.eqb_refl. simpl negb. cbv iota. cbn [bind].
    rewrite Hbs. cbn [bind]. rewrite M1. cbn [bind].
    pose proof (bins_followed_adjc m []) as Hadj. cbv zeta in Hadj. simpl app in Hadj. simpl length in Hadj at 2.
    rewrite nonzero_from_0 in Hadj. rewrite Hadj. rewrite T7. reflexivity.
  - assert (Hin : In (length data) (map ev_pos m)).
    { assert (Q : In (last bins (0%Z, 0)) bins) by (apply last_In; auto).
      apply in_map_iff. exists (bin_ev (last bins (0%Z, 0))). split.
      - unfold ev_pos, bin_ev. simpl. rewrite <- S6, <- Bs. symmetry. exact (last_map snd bins (0%Z, 0)).
      - apply (in_map bin_ev) in Q. rewrite <- M2b in Q. apply filter_In in Q. tauto. }
    apply Nat.le_antisymm.
    + assert (Hlast : In (last (map ev_pos m) 0) (map ev_pos m)) by (apply last_In; intro Q; rewrite Q in Hin; contradiction).
      apply in_map_iff in Hlast as (y & <- & Hy). auto.
    + apply SSorted_le_In; auto. intro Q. rewrite Q in Hin. contradiction.
  - set (evs := map snd m).
    assert (Hs : esnaps (ev_rows data [] 0 evs) = map (snap_rows data [] (done_bins sg)) snaps).
    { unfold evs. rewrite (ev_rows_snaps data m [] snaps bins (s_unknown_last_end sg)) by (split; auto). auto. }
    rewrite <- Hs. etransitivity; [apply (null_snaps_bound data evs [] 0 0 0 None)|]; auto.
    + replace (map fst evs) with (map ev_pos m) by (unfold evs; rewrite map_map; auto). apply sorted_nondecr; auto.
    + unfold evs. rewrite map_map. intros p Hp. apply in_map_iff in Hp as (x & <- & Hx). apply Hle; auto.
    + fold evs. replace (snap_positions evs) with (s_starts ss); [lia|].
      rewrite <- Ss. unfold snap_positions, evs. change (map snd snaps) with (map (fun x => ev_pos (snap_ev x)) snaps).
      rewrite <- (map_map snap_ev ev_pos snaps). rewrite <- M2a. clear. induction m as [|[k [p []]] m IH]; auto. unfold ev_is_bin. simpl. f_equal. auto.
Qed.

(** * Pieces *)
Section SegPieces.
Context {D B : Type}.
Variable call : list D -> B -> res (seg * B).
Variable ok : list D -> Prop.
Variable Inv : list D -> B -> Prop.
Variable gb : list D -> list D -> list (Z * list D).
Hypothesis ok_app : forall H p, ok (H ++ p) -> ok H.
Hypothesis step : forall H p b, p <> [] -> ok (H ++ p) -> Inv H b ->
  exists sg b', call p b = Ok (sg, b') /\ Inv (H ++ p) b' /\ length (s_labels sg) = length (s_starts sg) /\ s_starts sg <> [] /\
    combine (s_labels sg) (bin_groups (match H with [] => [] | _ => last (map snd (gb [] H)) [] end) (s_starts sg) p) = gb H p.
Hypothesis gb_stitch : forall H p, H <> [] -> p <> [] -> ok (H ++ p) -> gb [] (H ++ p) = removelast (gb [] H) ++ gb H p.

Lemma bin_groups_join : forall acc starts (p : list D), starts <> [] ->
  bin_groups acc starts p = (acc ++ hd [] (cut 0 starts p)) :: tl (cut 0 starts p).
Proof.
  intros acc [|s ss] p Hn; [congruence|]. unfold bin_groups, slice. simpl. rewrite Nat.sub_0_r. auto.
Qed.

Lemma seg_pieces : forall pieces H b, (forall p, In p pieces -> p <> []) -> ok (H ++ concat pieces) -> Inv H b -> H <> [] ->
  exists sgs b', run_pieces call b pieces = Ok (sgs, b') /\
    join_chunks (map snd (gb [] H)) (map (fun sp => cut 0 (s_starts (fst sp)) (snd sp)) (combine sgs pieces)) = map snd (gb [] (H ++ concat pieces)) /\
    fold_left (fun acc g => removelast acc ++ g) (map s_labels sgs) (map fst (gb [] H)) = map fst (gb [] (H ++ concat pieces)) /\
    Inv (H ++ concat pieces) b'.
Proof.
  induction pieces as [|p ps IH]; intros H b Hp Hok Hinv Hne; simpl.
  - exists [], b. rewrite app_nil_r. auto.
  - simpl in Hok. rewrite app_assoc in Hok. assert (Hpn : p <> []) by (apply Hp; left; auto).
    destruct (step H p b Hpn (ok_app _ _ Hok) Hinv) as (sg & b1 & E & Hi & S1 & S2 & Hg). rewrite E.
    destruct (IH (H ++ p) b1) as (sgs & b' & E' & J & L & I); auto.
    { intros q Hq. apply Hp. right. auto. }
    { intro Q. apply app_eq_nil in Q. tauto. }
    rewrite E'. exists (sg :: sgs), b'. split; auto. rewrite app_assoc. split; [|split]; auto.
    + simpl. rewrite <- J. unfold join_chunks. f_equal. rewrite gb_stitch by (auto; apply (ok_app _ _ Hok)).
      rewrite map_app, <- map_removelast. rewrite <- Hg. rewrite map_snd_combine_ by (rewrite bin_groups_length; auto).
      rewrite bin_groups_join by auto. destruct H; [congruence|]. auto.
    + simpl. rewrite <- L. f_equal. rewrite gb_stitch by (auto; apply (ok_app _ _ Hok)).
      rewrite map_app, <- map_removelast. f_equal. rewrite <- Hg. rewrite map_fst_combine_; auto. rewrite bin_groups_length; auto.
Qed.

Lemma seg_pieces0 : forall pieces b, pieces <> [] -> (forall p, In p pieces -> p <> []) -> ok (concat pieces) -> Inv [] b ->
  exists sgs b', run_pieces call b pieces = Ok (sgs, b') /\
    join_chunks [] (map (fun sp => cut 0 (s_starts (fst sp)) (snd sp)) (combine sgs pieces)) = map snd (gb [] (concat pieces)) /\
    stitch (map s_labels sgs) = map fst (gb [] (concat pieces)).
Proof.
  intros [|p ps] b Hne Hp Hok Hinv; [congruence|]. simpl in Hok. assert (Hpn : p <> []) by (apply Hp; left; auto).
  destruct (step [] p b Hpn (ok_app _ _ Hok) Hinv) as (sg & b1 & E & Hi & S1 & S2 & Hg). simpl app in *.
  destruct (seg_pieces ps p b1) as (sgs & b' & E' & J & L & I); auto.
  { intros q Hq. apply Hp. right. auto. }
  exists (sg :: sgs), b'. simpl. rewrite E, E'. split; auto. split.
  - rewrite <- J. unfold join_chunks. simpl. f_equal. rewrite <- Hg. rewrite map_snd_combine_ by (rewrite bin_groups_length; auto).
    rewrite bin_groups_join by auto. auto.
  - rewrite <- L. unfold stitch. simpl. f_equal. rewrite <- Hg. rewrite map_fst_combine_; auto. rewrite bin_groups_length; auto.
Qed.
End SegPieces.

(** Rows. *)
Section RowPieces.
Context {D : Type}.
Variable t : D -> Z.
Variable x : nat.
Hypothesis Hx : 0 < x.
Variable c : side.

Definition xinv (H : list D) (b : option (option xbuf)) : Prop := exists ob, b = Some ob /\ xbuf_ok x c (map t H) ob.

Lemma row_seg_pieces : forall pieces, pieces <> [] -> (forall p, In p pieces -> p <> []) ->
  exists sgs b', run_pieces (row_bins t x c) (Some None) pieces = Ok (sgs, b') /\
    join_chunks [] (map (fun sp => cut 0 (s_starts (fst sp)) (snd sp)) (combine sgs pieces)) = map snd (rgb t x [] (concat pieces)) /\
    stitch (map s_labels sgs) = map fst (rgb t x [] (concat pieces)).
Proof.
  intros pieces Hne Hp.
  apply (seg_pieces0 (row_bins t x c) (fun _ => True) xinv (rgb t x)); auto.
  - intros H p b Hpn _ (ob & -> & Hb). assert (Hmn := map_ne t p Hpn).
    assert (HL : 0 < length p) by (destruct p; [congruence|simpl; lia]).
    destruct (by_x_rows_spec x c (map t H) (map t p) ob Hx Hmn Hb) as (b' & E & Hb'). cbv zeta in E.
    rewrite !map_length in E. rewrite <- map_app in E, Hb'.
    eexists _, _. split; [exact E|]. split; [eexists; split; [reflexivity|exact Hb']|].
    pose proof (row_seg_ok t x Hx c H p HL 0) as [A1 A2 A3 A4 A5 A6]. split; [exact A1|]. split; [exact A4|].
    pose proof (rows_groups t x Hx c H p 0 Hpn) as G. unfold row_seg in G. cbn [s_labels s_starts] in *.
    rewrite <- G. f_equal. f_equal. destruct H as [|h H0] eqn:EH; [rewrite row_bin_nil; auto|]. rewrite <- EH.
    assert (HH : 0 < length H) by (subst; simpl; lia).
    unfold rgb, row_groups. change (length (@nil D)) with 0. unfold xb1. rewrite map_map. cbn [snd].
    rewrite (last_seq x) by lia. change ([] ++ H) with H. f_equal.
    unfold xb0. rewrite (Nat.div_small (0 - 1) x) by lia. rewrite Nat.add_0_l. change (0 + length H - 1) with (length H - 1). generalize ((length H - 1) / x). intro q. lia.
  - intros H p A1 A2 _. apply rgb_stitch; auto.
  - exists None. split; auto. reflexivity.
Qed.
End RowPieces.

(** Time. *)
Section TimePieces.
Context {D : Type}.
Variable t : D -> Z.
Variable tg : tgrouper.
Hypothesis Hf : (0 < tg_freq tg)%Z.
Hypothesis Hfix : fixed_periods tg.

Definition sinv (H : list D) (b : option sbuf) : Prop :=
  exists sb, b = Some sb /\ tg_buf_ok (tg_closed tg) tg sb
    (match H with [] => None | _ => Some (kappa (tg_closed tg) (anchor tg) (tg_freq tg) (last (map t H) 0%Z)) end).

Lemma time_seg_pieces : forall pieces, pieces <> [] -> (forall p, In p pieces -> p <> []) -> sorted (map t (concat pieces)) ->
  exists sgs b', run_pieces (time_bins t tg) (Some sbuf_empty) pieces = Ok (sgs, b') /\
    join_chunks [] (map (fun sp => cut 0 (s_starts (fst sp)) (snd sp)) (combine sgs pieces)) = map snd (tgb t tg [] (concat pieces)) /\
    stitch (map s_labels sgs) = map fst (tgb t tg [] (concat pieces)).
Proof.
  intros pieces Hne Hp Hs.
  set (c := tg_closed tg). set (a := anchor tg). set (f := tg_freq tg).
  apply (seg_pieces0 (time_bins t tg) (fun l => sorted (map t l)) sinv (tgb t tg)); auto.
  - intros H p Q. rewrite map_app in Q. apply sorted_app in Q. tauto.
  - intros H p b Hpn Hsrt (sb & -> & Hb). assert (Hmn := map_ne t p Hpn).
    rewrite map_app in Hsrt. apply sorted_app in Hsrt as (HsH & Hsp & Hcross).
    assert (HlastA : last (map t (H ++ p)) 0%Z = last (map t p) 0%Z) by (rewrite map_app; apply last_app_ne; auto).
    assert (Hhd : In (hd 0%Z (map t p)) (map t p)) by (destruct (map t p); [congruence|left; auto]).
    set (k0 := first_period t tg a f H p).
    assert (HK : (k0 <= kappa c a f (hd 0 (map t p)))%Z /\ (forall h, In h H -> (kappa c a f (t h) <= k0)%Z)).
    { unfold k0, first_period. destruct H as [|h0 H'] eqn:EH; [split; [apply Z.le_refl|contradiction]|]. rewrite <- EH in *.
      assert (HmH : map t H <> []) by (subst H; discriminate). split.
      - apply kappa_mono; auto. apply Hcross; auto. apply last_In; auto.
      - intros h Hh. apply kappa_last_ge; auto. apply in_map; auto. }
    destruct HK as [Hk0 HH]. set (k1 := kappa c a f (last (map t p) 0%Z)).
    assert (Hk : (k0 <= k1)%Z).
    { etransitivity; [exact Hk0|]. apply kappa_hd_le; auto. apply last_In. auto. }
    pose proof (by_scale_tg_fixed tg None (map t p) sb _ Hf Hfix Hmn Hsp Hb) as E. cbv zeta in E. cbv iota in E. fold c f a in E.
    assert (Ek : match match H with [] => None | _ :: _ => Some (kappa c a f (last (map t H) 0%Z)) end with
            | Some k => k | None => kappa c a f (hd 0%Z (map t p)) end = k0) by (unfold k0, first_period; destruct H; auto).
    rewrite Ek in E. fold k1 in E. destruct (E Hk0) as [E1 E2].
    eexists _, _. split; [exact E1|]. split.
    + exists (tg_next_buffer c a f (map t p) k0 k1). split; auto.
      assert (HS : match H ++ p with [] => None | _ => Some (kappa c a f (last (map t (H ++ p)) 0%Z)) end = Some k1).
      { rewrite HlastA. destruct (H ++ p) eqn:EQ; auto. apply app_eq_nil in EQ. tauto. }
      fold c a f. rewrite HS. exact E2.
    + pose proof (period_seg_ok t c (tg_label tg) a f p k0 0 Hf Hsp Hpn Hk) as [A1 A2 A3 A4 A5 A6]. fold k1 in A1, A3, A4.
      cbn [s_labels s_starts] in *. split; auto. split; auto.
      pose proof (period_groups t c a f H p k0 Hf Hsp Hpn Hk0 HH) as PG. cbv zeta in PG. fold k1 in PG.
      unfold tgb, time_groups. rewrite HlastA. fold c a f k0 k1.
      replace (match H with [] => [] | _ :: _ => _ end) with (filter (fun r => in_period c a f k0 (t r)) H).
      * rewrite PG. apply combine_map2.
      * destruct H as [|h0 H'] eqn:EH; auto. rewrite <- EH in *. unfold tgb, time_groups. rewrite map_map. cbn [snd].
        change ([] ++ H) with H. fold c a f. rewrite last_zrange.
        -- unfold k0, first_period. rewrite EH at 1. rewrite <- EH. auto.
        -- change (kappa c a f (hd 0%Z (map t H)) <= kappa c a f (last (map t H) 0%Z))%Z. apply kappa_hd_le; auto. apply last_In.
           subst H. discriminate.
  - intros H p A1 A2 A3. apply (tgb_stitch t tg Hf); auto.
  - exists sbuf_empty. split; auto. split; simpl; auto.
Qed.
End TimePieces.
