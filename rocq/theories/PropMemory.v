(** Properties: the compiled loop writes within its arrays, whatever bins, snapshots and buffer (C33). *)
Require Import List Arith ZArith Bool Lia Sorted.
Require Import Verif.Common Verif.AggModel Verif.SegModel Verif.SegSpec Verif.SegProofs Verif.SegRowsProofs.
Require Import Verif.CsaModel Verif.CsaSpec Verif.CalModel Verif.CalSpec Verif.CsaPiecesProofs Verif.CsaRowsProofs.
Require Import Verif.UserBinsSpec Verif.UserSnapSpec Verif.MemSpec Verif.MemProofs Verif.MemCallProofs Verif.MonthProofs Verif.PropSeg Verif.PropCsa Verif.PropCal.
Import ListNotations.
Local Open Scope nat_scope.

(** * C33: memory of the compiled loop *)
(** Any binning function, aggregation, data and buffer. Without snapshots, nothing is written out of arrays if the function
    announces its bins without rows. With snapshots at points which are in order, bin ends have to be in order, and not before rows
    of their bins. *)
Theorem C33_any_bins : forall {D B V} (N : dtype -> num V) (val : D -> cname -> V) agg dtypes
    (bin_by : list D -> option B -> res (seg * option B)) empty ordered snap eo data buffer,
  bin_by data (bin_state empty buffer) <> Err OutOfBounds ->
  (forall sg b', bin_by data (bin_state empty buffer) = Ok (sg, b') -> null_announced (restarted buffer) sg) ->
  (forall o x, ordered = Some o -> snap = Some x ->
     points_in_order x /\ forall sg b', bin_by data (bin_state empty buffer) = Ok (sg, b') -> ends_after_rows o data sg) ->
  cumsegagg N val agg dtypes bin_by empty ordered snap eo data buffer <> Err OutOfBounds.
Proof. intros. apply cumsegagg_safe; auto. Qed.
Print Assumptions C33_any_bins.

(** Bins by a frequency, by a calendar: any data, snapshots and buffer. *)
Definition in_order (snap : option byspec) : Prop := match snap with Some x => points_in_order x | None => True end.

Lemma unordered_refused : forall {D B V} (N : dtype -> num V) (val : D -> cname -> V) agg dtypes
    (bin_by : list D -> option B -> res (seg * option B)) empty t snap eo data buffer,
  (sorted (map t data) -> cumsegagg N val agg dtypes bin_by empty (Some t) snap eo data buffer <> Err OutOfBounds) ->
  cumsegagg N val agg dtypes bin_by empty (Some t) snap eo data buffer <> Err OutOfBounds.
Proof.
  intros D B V N val agg dtypes bin_by empty t snap eo data buffer H.
  destruct (sortedb (map t data)) eqn:E; [apply H; apply IterProofs.sortedb_iff; auto|]. clear H.
  unfold cumsegagg. destruct data as [|r data]; [discriminate|]. destruct agg as [|a agg]; [discriminate|].
  apply bind_safe. { unfold setup_cumsegagg. apply bind_safe; [apply setup_step1_safe|discriminate]. }
  intros cfg _. unfold cumsegagg_cfg, segmentby. rewrite E.
  destruct (setup_mainbuffer _ _ _) as [[[bb bs] main]|e] eqn:Es; cbn [bind]; [discriminate|].
  intro Q. injection Q as ->. unfold setup_mainbuffer in Es. destruct (option_map cb_main buffer); [|discriminate].
  destruct (match snap with Some _ => true | None => false end); [destruct (mb_snap _)|]; discriminate.
Qed.

Theorem C33_time_calls : forall {D V} (N : dtype -> num V) (val : D -> cname -> V) agg dtypes t tg snap eo data buffer,
  (0 < tg_freq tg)%Z -> in_order snap ->
  cumsegagg N val agg dtypes (time_bins t tg) sbuf_empty (Some t) snap eo data buffer <> Err OutOfBounds.
Proof.
  intros D V N val agg dtypes t tg snap eo data buffer Hf Hs. apply unordered_refused. intro Hd.
  destruct data as [|r data]; [discriminate|]. assert (Hne : r :: data <> []) by discriminate.
  apply cumsegagg_safe.
  - apply by_scale_safe.
  - intros sg b' E. apply null_announced_any. eapply by_scale_nulls; exact E.
  - intros o x Q1 ->. injection Q1 as <-. split; auto. intros sg b' E. eapply by_scale_tg_ends; eauto.
Qed.
Print Assumptions C33_time_calls.

Theorem C33_calendar_calls : forall {D V} (N : dtype -> num V) (val : D -> cname -> V) agg dtypes t cg snap eo data buffer,
  calendar_ok (cg_cal cg) -> (0 < cg_n cg)%Z -> in_order snap ->
  cumsegagg N val agg dtypes (cal_by t cg) sbuf_empty (Some t) snap eo data buffer <> Err OutOfBounds.
Proof.
  intros D V N val agg dtypes t cg snap eo data buffer Hc Hn Hs. apply unordered_refused. intro Hd.
  destruct data as [|r data]; [discriminate|]. assert (Hne : r :: data <> []) by discriminate.
  apply cumsegagg_safe.
  - apply by_scale_safe.
  - intros sg b' E. apply null_announced_any. eapply by_scale_nulls; exact E.
  - intros o x Q1 ->. injection Q1 as <-. split; auto. intros sg b' E. eapply by_scale_cal_ends; eauto. split; auto.
Qed.
Print Assumptions C33_calendar_calls.

(** Bins of rows: one call, and successive calls on data in order, each with its own snapshots. A time stamp may straddle the end
    of a bin. *)
Theorem C33_row_calls : forall {D V} (N : dtype -> num V) (val : D -> cname -> V) agg dtypes t x c eo,
  0 < x ->
  (forall snap data, in_order snap ->
     cumsegagg N val agg dtypes (row_bins t x c) None (Some t) snap eo data None <> Err OutOfBounds) /\
  (forall calls, (forall rows snap, In (rows, snap) calls -> in_order snap) -> sorted (map t (concat (map fst calls))) ->
     run_pieces (fun rs b => cumsegagg N val agg dtypes (row_bins t x c) None (Some t) (snd rs) eo (fst rs) b)
       (Some csabuf_empty) calls <> Err OutOfBounds).
Proof.
  intros D V N val agg dtypes t x c eo Hx. split.
  - intros snap data Hs. apply unordered_refused. intro Hd.
    destruct data as [|r data]; [discriminate|]. set (rows := r :: data) in *. assert (Hne : rows <> []) by discriminate.
    assert (Hmn := map_ne t rows Hne).
    destruct (by_x_rows_spec x c [] (map t rows) None Hx Hmn eq_refl) as (b' & E & _). cbv zeta in E. simpl length in E. rewrite map_length in E.
    apply by_x_rows_nobuf in E. simpl app in E.
    destruct (row_seg_ends t x Hx c [] rows (if (0 <? 0) && (0 mod x =? 0) then 1 else 0)
                (match c with SLeft => true | SRight => negb ((0 + length rows) mod x =? 0) end) Hne Hd) as [R1 R2].
    { intros ->. auto. }
    apply cumsegagg_safe.
    + apply by_x_rows_safe.
    + intros sg b2 E2. change (by_x_rows x c (map t rows) None = Ok (sg, b2)) in E2. rewrite E in E2. injection E2 as <- _. exact R1.
    + intros o y Q1 ->. injection Q1 as <-. split; auto. intros sg b2 E2.
      change (by_x_rows x c (map t rows) None = Ok (sg, b2)) in E2. rewrite E in E2. injection E2 as <- _. exact R2.
  - intros calls Hsn Hs.
    apply (calls_safe N val agg dtypes (row_bins t x c) None t (fun seen ob => xbuf_ok x c (map t seen) ob) (fun rows => sorted (map t rows))); auto.
    + reflexivity.
    + intros a b Q. rewrite map_app in Q. apply sorted_app in Q; tauto.
    + intros seen more b Hne Hg Hb. assert (Hmn := map_ne t more Hne).
      destruct (by_x_rows_spec x c (map t seen) (map t more) b Hx Hmn Hb) as (b' & E & Hb'). cbv zeta in E. rewrite !map_length in E. rewrite <- map_app in E, Hb'.
      do 2 eexists. split; [exact E|]. split; [exact Hb'|]. apply (row_seg_ends t x Hx c); auto. intros ->. auto.
    + intros m y Hin. exact (Hsn m (Some y) Hin).
Qed.
Print Assumptions C33_row_calls.

(** Binning functions of a user which meet the specification of bins and of their ends ('UserBinsSpec', 'UserSnapSpec'). *)
Theorem C33_user_calls : forall {D B V} (N : dtype -> num V) (val : D -> cname -> V) agg dtypes
    (bin_by : list D -> option B -> res (seg * option B)) empty bins after good t c ends eo,
  binning bin_by empty bins after good -> bin_ends t c bin_by bins after good ends ->
  (forall snap data, in_order snap -> good data ->
     cumsegagg N val agg dtypes bin_by empty (Some t) snap eo data None <> Err OutOfBounds) /\
  (forall calls, (forall rows snap, In (rows, snap) calls -> in_order snap) -> good (concat (map fst calls)) ->
     run_pieces (fun rs b => cumsegagg N val agg dtypes bin_by empty (Some t) (snd rs) eo (fst rs) b)
       (Some csabuf_empty) calls <> Err OutOfBounds).
Proof.
  intros D B V N val agg dtypes bin_by empty bins after good t c ends eo Hb He. split.
  - intros snap data Hs Hg. destruct data as [|r data]; [discriminate|]. assert (Hne : r :: data <> []) by discriminate.
    destruct (user_once t bin_by empty bins after good c ends Hb He (r :: data) Hne Hg) as (sg & E & R1 & R2).
    apply cumsegagg_safe; cbn [bin_state restarted]; rewrite E.
    + discriminate.
    + intros sg0 b0 Q. injection Q as <- _. auto.
    + intros o x Q1 ->. injection Q1 as <-. split; auto. intros sg0 b0 Q. injection Q as <- _. auto.
  - intros calls Hsn Hg.
    apply (calls_safe N val agg dtypes bin_by empty t after good); auto.
    + exact (proj2 (bn_nothing _ _ _ _ _ Hb)).
    + exact (bn_good _ _ _ _ _ Hb).
    + exact (user_call t bin_by empty bins after good c ends Hb He).
    + intros m y Hin. exact (Hsn m (Some y) Hin).
Qed.
Print Assumptions C33_user_calls.

(** Both conditions on a user binning function are needed. One bin over three rows, with an end before these rows; two bins, the
    second one being empty and not announced. *)
Definition one_bin (starts : list nat) (ends : list Z) (n_null : nat) (rows : list (Z * Z)) (b : option unit) : res (seg * option unit) :=
  Ok (mkSeg starts ends n_null SLeft ends false 0, b).

Theorem C33_wrong_ends_refuted : exists data ends points,
  sorted (map fst data) /\ sorted points /\ sorted ends /\
  ex_csa (one_bin [length data] ends 0) tt (Some fst) (Some (ByVals PIndex points points)) false data None = Err OutOfBounds.
Proof.
  exists [(0, 1); (0, 1); (1, 1)]%Z, [0%Z], [1; 2]%Z. repeat split; try (simpl; srt).
Qed.
Theorem C33_null_count_refuted : exists data starts ends,
  sorted (map fst data) /\ StronglySorted le starts /\ last starts 0 = length data /\
  ex_csa (one_bin starts ends 0) tt (Some fst) None false data None = Err OutOfBounds.
Proof.
  exists [(1, 1); (2, 1)]%Z, [0; 2], [1; 2]%Z. repeat split; try (simpl; srt).
Qed.

(** The same function, with an announced empty bin and an end after rows, meets the conditions. *)
Example ex_C33_any : let data := [(1, 1); (2, 1)]%Z in
  (forall sg b', one_bin [0; 2] [1; 3]%Z 1 data None = Ok (sg, b') -> null_announced false sg /\ ends_after_rows fst data sg) /\
  match ex_csa (one_bin [0; 2] [1; 3]%Z 1) tt (Some fst) (Some (ByVals PIndex [1; 2]%Z [1; 2]%Z)) false data None with
  | Ok (Some (fb, Some fs), _) => Some (fcol 10 fb, fcol 10 fs)
  | _ => None
  end = Some ([None; Some 2], [None; Some 1])%Z.
Proof.
  split; [|vm_compute; reflexivity]. intros sg b' H. injection H as <- _. split; [unfold null_announced; simpl; lia|].
  split; [discriminate|]. split; [simpl; srt|]. intros i p e Hp He _ r Hr. cbn [s_starts s_ends] in Hp, He.
  destruct i as [|[|i]]; simpl in Hp, He; try discriminate; [|injection He as <-; injection Hp as <-; destruct Hr as [<-|[<-|[]]]; simpl; lia|destruct i; discriminate].
  injection Hp as <-. destruct Hr.
Qed.

(** Bins of 2 rows, a time stamp straddling two of them, in three calls with snapshots by months: the last call has empty snapshots,
    months without rows. *)
Example ex_C33_calls :
  let day n := (n * 86400000000000)%Z in
  let calls := [([(day 3, 5); (day 40, 1); (day 40, 3)]%Z, Some (ByCal by_month)); ([(day 40, 2)]%Z, Some (ByCal by_month));
                ([(day 130, 7)]%Z, Some (ByCal by_month))] in
  in_order (Some (ByCal by_month)) /\ sorted (map fst (concat (map fst calls))) /\
  match run_pieces (fun rs b => ex_csa (row_bins fst 2 SRight) None (Some fst) (snd rs) false (fst rs) b) (Some csabuf_empty) calls with
  | Ok (rs, _) => map (option_map (fun r => (fcol 10 (fst r), option_map (fcol 10) (snd r)))) rs
  | Err _ => []
  end = [Some ([Some 6; Some 3], Some [Some 5; Some 3]); Some ([Some 5], Some [None]);
         Some ([Some 5; Some 7], Some [None; None; None; Some 7])]%Z.
Proof.
  cbv zeta. split; [|split; [simpl; srt|vm_compute; reflexivity]]. split; [exact month_starts_ok|simpl; lia].
Qed.
