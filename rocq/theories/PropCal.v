(** C72: bins of calendar frequencies. *)
Require Import List Arith ZArith Bool Lia Sorting.Sorted.
Require Import Verif.RecordProofs.
Require Import Verif.Common Verif.AggModel Verif.AggSpec Verif.SegModel Verif.SegSpec Verif.SegProofs Verif.CsaModel Verif.CsaSpec Verif.WrModel Verif.StreamModel Verif.StreamSpec
  Verif.KeyModel Verif.BatchSpec Verif.UserBinsSpec Verif.UserBinsProofs Verif.UserKeyModel Verif.UserKeySpec Verif.PropUser Verif.PropUserKey
  Verif.CalModel Verif.CalSpec Verif.CalProofs Verif.MonthProofs.
Require Verif.IterProofs Verif.PropCsa Verif.PropBatch.
Import ListNotations.
Local Open Scope Z_scope.

(** * C72: bins of calendar frequencies *)
(** A moment: year, month (from 1), day of the month (from 1), hour. *)
Definition at_ (y mo d h : Z) : Z := month_start (12 * y + mo - 1) + day * (d - 1) + h * 3600 * 1000000000.
Definition by_month : cgrouper := mkCG month_starts 1 SLeft SLeft.
Definition by_month_end : cgrouper := mkCG month_ends 1 SRight SRight.
Definition by_2_months : cgrouper := mkCG month_starts 2 SLeft SLeft.
Definition by_2_months_right : cgrouper := mkCG month_starts 2 SRight SRight.
Definition by_week : cgrouper := mkCG (weeks 3) 1 SRight SRight.

(** One call, for any calendar and any multiple: what is returned describes the bins [cal_bins]. *)
Theorem C72_calendar_bins : forall {D} (t : D -> Z) cg rows, calendar_ok (cg_cal cg) -> 0 < cg_n cg -> rows <> [] -> sorted (map t rows) ->
  exists sg, by_scale (map t rows) (ByCal cg) None None = Ok (sg, None) /\ describes sg [] rows (cal_bins t cg rows).
Proof. intros. apply cal_once; auto. Qed.
Print Assumptions C72_calendar_bins.

(** No row is lost or moved, labels are in order. *)
Theorem C72_all_rows : forall {D} (t : D -> Z) cg rows, calendar_ok (cg_cal cg) -> 0 < cg_n cg -> sorted (map t rows) ->
  concat (map snd (cal_bins t cg rows)) = rows /\ StronglySorted Z.lt (map fst (cal_bins t cg rows)).
Proof.
  intros D t cg rows OK Hn Hs. split; [|apply cal_labels; auto]. destruct rows as [|r0 rows0]; auto. set (rows := r0 :: rows0) in *.
  destruct (cal_once cg OK Hn t rows ltac:(discriminate) Hs) as (sg & _ & Ds). rewrite (ds_rows _ _ _ _ Ds). cbn [app].
  transitivity (concat (cut 0 (s_starts sg) rows)); [destruct (cut 0 (s_starts sg) rows); auto|].
  pose proof (ds_last _ _ _ _ Ds) as L. pose proof (ds_order _ _ _ _ Ds) as O. assert (Hne : s_starts sg <> []). { intro Q. rewrite Q in L. discriminate. }
  clear Ds Hs. clearbody rows. destruct (s_starts sg) as [|p ps]; [congruence|]. clear Hne.
  assert (SS : forall (l : list D) a b, skipn a (skipn b l) = skipn (a + b) l).
  { clear. intros l a b. revert l. induction b as [|b IH]; intro l; [rewrite Nat.add_0_r; auto|]. rewrite Nat.add_succ_r. destruct l; [destruct a; auto|]. simpl. apply IH. }
  assert (G : forall ps from, (from <= length rows)%nat -> StronglySorted le (from :: ps) -> last (from :: ps) 0%nat = length rows -> concat (cut from ps rows) = skipn from rows).
  { clear - SS. induction ps as [|p ps IH]; intros from Hf Hs Hl; simpl.
    - simpl in Hl. rewrite Hl, skipn_all. auto.
    - inversion Hs; subst. inversion H2; subst. assert (Hp : (p <= length rows)%nat).
      { rewrite <- Hl. cbn [last]. destruct ps as [|q ps']; [lia|]. inversion H1; subst. rewrite Forall_forall in H6. apply H6. destruct (exists_last (l := q :: ps') ltac:(discriminate)) as (u & v & E). rewrite E, last_last. apply in_or_app; right; left; auto. }
      rewrite IH; auto. replace (skipn p rows) with (skipn (p - from) (skipn from rows)); [apply firstn_skipn|]. rewrite SS. f_equal. lia. }
  change (concat (cut 0 (p :: ps) rows) = skipn 0 rows). apply G; [lia| |exact L]. constructor; auto. apply Forall_forall. intros; lia.
Qed.
Print Assumptions C72_all_rows.

(** Month starts are those of the Gregorian calendar; by month, a bin holds the rows of a month, and its label is the start of the month. *)
Theorem C72_months : forall {D} (t : D -> Z),
  month_start (12 * 1970) = 0 /\ (forall k, month_start (k + 1) = month_start k + day * days_in_month (k / 12) (k mod 12)) /\
  calendar_ok month_starts /\ calendar_ok month_ends /\ (forall wd, calendar_ok (weeks wd)) /\ (forall q m, 0 < q -> calendar_ok (month_groups q m)) /\
  forall rows l rs, In (l, rs) (cal_bins t by_month rows) -> exists k, l = month_start k /\ rs = filter (fun r => (month_start k <=? t r) && (t r <? month_start (k + 1))) rows.
Proof.
  intros D t. split; [exact month_epoch|]. split; [exact month_length|]. split; [exact month_starts_ok|]. split; [exact month_ends_ok|]. split; [exact weeks_ok|]. split; [exact month_groups_ok|].
  intros rows l rs Hin. destruct rows as [|r0 rows]; [contradiction|]. unfold cal_bins in Hin. apply in_map_iff in Hin as (i & E & _). apply pair_equal_spec in E as [E1 E2]. rewrite <- E1, <- E2. clear E1 E2.
  exists (first_point by_month (t r0) + i * 1). split; [reflexivity|]. apply filter_ext. intro r. unfold in_bin, bin_start, bin_end. cbn [by_month cg_closed cg_cal cg_n month_starts point].
  replace (first_point by_month (t r0) + (i + 1) * 1) with (first_point by_month (t r0) + i * 1 + 1) by ring. reflexivity.
Qed.
Print Assumptions C72_months.

(** Concrete cases: by month; and by 2 months, closed on the right, with a bin without rows. *)
Definition ex_cal_rows : list (Z * Z) :=
  [(at_ 2020 1 15 10, 1); (at_ 2020 1 31 23, 2); (at_ 2020 2 1 0, 3); (at_ 2020 2 29 5, 4); (at_ 2020 7 1 0, 5); (at_ 2020 7 1 1, 6)].
Example ex_C72 :
  sorted (map fst ex_cal_rows) /\
  (match by_scale (map fst ex_cal_rows) (ByCal by_month) None None with
   | Ok (sg, _) => s_labels sg = [at_ 2020 1 1 0; at_ 2020 2 1 0; at_ 2020 3 1 0; at_ 2020 4 1 0; at_ 2020 5 1 0; at_ 2020 6 1 0; at_ 2020 7 1 0] /\ s_starts sg = [2; 4; 4; 4; 4; 4; 6]%nat
   | Err _ => False
   end) /\
  map (fun b => (fst b, map snd (snd b))) (cal_bins fst by_2_months_right ex_cal_rows) =
    [(at_ 2020 2 1 0, [1; 2; 3]); (at_ 2020 4 1 0, [4]); (at_ 2020 6 1 0, []); (at_ 2020 8 1 0, [5; 6])] /\
  map (fun b => (fst b, map snd (snd b))) (cal_bins fst by_week (firstn 4 ex_cal_rows)) =
    [(at_ 2020 1 19 0, [1]); (at_ 2020 1 26 0, []); (at_ 2020 2 2 0, [2; 3]); (at_ 2020 2 9 0, []); (at_ 2020 2 16 0, []); (at_ 2020 2 23 0, []); (at_ 2020 3 1 0, [4])].
Proof.
  split; [apply IterProofs.sortedb_iff; vm_compute; reflexivity|]. split; [vm_compute; split; reflexivity|]. split; vm_compute; reflexivity.
Qed.

(** It is false that, by month ends, a bin holds the rows of the month it is labelled with: rows of the last day of a month, after midnight, are
    in the bin of the next month. If the first row is one of these, the first bin has no row. *)
Theorem C72_month_end_refuted : exists rows : list (Z * Z), sorted (map fst rows) /\
  map (fun b => (fst b, snd b)) (cal_bins fst by_month_end rows) =
    [(at_ 2020 1 31 0, []); (at_ 2020 2 29 0, rows)] /\
  rows = [(at_ 2020 1 31 10, 1)] /\ month_number (at_ 2020 1 31 10) = 12 * 2020.
Proof. exists [(at_ 2020 1 31 10, 1)]. split; [apply IterProofs.sortedb_iff; vm_compute; reflexivity|]. split; [vm_compute; reflexivity|]. split; vm_compute; reflexivity. Qed.
Print Assumptions C72_month_end_refuted.

(** Successive calls: frames of pieces make the frame of a single call. *)
Theorem C72_pieces : forall {D V} (N : dtype -> num V) (val : D -> cname -> V) agg dtypes (t : D -> Z) cg eo pieces,
  agg_valid agg dtypes -> NoDup (map fst agg) -> agg <> [] -> restartable cg ->
  concat pieces <> [] -> sorted (map t (concat pieces)) ->
  let csa := cumsegagg N val agg dtypes (cal_by t cg) sbuf_empty (Some t) None in
  (eo = false -> exists rs b', run_pieces (csa eo) (Some csabuf_empty) pieces = Ok (rs, b')) /\
  (forall rs b', run_pieces (csa eo) (Some csabuf_empty) pieces = Ok (rs, b') ->
   exists fw, csa false (concat pieces) None = Ok (Some (fw, None), None) /\ frames_make agg (bin_frames rs) fw /\ snap_frames rs = []).
Proof.
  intros D V N val agg dtypes t cg eo pieces H1 H2 H3 (R1 & R2 & R3) Hne Hs csa.
  exact (C61_user_bins_pieces N val agg dtypes (cal_by t cg) sbuf_empty (cal_bins t cg) (cal_after t cg) _ (Some t) eo pieces H1 H2 H3 (cal_binning cg R1 R2 t R3) Hne Hs Hs).
Qed.
Print Assumptions C72_pieces.

Example ex_C72_pieces : restartable by_month /\ restartable by_month_end /\ restartable by_2_months_right /\
  match run_pieces (PropCsa.ex_csa (cal_by fst by_month) sbuf_empty (Some fst) None true) (Some csabuf_empty) [firstn 1 ex_cal_rows; []; firstn 2 (skipn 1 ex_cal_rows); skipn 3 ex_cal_rows] with
  | Ok (rs, _) => map f_labels (bin_frames rs) = [[at_ 2020 1 1 0]; [at_ 2020 1 1 0; at_ 2020 2 1 0];
      [at_ 2020 2 1 0; at_ 2020 3 1 0; at_ 2020 4 1 0; at_ 2020 5 1 0; at_ 2020 6 1 0; at_ 2020 7 1 0]] /\
      map (fcol 10%nat) (bin_frames rs) = [[Some 1]; [Some 3; Some 3]; [Some 7; None; None; None; None; Some 11]]
  | Err _ => False
  end.
Proof.
  split; [split; [exact month_starts_ok|split; [reflexivity|auto]]|]. split; [split; [exact month_ends_ok|split; [reflexivity|auto]]|].
  split; [split; [exact month_starts_ok|split; [reflexivity|auto]]|]. vm_compute. auto.
Qed.

(** It is false for multiples, if bins are closed on the left: once a piece lies in a single bin, next bins are made from the first row of this piece. Here it is seen, and
    an exception is raised; a single call is made without exception. *)
Theorem C72_multiple_refuted : exists (cg : cgrouper) (pieces : list (list (Z * Z))),
  calendar_ok (cg_cal cg) /\ cg_n cg = 2 /\ cg_closed cg = SLeft /\ sorted (map fst (concat pieces)) /\
  let csa := PropCsa.ex_csa (cal_by fst cg) sbuf_empty (Some fst) None true in
  run_pieces csa (Some csabuf_empty) pieces = Err ValueError /\
  match csa (concat pieces) None with Ok (Some (f, _), _) => f_labels f = [at_ 2020 1 1 0; at_ 2020 3 1 0] | _ => False end.
Proof.
  exists by_2_months, [[(at_ 2020 1 10 0, 1)]; [(at_ 2020 2 10 0, 2)]; [(at_ 2020 3 10 0, 3)]].
  split; [exact month_starts_ok|]. split; [reflexivity|]. split; [reflexivity|]. split; [apply IterProofs.sortedb_iff; vm_compute; reflexivity|].
  split; vm_compute; reflexivity.
Qed.
Print Assumptions C72_multiple_refuted.

(** * Streams *)
(** A key with such bins, and no snapshots (see C73 for them). *)
Definition cal_key {D PB} (dtypes : list (cname * dtype)) (idx : D -> Z) (u : uconf D sbuf PB) (cg : cgrouper) : Prop :=
  agg_valid (u_agg u) dtypes /\ NoDup (map fst (u_agg u)) /\ u_agg u <> [] /\ u_bins u = cal_by idx cg /\ u_empty u = sbuf_empty /\ u_snap u = None /\ restartable cg.
(** A stream: as [any_stream_ok], [cg_of] giving the TimeGrouper of keys with a calendar frequency. *)
Definition cal_stream_ok {D V PB} (N : dtype -> num V) (val : D -> cname -> V) dtypes (idx : D -> Z) (enc : option V -> Z) (cg_of : uconf D sbuf PB -> cgrouper) m ms
    (gs : list (nat * (D -> bool))) (confs : list (@anykey D sbuf PB)) (seed : list D) : Prop :=
  forall c, In c confs -> post_does (any_post c) (any_type c) (m c) (ms c) /\
    exists keep, In (any_filter c, keep) gs /\
      match c with
      | inl c => conf_ok dtypes c /\ no_tie idx c (given idx keep seed)
      | inr u => cal_key dtypes idx u (cg_of u)
      end.
Lemma cal_any_ok : forall {D V PB} (N : dtype -> num V) (val : D -> cname -> V) dtypes (idx : D -> Z) enc cg_of m ms gs (confs : list (@anykey D sbuf PB)) seed,
  sorted (map idx seed) -> cal_stream_ok N val dtypes idx enc cg_of m ms gs confs seed ->
  any_stream_ok N val dtypes idx enc (fun u => only_bins (cal_bins idx (cg_of u)) (cal_after idx (cg_of u)) (fun rows => sorted (map idx rows))) m ms gs confs seed.
Proof.
  intros D V PB N val dtypes idx enc cg_of m ms gs confs seed Hs H c Hin. destruct (H c Hin) as (P & keep & K & Hc). split; auto. exists keep. split; auto.
  destruct c as [c|u]; auto. destruct Hc as (H1 & H2 & H3 & H4 & H5 & H6 & R1 & R2 & R3). split; [|apply IterProofs.sorted_filter; auto].
  split; auto. split; auto. split; auto. split; [rewrite H4, H5; apply cal_binning; auto|]. split; [|congruence]. intros rows _ _. apply cal_labels; auto.
Qed.

(** Streamed aggregation makes the results of a single aggregation, whatever the runs and chunks, also with interruptions. *)
Theorem C72_streamed_is_batch : forall {D V P PB} (N : dtype -> num V) val dtypes (idx : D -> Z) enc truthy usage
    (pre : option (list D -> P -> list D * P * bool)) fs gs pre0 post0 (confs : list (@anykey D sbuf PB)) cg_of m ms rs g,
  harmless pre -> filters_are fs gs -> growing idx [] rs -> cal_stream_ok N val dtypes idx enc cg_of m ms gs confs (whole_seed [] rs) ->
  ((forall c, In c confs -> any_nirgs c = None) \/ ((forall i, truthy i = true) /\ all_written true rs)) ->
  run_all idx truthy usage pre fs pre0 anybuf_empty post0 (new_stream pre0 anybuf_empty post0 (map (any_key N val dtypes idx enc) confs)) rs = Ok g ->
  rs <> [] -> r_final (last rs (mkRun false false [])) = true ->
  any_batch N val dtypes idx enc m ms gs confs (whole_seed [] rs) g.
Proof.
  intros D V P PB N val dtypes idx enc truthy usage pre fs gs pre0 post0 confs cg_of m ms rs g Hp Hf Hg Hok Hc E Hne Hl.
  assert (Hs : sorted (map idx (whole_seed [] rs))) by (apply PropBatch.sorted_whole; auto; constructor).
  exact (C68_streamed_is_batch N val dtypes idx enc truthy usage pre fs gs pre0 post0 confs _ m ms rs g Hp Hf Hg (cal_any_ok _ _ _ _ _ _ _ _ _ _ _ Hs Hok) Hc E Hne Hl).
Qed.
Print Assumptions C72_streamed_is_batch.

(** Nothing is raised under the conditions of C68_accepted. *)
Theorem C72_accepted : forall {D V P PB} (N : dtype -> num V) val dtypes (idx : D -> Z) enc truthy usage
    (pre : option (list D -> P -> list D * P * bool)) fs gs pre0 post0 (confs : list (@anykey D sbuf PB)) cg_of m ms rs w,
  harmless pre -> filters_are fs gs -> growing idx [] rs -> cal_stream_ok N val dtypes idx enc cg_of m ms gs confs (whole_seed [] rs) ->
  (forall i, truthy i = true) -> all_written true rs -> 0 <= w -> (forall f, usage f <= w * Z.of_nat (S (length (rows f)))) ->
  (forall c keep, In c confs -> In (any_filter c, keep) gs -> any_accepted N val dtypes idx enc c w (chunks_between 0 rs) (given idx keep (whole_seed [] rs))) ->
  exists g, run_all idx truthy usage pre fs pre0 anybuf_empty post0 (new_stream pre0 anybuf_empty post0 (map (any_key N val dtypes idx enc) confs)) rs = Ok g /\
    (rs <> [] -> r_final (last rs (mkRun false false [])) = true -> any_batch N val dtypes idx enc m ms gs confs (whole_seed [] rs) g).
Proof.
  intros D V P PB N val dtypes idx enc truthy usage pre fs gs pre0 post0 confs cg_of m ms rs w Hp Hf Hg Hok.
  assert (Hs : sorted (map idx (whole_seed [] rs))) by (apply PropBatch.sorted_whole; auto; constructor).
  exact (C68_accepted N val dtypes idx enc truthy usage pre fs gs pre0 post0 confs _ m ms rs w Hp Hf Hg (cal_any_ok _ _ _ _ _ _ _ _ _ _ _ Hs Hok)).
Qed.
Print Assumptions C72_accepted.

(** Concrete case: a key by month, a key by 2 months for even values; a first run, and a second one with more data. Value -1 stands for no value. *)
Definition ex_month : uconf PropBatch.ex_row sbuf nat := mkUconf 0 PropBatch.ex_agg (cal_by PropBatch.ex_idx by_month) sbuf_empty None false None 44 (Some 2) None None.
Definition ex_2_months : uconf PropBatch.ex_row sbuf nat := mkUconf 1 PropBatch.ex_agg (cal_by PropBatch.ex_idx by_2_months_right) sbuf_empty None false None 44 (Some 2) None None.
Definition ex_cal : list (@anykey PropBatch.ex_row sbuf nat) := [inr ex_month; inr ex_2_months].
Definition ex_cg_of (u : uconf PropBatch.ex_row sbuf nat) : cgrouper := match u_filter u with O => by_month | _ => by_2_months_right end.
Definition ex_cal_seed1 : list (list PropBatch.ex_row) := [firstn 2 ex_cal_rows; [nth 2 ex_cal_rows (0, 0)]; firstn 1 (skipn 3 ex_cal_rows)].
Definition ex_cal_seed2 : list (list PropBatch.ex_row) := [concat ex_cal_seed1; skipn 4 ex_cal_rows; [(at_ 2020 9 10 7, 8); (at_ 2020 9 10 8, 9)]].
Definition ex_cal_runs := [mkRun true false ex_cal_seed1; mkRun true true ex_cal_seed2].
Notation ex_cal_stream := (new_stream tt (anybuf_empty : @anybuf Z sbuf) 0%nat (map (any_key (fun _ => Znum) PropBatch.ex_val PropBatch.ex_dtypes PropBatch.ex_idx PropBatch.ex_enc) ex_cal) : stream PropBatch.ex_row unit (@anybuf Z sbuf) nat).
Notation ex_cal_run := (run_all PropBatch.ex_idx (fun _ => true) (fun f => Z.of_nat (length (rows f))) (None : option (list PropBatch.ex_row -> unit -> list PropBatch.ex_row * unit * bool)) PropBatch.ex_fs tt (anybuf_empty : @anybuf Z sbuf) 0%nat).
Definition ex_cal_data (g : stream PropBatch.ex_row unit (@anybuf Z sbuf) nat) := map (fun x => all_rows (data_of (s_main (snd x)))) (g_keys g).
Lemma ex_cal_ok : forall seed, cal_stream_ok (fun _ => Znum) PropBatch.ex_val PropBatch.ex_dtypes PropBatch.ex_idx PropBatch.ex_enc ex_cg_of (fun _ r => r) (fun _ r => r) PropBatch.ex_gs ex_cal seed.
Proof.
  destruct (PropBatch.ex_conf_ok PropBatch.ex_A ltac:(left; auto)) as (A1 & A2 & A3 & _).
  intros seed c [<-|[<-|[]]].
  - split; [split; [|split]; cbn; auto|]. eexists. split; [left; reflexivity|]. split; [exact A1|]. split; [exact A2|]. split; [exact A3|]. split; [reflexivity|]. split; [reflexivity|]. split; [reflexivity|].
    split; [exact month_starts_ok|]. split; [reflexivity|left; reflexivity].
  - split; [split; [|split]; cbn; auto|]. eexists. split; [right; left; reflexivity|]. split; [exact A1|]. split; [exact A2|]. split; [exact A3|]. split; [reflexivity|]. split; [reflexivity|]. split; [reflexivity|].
    split; [exact month_starts_ok|]. split; [reflexivity|right; reflexivity].
Qed.
Lemma ex_cal_growing : growing PropBatch.ex_idx [] ex_cal_runs.
Proof.
  repeat split; try (apply IterProofs.sortedb_iff; vm_compute; reflexivity); try (apply PropBatch.ex_chunks; vm_compute; reflexivity).
  - extended.
  - extended.
Qed.
Example ex_C72_streamed : exists g, ex_cal_run ex_cal_stream ex_cal_runs = Ok g /\
  any_batch (fun _ => Znum) PropBatch.ex_val PropBatch.ex_dtypes PropBatch.ex_idx PropBatch.ex_enc (fun _ r => r) (fun _ r => r) PropBatch.ex_gs ex_cal (whole_seed [] ex_cal_runs) g /\
  ex_cal_data g = [[[at_ 2020 1 1 0; 3; 2]; [at_ 2020 2 1 0; 7; 4]; [at_ 2020 3 1 0; -1; -1]; [at_ 2020 4 1 0; -1; -1]; [at_ 2020 5 1 0; -1; -1]; [at_ 2020 6 1 0; -1; -1]; [at_ 2020 7 1 0; 11; 6];
      [at_ 2020 8 1 0; -1; -1]; [at_ 2020 9 1 0; 8; 8]];
     [[at_ 2020 2 1 0; 2; 2]; [at_ 2020 4 1 0; 4; 4]; [at_ 2020 6 1 0; -1; -1]; [at_ 2020 8 1 0; 6; 6]; [at_ 2020 10 1 0; 8; 8]]].
Proof.
  destruct (PropBatch.shown_ok _ _ ex_cal_data (ex_cal_run ex_cal_stream ex_cal_runs) ([[[at_ 2020 1 1 0; 3; 2]; [at_ 2020 2 1 0; 7; 4]; [at_ 2020 3 1 0; -1; -1]; [at_ 2020 4 1 0; -1; -1]; [at_ 2020 5 1 0; -1; -1]; [at_ 2020 6 1 0; -1; -1]; [at_ 2020 7 1 0; 11; 6];
      [at_ 2020 8 1 0; -1; -1]; [at_ 2020 9 1 0; 8; 8]];
     [[at_ 2020 2 1 0; 2; 2]; [at_ 2020 4 1 0; 4; 4]; [at_ 2020 6 1 0; -1; -1]; [at_ 2020 8 1 0; 6; 6]; [at_ 2020 10 1 0; 8; 8]]])
    ltac:(vm_cast_no_check (eq_refl (Some ([[[at_ 2020 1 1 0; 3; 2]; [at_ 2020 2 1 0; 7; 4]; [at_ 2020 3 1 0; -1; -1]; [at_ 2020 4 1 0; -1; -1]; [at_ 2020 5 1 0; -1; -1]; [at_ 2020 6 1 0; -1; -1]; [at_ 2020 7 1 0; 11; 6];
      [at_ 2020 8 1 0; -1; -1]; [at_ 2020 9 1 0; 8; 8]];
     [[at_ 2020 2 1 0; 2; 2]; [at_ 2020 4 1 0; 4; 4]; [at_ 2020 6 1 0; -1; -1]; [at_ 2020 8 1 0; 6; 6]; [at_ 2020 10 1 0; 8; 8]]]))))) as (g & E & Ed).
  exists g. split; [exact E|]. split; [|exact Ed].
  refine (C72_streamed_is_batch (fun _ => Znum) PropBatch.ex_val PropBatch.ex_dtypes PropBatch.ex_idx PropBatch.ex_enc (fun _ => true) (fun f => Z.of_nat (length (rows f)))
    (None : option (list PropBatch.ex_row -> unit -> list PropBatch.ex_row * unit * bool)) PropBatch.ex_fs PropBatch.ex_gs tt 0%nat ex_cal ex_cg_of (fun _ r => r) (fun _ r => r) ex_cal_runs g _ _ _ _ _ E _ eq_refl).
  - exact I.
  - apply PropBatch.ex_filters_are.
  - exact ex_cal_growing.
  - apply ex_cal_ok.
  - left. intros c [<-|[<-|[]]]; reflexivity.
  - discriminate.
Qed.

(** Results are written at the end of both runs. *)
Definition ex_cal_runs1 := [mkRun true true ex_cal_seed1; mkRun true true ex_cal_seed2].
Example ex_C72_accepted : exists g, ex_cal_run ex_cal_stream ex_cal_runs1 = Ok g.
Proof.
  destruct (C72_accepted (fun _ => Znum) PropBatch.ex_val PropBatch.ex_dtypes PropBatch.ex_idx PropBatch.ex_enc (fun _ => true) (fun f => Z.of_nat (length (rows f)))
    (None : option (list PropBatch.ex_row -> unit -> list PropBatch.ex_row * unit * bool)) PropBatch.ex_fs PropBatch.ex_gs tt 0%nat ex_cal ex_cg_of (fun _ r => r) (fun _ r => r) ex_cal_runs1 1) as (g & E & _).
  - exact I.
  - apply PropBatch.ex_filters_are.
  - exact ex_cal_growing.
  - apply ex_cal_ok.
  - reflexivity.
  - repeat split; auto.
  - lia.
  - intro f. lia.
  - intros c keep Hc Hk.
    assert (Nz : never_zero (fun _ => Znum) PropBatch.ex_val PropBatch.ex_dtypes PropBatch.ex_A1 (given PropBatch.ex_idx keep (whole_seed [] ex_cal_runs1))).
    { destruct Hk as [Hk|[Hk|[]]]; injection Hk as _ <-; apply PropBatch.never_zero_pos; try reflexivity; vm_compute; reflexivity. }
    destruct Hc as [<-|[<-|[]]]; destruct Hk as [Hk|[Hk|[]]]; try discriminate; injection Hk as <-;
      (split; [reflexivity|]; split; [intros z H; injection H as <-; lia|]; split; [discriminate|]; split; [exact I|]; split; [exact Nz|vm_compute; discriminate]).
  - exists g. exact E.
Qed.

Theorem C72_interrupted_is_batch : forall {D V P PB} (N : dtype -> num V) val dtypes (idx : D -> Z) enc truthy usage
    (pre : option (list D -> P -> list D * P * bool)) fs gs pre0 post0 (confs : list (@anykey D sbuf PB)) cg_of m ms rs g0 xs g r,
  harmless pre -> filters_are fs gs -> growing idx [] rs -> growing idx (whole_seed [] rs) (map run_of xs) ->
  cal_stream_ok N val dtypes idx enc cg_of m ms gs confs (whole_seed (whole_seed [] rs) (map run_of xs)) ->
  (forall c, In c confs -> any_nirgs c = None /\ any_type c <> BOTH) ->
  run_all idx truthy usage pre fs pre0 anybuf_empty post0 (new_stream pre0 anybuf_empty post0 (map (any_key N val dtypes idx enc) confs)) rs = Ok g0 ->
  (forall s, In s (map snd (g_keys g0)) -> s_main s <> None) ->
  restarted false xs -> step_all idx truthy usage pre fs pre0 anybuf_empty post0 g0 xs = Ok g ->
  last xs (Complete (mkRun false false [])) = Complete r -> r_final r = true ->
  any_batch N val dtypes idx enc m ms gs confs (whole_seed (whole_seed [] rs) (map run_of xs)) g.
Proof.
  intros D V P PB N val dtypes idx enc truthy usage pre fs gs pre0 post0 confs cg_of m ms rs g0 xs g r Hp Hf Hg Hg' Hok Hc E0 Hmn Hr E Hl Hfin.
  assert (Hs0 : sorted (map idx (whole_seed [] rs))) by (apply PropBatch.sorted_whole; auto; constructor).
  assert (Hs : sorted (map idx (whole_seed (whole_seed [] rs) (map run_of xs)))) by (apply PropBatch.sorted_whole; auto).
  exact (C68_interrupted_is_batch N val dtypes idx enc truthy usage pre fs gs pre0 post0 confs _ m ms rs g0 xs g r Hp Hf Hg Hg' (cal_any_ok _ _ _ _ _ _ _ _ _ _ _ Hs Hok) Hc E0 Hmn Hr E Hl Hfin).
Qed.
Print Assumptions C72_interrupted_is_batch.

(** The run on [ex_cal_seed2] is interrupted after the first modification. *)
Definition ex_cal_steps := [Interrupted (mkRun false true ex_cal_seed2) [1; 1]%nat; Complete (mkRun true true [concat ex_cal_seed2; [(at_ 2021 1 1 0, 1)]])].
Notation ex_cal_step := (step_all PropBatch.ex_idx (fun _ => true) (fun f => Z.of_nat (length (rows f))) (None : option (list PropBatch.ex_row -> unit -> list PropBatch.ex_row * unit * bool)) PropBatch.ex_fs tt (anybuf_empty : @anybuf Z sbuf) 0%nat).
Lemma ex_cal_steps_growing : growing PropBatch.ex_idx (whole_seed [] [mkRun true true ex_cal_seed1]) (map run_of ex_cal_steps).
Proof.
  repeat split; try (apply IterProofs.sortedb_iff; vm_compute; reflexivity); try (apply PropBatch.ex_chunks; vm_compute; reflexivity).
  - extended.
  - extended.
Qed.
Example ex_C72_interrupted : exists g0 g, ex_cal_run ex_cal_stream [mkRun true true ex_cal_seed1] = Ok g0 /\ ex_cal_step g0 ex_cal_steps = Ok g /\
  any_batch (fun _ => Znum) PropBatch.ex_val PropBatch.ex_dtypes PropBatch.ex_idx PropBatch.ex_enc (fun _ r => r) (fun _ r => r) PropBatch.ex_gs ex_cal
    (whole_seed (whole_seed [] [mkRun true true ex_cal_seed1]) (map run_of ex_cal_steps)) g.
Proof.
  destruct (PropBatch.shown_ok _ _ (fun g => map (fun x => match s_main (snd x) with Some _ => true | None => false end) (g_keys g)) (ex_cal_run ex_cal_stream [mkRun true true ex_cal_seed1]) [true; true]
    ltac:(vm_cast_no_check (eq_refl (Some [true; true])))) as (g0 & E0 & Em).
  assert (Es : exists g, bind (ex_cal_run ex_cal_stream [mkRun true true ex_cal_seed1]) (fun g0 => ex_cal_step g0 ex_cal_steps) = Ok g /\ length (g_keys g) = 2%nat).
  { apply PropBatch.shown_ok. vm_cast_no_check (eq_refl (Some 2%nat)). }
  destruct Es as (g & Es & _). assert (E : ex_cal_step g0 ex_cal_steps = Ok g) by (exact (eq_trans (f_equal (fun r => bind r (fun g0 => ex_cal_step g0 ex_cal_steps)) (eq_sym E0)) Es)).
  exists g0, g. split; [exact E0|]. split; [exact E|].
  refine (C72_interrupted_is_batch (fun _ => Znum) PropBatch.ex_val PropBatch.ex_dtypes PropBatch.ex_idx PropBatch.ex_enc (fun _ => true) (fun f => Z.of_nat (length (rows f)))
    (None : option (list PropBatch.ex_row -> unit -> list PropBatch.ex_row * unit * bool)) PropBatch.ex_fs PropBatch.ex_gs tt 0%nat ex_cal ex_cg_of (fun _ r => r) (fun _ r => r)
    [mkRun true true ex_cal_seed1] g0 ex_cal_steps g _ _ _ _ _ _ _ E0 _ _ E eq_refl eq_refl).
  - exact I.
  - apply PropBatch.ex_filters_are.
  - destruct ex_cal_growing as (A & B & C & _). exact (conj A (conj B (conj C I))).
  - exact ex_cal_steps_growing.
  - apply ex_cal_ok.
  - intros c [<-|[<-|[]]]; split; auto; discriminate.
  - intros s Hs Q. apply in_map_iff in Hs as (x & Ex & Hx). assert (Hin : In false [true; true]) by (rewrite <- Em; apply in_map_iff; exists x; rewrite Ex, Q; auto). destruct Hin as [Q0|[Q0|[]]]; discriminate.
  - split; [discriminate|]. split; [reflexivity|exact I].
Qed.
