(** Properties of chained aggregations: results of a stream are seed data of another one. *)
Require Import List Arith ZArith Bool Lia Sorting.Sorted.
Require Import Verif.Common Verif.AggModel Verif.AggSpec Verif.SegModel Verif.SegSpec Verif.CsaModel Verif.CsaSpec Verif.WrModel Verif.WrSpec Verif.StreamModel Verif.StreamSpec
  Verif.KeyModel Verif.BatchSpec Verif.UserKeyModel Verif.UserKeySpec Verif.PropBatch Verif.PropUserKey Verif.ChainSpec Verif.ChainProofs Verif.PropGrow.
Require Import Verif.CalModel Verif.CalSpec Verif.PropCal.
Require Verif.IterProofs Verif.WrProofs Verif.BatchProofs Verif.BatchKeyProofs Verif.BatchHoldProofs Verif.BatchRunProofs Verif.MonthProofs.
Import ListNotations.
Local Open Scope Z_scope.

(** ** C77: results of a key are aggregated, again and again, as they are updated *)

(** Each step makes calls to 'agg' for a 1st stream, the last one writing results; then gives all row groups of the results of one of its keys (main ones, or
    those of snapshots of a key having both) to 'agg' of a 2nd stream, with the same AggStream instance or a new one, with final write or not. Seed data of the 1st stream grows
    from a call to the next. Rows of its results may be replaced from a step to the next (those of the bin in progress). Whatever the steps, once the last
    one has written its results, keys of the 1st stream hold the results of a single aggregation of its seed data, and keys of the 2nd one
    those of a single aggregation of these results, before their last label. *)
Theorem C77_chained_is_batch : forall {D V P PB V' P' PB'} (N : dtype -> num V) val dtypes (idx : D -> Z) enc truthy usage
    (pre : option (list D -> P -> list D * P * bool)) fs gs pre0 post0 (confs : list (bconf PB)) m ms
    (N' : dtype -> num V') val' dtypes' enc' usage' (pre' : option (list row -> P' -> list row * P' * bool)) fs' gs' pre0' post0' (confs' : list (bconf PB')) m' ms'
    i c snap ls g g',
  harmless pre -> filters_are fs gs -> growing idx [] (runs_of ls) -> stream_ok N val dtypes idx enc gs confs m ms (whole_seed [] (runs_of ls)) ->
  ((forall k, In k confs -> c_nirgs k = None) \/ ((forall i, truthy i = true) /\ all_written true (runs_of ls))) ->
  nth_error confs i = Some c -> (snap = true -> type_of c = BOTH) ->
  harmless pre' -> filters_are fs' gs' -> (forall ds, results_of i snap g = Ok ds -> stream_ok N' val' dtypes' (col 0) enc' gs' confs' m' ms' (all_rows ds)) ->
  ((forall k, In k confs' -> c_nirgs k = None) \/ ((forall i, truthy i = true) /\ links_written true ls)) ->
  link_all idx truthy usage usage' pre fs pre0 segbuf_empty post0 pre' fs' pre0' segbuf_empty post0' i snap
    (new_stream pre0 segbuf_empty post0 (map (key_of N val dtypes idx enc) confs), new_stream pre0' segbuf_empty post0' (map (key_of N' val' dtypes' (col 0) enc') confs')) ls = Ok (g, g') ->
  ls <> [] -> (forall l, In l ls -> link_ok l) -> l_final (last ls (mkLink [] false false)) = true ->
  all_batch N val dtypes idx enc gs confs m ms (whole_seed [] (runs_of ls)) g /\
  exists ds, results_of i snap g = Ok ds /\ all_batch N' val' dtypes' (col 0) enc' gs' confs' m' ms' (all_rows ds) g'.
Proof.
  intros D V P PB V' P' PB' N val dtypes idx enc truthy usage pre fs gs pre0 post0 confs m ms N' val' dtypes' enc' usage' pre' fs' gs' pre0' post0' confs' m' ms' i c snap ls g g'
    Hp Hf Hg Hok Hc Hi Hsn Hp' Hf' Hok' Hc' E Hne Hl Hfin.
  destruct (tab_hyps N val dtypes idx enc fs gs confs m ms _ Hf Hok) as (T0 & T1 & T2 & T3 & T4 & T5).
  assert (Hch : exists ch : @BatchProofs.chan D P (@segbuf V) PB, In ch (BatchProofs.chans (key_of N val dtypes idx enc c) (BatchKeyProofs.kT N val dtypes idx enc c) (BatchKeyProofs.kTS N val dtypes idx enc c) (m c) (ms c)) /\
    forall s, BatchProofs.c_ds ch s = data_of (if snap then s_snap s else s_main s)).
  { unfold BatchProofs.chans. change (k_type (key_of N val dtypes idx enc c)) with (type_of c). destruct snap.
    - rewrite (Hsn eq_refl). eexists. split; [right; left; reflexivity|reflexivity].
    - destruct (type_of c); eexists; (split; [left; reflexivity|reflexivity]). }
  destruct Hch as (ch & Hch & Hds).
  destruct (chain_new idx truthy usage fs gs Hf pre Hp pre0 segbuf_empty post0 (key_of N val dtypes idx enc) confs (BatchKeyProofs.kT N val dtypes idx enc) (BatchKeyProofs.kTS N val dtypes idx enc) (BatchKeyProofs.kInv N val dtypes idx) m ms
    (BatchHoldProofs.keep_of gs) (no_tie idx) T0 T1 T2 T3 T4 usage' pre' fs' pre0' segbuf_empty post0' i snap c ch Hi Hch Hds ls (new_stream pre0' segbuf_empty post0' (map (key_of N' val' dtypes' (col 0) enc') confs')) g g' Hg T5) as (R1 & ds & rs & R2 & R3 & R4 & R5 & R6); auto.
  { destruct Hc as [Hc|[Hq Hc]]; [left|right; auto]. intros k Hk. unfold no_coalescing. cbn. split; intros; apply Hc; auto. }
  split.
  - refine (C50_streamed_is_batch N val dtypes idx enc truthy usage pre fs gs pre0 post0 confs m ms (runs_of ls) g Hp Hf Hg Hok Hc R1 _ _).
    + destruct ls as [|l ls]; [congruence|]. destruct (Hl l (or_introl eq_refl)) as [A _]. unfold runs_of. cbn. intro Q. apply app_eq_nil in Q as [Q _]. auto.
    + destruct (exists_last Hne) as (ls' & l & ->). destruct (Hl l) as [A B]; [apply in_or_app; simpl; auto|]. unfold runs_of. rewrite map_app, concat_app. cbn [map concat]. rewrite app_nil_r.
      destruct (exists_last A) as (a & r & Ea). rewrite Ea in *. rewrite app_assoc, last_last in *. auto.
  - exists ds. split; auto. specialize (Hok' ds R2). destruct (links_final rs ls (mkLink [] false false) (mkRun false false []) R5 Hne) as [Hne' Hfin']. rewrite Hfin in Hfin'.
    rewrite <- R6 in *. refine (C50_streamed_is_batch N' val' dtypes' (col 0) enc' truthy usage' pre' fs' gs' pre0' post0' confs' m' ms' rs g' Hp' Hf' R4 Hok' _ R3 Hne' Hfin').
    destruct Hc' as [Hc'|[Hq Hc']]; [left; auto|right; split; auto]. eapply links_runs; eauto.
Qed.
Print Assumptions C77_chained_is_batch.

(** The same with keys having any bins, in both streams. *)
Theorem C77_any_bins : forall {D V B P PB V' B' P' PB'} (N : dtype -> num V) val dtypes (idx : D -> Z) enc truthy usage
    (pre : option (list D -> P -> list D * P * bool)) fs gs pre0 post0 (confs : list (@anykey D B PB)) sp m ms
    (N' : dtype -> num V') val' dtypes' enc' usage' (pre' : option (list row -> P' -> list row * P' * bool)) fs' gs' pre0' post0' (confs' : list (@anykey row B' PB')) sp' m' ms'
    i c snap ls g g',
  harmless pre -> filters_are fs gs -> growing idx [] (runs_of ls) -> any_stream_ok N val dtypes idx enc sp m ms gs confs (whole_seed [] (runs_of ls)) ->
  ((forall k, In k confs -> any_nirgs k = None) \/ ((forall i, truthy i = true) /\ all_written true (runs_of ls))) ->
  nth_error confs i = Some c -> (snap = true -> any_type c = BOTH) ->
  harmless pre' -> filters_are fs' gs' -> (forall ds, results_of i snap g = Ok ds -> any_stream_ok N' val' dtypes' (col 0) enc' sp' m' ms' gs' confs' (all_rows ds)) ->
  ((forall k, In k confs' -> any_nirgs k = None) \/ ((forall i, truthy i = true) /\ links_written true ls)) ->
  link_all idx truthy usage usage' pre fs pre0 anybuf_empty post0 pre' fs' pre0' anybuf_empty post0' i snap
    (new_stream pre0 anybuf_empty post0 (map (any_key N val dtypes idx enc) confs), new_stream pre0' anybuf_empty post0' (map (any_key N' val' dtypes' (col 0) enc') confs')) ls = Ok (g, g') ->
  ls <> [] -> (forall l, In l ls -> link_ok l) -> l_final (last ls (mkLink [] false false)) = true ->
  any_batch N val dtypes idx enc m ms gs confs (whole_seed [] (runs_of ls)) g /\
  exists ds, results_of i snap g = Ok ds /\ any_batch N' val' dtypes' (col 0) enc' m' ms' gs' confs' (all_rows ds) g'.
Proof.
  intros D V B P PB V' B' P' PB' N val dtypes idx enc truthy usage pre fs gs pre0 post0 confs sp m ms N' val' dtypes' enc' usage' pre' fs' gs' pre0' post0' confs' sp' m' ms' i c snap ls g g'
    Hp Hf Hg Hok Hc Hi Hsn Hp' Hf' Hok' Hc' E Hne Hl Hfin.
  destruct (any_hyps N val dtypes idx enc fs gs confs sp m ms _ Hf Hok) as (T0 & T1 & T2 & T3 & T4 & T5).
  assert (Hch : exists ch : @BatchProofs.chan D P (@anybuf V B) PB, In ch (BatchProofs.chans (any_key N val dtypes idx enc c) (aT N val dtypes idx enc sp c) (aTS N val dtypes idx enc sp c) (m c) (ms c)) /\
    forall s, BatchProofs.c_ds ch s = data_of (if snap then s_snap s else s_main s)).
  { unfold BatchProofs.chans. destruct snap.
    - assert (Q : k_type (any_key N val dtypes idx enc c) = BOTH) by (destruct c; exact (Hsn eq_refl)). rewrite Q. eexists. split; [right; left; reflexivity|reflexivity].
    - destruct (k_type (any_key N val dtypes idx enc c)); eexists; (split; [left; reflexivity|reflexivity]). }
  destruct Hch as (ch & Hch & Hds).
  destruct (chain_new idx truthy usage fs gs Hf pre Hp pre0 anybuf_empty post0 (any_key N val dtypes idx enc) confs (aT N val dtypes idx enc sp) (aTS N val dtypes idx enc sp) (aInv N val dtypes idx sp) m ms
    (akeep gs) (agood idx sp) T0 T1 T2 T3 T4 usage' pre' fs' pre0' anybuf_empty post0' i snap c ch Hi Hch Hds ls (new_stream pre0' anybuf_empty post0' (map (any_key N' val' dtypes' (col 0) enc') confs')) g g' Hg T5) as (R1 & ds & rs & R2 & R3 & R4 & R5 & R6); auto.
  { destruct Hc as [Hc|[Hq Hc]]; [left|right; auto]. intros k Hk. specialize (Hc k Hk). unfold no_coalescing. destruct k; cbn in *; auto. }
  split.
  - refine (C68_streamed_is_batch N val dtypes idx enc truthy usage pre fs gs pre0 post0 confs sp m ms (runs_of ls) g Hp Hf Hg Hok Hc R1 _ _).
    + destruct ls as [|l ls]; [congruence|]. destruct (Hl l (or_introl eq_refl)) as [A _]. unfold runs_of. cbn. intro Q. apply app_eq_nil in Q as [Q _]. auto.
    + destruct (exists_last Hne) as (ls' & l & ->). destruct (Hl l) as [A B0]; [apply in_or_app; simpl; auto|]. unfold runs_of. rewrite map_app, concat_app. cbn [map concat]. rewrite app_nil_r.
      destruct (exists_last A) as (a & r & Ea). rewrite Ea in *. rewrite app_assoc, last_last in *. auto.
  - exists ds. split; auto. specialize (Hok' ds R2). destruct (links_final rs ls (mkLink [] false false) (mkRun false false []) R5 Hne) as [Hne' Hfin']. rewrite Hfin in Hfin'.
    rewrite <- R6 in *. refine (C68_streamed_is_batch N' val' dtypes' (col 0) enc' truthy usage' pre' fs' gs' pre0' post0' confs' sp' m' ms' rs g' Hp' Hf' R4 Hok' _ R3 Hne' Hfin').
    destruct Hc' as [Hc'|[Hq Hc']]; [left; auto|right; split; auto]. eapply links_runs; eauto.
Qed.
Print Assumptions C77_any_bins.

(** Concrete cases. The 1st stream is the one of [ex_C50]. The 2nd one aggregates snapshots made each 2 units of time. *)
Notation ch_run := (link_all ex_idx ex_truthy (fun f => Z.of_nat (length (rows f))) (fun f => Z.of_nat (length (rows f))) (None : option (list ex_row -> unit -> list ex_row * unit * bool)) ex_fs tt (segbuf_empty : @segbuf Z) 0%nat
  (None : option (list row -> unit -> list row * unit * bool)) gr_fs tt (segbuf_empty : @segbuf Z) 0%nat).
Definition ch_links : list (link ex_row) := [mkLink [mkRun true true ex_seed1] true false; mkLink [mkRun false false ex_seed2; mkRun true true ex_seed3] false true].
Definition ch_shown (i : nat) (snap : bool) (x : stream ex_row unit (@segbuf Z) nat * stream row unit (@segbuf Z) nat) :=
  (match results_of i snap (fst x) with Ok ds => map content ds | Err _ => [] end, map (fun y => (all_rows (data_of (s_main (snd y))), all_rows (data_of (s_snap (snd y))))) (g_keys (snd x))).
Definition ch_out : list (list row) * list (list row * list row) :=
  ([[[2; 6; 4]; [4; 6; 6]]; [[6; 6; 6]; [8; 14; 8]; [10; 10; 10]]; [[12; 22; 12]; [14; -1; -1]; [16; -1; -1]]; [[18; -1; -1]; [20; 16; 16]]],
   [([[0; 24; 6]; [5; 40; 14]; [10; 62; 22]; [15; -4; -1]], []);
    ([[0; 12; 6]; [5; 20; 14]; [10; 32; 22]], [[2; 6; 6]; [4; -1; -1]; [6; 6; 6]; [8; 20; 14]; [10; 10; 10]; [12; 32; 22]]);
    ([[2; 18; 6]; [8; 46; 22]; [14; -3; -1]], []);
    ([[2; 6; 6]; [4; -1; -1]; [6; 6; 6]; [8; 20; 14]; [10; 10; 10]; [12; 32; 22]; [14; -1; -1]; [16; -1; -1]; [18; -2; -1]], [])]).
Example ex_C77 : exists g g', ch_run 1%nat true (ex_start ex_confs, gr_start ex_confs) ch_links = Ok (g, g') /\ ch_shown 1 true (g, g') = ch_out /\
  all_batch (fun _ => Znum) ex_val ex_dtypes ex_idx ex_enc ex_gs ex_confs ex_map ex_map (concat ex_seed3) g /\
  all_batch (fun _ => Znum) gr_val ex_dtypes (col 0) ex_enc gr_gs ex_confs ex_map ex_map (concat (fst ch_out)) g'.
Proof.
  destruct (shown_ok _ _ (ch_shown 1 true) (ch_run 1%nat true (ex_start ex_confs, gr_start ex_confs) ch_links) ch_out ltac:(vm_cast_no_check (eq_refl (Some ch_out)))) as ([g g'] & E & F).
  exists g, g'. split; [exact E|]. split; [exact F|].
  assert (Hr : forall ds, results_of 1 true g = Ok ds -> all_rows ds = concat (fst ch_out)).
  { intros ds Hd. unfold ch_shown in F. cbn [fst snd] in F. rewrite Hd in F. apply (f_equal fst) in F. cbn [fst] in F. rewrite <- F. apply WrProofs.all_rows_concat. }
  destruct (C77_chained_is_batch (fun _ => Znum) ex_val ex_dtypes ex_idx ex_enc ex_truthy (fun f => Z.of_nat (length (rows f))) None ex_fs ex_gs tt 0%nat ex_confs ex_map ex_map
    (fun _ => Znum) gr_val ex_dtypes ex_enc (fun f => Z.of_nat (length (rows f))) None gr_fs gr_gs tt 0%nat ex_confs ex_map ex_map 1 ex_B true ch_links g g') as (H1 & ds & H2 & H3).
  - exact I.
  - apply ex_filters_are.
  - exact ex_growing.
  - exact ex_stream_ok.
  - left. intros c [<-|[<-|[<-|[<-|[]]]]]; auto.
  - reflexivity.
  - reflexivity.
  - exact I.
  - apply gr_filters_are.
  - intros ds Hd. rewrite (Hr ds Hd). apply gr_stream_ok. vm_compute. reflexivity.
  - left. intros c [<-|[<-|[<-|[<-|[]]]]]; auto.
  - exact E.
  - discriminate.
  - intros l [<-|[<-|[]]]; split; try reflexivity; discriminate.
  - reflexivity.
  - split; [exact H1|]. rewrite <- (Hr ds H2). exact H3.
Qed.

Definition by_quarter : cgrouper := mkCG (month_groups 3 0) 1 SLeft SLeft.
(** Months, then quarters. The month in progress at the 1st step is given again, with its new value, by the 2nd one. *)
Definition ch_quarter : uconf row sbuf nat := mkUconf 0 ex_agg (cal_by (col 0) by_quarter) sbuf_empty None false None 44 (Some 2) None None.
Definition ch_cal_links : list (link ex_row) := [mkLink [mkRun true true ex_cal_seed1] true true; mkLink [mkRun true true ex_cal_seed2] true true].
Notation ch_cal_run := (link_all ex_idx (fun _ => true) (fun f => Z.of_nat (length (rows f))) (fun f => Z.of_nat (length (rows f))) (None : option (list ex_row -> unit -> list ex_row * unit * bool)) ex_fs tt (anybuf_empty : @anybuf Z sbuf) 0%nat
  (None : option (list row -> unit -> list row * unit * bool)) gr_fs tt (anybuf_empty : @anybuf Z sbuf) 0%nat).
Notation ch_cal_start := (new_stream tt (anybuf_empty : @anybuf Z sbuf) 0%nat (map (any_key (fun _ => Znum) gr_val ex_dtypes (col 0) ex_enc) [inr ch_quarter]) : stream row unit (@anybuf Z sbuf) nat).
Definition ch_cal_shown (x : stream ex_row unit (@anybuf Z sbuf) nat * stream row unit (@anybuf Z sbuf) nat) :=
  (match results_of 0 false (fst x) with Ok ds => map content ds | Err _ => [] end, map (fun y => all_rows (data_of (s_main (snd y)))) (g_keys (snd x))).
Definition ch_cal_out : list (list row) * list (list row) :=
  ([[[at_ 2020 1 1 0; 3; 2]]; [[at_ 2020 2 1 0; 7; 4]; [at_ 2020 3 1 0; -1; -1]]; [[at_ 2020 4 1 0; -1; -1]; [at_ 2020 5 1 0; -1; -1]];
    [[at_ 2020 6 1 0; -1; -1]; [at_ 2020 7 1 0; 11; 6]]; [[at_ 2020 8 1 0; -1; -1]; [at_ 2020 9 1 0; 8; 8]]],
   [[[at_ 2020 1 1 0; 9; 7]; [at_ 2020 4 1 0; -3; -1]; [at_ 2020 7 1 0; 10; 11]]]).
Lemma ch_cal_ok : forall seed, cal_stream_ok (fun _ => Znum) gr_val ex_dtypes (col 0) ex_enc (fun _ => by_quarter) (fun _ r => r) (fun _ r => r) gr_gs ([inr ch_quarter] : list (@anykey row sbuf nat)) seed.
Proof.
  destruct (ex_conf_ok ex_A ltac:(left; auto)) as (A1 & A2 & A3 & _). intros seed c [<-|[]].
  split; [split; [|split]; cbn; auto|]. eexists. split; [left; reflexivity|]. split; [exact A1|]. split; [exact A2|]. split; [exact A3|]. split; [reflexivity|]. split; [reflexivity|]. split; [reflexivity|].
  split; [apply (MonthProofs.month_groups_ok 3 0); lia|]. split; [reflexivity|left; reflexivity].
Qed.
Example ex_C77_any : exists g g', ch_cal_run 0%nat false (ex_cal_stream, ch_cal_start) ch_cal_links = Ok (g, g') /\ ch_cal_shown (g, g') = ch_cal_out /\
  any_batch (fun _ => Znum) ex_val ex_dtypes ex_idx ex_enc (fun _ r => r) (fun _ r => r) ex_gs ex_cal (concat ex_cal_seed2) g /\
  any_batch (fun _ => Znum) gr_val ex_dtypes (col 0) ex_enc (fun _ r => r) (fun _ r => r) gr_gs [inr ch_quarter] (concat (fst ch_cal_out)) g'.
Proof.
  destruct (shown_ok _ _ ch_cal_shown (ch_cal_run 0%nat false (ex_cal_stream, ch_cal_start) ch_cal_links) ch_cal_out ltac:(vm_cast_no_check (eq_refl (Some ch_cal_out)))) as ([g g'] & E & F).
  exists g, g'. split; [exact E|]. split; [exact F|].
  assert (Hr : forall ds, results_of 0 false g = Ok ds -> all_rows ds = concat (fst ch_cal_out)).
  { intros ds Hd. unfold ch_cal_shown in F. cbn [fst snd] in F. rewrite Hd in F. apply (f_equal fst) in F. cbn [fst] in F. rewrite <- F. apply WrProofs.all_rows_concat. }
  destruct (C77_any_bins (fun _ => Znum) ex_val ex_dtypes ex_idx ex_enc (fun _ => true) (fun f => Z.of_nat (length (rows f))) None ex_fs ex_gs tt 0%nat ex_cal
      (fun u => only_bins (cal_bins ex_idx (ex_cg_of u)) (cal_after ex_idx (ex_cg_of u)) (fun rows => sorted (map ex_idx rows))) (fun _ r => r) (fun _ r => r)
    (fun _ => Znum) gr_val ex_dtypes ex_enc (fun f => Z.of_nat (length (rows f))) None gr_fs gr_gs tt 0%nat [inr ch_quarter]
      (fun _ => only_bins (cal_bins (col 0) by_quarter) (cal_after (col 0) by_quarter) (fun rows => sorted (map (col 0) rows))) (fun _ r => r) (fun _ r => r) 0 (inr ex_month) false ch_cal_links g g') as (H1 & ds & H2 & H3).
  - exact I.
  - apply ex_filters_are.
  - exact ex_cal_growing.
  - apply cal_any_ok; [apply (sorted_whole ex_idx ex_cal_runs []); [exact ex_cal_growing|constructor]|apply ex_cal_ok].
  - left. intros c [<-|[<-|[]]]; auto.
  - reflexivity.
  - discriminate.
  - exact I.
  - apply gr_filters_are.
  - intros ds Hd. rewrite (Hr ds Hd). apply (cal_any_ok (fun _ => Znum) gr_val ex_dtypes (col 0) ex_enc (fun _ => by_quarter)); [apply IterProofs.sortedb_iff; vm_compute; reflexivity|apply ch_cal_ok].
  - left. intros c [<-|[]]; auto.
  - exact E.
  - discriminate.
  - intros l [<-|[<-|[]]]; split; try reflexivity; discriminate.
  - reflexivity.
  - split; [exact H1|]. rewrite <- (Hr ds H2). exact H3.
Qed.

(** Without writing the results of the 1st stream at the end of each step, the 2nd one misses bins, though all of their rows have been given to the 1st one. *)
Theorem C77_unwritten_refuted : exists ls g g', growing ex_idx [] (runs_of ls) /\ stream_ok (fun _ => Znum) ex_val ex_dtypes ex_idx ex_enc ex_gs [ex_A] ex_map ex_map (whole_seed [] (runs_of ls)) /\
  ch_run 0%nat false (ex_start [ex_A], gr_start [ex_C]) ls = Ok (g, g') /\ l_final (last ls (mkLink [] false false)) = true /\
  gr_stored g' 0 = Some [[0; 138; 66]] /\
  exists ls1 g1 g1', map (fun l => map r_seed (l_runs l)) ls1 = map (fun l => map r_seed (l_runs l)) ls /\ ch_run 0%nat false (ex_start [ex_A], gr_start [ex_C]) ls1 = Ok (g1, g1') /\ gr_stored g1' 0 = Some [[0; 138; 66]; [15; -2; -2]].
Proof.
  set (ls := [mkLink [mkRun true false ex_seed1] true false; mkLink [mkRun false false ex_seed2; mkRun false false ex_seed3] false true]).
  destruct (shown_ok _ _ (fun x : stream ex_row unit (@segbuf Z) nat * stream row unit (@segbuf Z) nat => gr_stored (snd x) 0) (ch_run 0%nat false (ex_start [ex_A], gr_start [ex_C]) ls) (Some [[0; 138; 66]])
    ltac:(vm_cast_no_check (eq_refl (Some (Some [[0; 138; 66]]))))) as ([g g'] & E & F).
  destruct (shown_ok _ _ (fun x : stream ex_row unit (@segbuf Z) nat * stream row unit (@segbuf Z) nat => gr_stored (snd x) 0) (ch_run 0%nat false (ex_start [ex_A], gr_start [ex_C]) ch_links) (Some [[0; 138; 66]; [15; -2; -2]])
    ltac:(vm_cast_no_check (eq_refl (Some (Some [[0; 138; 66]; [15; -2; -2]]))))) as ([g1 g1'] & E1 & F1).
  exists ls, g, g'. split; [exact ex_growing|]. split.
  - intros c [<-|[]]. apply (ex_stream_ok ex_A). left. reflexivity.
  - split; [exact E|]. split; [reflexivity|]. split; [exact F|]. exists ch_links, g1, g1'. split; [reflexivity|]. split; [exact E1|exact F1].
Qed.
Print Assumptions C77_unwritten_refuted.
