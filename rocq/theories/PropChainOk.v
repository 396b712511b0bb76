(** Properties of chained aggregations: nothing is raised. *)
Require Import List Arith ZArith Bool Lia Sorting.Sorted.
Require Import Verif.Common Verif.AggModel Verif.AggSpec Verif.SegModel Verif.SegSpec Verif.CsaModel Verif.CsaSpec Verif.WrModel Verif.WrSpec Verif.StreamModel Verif.StreamSpec
  Verif.KeyModel Verif.BatchSpec Verif.UserKeyModel Verif.UserKeySpec Verif.PropBatch Verif.PropUserKey Verif.ChainSpec Verif.ChainProofs Verif.GrowOkProofs Verif.PropGrow Verif.PropGrowOk Verif.PropChain.
Require Import Verif.RecordProofs.
Require Verif.IterProofs Verif.WrProofs Verif.BatchProofs Verif.BatchKeyProofs Verif.BatchHoldProofs Verif.BatchRunProofs.
Import ListNotations.
Local Open Scope Z_scope.

(** C77: steps raise nothing when neither stream does by itself: no aggregated value is 0, sizes of row groups are positive, and memory is
    enough for the row groups given between two writings of results. For the 2nd stream there are not more of them in a step than rows of the
    results of the 1st one. *)
Theorem C77_accepted : forall {D V P PB V' P' PB'} (N : dtype -> num V) val dtypes (idx : D -> Z) enc truthy usage
    (pre : option (list D -> P -> list D * P * bool)) fs gs pre0 post0 (confs : list (bconf PB)) m ms
    (N' : dtype -> num V') val' dtypes' enc' usage' (pre' : option (list row -> P' -> list row * P' * bool)) fs' gs' pre0' post0' (confs' : list (bconf PB')) m' ms'
    i c snap ls w w',
  harmless pre -> filters_are fs gs -> growing idx [] (runs_of ls) -> stream_ok N val dtypes idx enc gs confs m ms (whole_seed [] (runs_of ls)) ->
  (forall i, truthy i = true) -> all_written true (runs_of ls) -> 0 <= w -> (forall f, usage f <= w * Z.of_nat (S (length (rows f)))) ->
  (forall k keep, In k confs -> In (c_filter k, keep) gs -> accepted_conf N val dtypes idx enc k w (chunks_between 0 (runs_of ls)) (given idx keep (whole_seed [] (runs_of ls)))) ->
  nth_error confs i = Some c -> (snap = true -> type_of c = BOTH) ->
  harmless pre' -> filters_are fs' gs' -> links_written true ls -> 0 <= w' -> (forall f, usage' f <= w' * Z.of_nat (S (length (rows f)))) ->
  (forall g ds, run_all idx truthy usage pre fs pre0 segbuf_empty post0 (new_stream pre0 segbuf_empty post0 (map (key_of N val dtypes idx enc) confs)) (runs_of ls) = Ok g -> results_of i snap g = Ok ds ->
     stream_ok N' val' dtypes' (col 0) enc' gs' confs' m' ms' (all_rows ds) /\
     forall k keep, In k confs' -> In (c_filter k, keep) gs' -> accepted_conf N' val' dtypes' (col 0) enc' k w' (length ls * length (all_rows ds)) (given (col 0) keep (all_rows ds))) ->
  ls <> [] -> (forall l, In l ls -> link_ok l) ->
  exists g g' ds, link_all idx truthy usage usage' pre fs pre0 segbuf_empty post0 pre' fs' pre0' segbuf_empty post0' i snap
    (new_stream pre0 segbuf_empty post0 (map (key_of N val dtypes idx enc) confs), new_stream pre0' segbuf_empty post0' (map (key_of N' val' dtypes' (col 0) enc') confs')) ls = Ok (g, g') /\
    run_all idx truthy usage pre fs pre0 segbuf_empty post0 (new_stream pre0 segbuf_empty post0 (map (key_of N val dtypes idx enc) confs)) (runs_of ls) = Ok g /\
    all_batch N val dtypes idx enc gs confs m ms (whole_seed [] (runs_of ls)) g /\ results_of i snap g = Ok ds /\
    (l_final (last ls (mkLink [] false false)) = true -> all_batch N' val' dtypes' (col 0) enc' gs' confs' m' ms' (all_rows ds) g').
Proof.
  intros D V P PB V' P' PB' N val dtypes idx enc truthy usage pre fs gs pre0 post0 confs m ms N' val' dtypes' enc' usage' pre' fs' gs' pre0' post0' confs' m' ms' i c snap ls w w'
    Hp Hf Hg Hok Hq Hwr Hw Hu Ha Hi Hsn Hp' Hf' Hwr' Hw' Hu' Hr Hne Hl.
  destruct (C50_accepted N val dtypes idx enc truthy usage pre fs gs pre0 post0 confs m ms (runs_of ls) w Hp Hf Hg Hok Hq Hwr Hw Hu Ha) as (g & E & Bt).
  destruct (tab_hyps N val dtypes idx enc fs gs confs m ms _ Hf Hok) as (T0 & T1 & T2 & T3 & T4 & T5).
  assert (Hch : exists ch : @BatchProofs.chan D P (@segbuf V) PB, In ch (BatchProofs.chans (key_of N val dtypes idx enc c) (BatchKeyProofs.kT N val dtypes idx enc c) (BatchKeyProofs.kTS N val dtypes idx enc c) (m c) (ms c)) /\
    forall s, BatchProofs.c_ds ch s = data_of (if snap then s_snap s else s_main s)).
  { unfold BatchProofs.chans. change (k_type (key_of N val dtypes idx enc c)) with (type_of c). destruct snap.
    - rewrite (Hsn eq_refl). eexists. split; [right; left; reflexivity|reflexivity].
    - destruct (type_of c); eexists; (split; [left; reflexivity|reflexivity]). }
  destruct Hch as (ch & Hch & Hds).
  destruct (chain_new_ok idx truthy usage fs gs Hf pre Hp pre0 segbuf_empty post0 (key_of N val dtypes idx enc) confs (BatchKeyProofs.kT N val dtypes idx enc) (BatchKeyProofs.kTS N val dtypes idx enc) (BatchKeyProofs.kInv N val dtypes idx) m ms
    (BatchHoldProofs.keep_of gs) (no_tie idx) T0 T1 T2 T3 T4 usage' pre' fs' pre0' (segbuf_empty : @segbuf V') post0' i snap c ch Hi Hch Hds ls g Hg T5) as (ds & rs & R1 & R2 & R3 & R4 & R5 & R6); auto.
  { right. auto. }
  destruct (Hr g ds E R1) as [Hok' Ha'].
  assert (Lr : length rs = length ls) by (apply (f_equal (@length _)) in R4; rewrite !map_length in R4; auto).
  assert (Ck : (chunks_between 0 rs <= length ls * length (all_rows ds))%nat) by (rewrite <- Lr; apply (chunks_between_le rs 0); auto).
  destruct (C50_accepted N' val' dtypes' (col 0) enc' truthy usage' pre' fs' gs' pre0' post0' confs' m' ms' rs w' Hp' Hf' R3) as (g' & E' & Bt'); auto.
  { rewrite R5. auto. }
  { eapply links_runs; eauto. }
  { intros k keep Hk Hkeep. rewrite R5. eapply accepted_conf_le; eauto. }
  exists g, g', ds. split; [rewrite R2, E'; reflexivity|]. split; [exact E|]. split; [|split; [exact R1|]].
  - apply Bt.
    + destruct ls as [|l ls]; [congruence|]. destruct (Hl l (or_introl eq_refl)) as [A _]. unfold runs_of. cbn. intro Q. apply app_eq_nil in Q as [Q _]. auto.
    + destruct (exists_last Hne) as (ls' & l & ->). destruct (Hl l) as [A B]; [apply in_or_app; simpl; auto|]. unfold runs_of. rewrite map_app, concat_app. cbn [map concat]. rewrite app_nil_r.
      destruct (exists_last A) as (a & r & Ea). rewrite Ea in *. rewrite app_assoc, last_last in *. auto.
  - intro Hfin. destruct (links_final rs ls (mkLink [] false false) (mkRun false false []) R4 Hne) as [Hne' Hfin']. rewrite <- R5. apply Bt'; auto. rewrite Hfin'. auto.
Qed.
Print Assumptions C77_accepted.

(** The same with keys having any bins, in both streams. *)
Theorem C77_any_accepted : forall {D V B P PB V' B' P' PB'} (N : dtype -> num V) val dtypes (idx : D -> Z) enc truthy usage
    (pre : option (list D -> P -> list D * P * bool)) fs gs pre0 post0 (confs : list (@anykey D B PB)) sp m ms
    (N' : dtype -> num V') val' dtypes' enc' usage' (pre' : option (list row -> P' -> list row * P' * bool)) fs' gs' pre0' post0' (confs' : list (@anykey row B' PB')) sp' m' ms'
    i c snap ls w w',
  harmless pre -> filters_are fs gs -> growing idx [] (runs_of ls) -> any_stream_ok N val dtypes idx enc sp m ms gs confs (whole_seed [] (runs_of ls)) ->
  (forall i, truthy i = true) -> all_written true (runs_of ls) -> 0 <= w -> (forall f, usage f <= w * Z.of_nat (S (length (rows f)))) ->
  (forall k keep, In k confs -> In (any_filter k, keep) gs -> any_accepted N val dtypes idx enc k w (chunks_between 0 (runs_of ls)) (given idx keep (whole_seed [] (runs_of ls)))) ->
  nth_error confs i = Some c -> (snap = true -> any_type c = BOTH) ->
  harmless pre' -> filters_are fs' gs' -> links_written true ls -> 0 <= w' -> (forall f, usage' f <= w' * Z.of_nat (S (length (rows f)))) ->
  (forall g ds, run_all idx truthy usage pre fs pre0 anybuf_empty post0 (new_stream pre0 anybuf_empty post0 (map (any_key N val dtypes idx enc) confs)) (runs_of ls) = Ok g -> results_of i snap g = Ok ds ->
     any_stream_ok N' val' dtypes' (col 0) enc' sp' m' ms' gs' confs' (all_rows ds) /\
     forall k keep, In k confs' -> In (any_filter k, keep) gs' -> any_accepted N' val' dtypes' (col 0) enc' k w' (length ls * length (all_rows ds)) (given (col 0) keep (all_rows ds))) ->
  ls <> [] -> (forall l, In l ls -> link_ok l) ->
  exists g g' ds, link_all idx truthy usage usage' pre fs pre0 anybuf_empty post0 pre' fs' pre0' anybuf_empty post0' i snap
    (new_stream pre0 anybuf_empty post0 (map (any_key N val dtypes idx enc) confs), new_stream pre0' anybuf_empty post0' (map (any_key N' val' dtypes' (col 0) enc') confs')) ls = Ok (g, g') /\
    run_all idx truthy usage pre fs pre0 anybuf_empty post0 (new_stream pre0 anybuf_empty post0 (map (any_key N val dtypes idx enc) confs)) (runs_of ls) = Ok g /\
    any_batch N val dtypes idx enc m ms gs confs (whole_seed [] (runs_of ls)) g /\ results_of i snap g = Ok ds /\
    (l_final (last ls (mkLink [] false false)) = true -> any_batch N' val' dtypes' (col 0) enc' m' ms' gs' confs' (all_rows ds) g').
Proof.
  intros D V B P PB V' B' P' PB' N val dtypes idx enc truthy usage pre fs gs pre0 post0 confs sp m ms N' val' dtypes' enc' usage' pre' fs' gs' pre0' post0' confs' sp' m' ms' i c snap ls w w'
    Hp Hf Hg Hok Hq Hwr Hw Hu Ha Hi Hsn Hp' Hf' Hwr' Hw' Hu' Hr Hne Hl.
  destruct (C68_accepted N val dtypes idx enc truthy usage pre fs gs pre0 post0 confs sp m ms (runs_of ls) w Hp Hf Hg Hok Hq Hwr Hw Hu Ha) as (g & E & Bt).
  destruct (any_hyps N val dtypes idx enc fs gs confs sp m ms _ Hf Hok) as (T0 & T1 & T2 & T3 & T4 & T5).
  assert (Hch : exists ch : @BatchProofs.chan D P (@anybuf V B) PB, In ch (BatchProofs.chans (any_key N val dtypes idx enc c) (aT N val dtypes idx enc sp c) (aTS N val dtypes idx enc sp c) (m c) (ms c)) /\
    forall s, BatchProofs.c_ds ch s = data_of (if snap then s_snap s else s_main s)).
  { unfold BatchProofs.chans. destruct snap.
    - assert (Q : k_type (any_key N val dtypes idx enc c) = BOTH) by (destruct c; exact (Hsn eq_refl)). rewrite Q. eexists. split; [right; left; reflexivity|reflexivity].
    - destruct (k_type (any_key N val dtypes idx enc c)); eexists; (split; [left; reflexivity|reflexivity]). }
  destruct Hch as (ch & Hch & Hds).
  destruct (chain_new_ok idx truthy usage fs gs Hf pre Hp pre0 anybuf_empty post0 (any_key N val dtypes idx enc) confs (aT N val dtypes idx enc sp) (aTS N val dtypes idx enc sp) (aInv N val dtypes idx sp) m ms
    (akeep gs) (agood idx sp) T0 T1 T2 T3 T4 usage' pre' fs' pre0' (anybuf_empty : @anybuf V' B') post0' i snap c ch Hi Hch Hds ls g Hg T5) as (ds & rs & R1 & R2 & R3 & R4 & R5 & R6); auto.
  { right. auto. }
  destruct (Hr g ds E R1) as [Hok' Ha'].
  assert (Lr : length rs = length ls) by (apply (f_equal (@length _)) in R4; rewrite !map_length in R4; auto).
  assert (Ck : (chunks_between 0 rs <= length ls * length (all_rows ds))%nat) by (rewrite <- Lr; apply (chunks_between_le rs 0); auto).
  destruct (C68_accepted N' val' dtypes' (col 0) enc' truthy usage' pre' fs' gs' pre0' post0' confs' sp' m' ms' rs w' Hp' Hf' R3) as (g' & E' & Bt'); auto.
  { rewrite R5. auto. }
  { eapply links_runs; eauto. }
  { intros k keep Hk Hkeep. rewrite R5. eapply accepted_le; eauto. }
  exists g, g', ds. split; [rewrite R2, E'; reflexivity|]. split; [exact E|]. split; [|split; [exact R1|]].
  - apply Bt.
    + destruct ls as [|l ls]; [congruence|]. destruct (Hl l (or_introl eq_refl)) as [A _]. unfold runs_of. cbn. intro Q. apply app_eq_nil in Q as [Q _]. auto.
    + destruct (exists_last Hne) as (ls' & l & ->). destruct (Hl l) as [A B0]; [apply in_or_app; simpl; auto|]. unfold runs_of. rewrite map_app, concat_app. cbn [map concat]. rewrite app_nil_r.
      destruct (exists_last A) as (a & r & Ea). rewrite Ea in *. rewrite app_assoc, last_last in *. auto.
  - intro Hfin. destruct (links_final rs ls (mkLink [] false false) (mkRun false false []) R4 Hne) as [Hne' Hfin']. rewrite <- R5. apply Bt'; auto. rewrite Hfin'. auto.
Qed.
Print Assumptions C77_any_accepted.

(** Sums over 5 units of time, then sums over 3 rows of them. The bin in progress at the 1st step is given again by the 2nd one. *)
Definition co_A : bconf nat := mkBconf 0 ex_agg (ByTime ex_tg) None false None 200 (Some 2) None None.
Definition co_C : bconf nat := mkBconf 0 ex_agg (ByRows 3 SLeft) None false None 200 (Some 2) None None.
Definition co_seed1 : list (list ex_row) := [[(1,1);(2,2)]; [(4,3);(6,4)]; [(7,1)]].
Definition co_seed2 : list (list ex_row) := [concat co_seed1 ++ [(8,1);(11,6);(12,5);(16,8);(17,9);(21,9);(22,1)]].
Definition co_links : list (link ex_row) := [mkLink [mkRun true true co_seed1] true false; mkLink [mkRun true true co_seed2] false true].
Definition co_results : list row := [[0; 6; 3]; [5; 6; 4]; [10; 11; 6]; [15; 17; 9]; [20; 9; 9]].
Example ex_C77_accepted : exists g g' ds, link_all ex_idx (fun _ => true) (fun f => Z.of_nat (length (rows f))) (fun f => Z.of_nat (length (rows f)))
    (None : option (list ex_row -> unit -> list ex_row * unit * bool)) ex_fs tt (segbuf_empty : @segbuf Z) 0%nat (None : option (list row -> unit -> list row * unit * bool)) gr_fs tt (segbuf_empty : @segbuf Z) 0%nat
    0 false (ex_start [co_A], gr_start [co_C]) co_links = Ok (g, g') /\
  results_of 0 false g = Ok ds /\ all_rows ds = co_results /\ all_batch (fun _ => Znum) gr_val ex_dtypes (col 0) ex_enc gr_gs [co_C] ex_map ex_map co_results g'.
Proof.
  destruct (shown_ok _ _ (fun g => match results_of 0 false g with Ok ds => Some (all_rows ds) | Err _ => None end)
    (run_all ex_idx (fun _ => true) (fun f => Z.of_nat (length (rows f))) (None : option (list ex_row -> unit -> list ex_row * unit * bool)) ex_fs tt (segbuf_empty : @segbuf Z) 0%nat (ex_start [co_A]) (runs_of co_links))
    (Some co_results) ltac:(vm_cast_no_check (eq_refl (Some (Some co_results))))) as (g0 & E0 & F0).
  assert (Hr : forall ds, results_of 0 false g0 = Ok ds -> all_rows ds = co_results).
  { intros ds Hd. rewrite Hd in F0. injection F0 as F0. exact F0. }
  assert (Gr : growing ex_idx [] (runs_of co_links)).
  { repeat split; try (apply IterProofs.sortedb_iff; vm_compute; reflexivity); try (apply ex_chunks; reflexivity); extended. }
  destruct (C77_accepted (fun _ => Znum) ex_val ex_dtypes ex_idx ex_enc (fun _ => true) (fun f => Z.of_nat (length (rows f))) None ex_fs ex_gs tt 0%nat [co_A] ex_map ex_map
    (fun _ => Znum) gr_val ex_dtypes ex_enc (fun f => Z.of_nat (length (rows f))) None gr_fs gr_gs tt 0%nat [co_C] ex_map ex_map 0 co_A false co_links 1 1) as (g & g' & ds & E & E1 & H1 & H2 & H3).
  - exact I.
  - apply ex_filters_are.
  - exact Gr.
  - intros c [<-|[]]. split; [apply (ex_conf_ok ex_A); left; reflexivity|]. split; [apply (ex_mok ex_C); right; right; left; reflexivity|].
    eexists. split; [left; reflexivity|exact I].
  - reflexivity.
  - repeat split; auto.
  - lia.
  - intro f. lia.
  - intros c keep [<-|[]] Hk. split; [reflexivity|]. split; [intros z H; injection H as <-; lia|]. split; [intros z H; discriminate|]. split; [exact I|].
    assert (Hk' : keep = (fun _ => true)) by (destruct Hk as [Hk|[Hk|[]]]; [injection Hk as <-; auto|discriminate]). subst keep. split.
    + apply never_zero_pos; [reflexivity|vm_compute; reflexivity].
    + unfold enough_memory. vm_compute. discriminate.
  - reflexivity.
  - discriminate.
  - exact I.
  - apply gr_filters_are.
  - repeat split; auto.
  - lia.
  - intro f. lia.
  - intros g ds Eg Hd. assert (Q : Ok g = Ok g0) by (exact (eq_trans (eq_sym Eg) E0)). injection Q as ->. apply Hr in Hd. rewrite Hd. split.
    + intros c [<-|[]]. split; [apply (ex_conf_ok ex_C); right; right; left; reflexivity|]. split; [apply (gr_mok ex_C); right; right; left; reflexivity|].
      eexists. split; [left; reflexivity|]. apply gr_no_straddle; [lia|]. vm_compute. reflexivity.
    + intros c keep [<-|[]] Hk. split; [reflexivity|]. split; [intros z H; injection H as <-; lia|]. split; [intros z H; discriminate|]. split; [exact I|].
      assert (Hk' : keep = (fun _ => true)) by (destruct Hk as [Hk|[Hk|[]]]; [injection Hk as <-; auto|discriminate]). subst keep. split.
      * apply gr_never_zero; [reflexivity|]. intros r Hi. apply Z.ltb_lt. revert r Hi. apply forallb_forall. vm_compute. reflexivity.
      * unfold enough_memory. vm_compute. discriminate.
  - discriminate.
  - intros l [<-|[<-|[]]]; split; try reflexivity; discriminate.
  - exists g, g', ds. split; [exact E|]. split; [exact H2|]. assert (Q : g = g0).
    { assert (Q : Ok g = Ok g0) by exact (eq_trans (eq_sym E1) E0). injection Q as ->. reflexivity. }
    subst g. split; [apply Hr; exact H2|]. rewrite <- (Hr ds H2). apply H3. reflexivity.
Qed.
