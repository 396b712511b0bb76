(** Properties of streams whose results are ordered on another column than labels of bins. *)
Require Import List Arith ZArith Bool Lia Sorting.Sorted.
Require Import Verif.Common Verif.AggModel Verif.AggSpec Verif.SegModel Verif.SegSpec Verif.CsaModel Verif.CsaSpec Verif.WrModel Verif.StreamModel Verif.RaiseModel Verif.StreamSpec
  Verif.KeyModel Verif.BatchSpec Verif.OrderModel Verif.OrderSpec Verif.OrderProofs Verif.BatchKeyProofs Verif.PropBatch.
Require Import Verif.RecordProofs Verif.BatchHoldProofs.
Require Verif.IterProofs.
Import ListNotations.
Local Open Scope Z_scope.

(** ** C81: results ordered on another column than labels *)

(** Whatever the runs, the chunks of seed data, the filters, the intermediate writes: once the last run has written its
    results, each key holds the results of a single aggregation of its rows, provided that the column results are ordered on
    has the same order as labels, in all results which may be written. *)
Theorem C81_streamed_is_batch : forall {D V P PB} (N : dtype -> num V) val dtypes (idx : D -> Z) enc truthy usage
    (pre : option (list D -> P -> list D * P * bool)) fs gs pre0 post0 (confs : list (oconf PB)) m ms rs g,
  harmless pre -> filters_are fs gs -> growing idx [] rs -> order_stream_ok N val dtypes idx enc gs confs m ms (whole_seed [] rs) ->
  ((forall o, In o confs -> c_nirgs (o_conf o) = None) \/ ((forall i, truthy i = true) /\ all_written true rs)) ->
  run_all idx truthy usage pre fs pre0 segbuf_empty post0 (new_stream pre0 segbuf_empty post0 (map (order_key N val dtypes idx enc) confs)) rs = Ok g ->
  rs <> [] -> r_final (last rs (mkRun false false [])) = true ->
  order_batch N val dtypes idx enc gs confs m ms (whole_seed [] rs) g.
Proof. intros. eapply order_run; eauto. Qed.
Print Assumptions C81_streamed_is_batch.

(** The same with runs which are interrupted after any number of writes, once all keys have results. *)
Theorem C81_interrupted_is_batch : forall {D V P PB} (N : dtype -> num V) val dtypes (idx : D -> Z) enc truthy usage
    (pre : option (list D -> P -> list D * P * bool)) fs gs pre0 post0 (confs : list (oconf PB)) m ms rs g0 xs g r,
  harmless pre -> filters_are fs gs -> growing idx [] rs -> growing idx (whole_seed [] rs) (map run_of xs) ->
  order_stream_ok N val dtypes idx enc gs confs m ms (whole_seed (whole_seed [] rs) (map run_of xs)) ->
  (forall o, In o confs -> type_of (o_conf o) <> BOTH /\ c_nirgs (o_conf o) = None) ->
  run_all idx truthy usage pre fs pre0 segbuf_empty post0 (new_stream pre0 segbuf_empty post0 (map (order_key N val dtypes idx enc) confs)) rs = Ok g0 ->
  (forall s, In s (map snd (g_keys g0)) -> s_main s <> None) ->
  restarted false xs -> step_all idx truthy usage pre fs pre0 segbuf_empty post0 g0 xs = Ok g ->
  last xs (Complete (mkRun false false [])) = Complete r -> r_final r = true ->
  order_batch N val dtypes idx enc gs confs m ms (whole_seed (whole_seed [] rs) (map run_of xs)) g.
Proof. intros. eapply order_steps; eauto. Qed.
Print Assumptions C81_interrupted_is_batch.

(** Nothing is raised under the conditions of C50_accepted, and if the column results are ordered on is one of them. *)
Theorem C81_accepted : forall {D V P PB} (N : dtype -> num V) val dtypes (idx : D -> Z) enc truthy usage
    (pre : option (list D -> P -> list D * P * bool)) fs gs pre0 post0 (confs : list (oconf PB)) m ms rs w,
  harmless pre -> filters_are fs gs -> growing idx [] rs -> order_stream_ok N val dtypes idx enc gs confs m ms (whole_seed [] rs) ->
  (forall i, truthy i = true) -> all_written true rs -> 0 <= w -> (forall f, usage f <= w * Z.of_nat (S (length (rows f)))) ->
  (forall o keep, In o confs -> In (c_filter (o_conf o), keep) gs -> order_accepted_conf N val dtypes idx o w (chunks_between 0 rs) (given idx keep (whole_seed [] rs))) ->
  exists g, run_all idx truthy usage pre fs pre0 segbuf_empty post0 (new_stream pre0 segbuf_empty post0 (map (order_key N val dtypes idx enc) confs)) rs = Ok g /\
    (rs <> [] -> r_final (last rs (mkRun false false [])) = true -> order_batch N val dtypes idx enc gs confs m ms (whole_seed [] rs) g).
Proof.
  intros D V P PB N val dtypes idx enc truthy usage pre fs gs pre0 post0 confs m ms rs w Hp Hf Hg Hok Hq Hw Hw0 Hu Ha.
  destruct (order_accepted N val dtypes idx enc truthy usage pre fs gs pre0 post0 confs m ms rs w Hp Hf Hg Hok Hq Hw Hw0 Hu Ha) as [g E].
  exists g. split; [exact E|]. intros. eapply C81_streamed_is_batch; eauto.
Qed.
Print Assumptions C81_accepted.

(** This is the case of bins ordered on the first value of the column seed data is ordered on, be bins periods of time, each with
    a row, or a number of rows; 'post' does not change this column. *)
Theorem C81_first_value : forall {D V PB} (N : dtype -> num V) val dtypes (idx : D -> Z) enc (o : oconf PB) m ms data,
  conf_ok dtypes (o_conf o) -> sorted (map idx data) -> no_tie idx (o_conf o) data -> no_empty_bin idx (o_conf o) data -> on_first val idx enc o data ->
  (forall r, col 0 (m r) = col 0 r) -> (forall r, col (o_on o) (m r) = col (o_on o) r) ->
  order_kept N val dtypes idx enc o m ms data.
Proof. intros. apply first_kept; auto. Qed.
Print Assumptions C81_first_value.

(** *** Concrete cases *)
(** Values are those of the index (column 2), and those of another column (column 1). Bins of 5 units of time, with a
    post-processing, and bins of 3 rows, whose duplicates are rows with the same first time stamp. *)
Definition or_val (r : ex_row) (i : cname) : Z := match i with 2%nat => fst r | _ => snd r end.
Definition or_dtypes := [(1%nat, DInt64); (2%nat, DDatetime64)].
Definition or_agg (f : afun) : aggspec := [(10%nat, (2%nat, Some f)); (11%nat, (1%nat, Some Sum))].
Definition or_m (r : row) : row := match r with [l; a; b] => [l; a; 2 * b] | _ => r end.
Definition or_post : nat -> WrModel.frame -> option WrModel.frame -> res (post_res * nat) :=
  fun n f sn => Ok (POne (Some (WrModel.mkFrame 3 (map or_m (rows (match sn with Some s => s | None => f end))))), S n).
Definition or_A : oconf nat := mkOconf (mkBconf 0 (or_agg First) (ByTime ex_tg) None false (Some or_post) 2 (Some 2) None None) 1 [0%nat].
Definition or_B : oconf nat := mkOconf (mkBconf 1 (or_agg First) (ByRows 3 SLeft) None false None 2 (Some 2) None None) 1 [1%nat].
Definition or_map (o : oconf nat) : row -> row := match c_post (o_conf o) with None => fun r => r | Some _ => or_m end.
Notation or_key := (@order_key ex_row Z nat (fun _ => Znum) or_val or_dtypes ex_idx ex_enc).
Notation or_start cs := (new_stream tt (segbuf_empty : @segbuf Z) 0%nat (map or_key cs) : stream ex_row unit (@segbuf Z) nat).
Definition or_seed1 : list (list ex_row) := [[(1,1);(2,2);(2,4)]; [(3,4);(4,5)]; [(5,6);(8,4);(8,8)]].
Definition or_seed2 : list (list ex_row) := [concat (firstn 2 or_seed1) ++ [(5,6)]; [(8,8);(9,8)]; [(11,10);(12,11);(13,12)]; [(16,12);(17,14)]; [(20,13);(21,2)]].
Definition or_seed3 : list (list ex_row) := [firstn 9 (concat or_seed2); skipn 9 (concat or_seed2) ++ [(22,16);(25,18)]; [(26,20);(27,1)]].
Definition or_runs := [mkRun true true or_seed1; mkRun false false or_seed2; mkRun true true or_seed3].
Lemma or_post_ok : forall o, In o [or_A; or_B] -> post_is (or_key o) (or_map o) (or_map o).
Proof.
  intros o [<-|[<-|[]]]; (split; [|split]); unfold or_map; cbn [c_post o_conf or_A or_B]; auto; try (intros [|a [|b [|d [|e r]]]]; reflexivity); try (split; auto).
  intros pb f sn r pb' E. injection E as <- <-. exists 3%nat, 3%nat. destruct sn; cbn; auto.
Qed.
Lemma or_conf_ok : forall o, In o [or_A; or_B] -> conf_ok or_dtypes (o_conf o).
Proof.
  intros o Ho. assert (c_agg (o_conf o) = or_agg First) as Ea by (destruct Ho as [<-|[<-|[]]]; auto). unfold conf_ok. rewrite Ea. split; [|split; [|split]].
  - intros a i f [H|[H|[]]]; injection H as <- <- <-; split; try discriminate; eexists; reflexivity.
  - simpl. repeat constructor; simpl; intuition lia.
  - discriminate.
  - destruct Ho as [<-|[<-|[]]]; split; cbn [c_snap c_by o_conf or_A or_B]; try lia; try (intros s0 H; discriminate); split; [reflexivity|exact I].
Qed.
Fixpoint or_next (kap : Z -> Z) (l : list ex_row) : bool := match l with a :: (b :: _) as t => (kap (fst b) <=? kap (fst a) + 1) && or_next kap t | _ => true end.
Lemma or_next_ok : forall kap l, or_next kap l = true -> forall l1 a b l2, l = l1 ++ a :: b :: l2 -> kap (ex_idx b) <= kap (ex_idx a) + 1.
Proof.
  intros kap l H l1. revert l H. induction l1 as [|x l1 IH]; intros l H a b l2 ->.
  - cbn in H. apply andb_prop in H as [H _]. apply Z.leb_le in H. exact H.
  - apply (IH (l1 ++ a :: b :: l2)) with (l2 := l2); [|reflexivity]. cbn [app or_next] in H. destruct (l1 ++ a :: b :: l2) eqn:E; [destruct l1; discriminate|]. apply andb_prop in H as [_ H]. exact H.
Qed.
Example or_first : forall o, In o [or_A; or_B] -> forall keep, In (c_filter (o_conf o), keep) ex_gs -> on_first or_val ex_idx ex_enc o (given ex_idx keep (whole_seed [] or_runs)) /\
  no_empty_bin ex_idx (o_conf o) (given ex_idx keep (whole_seed [] or_runs)) /\ no_tie ex_idx (o_conf o) (given ex_idx keep (whole_seed [] or_runs)).
Proof.
  intros o Ho keep Hk. split.
  - split; [destruct Ho as [<-|[<-|[]]]; reflexivity|]. exists 0%nat, 10%nat, 2%nat. split; [destruct Ho as [<-|[<-|[]]]; reflexivity|]. split; [destruct Ho as [<-|[<-|[]]]; reflexivity|]. intros a b _ _. reflexivity.
  - destruct Hk as [E|[E|[]]]; injection E as E1 <-; destruct Ho as [<-|[<-|[]]]; try discriminate E1; split; try exact I.
    + unfold no_empty_bin. cbn [c_by o_conf or_A]. apply (or_next_ok (kappa (tg_closed ex_tg) (anchor ex_tg) (tg_freq ex_tg))). vm_compute. reflexivity.
    + apply ex_no_straddle; [lia|]. vm_compute. reflexivity.
Qed.
Example or_growing : growing ex_idx [] or_runs.
Proof.
  repeat split; try (apply IterProofs.sortedb_iff; reflexivity); try (apply ex_chunks; reflexivity).
  - extended.
  - extended.
  - extended.
Qed.
Example or_stream_ok : order_stream_ok (fun _ => Znum) or_val or_dtypes ex_idx ex_enc ex_gs [or_A; or_B] or_map or_map (whole_seed [] or_runs).
Proof.
  intros o Ho. split; [apply or_conf_ok; auto|]. split; [destruct Ho as [<-|[<-|[]]]; (split; [discriminate|intros x Hx; simpl in *; tauto])|]. split; [apply or_post_ok; auto|].
  assert (K : exists keep, In (c_filter (o_conf o), keep) ex_gs) by (destruct Ho as [<-|[<-|[]]]; eexists; [left; reflexivity|right; left; reflexivity]). destruct K as [keep K].
  exists keep. split; auto. destruct (or_first o Ho keep K) as (F1 & F2 & F3). split; auto.
  apply C81_first_value; auto.
  - apply or_conf_ok; auto.
  - apply IterProofs.sorted_filter. apply IterProofs.sortedb_iff. reflexivity.
  - intros r. apply (or_post_ok o Ho).
  - intros r. destruct Ho as [<-|[<-|[]]]; [|reflexivity]. unfold or_map. cbn. destruct r as [|a [|b [|d [|e r]]]]; reflexivity.
Qed.
Definition or_expected : list (list row * list row) := [([[0; 1; 32]; [5; 5; 44]; [10; 11; 66]; [15; 16; 52]; [20; 20; 62]; [25; 25; 76]], []); ([[2; 2; 10]; [5; 5; 22]; [11; 11; 34]; [17; 17; 32]; [25; 25; 38]], [])].
(** Three runs, with intermediate writes, the last one with a new instance. Results of both keys are ordered on the first time stamp of bins. *)
Example ex_C81 : exists g, ex_run (or_start [or_A; or_B]) or_runs = Ok g /\ order_batch (fun _ => Znum) or_val or_dtypes ex_idx ex_enc ex_gs [or_A; or_B] or_map or_map (concat or_seed3) g /\ ex_data g = or_expected.
Proof.
  destruct (shown_ok _ _ ex_data (ex_run (or_start [or_A; or_B]) or_runs) or_expected ltac:(vm_cast_no_check (eq_refl (Some or_expected)))) as (g & E & Ed). exists g. split; [exact E|]. split; [|exact Ed].
  change (concat or_seed3) with (whole_seed [] or_runs). eapply C81_streamed_is_batch; try exact E; auto.
  - exact I.
  - apply ex_filters_are.
  - apply or_growing.
  - apply or_stream_ok.
  - left. intros o [<-|[<-|[]]]; auto.
  - discriminate.
Qed.
(** Runs of one instance, 8 chunks being given between the two final writes. *)
Definition or_more (o : oconf nat) : oconf nat :=
  let c := o_conf o in mkOconf (mkBconf (c_filter c) (c_agg c) (c_by c) (c_snap c) (c_two c) (c_post c) 32 (c_size c) (c_size_snap c) (c_nirgs c)) (o_on o) (o_dup o).
Definition or_runs1 := [mkRun true true or_seed1; mkRun false false or_seed2; mkRun false true or_seed3].
Lemma or_never_zero : forall (c : bconf nat) l, c_agg c = or_agg First -> forallb (fun r : ex_row => (0 <? fst r) && (0 <? snd r)) l = true -> never_zero (fun _ => Znum) or_val or_dtypes c l.
Proof.
  intros c l Ec H. assert (P : forall i l0, incl l0 l -> Forall (fun v => 0 < v) (map (fun r => or_val r i) l0)).
  { intros i l0 Hl. apply Forall_forall. intros v Hv. apply in_map_iff in Hv as (r & <- & Hr). rewrite forallb_forall in H. specialize (H r (Hl r Hr)). apply andb_prop in H as [H1 H2]. apply Z.ltb_lt in H1, H2.
    unfold or_val. destruct i as [|[|[|i]]]; assumption. }
  assert (F : forall t x, 0 < x -> Forall (fun v => 0 < v) t -> 0 < fold_left Z.add t x).
  { induction t as [|y t IH]; intros x Hx Ht; [auto|]. cbn [fold_left]. apply Forall_cons_iff in Ht as [Hy Ht]. apply IH; auto. lia. }
  intros o i f d l0 v Hin Hd Hl Hv. rewrite Ec in Hin. unfold agg_of in Hv. specialize (P i l0 Hl). destruct (map (fun r => or_val r i) l0) as [|x t]; [destruct f; discriminate|].
  apply Forall_cons_iff in P as [Px Pt].
  assert (V0 : 0 < v) by (destruct Hin as [Hin|[Hin|[]]]; injection Hin as <- <- <-; cbn [spec_agg] in Hv; injection Hv as <-; [exact Px|apply (F t x); auto]).
  cbn [is0 Znum]. apply Z.eqb_neq. intro Ev. rewrite Ev in V0. exact (Z.lt_irrefl _ V0).
Qed.
Example ex_C81_accepted : exists g, run_all ex_idx (fun _ => true) (fun f => Z.of_nat (length (rows f))) (None : option (list ex_row -> unit -> list ex_row * unit * bool)) ex_fs tt segbuf_empty 0%nat (or_start [or_more or_A; or_more or_B]) or_runs1 = Ok g /\
  order_batch (fun _ => Znum) or_val or_dtypes ex_idx ex_enc ex_gs [or_more or_A; or_more or_B] or_map or_map (concat or_seed3) g.
Proof.
  assert (I : forall o, In o [or_more or_A; or_more or_B] -> exists o', In o' [or_A; or_B] /\ o = or_more o') by (intros o [<-|[<-|[]]]; eexists; split; try reflexivity; simpl; auto).
  destruct (C81_accepted (fun _ => Znum) or_val or_dtypes ex_idx ex_enc (fun _ => true) (fun f => Z.of_nat (length (rows f)))
    (None : option (list ex_row -> unit -> list ex_row * unit * bool)) ex_fs ex_gs tt 0%nat [or_more or_A; or_more or_B] or_map or_map or_runs1 1) as (g & E & B).
  - exact Logic.I.
  - apply ex_filters_are.
  - repeat split; try (apply IterProofs.sortedb_iff; vm_compute; reflexivity); try (apply ex_chunks; reflexivity); extended.
  - change (whole_seed [] or_runs1) with (whole_seed [] or_runs). intros o Ho. destruct (I o Ho) as (o' & Ho' & ->). exact (or_stream_ok o' Ho').
  - reflexivity.
  - repeat split; auto.
  - lia.
  - intro f. lia.
  - change (whole_seed [] or_runs1) with (whole_seed [] or_runs). intros o keep Ho Hk. destruct (I o Ho) as (o' & Ho' & ->).
    assert (Ea : c_agg (o_conf (or_more o')) = or_agg First) by (destruct Ho' as [<-|[<-|[]]]; auto).
    split; [destruct Ho' as [<-|[<-|[]]]; cbn; lia|]. split; [destruct Ho' as [<-|[<-|[]]]; auto|].
    split; [intros z Hz; destruct Ho' as [<-|[<-|[]]]; injection Hz as <-; lia|]. split; [intros z Hz; destruct Ho' as [<-|[<-|[]]]; discriminate|].
    split; [destruct Ho' as [<-|[<-|[]]]; [|exact Logic.I]; intros pb f sn; do 2 eexists; split; [reflexivity|]; vm_compute; lia|].
    split; [|unfold enough_memory; destruct Ho' as [<-|[<-|[]]]; vm_compute; discriminate].
    apply or_never_zero; auto. destruct Hk as [Hk|[Hk|[]]]; injection Hk as _ <-; vm_compute; reflexivity.
  - exists g. split; [exact E|]. apply B; [discriminate|reflexivity].
Qed.
(** A run which is interrupted after an intermediate write of the first key, then a last one with a new instance. *)
Definition or_steps := [Interrupted (mkRun true true or_seed2) [1%nat; 0%nat]; Complete (mkRun true true or_seed3)].
Example ex_C81_interrupted : exists g0 g, ex_run (or_start [or_A; or_B]) [mkRun true true or_seed1] = Ok g0 /\ ex_step g0 or_steps = Ok g /\
  order_batch (fun _ => Znum) or_val or_dtypes ex_idx ex_enc ex_gs [or_A; or_B] or_map or_map (concat or_seed3) g /\ ex_data g = or_expected.
Proof.
  destruct (shown_ok _ _ (fun g0 => (forallb (fun s => match s_main s with Some _ => true | None => false end) (map snd (g_keys g0)), shown ex_data (ex_step g0 or_steps)))
    (ex_run (or_start [or_A; or_B]) [mkRun true true or_seed1]) (true, Some or_expected) ltac:(vm_cast_no_check (eq_refl (Some (true, Some or_expected))))) as (g0 & E0 & Ed0).
  injection Ed0 as Em Ed0. destruct (shown_ok _ _ ex_data _ _ Ed0) as (g & E & Ed). exists g0, g. split; [exact E0|]. split; [exact E|]. split; [|exact Ed].
  change (concat or_seed3) with (whole_seed (whole_seed [] [mkRun true true or_seed1]) (map run_of or_steps)).
  refine (C81_interrupted_is_batch (fun _ => Znum) or_val or_dtypes ex_idx ex_enc ex_truthy (fun f => Z.of_nat (length (rows f))) None ex_fs ex_gs tt 0%nat [or_A; or_B] or_map or_map
    [mkRun true true or_seed1] g0 or_steps g (mkRun true true or_seed3) I ex_filters_are _ _ or_stream_ok _ E0 _ _ E eq_refl eq_refl).
  - repeat split; try (apply IterProofs.sortedb_iff; reflexivity); try (apply ex_chunks; reflexivity); extended.
  - repeat split; try (apply IterProofs.sortedb_iff; reflexivity); try (apply ex_chunks; reflexivity); extended.
  - intros o [<-|[<-|[]]]; split; auto; discriminate.
  - intros s Hs Q. rewrite forallb_forall in Em. specialize (Em s Hs). rewrite Q in Em. discriminate.
  - repeat split; auto.
Qed.

(** *** Last value *)
(** Bins ordered on the last time stamp of their rows, as in unit test 'test_seed_time_grouper_bin_on_as_tuple'
    (tests/test_aggstream/test_aggstream_simple.py), do not hold: the results of the bin in progress at the end of a run are kept when the
    next run completes it, their time stamp not being that of the bin once complete. The bin is twice in results. *)
Definition or_L : oconf nat := mkOconf (mkBconf 0 (or_agg Last) (ByTime ex_tg) None false None 100 (Some 2) None None) 1 [0%nat].
Lemma or_stored : forall o os seed (g : stream ex_row unit (@segbuf Z) nat) kp, order_batch (fun _ => Znum) or_val or_dtypes ex_idx ex_enc ex_gs (o :: os) or_map or_map seed g ->
  In (c_filter (o_conf o), kp) ex_gs -> given ex_idx kp seed <> [] -> type_of (o_conf o) = BINS ->
  exists bins, batch (fun _ => Znum) or_val or_dtypes ex_idx (o_conf o) (given ex_idx kp seed) = Ok (Some (bins, None)) /\ stored g 0 = Some (map (or_map o) (rows (table ex_enc (c_agg (o_conf o)) bins))).
Proof.
  intros o os seed g kp B Hk Hn Ht. destruct (B 0%nat o eq_refl) as (b & s & Ei & Hh). specialize (Hh kp Hk). apply holds_batch_as in Hh. unfold typed_batch in Hh.
  destruct (given ex_idx kp seed) as [|r l] eqn:Eg; [congruence|]. destruct Hh as (bins & snaps & E & Hr). rewrite Ht in Hr. destruct snaps; [contradiction|].
  exists bins. split; auto. unfold stored. rewrite Ei. cbn. f_equal. exact Hr.
Qed.
Lemma or_L_ok : conf_ok or_dtypes (o_conf or_L).
Proof.
  split; [|split; [|split; [|split]]].
  - intros a i f [H|[H|[]]]; injection H as <- <- <-; split; try discriminate; eexists; reflexivity.
  - simpl. repeat constructor; simpl; intuition lia.
  - discriminate.
  - intros s H. discriminate.
  - split; [reflexivity|exact I].
Qed.
Theorem C81_last_value_refuted : exists rs g, growing ex_idx [] rs /\ conf_ok or_dtypes (o_conf or_L) /\ ex_run (or_start [or_L]) rs = Ok g /\ r_final (last rs (mkRun false false [])) = true /\
  ~ order_batch (fun _ => Znum) or_val or_dtypes ex_idx ex_enc ex_gs [or_L] or_map or_map (whole_seed [] rs) g /\
  stored g 0 = Some [[0; 2; 3]; [0; 3; 6]].
Proof.
  set (rs := [mkRun true true [[(1,1);(2,2);(3,3)]]; mkRun false true [[(1,1);(2,2);(3,3);(4,4)]]]).
  destruct (shown_ok _ _ (fun g => stored g 0) (ex_run (or_start [or_L]) rs) (Some [[0; 2; 3]; [0; 3; 6]]) ltac:(vm_cast_no_check (eq_refl (Some (Some [[0; 2; 3]; [0; 3; 6]]))))) as (g & E & Ed). exists rs, g.
  split; [|split; [|split; [exact E|split; [reflexivity|split; [|exact Ed]]]]].
  - repeat split; try (apply IterProofs.sortedb_iff; reflexivity); try (apply ex_chunks; reflexivity); extended.
  - apply or_L_ok.
  - intro B. destruct (or_stored _ _ _ _ (fun _ => true) B (or_introl eq_refl)) as (bi & F & H); [vm_compute; discriminate|reflexivity|].
    rewrite Ed in H. vm_compute in F. injection F as <-. vm_compute in H. discriminate.
Qed.
Print Assumptions C81_last_value_refuted.

(** The same with results in order of labels, if 'duplicates_on' has a column with aggregated values: here their sum. *)
Definition or_S : oconf nat := mkOconf (mkBconf 0 (or_agg Last) (ByTime ex_tg) None false None 100 (Some 2) None None) 0 [0%nat; 2%nat].
Theorem C81_duplicates_refuted : exists rs g, growing ex_idx [] rs /\ conf_ok or_dtypes (o_conf or_S) /\ ex_run (or_start [or_S]) rs = Ok g /\ r_final (last rs (mkRun false false [])) = true /\
  ~ order_batch (fun _ => Znum) or_val or_dtypes ex_idx ex_enc ex_gs [or_S] or_map or_map (whole_seed [] rs) g /\
  stored g 0 = Some [[0; 2; 3]; [0; 3; 6]].
Proof.
  set (rs := [mkRun true true [[(1,1);(2,2);(3,3)]]; mkRun false true [[(1,1);(2,2);(3,3);(4,4)]]]).
  destruct (shown_ok _ _ (fun g => stored g 0) (ex_run (or_start [or_S]) rs) (Some [[0; 2; 3]; [0; 3; 6]]) ltac:(vm_cast_no_check (eq_refl (Some (Some [[0; 2; 3]; [0; 3; 6]]))))) as (g & E & Ed). exists rs, g.
  split; [|split; [|split; [exact E|split; [reflexivity|split; [|exact Ed]]]]].
  - repeat split; try (apply IterProofs.sortedb_iff; reflexivity); try (apply ex_chunks; reflexivity); extended.
  - apply or_L_ok.
  - intro B. destruct (or_stored _ _ _ _ (fun _ => true) B (or_introl eq_refl)) as (bi & F & H); [vm_compute; discriminate|reflexivity|].
    rewrite Ed in H. vm_compute in F. injection F as <-. vm_compute in H. discriminate.
Qed.
Print Assumptions C81_duplicates_refuted.

(** When 'post' drops the column of labels, as in unit test 'test_different_ordered_on' (tests/test_aggstream/test_aggstream_simple.py), which
    is in 'duplicates_on' by default, results can be recorded once, but not updated: the next run raises. Here the only column in results is
    the first time stamp of bins, the column of labels being at no position. *)
Definition or_drop : nat -> WrModel.frame -> option WrModel.frame -> res (post_res * nat) :=
  fun n f _ => Ok (POne (Some (WrModel.mkFrame 1 (map (fun r => [col 1 r]) (rows f)))), n).
Definition or_X : oconf nat := mkOconf (mkBconf 0 (or_agg First) (ByTime ex_tg) None false (Some or_drop) 100 (Some 2) None None) 0 [1%nat].
Definition or_err {A} (r : res A) : option exn := match r with Err e => Some e | Ok _ => None end.
Lemma or_err_is : forall A (r : res A) e, or_err r = Some e -> r = Err e.
Proof. intros A [x|e'] e H; inversion H; auto. Qed.
Lemma or_X_ok : conf_ok or_dtypes (o_conf or_X).
Proof.
  split; [|split; [|split; [|split]]].
  - intros a i f [H|[H|[]]]; injection H as <- <- <-; split; try discriminate; eexists; reflexivity.
  - simpl. repeat constructor; simpl; intuition lia.
  - discriminate.
  - intros s H. discriminate.
  - split; [reflexivity|exact I].
Qed.
Theorem C81_dropped_labels_refuted : exists r1 r2 g, growing ex_idx [] [r1; r2] /\ conf_ok or_dtypes (o_conf or_X) /\ ex_run (or_start [or_X]) [r1] = Ok g /\ stored g 0 = Some [[1]; [5]] /\
  ex_run g [r2] = Err KeyError.
Proof.
  exists (mkRun true true [[(1,1);(2,2);(5,3);(6,4)]]), (mkRun false true [[(1,1);(2,2);(5,3);(6,4);(7,5)]]).
  destruct (shown_ok _ _ (fun g => (stored g 0, or_err (ex_run g [mkRun false true [[(1,1);(2,2);(5,3);(6,4);(7,5)]]]))) (ex_run (or_start [or_X]) [mkRun true true [[(1,1);(2,2);(5,3);(6,4)]]])
    (Some [[1]; [5]], Some KeyError) ltac:(vm_cast_no_check (eq_refl (Some (Some [[1]; [5]], Some KeyError))))) as (g & E & Ed).
  injection Ed as Ed Er. exists g. split; [|split; [apply or_X_ok|split; [exact E|split; [exact Ed|]]]].
  - repeat split; try (apply IterProofs.sortedb_iff; reflexivity); try (apply ex_chunks; reflexivity); extended.
  - apply or_err_is. exact Er.
Qed.
Print Assumptions C81_dropped_labels_refuted.
