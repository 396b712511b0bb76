(** C81: calls which are given new data only, results being ordered on another column than labels of bins. *)
Require Import List Arith ZArith Bool Lia Sorting.Sorted.
Require Import Verif.Common Verif.AggModel Verif.AggSpec Verif.SegModel Verif.SegSpec Verif.CsaModel Verif.CsaSpec Verif.WrModel Verif.StreamModel Verif.RaiseModel Verif.StreamSpec
  Verif.KeyModel Verif.TableProofs Verif.BatchSpec Verif.BatchProofs Verif.BatchRunProofs Verif.BatchKeyProofs Verif.BatchHoldProofs Verif.BatchOkProofs Verif.UserKeyProofs Verif.PropBatch
  Verif.FeedSpec Verif.FeedProofs Verif.FeedOkProofs Verif.PropFeed Verif.OrderModel Verif.OrderSpec Verif.OrderProofs Verif.RecordProofs Verif.PropOrder.
Require Verif.IterProofs.
Import ListNotations.
Local Open Scope Z_scope.

Section Main.
Context {D V P PB : Type}.
Variable N : dtype -> num V.
Variable val : D -> cname -> V.
Variable dtypes : list (cname * dtype).
Variable idx : D -> Z.
Variable enc : option V -> Z.
Variable truthy : Z -> bool.
Variable usage : WrModel.frame -> Z.
Variable pre : option (list D -> P -> list D * P * bool).
Variables (fs : @filters D) (gs : list (nat * (D -> bool))).
Variables (pre0 : P) (post0 : PB).
Variable confs : list (oconf PB).
Variables (m ms : oconf PB -> row -> row).
Notation order_key := (@order_key D V PB N val dtypes idx enc).
Notation oT := (oT N val dtypes idx enc).
Notation oTS := (oTS N val dtypes idx enc).
Notation oInv := (oInv N val dtypes idx).
Notation okeep := (okeep gs).
Notation ogood := (ogood N val dtypes idx enc m ms).
Notation start := (new_stream pre0 segbuf_empty post0 (map order_key confs)).

Lemma order_fed_hyps : forall data, filters_are fs gs -> order_fed_ok N val dtypes idx enc gs confs m ms data -> forall o, In o confs -> ogood o (frows okeep o data).
Proof.
  intros data [Hnd _] Hok o Hin. destruct (Hok o Hin) as (_ & _ & _ & kp & Hk & Ht & Ho). unfold frows, OrderProofs.okeep. rewrite (keep_of_is gs (o_conf o) kp Hnd Hk). split; auto.
Qed.

Lemma order_feed : forall cs g, harmless pre -> filters_are fs gs -> sorted (map idx (fed cs)) -> (forall c, In c cs -> forall chunk, In chunk (f_seed c) -> chunk <> []) ->
  order_fed_ok N val dtypes idx enc gs confs m ms (fed cs) ->
  (forall c, In c cs -> f_fresh c = false) \/ ((forall i, truthy i = true) /\ written_first true cs) ->
  feed_all idx truthy usage pre fs pre0 segbuf_empty post0 start cs = Ok g -> cs <> [] -> f_final (last cs (mkCall false false false [])) = true ->
  order_fed_batch N val dtypes idx enc gs confs m ms (fed cs) g.
Proof.
  intros cs g Hp Hf Hs Hch Hok Hc E Hne Hl. destruct (order_keys N val dtypes idx enc gs confs m ms _ Hok) as (T1 & T2 & T3 & T4). pose proof (order_fed_hyps _ Hf Hok) as T5.
  assert (Hw : written_first true cs).
  { destruct Hc as [Hc|[_ Hc]]; auto. clear - Hc. revert Hc. generalize true. induction cs as [|c cs IH]; intros w Hc; cbn [written_first]; auto. split; [|apply IH; intros c' H; apply Hc; right; auto].
    rewrite (Hc c (or_introl eq_refl)). discriminate. }
  assert (Hq : (forall i, truthy i = true) \/ (forall c, In c cs -> f_fresh c = false)) by tauto.
  destruct (new_fmem idx truthy pre0 segbuf_empty post0 order_key confs oT oTS oInv m ms okeep ogood T1 T2 T3 (fed cs)) as [M W].
  pose proof (feed_all_holds idx truthy usage fs gs Hf pre Hp pre0 segbuf_empty post0 order_key confs _ _ _ m ms okeep ogood (ogood_app N val dtypes idx enc m ms) T1 T2 T3 T4 (fed cs) Hs T5 cs [] start g true M (fun _ => W) eq_refl Hch Hw Hq E Hne Hl) as Hh.
  pose proof (feed_all_keys idx truthy usage pre fs pre0 _ post0 _ _ _ E) as Ek. unfold new_stream in Ek. cbn [g_keys] in Ek. rewrite map_map in Ek. cbn [fst] in Ek. rewrite map_id in Ek.
  intros i o Hc0. assert (En : nth_error (map (fun x => fst (fst x)) (g_keys g)) i = Some (order_key o)) by (rewrite Ek, nth_error_map, Hc0; auto).
  rewrite nth_error_map in En. destruct (nth_error (g_keys g) i) as [[[k b] s]|] eqn:Eg; [|discriminate]. cbn [fst option_map] in En. injection En as ->.
  exists b, s. split; auto. intros kp Hkp. destruct (Hh i _ b s Eg) as (o' & _ & Hc' & Hb). rewrite Hc0 in Hc'. injection Hc' as <-. pose proof (nth_error_In _ _ Hc0) as Hin.
  specialize (T5 o Hin). unfold frows, OrderProofs.okeep in Hb, T5. rewrite (keep_of_is gs (o_conf o) kp (proj1 Hf) Hkp) in Hb, T5.
  apply (holds_chans_any N val dtypes idx enc (order_key o)); auto; [apply (Hok o Hin)|]. split; [apply IterProofs.sorted_filter; auto|apply T5].
Qed.

Lemma order_feed_accepted : forall cs w, harmless pre -> filters_are fs gs -> sorted (map idx (fed cs)) -> (forall c, In c cs -> forall chunk, In chunk (f_seed c) -> chunk <> []) ->
  order_fed_ok N val dtypes idx enc gs confs m ms (fed cs) -> (forall i, truthy i = true) -> written_first true cs -> 0 <= w -> (forall f, usage f <= w * Z.of_nat (S (length (rows f)))) ->
  (forall o kp, In o confs -> In (c_filter (o_conf o), kp) gs -> order_accepted_conf N val dtypes idx o w (calls_between 0 cs) (filter kp (fed cs))) ->
  exists g, feed_all idx truthy usage pre fs pre0 segbuf_empty post0 start cs = Ok g.
Proof.
  intros cs w Hp Hf Hs Hch Hok Hq Hw Hw0 Hu Ha. destruct (order_keys N val dtypes idx enc gs confs m ms _ Hok) as (T1 & T2 & T3 & T4). pose proof (order_fed_hyps _ Hf Hok) as T5.
  assert (A : forall o, In o confs -> order_accepted_conf N val dtypes idx o w (calls_between 0 cs) (frows okeep o (fed cs))) by (intros o Hin; apply Ha; auto; apply (T4 o Hin)).
  assert (K : forall o H, In o confs -> starts H (frows okeep o (fed cs)) -> kok idx (o_conf o) H).
  { intros o H Hin [e E]. split.
    - assert (Z0 : sorted (map idx (frows okeep o (fed cs)))) by (apply IterProofs.sorted_filter; auto). rewrite E in Z0. exact (IterProofs.sorted_app_l idx _ _ Z0).
    - specialize (T5 o Hin). rewrite E in T5. exact (proj1 (ogood_app N val dtypes idx enc m ms o _ _ T5)). }
  destruct (new_fmem idx truthy pre0 segbuf_empty post0 order_key confs oT oTS oInv m ms okeep ogood T1 T2 T3 (fed cs)) as [M W].
  destruct (new_ok (P := P) idx pre0 segbuf_empty post0 order_key confs oT oTS okeep w Hw0) as (_ & N2 & N3).
  refine (feed_all_ok idx truthy usage fs gs Hf pre Hp pre0 segbuf_empty post0 order_key confs oT oTS oInv m ms okeep ogood (ogood_app N val dtypes idx enc m ms) T1 T2 T3 T4 (fed cs) Hs T5 Hq
    _ _ _ _ w Hw0 Hu (calls_between 0 cs) _ cs [] start 0 true M _ N2 (fun _ => conj W N3) eq_refl Hch Hw (le_n _)).
  - intros o H p b Hin Hne Hst Hi. destruct (A o Hin) as (Ho & _ & _ & _ & _ & Hz & _).
    destruct (key_accepts N val dtypes idx enc (o_conf o) (proj1 (Hok o Hin)) H p b Hne (K o _ Hin Hst) Hi) as (f & sn & b' & E & _ & _).
    + intros q i f d l v I1 I2 I3 I4. apply (Hz q i f d l v I1 I2); auto. destruct Hst as [e Ee]. rewrite Ee. apply incl_appl. auto.
    + exists f, sn, b'. split; [exact E|]. destruct (segagg_cols N val dtypes idx enc _ _ _ _ _ _ _ _ E) as [W1 W2]. pose proof (order_reach N val dtypes idx enc o (proj1 (proj2 (Hok o Hin))) Ho) as R.
      unfold wide. rewrite W1. split; [exact R|]. intros s Es. rewrite (W2 s Es). exact R.
  - intros o Hin. destruct (A o Hin) as (_ & _ & _ & _ & H1 & _). unfold post_wide, reach. cbn [k_write k_write_snap OrderModel.order_key]. rewrite Nat.max_id. exact H1.
  - intros o Hin. destruct (A o Hin) as (_ & _ & H1 & H2 & _). cbn. split; [destruct (c_size (o_conf o)); cbn; auto|intros _; destruct (c_size_snap (o_conf o)); cbn; auto].
  - intros o Hin. destruct (A o Hin) as (_ & H1 & _). unfold no_coalescing. cbn. auto.
  - intros o Hin. destruct (A o Hin) as (_ & _ & _ & _ & _ & _ & H1). unfold enough_memory in H1. cbn [k_type k_max OrderModel.order_key]. destruct (type_of (o_conf o)) eqn:Et; auto;
      (rewrite <- (result_rows N val dtypes idx enc (o_conf o) (frows okeep o (fed cs))) in H1; [rewrite Nat.add_assoc in H1; exact H1|apply (Hok o Hin)|apply K; auto; exists []; rewrite app_nil_r; auto|congruence]).
  - apply new_fok; auto.
Qed.
End Main.

(** Calls are given new data only, as in C75, with the same instance or new ones: once the last call has written its results, each key holds
    the results of a single aggregation of all the rows of its filter, provided that the column results are ordered on has the same order as
    labels, in all results which may be written. *)
Theorem C81_fed_is_batch : forall {D V P PB} (N : dtype -> num V) val dtypes (idx : D -> Z) enc truthy usage
    (pre : option (list D -> P -> list D * P * bool)) fs gs pre0 post0 (confs : list (oconf PB)) m ms cs g,
  harmless pre -> filters_are fs gs -> sorted (map idx (fed cs)) -> (forall c, In c cs -> forall chunk, In chunk (f_seed c) -> chunk <> []) ->
  order_fed_ok N val dtypes idx enc gs confs m ms (fed cs) ->
  (forall c, In c cs -> f_fresh c = false) \/ ((forall i, truthy i = true) /\ written_first true cs) ->
  feed_all idx truthy usage pre fs pre0 segbuf_empty post0 (new_stream pre0 segbuf_empty post0 (map (order_key N val dtypes idx enc) confs)) cs = Ok g ->
  cs <> [] -> f_final (last cs (mkCall false false false [])) = true ->
  order_fed_batch N val dtypes idx enc gs confs m ms (fed cs) g.
Proof. intros. eapply order_feed; eauto. Qed.
Print Assumptions C81_fed_is_batch.

(** Such calls raise nothing under the conditions of C75_accepted. *)
Theorem C81_fed_accepted : forall {D V P PB} (N : dtype -> num V) val dtypes (idx : D -> Z) enc truthy usage
    (pre : option (list D -> P -> list D * P * bool)) fs gs pre0 post0 (confs : list (oconf PB)) m ms cs w,
  harmless pre -> filters_are fs gs -> sorted (map idx (fed cs)) -> (forall c, In c cs -> forall chunk, In chunk (f_seed c) -> chunk <> []) ->
  order_fed_ok N val dtypes idx enc gs confs m ms (fed cs) -> (forall i, truthy i = true) -> written_first true cs -> 0 <= w -> (forall f, usage f <= w * Z.of_nat (S (length (rows f)))) ->
  (forall o keep, In o confs -> In (c_filter (o_conf o), keep) gs -> order_accepted_conf N val dtypes idx o w (calls_between 0 cs) (filter keep (fed cs))) ->
  exists g, feed_all idx truthy usage pre fs pre0 segbuf_empty post0 (new_stream pre0 segbuf_empty post0 (map (order_key N val dtypes idx enc) confs)) cs = Ok g /\
    (cs <> [] -> f_final (last cs (mkCall false false false [])) = true -> order_fed_batch N val dtypes idx enc gs confs m ms (fed cs) g).
Proof.
  intros D V P PB N val dtypes idx enc truthy usage pre fs gs pre0 post0 confs m ms cs w Hp Hf Hs Hch Hok Hq Hw Hw0 Hu Ha.
  destruct (order_feed_accepted N val dtypes idx enc truthy usage pre fs gs pre0 post0 confs m ms cs w Hp Hf Hs Hch Hok Hq Hw Hw0 Hu Ha) as [g E].
  exists g. split; [exact E|]. intros. eapply C81_fed_is_batch; eauto.
Qed.
Print Assumptions C81_fed_accepted.

(** *** Concrete cases *)
(** Three calls, the last one with a new instance. Rows with the same time stamp are given in two calls. *)
Definition or_calls : list (@fcall ex_row) := [mkCall false false false [[(1,1);(2,2);(2,4)]; [(3,4);(4,5)]; [(5,6);(8,4)]]; mkCall false true true [[(8,8);(9,8)]; [(11,10);(12,11);(13,12)]];
  mkCall true true true [[(16,12);(17,14)]; [(20,13);(21,2)]]].
Lemma or_calls_first : forall o, In o [or_A; or_B] -> forall keep, In (c_filter (o_conf o), keep) ex_gs -> on_first or_val ex_idx ex_enc o (filter keep (fed or_calls)) /\
  no_empty_bin ex_idx (o_conf o) (filter keep (fed or_calls)) /\ no_tie ex_idx (o_conf o) (filter keep (fed or_calls)).
Proof.
  intros o Ho keep Hk. split.
  - split; [destruct Ho as [<-|[<-|[]]]; reflexivity|]. exists 0%nat, 10%nat, 2%nat. split; [destruct Ho as [<-|[<-|[]]]; reflexivity|]. split; [destruct Ho as [<-|[<-|[]]]; reflexivity|]. intros a b _ _. reflexivity.
  - destruct Hk as [E|[E|[]]]; injection E as E1 <-; destruct Ho as [<-|[<-|[]]]; try discriminate E1; split; try exact I.
    + unfold no_empty_bin. cbn [c_by o_conf or_A]. apply (or_next_ok (kappa (tg_closed ex_tg) (anchor ex_tg) (tg_freq ex_tg))). vm_compute. reflexivity.
    + apply ex_no_straddle; [lia|]. vm_compute. reflexivity.
Qed.
Lemma or_calls_ok : order_fed_ok (fun _ => Znum) or_val or_dtypes ex_idx ex_enc ex_gs [or_A; or_B] or_map or_map (fed or_calls).
Proof.
  intros o Ho. split; [apply or_conf_ok; auto|]. split; [destruct Ho as [<-|[<-|[]]]; (split; [discriminate|intros x Hx; simpl in *; tauto])|]. split; [apply or_post_ok; auto|].
  assert (K : exists keep, In (c_filter (o_conf o), keep) ex_gs) by (destruct Ho as [<-|[<-|[]]]; eexists; [left; reflexivity|right; left; reflexivity]). destruct K as [keep K].
  exists keep. split; auto. destruct (or_calls_first o Ho keep K) as (F1 & F2 & F3). split; auto.
  apply C81_first_value; auto.
  - apply or_conf_ok; auto.
  - apply IterProofs.sorted_filter. apply IterProofs.sortedb_iff. reflexivity.
  - intros r. apply (or_post_ok o Ho).
  - intros r. destruct Ho as [<-|[<-|[]]]; [|reflexivity]. unfold or_map. cbn. destruct r as [|a [|b [|d [|e r]]]]; reflexivity.
Qed.
Example ex_C81_fed : exists g, feed_all ex_idx (fun _ => true) (fun f => Z.of_nat (length (rows f))) (None : option (list ex_row -> unit -> list ex_row * unit * bool)) ex_fs tt segbuf_empty 0%nat (or_start [or_more or_A; or_more or_B]) or_calls = Ok g /\
  order_fed_batch (fun _ => Znum) or_val or_dtypes ex_idx ex_enc ex_gs [or_more or_A; or_more or_B] or_map or_map (fed or_calls) g.
Proof.
  assert (I : forall o, In o [or_more or_A; or_more or_B] -> exists o', In o' [or_A; or_B] /\ o = or_more o') by (intros o [<-|[<-|[]]]; eexists; split; try reflexivity; simpl; auto).
  destruct (C81_fed_accepted (fun _ => Znum) or_val or_dtypes ex_idx ex_enc (fun _ => true) (fun f => Z.of_nat (length (rows f)))
    (None : option (list ex_row -> unit -> list ex_row * unit * bool)) ex_fs ex_gs tt 0%nat [or_more or_A; or_more or_B] or_map or_map or_calls 1) as (g & E & B).
  - exact Logic.I.
  - apply ex_filters_are.
  - apply IterProofs.sortedb_iff. vm_compute. reflexivity.
  - intros c Hc chunk Hk. destruct Hc as [<-|[<-|[<-|[]]]]; cbn in Hk; repeat (destruct Hk as [<-|Hk]; [discriminate|]); destruct Hk.
  - intros o Ho. destruct (I o Ho) as (o' & Ho' & ->). exact (or_calls_ok o' Ho').
  - reflexivity.
  - repeat split; auto; discriminate.
  - lia.
  - intro f. lia.
  - intros o keep Ho Hk. destruct (I o Ho) as (o' & Ho' & ->).
    assert (Ea : c_agg (o_conf (or_more o')) = or_agg First) by (destruct Ho' as [<-|[<-|[]]]; auto).
    split; [destruct Ho' as [<-|[<-|[]]]; cbn; lia|]. split; [destruct Ho' as [<-|[<-|[]]]; auto|].
    split; [intros z Hz; destruct Ho' as [<-|[<-|[]]]; injection Hz as <-; lia|]. split; [intros z Hz; destruct Ho' as [<-|[<-|[]]]; discriminate|].
    split; [destruct Ho' as [<-|[<-|[]]]; [|exact Logic.I]; intros pb f sn; do 2 eexists; split; [reflexivity|]; vm_compute; lia|].
    split; [|unfold enough_memory; destruct Ho' as [<-|[<-|[]]]; vm_compute; discriminate].
    apply or_never_zero; auto. destruct Hk as [Hk|[Hk|[]]]; injection Hk as _ <-; vm_compute; reflexivity.
  - exists g. split; [exact E|]. apply B; [discriminate|reflexivity].
Qed.
(** Results then. *)
Example ex_C81_fed_rows : shown ex_data (feed_all ex_idx (fun _ => true) (fun f => Z.of_nat (length (rows f))) (None : option (list ex_row -> unit -> list ex_row * unit * bool)) ex_fs tt segbuf_empty 0%nat (or_start [or_A; or_B]) or_calls) =
  Some [([[0; 1; 32]; [5; 5; 52]; [10; 11; 66]; [15; 16; 52]; [20; 20; 30]], []); ([[2; 2; 10]; [5; 5; 18]; [9; 9; 30]; [16; 16; 28]], [])].
Proof. vm_compute. reflexivity. Qed.
