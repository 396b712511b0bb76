(** Properties of calls to 'AggStream.agg' which are given new data only. *)
Require Import List Arith ZArith Bool Lia Sorting.Sorted.
Require Import Verif.Common Verif.AggModel Verif.AggSpec Verif.SegModel Verif.SegSpec Verif.CsaModel Verif.CsaSpec Verif.WrModel Verif.StreamModel Verif.RaiseModel Verif.StreamSpec
  Verif.KeyModel Verif.TableProofs Verif.BatchSpec Verif.BatchProofs Verif.BatchRunProofs Verif.BatchKeyProofs Verif.BatchHoldProofs Verif.RecordProofs Verif.PropBatch Verif.FeedSpec Verif.FeedProofs.
Require Verif.IterProofs Verif.SegProofs Verif.MergeProofs.
Import ListNotations.
Local Open Scope Z_scope.

Section Keys.
Context {D P SB PB : Type}.
Variable idx : D -> Z.
Variable truthy : Z -> bool.
Variable usage : WrModel.frame -> Z.
Variable pre : option (list D -> P -> list D * P * bool).
Variables (fs : @filters D) (pre0 : P) (seg0 : SB) (post0 : PB).
Lemma feed_once_keys : forall (g g' : stream D P SB PB) c, feed_once idx truthy usage pre fs pre0 seg0 post0 g c = Ok g' -> map (fun x => fst (fst x)) (g_keys g') = map (fun x => fst (fst x)) (g_keys g).
Proof.
  intros g g' c E. unfold feed_once in E. match type of E with bind ?X _ = _ => destruct X as [g1|] eqn:E1 end; cbn [bind] in E; [|discriminate].
  destruct (agg idx truthy usage pre fs g1 (f_seed c) (f_trim c) false (f_final c)) as [[g2 ex]|] eqn:E2; cbn [bind] in E; [|discriminate]. destruct ex; [discriminate|]. injection E as <-.
  rewrite (agg_keys idx truthy usage _ _ _ _ _ _ _ _ _ E2). eapply start_keys; eauto.
Qed.
Lemma feed_all_keys : forall cs (g g' : stream D P SB PB), feed_all idx truthy usage pre fs pre0 seg0 post0 g cs = Ok g' -> map (fun x => fst (fst x)) (g_keys g') = map (fun x => fst (fst x)) (g_keys g).
Proof.
  induction cs as [|c cs IH]; intros g g' E; cbn [feed_all] in E; [injection E as <-; auto|].
  destruct (feed_once idx truthy usage pre fs pre0 seg0 post0 g c) as [g1|] eqn:E1; cbn [bind] in E; [|discriminate]. rewrite (IH _ _ E). eapply feed_once_keys; eauto.
Qed.
End Keys.

Section Main.
Context {D V P PB : Type}.
Variable N : dtype -> num V.
Variable val : D -> cname -> V.
Variable dtypes : list (cname * dtype).
Variable idx : D -> Z.
Variable enc : option V -> Z.
Variable truthy : Z -> bool.
Variable usage : WrModel.frame -> Z.
Variable pre : option (list D -> P -> list D * P * bool).
Variables (fs : @filters D) (gs : list (nat * (D -> bool))).
Variables (pre0 : P) (post0 : PB).
Variable confs : list (bconf PB).
Variables (m ms : bconf PB -> row -> row).
Notation key_of := (@key_of D V PB N val dtypes idx enc).
Notation start := (new_stream pre0 segbuf_empty post0 (map key_of confs)).
Notation keep := (keep_of gs).

Lemma fed_hyps : forall data, filters_are fs gs -> fed_ok N val dtypes idx enc gs confs m ms data -> stream_ok N val dtypes idx enc gs confs m ms [] /\ (forall c, In c confs -> no_tie idx c (frows keep c data)).
Proof.
  intros data [Hnd _] Hok. split.
  - intros c Hin. destruct (Hok c Hin) as (H1 & H2 & kp & H3 & H4). split; auto. split; auto. exists kp. split; auto. cbn. exact (no_tie_app idx c [] _ H4).
  - intros c Hin. destruct (Hok c Hin) as (_ & _ & kp & Hk & Ht). unfold frows. rewrite (keep_of_is gs c kp Hnd Hk). auto.
Qed.

Lemma feed_batch : forall cs g, harmless pre -> filters_are fs gs -> sorted (map idx (fed cs)) -> (forall c, In c cs -> forall chunk, In chunk (f_seed c) -> chunk <> []) ->
  fed_ok N val dtypes idx enc gs confs m ms (fed cs) ->
  (forall c, In c cs -> f_fresh c = false) \/ ((forall i, truthy i = true) /\ written_first true cs) ->
  feed_all idx truthy usage pre fs pre0 segbuf_empty post0 start cs = Ok g -> cs <> [] -> f_final (last cs (mkCall false false false [])) = true ->
  fed_batch N val dtypes idx enc gs confs m ms (fed cs) g.
Proof.
  intros cs g Hp Hf Hs Hch Hok Hc E Hne Hl. destruct (fed_hyps _ Hf Hok) as [Hso T5]. destruct (tab_hyps N val dtypes idx enc fs gs confs m ms _ Hf Hso) as (T0 & T1 & T2 & T3 & T4 & _).
  assert (Hw : written_first true cs).
  { destruct Hc as [Hc|[_ Hc]]; auto. clear - Hc. revert Hc. generalize true. induction cs as [|c cs IH]; intros w Hc; cbn [written_first]; auto. split; [|apply IH; intros c' H; apply Hc; right; auto].
    rewrite (Hc c (or_introl eq_refl)). discriminate. }
  assert (Hq : (forall i, truthy i = true) \/ (forall c, In c cs -> f_fresh c = false)) by tauto.
  destruct (new_fmem idx truthy pre0 segbuf_empty post0 key_of confs (kT N val dtypes idx enc) (kTS N val dtypes idx enc) (kInv N val dtypes idx) m ms keep (no_tie idx) T1 T2 T3 (fed cs)) as [M W].
  pose proof (feed_all_holds idx truthy usage fs gs Hf pre Hp pre0 segbuf_empty post0 key_of confs _ _ _ m ms keep (no_tie idx) T0 T1 T2 T3 T4 (fed cs) Hs T5 cs [] start g true M (fun _ => W) eq_refl Hch Hw Hq E Hne Hl) as Hh.
  pose proof (feed_all_keys idx truthy usage pre fs pre0 _ post0 _ _ _ E) as Ek. unfold new_stream in Ek. cbn [g_keys] in Ek. rewrite map_map in Ek. cbn [fst] in Ek. rewrite map_id in Ek.
  intros i c Hc0. assert (En : nth_error (map (fun x => fst (fst x)) (g_keys g)) i = Some (key_of c)) by (rewrite Ek, nth_error_map, Hc0; auto).
  rewrite nth_error_map in En. destruct (nth_error (g_keys g) i) as [[[k b] s]|] eqn:Eg; [|discriminate]. cbn [fst option_map] in En. injection En as ->.
  exists b, s. split; auto. intros kp Hkp. destruct (Hh i _ b s Eg) as (c' & _ & Hc' & Hb). rewrite Hc0 in Hc'. injection Hc' as <-. pose proof (nth_error_In _ _ Hc0) as Hin.
  unfold frows in Hb. rewrite (keep_of_is gs c kp (proj1 Hf) Hkp) in Hb. apply holds_chans; auto; [apply (Hok c Hin)|]. split; [apply IterProofs.sorted_filter; auto|].
  specialize (T5 c Hin). unfold frows in T5. rewrite (keep_of_is gs c kp (proj1 Hf) Hkp) in T5. auto.
Qed.
End Main.

(** ** C75: calls given new data only, up to their last rows *)

(** Each call is given rows which follow those of former calls, in any number of chunks, possibly none ('agg' called for its final
    write only), the last rows being kept ('discard_last' is False, as it is by default), and with 'trim_start' or not. Rows with the same index may be given
    by two successive calls. Once the last call has written its results, keys hold the results of a single aggregation of all
    rows of their filters, the very last included. Each call is made with the same AggStream instance, or with a new one, results having been
    written beforehand, and indexes being all 'true' (time stamps). *)
Theorem C75_fed_is_batch : forall {D V P PB} (N : dtype -> num V) val dtypes (idx : D -> Z) enc truthy usage
    (pre : option (list D -> P -> list D * P * bool)) fs gs pre0 post0 (confs : list (bconf PB)) m ms cs g,
  harmless pre -> filters_are fs gs -> sorted (map idx (fed cs)) -> (forall c, In c cs -> forall chunk, In chunk (f_seed c) -> chunk <> []) ->
  fed_ok N val dtypes idx enc gs confs m ms (fed cs) ->
  (forall c, In c cs -> f_fresh c = false) \/ ((forall i, truthy i = true) /\ written_first true cs) ->
  feed_all idx truthy usage pre fs pre0 segbuf_empty post0 (new_stream pre0 segbuf_empty post0 (map (key_of N val dtypes idx enc) confs)) cs = Ok g ->
  cs <> [] -> f_final (last cs (mkCall false false false [])) = true ->
  fed_batch N val dtypes idx enc gs confs m ms (fed cs) g.
Proof. intros. eapply feed_batch; eauto. Qed.
Print Assumptions C75_fed_is_batch.

Notation ex_feed := (feed_all ex_idx (fun _ => true) (fun f => Z.of_nat (length (rows f))) (None : option (list ex_row -> unit -> list ex_row * unit * bool)) ex_fs tt (segbuf_empty : @segbuf Z) 0%nat).
(** Four calls, the third without data; rows of index 8 are given by two calls, the second one with a new instance. *)
Definition ex_calls : list (@fcall ex_row) :=
  [mkCall false false true [[(1,1);(2,2);(2,3)];[(3,4);(4,5);(5,6)];[(8,7)]]; mkCall true true false [[(8,8);(9,8)];[(11,10);(12,11);(13,12)]]; mkCall false false true []; mkCall true false true [[(20,13)]]].
Example ex_fed_ok : fed_ok (fun _ => Znum) ex_val ex_dtypes ex_idx ex_enc ex_gs ex_confs ex_map ex_map (fed ex_calls).
Proof.
  intros c Hc. split; [apply ex_conf_ok; auto|]. split; [apply ex_mok; auto|].
  destruct Hc as [<-|[<-|[<-|[<-|[]]]]]; eexists; (split; [first [left; reflexivity|right; left; reflexivity]|]); try exact I.
  apply ex_no_straddle; [lia|]. vm_compute. reflexivity.
Qed.
Example ex_C75 : exists g, ex_feed (ex_start ex_confs) ex_calls = Ok g /\ fed_batch (fun _ => Znum) ex_val ex_dtypes ex_idx ex_enc ex_gs ex_confs ex_map ex_map (fed ex_calls) g /\
  stored g 0 = Some [[0; 30; 5]; [5; 58; 8]; [10; 66; 12]; [15; -2; -1]; [20; 26; 13]] /\ stored g 2 = Some [[1; 6; 3]; [3; 15; 6]; [8; 23; 8]; [11; 33; 12]; [20; 13; 13]].
Proof.
  destruct (shown_ok _ _ (fun g => (stored g 0, stored g 2)) (ex_feed (ex_start ex_confs) ex_calls) (Some [[0; 30; 5]; [5; 58; 8]; [10; 66; 12]; [15; -2; -1]; [20; 26; 13]], Some [[1; 6; 3]; [3; 15; 6]; [8; 23; 8]; [11; 33; 12]; [20; 13; 13]])
    ltac:(vm_cast_no_check (eq_refl (Some (Some [[0; 30; 5]; [5; 58; 8]; [10; 66; 12]; [15; -2; -1]; [20; 26; 13]], Some [[1; 6; 3]; [3; 15; 6]; [8; 23; 8]; [11; 33; 12]; [20; 13; 13]]))))) as (g & E & F).
  apply pair_equal_spec in F as [F1 F2]. exists g. split; [exact E|]. split; [|auto].
  apply (C75_fed_is_batch (fun _ => Znum) ex_val ex_dtypes ex_idx ex_enc (fun _ => true) (fun f => Z.of_nat (length (rows f))) None ex_fs ex_gs tt 0%nat ex_confs ex_map ex_map ex_calls g).
  - exact I.
  - apply ex_filters_are.
  - apply IterProofs.sortedb_iff. reflexivity.
  - intros c Hc. apply ex_chunks. revert c Hc. apply forallb_forall. reflexivity.
  - apply ex_fed_ok.
  - right. split; [auto|]. cbn. repeat split; auto; discriminate.
  - exact E.
  - discriminate.
  - reflexivity.
Qed.

(** Hence results do not depend on the way data is cut into calls: two histories given the same rows lead to the same rows in datasets. *)
Theorem C75_any_cut : forall {D V P PB} (N : dtype -> num V) val dtypes (idx : D -> Z) enc truthy usage
    (pre : option (list D -> P -> list D * P * bool)) fs gs pre0 post0 (confs : list (bconf PB)) m ms cs cs' g g',
  let start := new_stream pre0 segbuf_empty post0 (map (key_of N val dtypes idx enc) confs) in
  harmless pre -> filters_are fs gs -> sorted (map idx (fed cs)) -> fed cs = fed cs' -> (forall c, In c cs \/ In c cs' -> forall chunk, In chunk (f_seed c) -> chunk <> []) ->
  fed_ok N val dtypes idx enc gs confs m ms (fed cs) ->
  (forall i, truthy i = true) -> written_first true cs -> written_first true cs' ->
  feed_all idx truthy usage pre fs pre0 segbuf_empty post0 start cs = Ok g -> cs <> [] -> f_final (last cs (mkCall false false false [])) = true ->
  feed_all idx truthy usage pre fs pre0 segbuf_empty post0 start cs' = Ok g' -> cs' <> [] -> f_final (last cs' (mkCall false false false [])) = true ->
  forall i c k b s k' b' s', nth_error confs i = Some c -> nth_error (g_keys g) i = Some (k, b, s) -> nth_error (g_keys g') i = Some (k', b', s') ->
    all_rows (data_of (s_main s)) = all_rows (data_of (s_main s')) /\
    (type_of c = BOTH -> all_rows (data_of (s_snap s)) = all_rows (data_of (s_snap s'))).
Proof.
  intros D V P PB N val dtypes idx enc truthy usage pre fs gs pre0 post0 confs m ms cs cs' g g' start Hp Hf Hs Ew Hch Hok Hq Hw Hw' E Hn Hl E' Hn' Hl' i c k b s k' b' s' Ec Ei Ei'.
  assert (B : fed_batch N val dtypes idx enc gs confs m ms (fed cs) g) by (eapply C75_fed_is_batch; eauto).
  assert (B' : fed_batch N val dtypes idx enc gs confs m ms (fed cs) g') by (rewrite Ew in Hs, Hok |- *; eapply C75_fed_is_batch; eauto).
  destruct (B i c Ec) as (b0 & s0 & F & H). destruct (B' i c Ec) as (b1 & s1 & F' & H'). rewrite Ei in F. injection F as _ _ <-. rewrite Ei' in F'. injection F' as _ _ <-.
  destruct (Hok c (nth_error_In _ _ Ec)) as (_ & _ & kp & Hk & _). specialize (H kp Hk). specialize (H' kp Hk). apply holds_batch_as in H. apply holds_batch_as in H'. unfold typed_batch in H, H'.
  destruct (filter kp (fed cs)) as [|a l].
  - destruct H as [-> H], H' as [-> H']. split; auto. intro Ht. rewrite H, H'; auto.
  - destruct H as (bi & sn & F & H), H' as (bi' & sn' & F' & H'). rewrite F in F'. injection F' as <- <-.
    destruct (type_of c), sn; try contradiction; try (split; [congruence|discriminate]). destruct H, H'. split; congruence.
Qed.
Print Assumptions C75_any_cut.

Definition ex_calls1 : list (@fcall ex_row) := [mkCall true true true [fed ex_calls]].
Example ex_C75_any_cut : fed ex_calls = fed ex_calls1 /\ written_first true ex_calls /\ written_first true ex_calls1 /\
  exists g g', ex_feed (ex_start ex_confs) ex_calls = Ok g /\ ex_feed (ex_start ex_confs) ex_calls1 = Ok g' /\ ex_data g = ex_data g'.
Proof.
  split; [reflexivity|]. split; [cbn; repeat split; auto; discriminate|]. split; [cbn; repeat split; auto|].
  destruct (ex_feed (ex_start ex_confs) ex_calls) as [g|] eqn:E; [|exfalso; destruct ex_C75 as (g & E' & _); rewrite E in E'; discriminate].
  exists g. destruct (shown_ok _ _ ex_data (ex_feed (ex_start ex_confs) ex_calls1) (ex_data g)) as (g' & E' & F'); [|exists g'; auto].
  transitivity (shown ex_data (ex_feed (ex_start ex_confs) ex_calls)); [vm_compute; reflexivity|rewrite E; reflexivity].
Qed.

Lemma fed_stored : forall confs data g i c kp, fed_batch (fun _ => Znum) ex_val ex_dtypes ex_idx ex_enc ex_gs confs ex_map ex_map data g ->
  nth_error confs i = Some c -> In (c_filter c, kp) ex_gs -> filter kp data <> [] -> type_of c = BINS ->
  exists bins, batch (fun _ => Znum) ex_val ex_dtypes ex_idx c (filter kp data) = Ok (Some (bins, None)) /\ stored g i = Some (map (ex_map c) (rows (table ex_enc (c_agg c) bins))).
Proof.
  intros confs data g i c kp H Ec Hk Hn Ht. destruct (H i c Ec) as (b & s & Ei & Hb). specialize (Hb kp Hk). apply holds_batch_as in Hb. unfold typed_batch in Hb. destruct (filter kp data) as [|a l]; [contradiction|].
  destruct Hb as (bins & sn & E & Hb). rewrite Ht in Hb. destruct sn; [destruct Hb|]. exists bins. split; auto. unfold stored. rewrite Ei. cbn. rewrite Hb. auto.
Qed.
Ltac not_fed c Ed := let H0 := fresh in let H := fresh in let bi := fresh in let E := fresh in intro H0;
  destruct (fed_stored _ _ _ 0%nat c (fun _ => true) H0 eq_refl (or_introl eq_refl)) as (bi & E & H); [vm_compute; discriminate|reflexivity|]; rewrite Ed in H; vm_compute in E; injection E as <-; vm_compute in H; discriminate.

(** The documentation of 'agg' says that 'trim_start' and 'discard_last' are True by default, they are False: the same growing data being
    given again, by calls with default parameters, rows are aggregated twice. *)
Theorem C75_whole_data_again_refuted : exists seed1 seed2 g, concat seed2 = concat seed1 ++ [(6,6)] /\ sorted (map ex_idx (concat seed2)) /\
  ex_feed (ex_start [ex_E]) [mkCall false false true seed1; mkCall false false true seed2] = Ok g /\
  ~ fed_batch (fun _ => Znum) ex_val ex_dtypes ex_idx ex_enc ex_gs [ex_E] ex_map ex_map (concat seed2) g /\
  ~ all_batch (fun _ => Znum) ex_val ex_dtypes ex_idx ex_enc ex_gs [ex_E] ex_map ex_map (concat seed2) g /\ stored g 0 = Some [[0; 12; 3]; [5; 6; 6]].
Proof.
  set (s1 := [[(1,1);(2,2);(3,3)]] : list (list ex_row)). set (s2 := [[(1,1);(2,2);(3,3);(6,6)]] : list (list ex_row)).
  destruct (shown_ok _ _ (fun g => stored g 0) (ex_feed (ex_start [ex_E]) [mkCall false false true s1; mkCall false false true s2]) (Some [[0; 12; 3]; [5; 6; 6]]) ltac:(vm_cast_no_check (eq_refl (Some (Some [[0; 12; 3]; [5; 6; 6]]))))) as (g & E & F).
  exists s1, s2, g. split; [reflexivity|]. split; [apply IterProofs.sortedb_iff; reflexivity|]. split; [exact E|]. split; [|split; [|exact F]].
  - not_fed ex_E F.
  - not_batch ex_E F.
Qed.
Print Assumptions C75_whole_data_again_refuted.

(** A new instance does not know of results which have not been written. *)
Theorem C75_unwritten_refuted : exists cs g, sorted (map ex_idx (fed cs)) /\ ~ written_first true cs /\ f_final (last cs (mkCall false false false [])) = true /\
  ex_feed (ex_start [ex_E]) cs = Ok g /\ ~ fed_batch (fun _ => Znum) ex_val ex_dtypes ex_idx ex_enc ex_gs [ex_E] ex_map ex_map (fed cs) g /\ stored g 0 = Some [[0; 7; 4]; [5; 6; 6]].
Proof.
  set (cs := [mkCall false false false [[(1,1);(2,2)]]; mkCall true false true [[(3,3);(4,4);(6,6)]]] : list (@fcall ex_row)).
  destruct (shown_ok _ _ (fun g => stored g 0) (ex_feed (ex_start [ex_E]) cs) (Some [[0; 7; 4]; [5; 6; 6]]) ltac:(vm_cast_no_check (eq_refl (Some (Some [[0; 7; 4]; [5; 6; 6]]))))) as (g & E & F).
  exists cs, g. split; [apply IterProofs.sortedb_iff; reflexivity|]. split; [intros (_ & H & _); discriminate (H eq_refl)|]. split; [reflexivity|]. split; [exact E|]. split; [|exact F].
  not_fed ex_E F.
Qed.
Print Assumptions C75_unwritten_refuted.
