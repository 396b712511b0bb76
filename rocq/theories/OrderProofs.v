(** Lemmas for the properties of PropOrder.v. *)
Require Import List Arith ZArith Bool Lia Sorting.Sorted.
Require Import Verif.Common Verif.AggModel Verif.AggSpec Verif.SegModel Verif.SegSpec Verif.CsaModel Verif.CsaSpec Verif.WrModel Verif.StreamModel Verif.RaiseModel Verif.StreamSpec
  Verif.KeyModel Verif.TableProofs Verif.BatchSpec Verif.LabelProofs Verif.BatchProofs Verif.BatchRunProofs Verif.BatchKeyProofs Verif.BatchHoldProofs Verif.BatchOkProofs Verif.UserKeyProofs Verif.PropBatch
  Verif.OrderModel Verif.OrderSpec.
Require Verif.CsaProofs Verif.IterProofs Verif.SegProofs Verif.CsaPiecesProofs Verif.CsaRowsProofs Verif.SegRowsProofs.
Import ListNotations.
Local Open Scope Z_scope.

Section Main.
Context {D V P PB : Type}.
Variable N : dtype -> num V.
Variable val : D -> cname -> V.
Variable dtypes : list (cname * dtype).
Variable idx : D -> Z.
Variable enc : option V -> Z.
Variable truthy : Z -> bool.
Variable usage : WrModel.frame -> Z.
Variable pre : option (list D -> P -> list D * P * bool).
Variables (fs : @filters D) (gs : list (nat * (D -> bool))).
Variables (pre0 : P) (post0 : PB).
Variable confs : list (oconf PB).
Variables (m ms : oconf PB -> row -> row).
Notation order_key := (@order_key D V PB N val dtypes idx enc).
Definition oT (o : oconf PB) := kT N val dtypes idx enc (o_conf o).
Definition oTS (o : oconf PB) := kTS N val dtypes idx enc (o_conf o).
Definition oInv (o : oconf PB) := kInv N val dtypes idx (o_conf o).
Notation start := (new_stream pre0 segbuf_empty post0 (map order_key confs)).
Definition okeep (o : oconf PB) : D -> bool := keep_of gs (o_conf o).
Definition ogood (o : oconf PB) (l : list D) : Prop := no_tie idx (o_conf o) l /\ order_kept N val dtypes idx enc o (m o) (ms o) l.

Lemma result_ever_app : forall sn c m0 a b r, result_ever N val dtypes idx enc (PB := PB) sn c m0 a r -> result_ever N val dtypes idx enc sn c m0 (a ++ b) r.
Proof. intros sn c m0 a b r (f & more & bins & snaps & r0 & -> & E). exists f, (more ++ b), bins, snaps, r0. rewrite app_assoc. auto. Qed.
Lemma order_kept_app : forall o (a b : list D), order_kept N val dtypes idx enc o (m o) (ms o) (a ++ b) -> order_kept N val dtypes idx enc o (m o) (ms o) a.
Proof.
  intros o a b. unfold order_kept, same_order. destruct (type_of (o_conf o)).
  - intros H r s Hr Hs. apply H; apply result_ever_app; auto.
  - intros H r s Hr Hs. apply H; apply result_ever_app; auto.
  - intros [H H']. split; intros r s Hr Hs; [apply H|apply H']; apply result_ever_app; auto.
Qed.
Lemma ogood_app : forall o (a b : list D), ogood o (a ++ b) -> ogood o a.
Proof. intros o a b [H H']. split; [eapply no_tie_app; eauto|eapply order_kept_app; eauto]. Qed.

Lemma ever_bins : forall (c : bconf PB) m0 Hf r, conf_ok dtypes c -> kok idx c Hf -> ever (kT N val dtypes idx enc c) m0 Hf r -> result_ever N val dtypes idx enc false c m0 Hf r.
Proof.
  intros c m0 Hf r Hc Hk (H & r0 & [q ->] & Hr & ->). assert (Hne : H <> []) by (intros ->; destruct Hr).
  destruct (batch_tables N val dtypes idx enc c Hc H Hne (kok_app _ _ _ _ Hk)) as (bins & snaps & E & Tb & _).
  exists H, q, bins, snaps, r0. split; auto. split; auto. split; auto. cbn. rewrite <- Tb in Hr. exact Hr.
Qed.
Lemma ever_snaps : forall (c : bconf PB) m0 Hf r, conf_ok dtypes c -> kok idx c Hf -> ever (kTS N val dtypes idx enc c) m0 Hf r -> c_snap c <> None -> result_ever N val dtypes idx enc true c m0 Hf r.
Proof.
  intros c m0 Hf r Hc Hk (H & r0 & [q ->] & Hr & ->) Hs. assert (Hne : H <> []) by (intros ->; destruct Hr).
  destruct (batch_tables N val dtypes idx enc c Hc H Hne (kok_app _ _ _ _ Hk)) as (bins & snaps & E & _ & Ts). destruct snaps as [sn|]; [|congruence]. destruct Ts as [_ Ts].
  exists H, q, bins, (Some sn), r0. split; auto. split; auto. split; auto. cbn. rewrite <- Ts in Hr. exact Hr.
Qed.
Lemma order_writes : forall o, conf_ok dtypes (o_conf o) -> dup_ok o -> writes_as_labels (order_key o) (BatchRunProofs.ok idx ogood o) (oT o) (oTS o) (m o) (ms o).
Proof.
  intros o Hc [Hd Hd'] Hf (Hs & Ht & Ho). assert (Hk : kok idx (o_conf o) Hf) by (split; auto).
  assert (A : forall (U U' : row -> Prop) size nirgs, (forall r, U' r -> U r) -> same_order (o_on o) U -> as_by_label U' (write_on (o_on o) (o_dup o) size nirgs)).
  { intros U U' size nirgs HU H. exists (o_on o), (o_dup o). split; [auto|]. split; [auto|]. split; [auto|]. split; [auto|]. intros; apply H; auto. }
  unfold order_kept in Ho. cbn [k_type OrderModel.order_key k_write k_write_snap]. assert (Sn : type_of (o_conf o) <> BINS -> c_snap (o_conf o) <> None) by (unfold type_of; destruct (c_snap (o_conf o)); [discriminate|congruence]).
  destruct (type_of (o_conf o)).
  - eapply A; [|exact Ho]. intros; apply ever_bins; auto.
  - eapply A; [|exact Ho]. intros; apply ever_snaps; auto. apply Sn; discriminate.
  - destruct Ho as [H1 H2]. split; [eapply A; [|exact H1]; intros; apply ever_bins; auto|eapply A; [|exact H2]; intros; apply ever_snaps; auto; apply Sn; discriminate].
Qed.

Lemma order_keys : forall (A : oconf PB -> (D -> bool) -> Prop),
  (forall o, In o confs -> conf_ok dtypes (o_conf o) /\ dup_ok o /\ post_does (c_post (o_conf o)) (type_of (o_conf o)) (m o) (ms o) /\ exists kp, In (c_filter (o_conf o), kp) gs /\ A o kp) ->
  (forall o, In o confs -> tabular (order_key o) segbuf_empty (BatchRunProofs.ok idx ogood o) (oT o) (oTS o) (oInv o)) /\
  (forall o, In o confs -> post_is (order_key o) (m o) (ms o)) /\
  (forall o, In o confs -> writes_as_labels (order_key o) (BatchRunProofs.ok idx ogood o) (oT o) (oTS o) (m o) (ms o)) /\
  (forall o, In o confs -> In (k_filter (order_key o), okeep o) gs).
Proof.
  intros A Hok. split; [|split; [|split]].
  - intros o Hin. pose proof (key_tabular N val dtypes idx enc (o_conf o) (proj1 (Hok o Hin))) as T.
    assert (T' : tabular (order_key o) segbuf_empty (kok idx (o_conf o)) (oT o) (oTS o) (oInv o)) by (destruct T; constructor; auto).
    refine (tabular_weaken _ _ _ _ _ _ _ _ T'). intros l [B [C _]]. split; auto.
  - intros o Hin. apply (Hok o Hin).
  - intros o Hin. apply order_writes; apply (Hok o Hin).
  - intros o Hin. destruct (Hok o Hin) as (_ & _ & _ & kp & Hk & _). cbn [k_filter OrderModel.order_key]. apply keep_of_in. apply in_map_iff. exists (c_filter (o_conf o), kp). auto.
Qed.
Lemma order_hyps : forall Sf, filters_are fs gs -> order_stream_ok N val dtypes idx enc gs confs m ms Sf ->
  (forall o, In o confs -> tabular (order_key o) segbuf_empty (BatchRunProofs.ok idx ogood o) (oT o) (oTS o) (oInv o)) /\
  (forall o, In o confs -> post_is (order_key o) (m o) (ms o)) /\
  (forall o, In o confs -> writes_as_labels (order_key o) (BatchRunProofs.ok idx ogood o) (oT o) (oTS o) (m o) (ms o)) /\
  (forall o, In o confs -> In (k_filter (order_key o), okeep o) gs) /\ (forall o, In o confs -> ogood o (rows_of idx okeep o Sf)).
Proof.
  intros Sf [Hnd _] Hok. destruct (order_keys _ Hok) as (H1 & H2 & H3 & H4). repeat (split; [assumption|]).
  intros o Hin. destruct (Hok o Hin) as (_ & _ & _ & kp & Hk & Ht & Ho). change (rows_of idx okeep o Sf) with (given idx (okeep o) Sf). unfold okeep. rewrite (keep_of_is gs (o_conf o) kp Hnd Hk). split; auto.
Qed.

Lemma to_order_batch : forall Sf (g : stream D P (@segbuf V) PB), filters_are fs gs -> order_stream_ok N val dtypes idx enc gs confs m ms Sf -> sorted (map idx Sf) ->
  map (fun x => fst (fst x)) (g_keys g) = map order_key confs ->
  (forall i k b s, nth_error (g_keys g) i = Some (k, b, s) -> holds idx order_key confs oT oTS m ms okeep Sf i k s) ->
  order_batch N val dtypes idx enc gs confs m ms Sf g.
Proof.
  intros Sf g [Hnd _] Hok Hs Ek Hh i o Hi.
  assert (En : nth_error (map (fun x => fst (fst x)) (g_keys g)) i = Some (order_key o)) by (rewrite Ek, nth_error_map, Hi; auto).
  rewrite nth_error_map in En. destruct (nth_error (g_keys g) i) as [[[k b] s]|] eqn:Eg; [|discriminate]. cbn [fst option_map] in En. injection En as ->.
  exists b, s. split; auto. intros kp Hkp. destruct (Hh i _ b s Eg) as (o' & _ & Hi' & Hb). rewrite Hi in Hi'. injection Hi' as <-.
  destruct (Hok o (nth_error_In _ _ Hi)) as (Hc & _ & _ & kp' & Hk' & Ht & _).
  assert (Q : forall q, In (c_filter (o_conf o), q) gs -> okeep o = q) by (intros q Hq; unfold okeep; apply keep_of_is; auto).
  change (rows_of idx okeep o Sf) with (given idx (okeep o) Sf) in Hb. rewrite (Q kp Hkp) in Hb. assert (kp' = kp) as -> by (rewrite <- (Q kp Hkp); symmetry; auto).
  apply (holds_chans_any N val dtypes idx enc (order_key o)); auto. split; auto. apply IterProofs.sorted_filter; auto.
Qed.

Lemma order_run : forall rs g, harmless pre -> filters_are fs gs -> growing idx [] rs -> order_stream_ok N val dtypes idx enc gs confs m ms (whole_seed [] rs) ->
  ((forall o, In o confs -> c_nirgs (o_conf o) = None) \/ ((forall i, truthy i = true) /\ all_written true rs)) ->
  run_all idx truthy usage pre fs pre0 segbuf_empty post0 start rs = Ok g -> rs <> [] -> r_final (last rs (mkRun false false [])) = true ->
  order_batch N val dtypes idx enc gs confs m ms (whole_seed [] rs) g.
Proof.
  intros rs g Hp Hf Hg Hok Hc E Hne Hl. assert (Hs : sorted (map idx (whole_seed [] rs))) by (apply sorted_whole; auto; constructor).
  destruct (order_hyps _ Hf Hok) as (T1 & T2 & T3 & T4 & T5).
  apply to_order_batch; auto.
  - rewrite (run_all_keys idx truthy usage _ _ _ _ _ _ _ _ E). unfold new_stream. cbn [g_keys]. rewrite map_map. cbn [fst]. apply map_id.
  - destruct (new_mem_inv idx truthy pre0 segbuf_empty post0 order_key confs oT oTS oInv m ms okeep ogood T1 T2 T3 (whole_seed [] rs)) as [M W].
    apply (run_all_batch idx truthy usage fs gs Hf pre Hp pre0 segbuf_empty post0 order_key confs oT oTS oInv m ms okeep ogood ogood_app T1 T2 T3 T4 (whole_seed [] rs) Hs T5 rs [] start g true M (SSorted_nil _) Hg eq_refl); auto.
    destruct Hc as [Hc|[Tq Hw]]; [left|right; auto]. intros o Hin. unfold no_coalescing. cbn. split; intros; apply Hc; auto.
Qed.

Lemma segagg_cols : forall agg by_ snap l (b b' : @segbuf V) f sn, segagg N val dtypes idx enc agg by_ snap l b = Ok (Some (f, sn), b') ->
  ncols f = S (length agg) /\ forall s, sn = Some s -> ncols s = S (length agg).
Proof.
  intros agg by_ snap l b b' f sn H. assert (R : forall r, tables enc agg r = Some (f, sn) -> ncols f = S (length agg) /\ forall s, sn = Some s -> ncols s = S (length agg)).
  { intros [[r1 r2]|] E; [|discriminate]. injection E as <- <-. split; auto. intros s Es. destruct r2; [injection Es as <-; auto|discriminate]. }
  unfold segagg in H. destruct by_ as [tg|x c].
  - destruct (cumsegagg _ _ _ _ _ _ _ _ _ _ _) as [[r b1]|]; [|discriminate]. cbn [bind] in H. apply (R r). congruence.
  - destruct (cumsegagg _ _ _ _ _ _ _ _ _ _ _) as [[r b1]|]; [|discriminate]. cbn [bind] in H. apply (R r). congruence.
Qed.
Lemma order_reach : forall o, dup_ok o -> (o_on o <= length (c_agg (o_conf o)))%nat -> (reach (order_key o) < S (length (c_agg (o_conf o))))%nat.
Proof.
  intros o [_ Hi] Ho. unfold reach, last_named. cbn [k_write k_write_snap OrderModel.order_key write_on ordered_on duplicates_on].
  assert (fold_right Nat.max 0 (o_dup o) <= o_on o)%nat; [|lia].
  clear Ho. induction (o_dup o) as [|d l IH]; cbn [fold_right]; [lia|]. specialize (IH (fun x Hx => Hi x (or_intror Hx))). destruct (Hi d (or_introl eq_refl)) as [<-|[<-|[]]]; lia.
Qed.

Lemma order_accepted : forall rs w, harmless pre -> filters_are fs gs -> growing idx [] rs -> order_stream_ok N val dtypes idx enc gs confs m ms (whole_seed [] rs) ->
  (forall i, truthy i = true) -> all_written true rs -> 0 <= w -> (forall f, usage f <= w * Z.of_nat (S (length (rows f)))) ->
  (forall o kp, In o confs -> In (c_filter (o_conf o), kp) gs -> order_accepted_conf N val dtypes idx o w (chunks_between 0 rs) (given idx kp (whole_seed [] rs))) ->
  exists g, run_all idx truthy usage pre fs pre0 segbuf_empty post0 start rs = Ok g.
Proof.
  intros rs w Hp Hf Hg Hok Hq Hw Hw0 Hu Ha. assert (Hs : sorted (map idx (whole_seed [] rs))) by (apply sorted_whole; auto; constructor).
  destruct (order_hyps _ Hf Hok) as (T1 & T2 & T3 & T4 & T5). set (Sf := whole_seed [] rs) in *.
  assert (A : forall o, In o confs -> order_accepted_conf N val dtypes idx o w (chunks_between 0 rs) (rows_of idx okeep o Sf)) by (intros o Hin; apply Ha; auto; apply (T4 o Hin)).
  assert (K : forall o H, In o confs -> starts H (rows_of idx okeep o Sf) -> kok idx (o_conf o) H).
  { intros o H Hin [e E]. split.
    - assert (Z0 : sorted (map idx (rows_of idx okeep o Sf))) by (unfold rows_of; repeat apply IterProofs.sorted_filter; auto). rewrite E in Z0. exact (IterProofs.sorted_app_l idx _ _ Z0).
    - specialize (T5 o Hin). rewrite E in T5. exact (proj1 (ogood_app o _ _ T5)). }
  destruct (new_mem_inv idx truthy pre0 segbuf_empty post0 order_key confs oT oTS oInv m ms okeep ogood T1 T2 T3 Sf) as [M _].
  destruct (new_ok (P := P) idx pre0 segbuf_empty post0 order_key confs oT oTS okeep w Hw0) as (N1 & N2 & N3).
  eapply (run_all_ok idx truthy usage fs gs Hf pre Hp pre0 segbuf_empty post0 order_key confs oT oTS oInv m ms okeep ogood ogood_app T1 T2 T3 T4 Sf Hs T5 Hq); eauto.
  6: constructor.
  - intros o H p b Hin Hne Hst Hi. destruct (A o Hin) as (Ho & _ & _ & _ & _ & Hz & _).
    destruct (key_accepts N val dtypes idx enc (o_conf o) (proj1 (Hok o Hin)) H p b Hne (K o _ Hin Hst) Hi) as (f & sn & b' & E & _ & _).
    + intros q i f d l v I1 I2 I3 I4. apply (Hz q i f d l v I1 I2); auto. destruct Hst as [e Ee]. rewrite Ee. apply incl_appl. auto.
    + exists f, sn, b'. split; [exact E|]. destruct (segagg_cols _ _ _ _ _ _ _ _ E) as [W W']. pose proof (order_reach o (proj1 (proj2 (Hok o Hin))) Ho) as R.
      unfold wide. rewrite W. split; [exact R|]. intros s Es. rewrite (W' s Es). exact R.
  - intros o Hin. destruct (A o Hin) as (_ & _ & _ & _ & H1 & _). unfold post_wide, reach. cbn [k_write k_write_snap OrderModel.order_key]. rewrite Nat.max_id. exact H1.
  - intros o Hin. destruct (A o Hin) as (_ & _ & H1 & H2 & _). cbn. split; [destruct (c_size (o_conf o)); cbn; auto|intros _; destruct (c_size_snap (o_conf o)); cbn; auto].
  - intros o Hin. destruct (A o Hin) as (_ & H1 & _). unfold no_coalescing. cbn. auto.
  - intros o Hin. destruct (A o Hin) as (_ & _ & _ & _ & _ & _ & H1). unfold enough_memory in H1. cbn [k_type k_max OrderModel.order_key]. destruct (type_of (o_conf o)) eqn:Et; auto;
      (rewrite <- (result_rows N val dtypes idx enc (o_conf o) (rows_of idx okeep o Sf)) in H1; [rewrite Nat.add_assoc in H1; exact H1|apply (Hok o Hin)|apply K; auto; exists []; rewrite app_nil_r; auto|congruence]).
Qed.

Lemma order_steps : forall rs g0 xs g r, harmless pre -> filters_are fs gs -> growing idx [] rs -> growing idx (whole_seed [] rs) (map run_of xs) ->
  order_stream_ok N val dtypes idx enc gs confs m ms (whole_seed (whole_seed [] rs) (map run_of xs)) ->
  (forall o, In o confs -> type_of (o_conf o) <> BOTH /\ c_nirgs (o_conf o) = None) ->
  run_all idx truthy usage pre fs pre0 segbuf_empty post0 start rs = Ok g0 ->
  (forall s, In s (map snd (g_keys g0)) -> s_main s <> None) -> restarted false xs ->
  step_all idx truthy usage pre fs pre0 segbuf_empty post0 g0 xs = Ok g ->
  last xs (Complete (mkRun false false [])) = Complete r -> r_final r = true ->
  order_batch N val dtypes idx enc gs confs m ms (whole_seed (whole_seed [] rs) (map run_of xs)) g.
Proof.
  intros rs g0 xs g r Hp Hf Hg Hg' Hok Hc E0 Hmn Hr E Hl Hfin.
  assert (Hs0 : sorted (map idx (whole_seed [] rs))) by (apply sorted_whole; auto; constructor).
  assert (Hs : sorted (map idx (whole_seed (whole_seed [] rs) (map run_of xs)))) by (apply sorted_whole; auto).
  destruct (order_hyps _ Hf Hok) as (T1 & T2 & T3 & T4 & T5).
  assert (Hnc : forall o, In o confs -> k_type (order_key o) <> BOTH /\ no_coalescing (order_key o)).
  { intros o Hin. destruct (Hc o Hin) as [C1 C2]. split; auto. split; auto. }
  apply to_order_batch; auto.
  - rewrite (step_all_keys idx truthy usage _ _ _ _ _ _ _ _ E), (run_all_keys idx truthy usage _ _ _ _ _ _ _ _ E0). unfold new_stream. cbn [g_keys]. rewrite map_map. cbn [fst]. apply map_id.
  - set (Sf := whole_seed (whole_seed [] rs) (map run_of xs)) in *.
    destruct (new_mem_inv idx truthy pre0 segbuf_empty post0 order_key confs oT oTS oInv m ms okeep ogood T1 T2 T3 Sf) as [M W].
    assert (M0 : mem_inv idx truthy order_key confs oT oTS oInv m ms okeep Sf (whole_seed [] rs) g0).
    { apply (run_all_keeps idx truthy usage fs gs Hf pre Hp pre0 segbuf_empty post0 order_key confs oT oTS oInv m ms okeep ogood ogood_app T1 T2 T3 T4 Sf Hs T5 rs [] start g0); auto.
      - intros o Hin. apply (Hnc o Hin).
      - constructor.
      - apply (growing_starts idx (map run_of xs)); auto. }
    apply (step_all_batch idx truthy usage fs gs Hf pre Hp pre0 segbuf_empty post0 order_key confs oT oTS oInv m ms okeep ogood ogood_app T1 T2 T3 T4 Sf Hs T5 Hnc xs (whole_seed [] rs) g0 g false (or_introl M0) Hmn Hs0 Hg' eq_refl Hr E r Hl Hfin).
Qed.
End Main.

(** ** First value of a column in order of which rows are *)
Section First.
Context {D V PB : Type}.
Variable N : dtype -> num V.
Variable val : D -> cname -> V.
Variable dtypes : list (cname * dtype).
Variable idx : D -> Z.
Variable enc : option V -> Z.

(** Each period from that of the first row to that of the last one has a row. *)
Lemma period_has_row : forall c a f (l : list D) k, 0 < f -> (forall l1 x y l2, l = l1 ++ x :: y :: l2 -> kappa c a f (idx y) <= kappa c a f (idx x) + 1) -> l <> [] ->
  kappa c a f (hd 0 (map idx l)) <= k <= kappa c a f (last (map idx l) 0) -> exists d, In d l /\ kappa c a f (idx d) = k.
Proof.
  intros c a f l k Hf. induction l as [|x [|y l] IH]; intros Hg Hne Hk; [congruence| |].
  - exists x. simpl in *. split; auto. lia.
  - destruct (Z.eq_dec k (kappa c a f (idx x))) as [->|Hd]; [exists x; simpl; auto|].
    pose proof (Hg [] x y l eq_refl) as Hg0. destruct IH as (d & Hd1 & Hd2).
    + intros l1 x0 y0 l2 E. apply (Hg (x :: l1) x0 y0 l2). simpl. rewrite E. auto.
    + discriminate.
    + change (last (map idx (x :: y :: l)) 0) with (last (map idx (y :: l)) 0) in Hk. cbn [hd map] in *. lia.
    + exists d. split; [right|]; auto.
Qed.

Lemma zrange_in : forall a b k, In k (zrange a b) -> a <= k <= b.
Proof. intros a b k H. unfold zrange in H. apply in_map_iff in H as (i & <- & Hi). apply in_seq in Hi. lia. Qed.

(** First rows of bins of first rows: each has a number, ... *)
Lemma bin_rows : forall (o : oconf PB) data H r, conf_ok dtypes (o_conf o) -> kok idx (o_conf o) data -> no_empty_bin idx (o_conf o) data -> starts H data ->
  In r (kT N val dtypes idx enc (o_conf o) H) -> forall j out i, nth_error (c_agg (o_conf o)) j = Some (out, (i, Some First)) ->
  exists d, In d data /\ col (S j) r = enc (Some (val d i)) /\
    match c_by (o_conf o) with
    | ByRows _ _ => col 0 r = idx d
    | ByTime tg => let kap := kappa (tg_closed tg) (anchor tg) (tg_freq tg) in
        col 0 r = period_label (tg_label tg) (anchor tg) (tg_freq tg) (kap (idx d)) /\
        hd_error (filter (fun y => in_period (tg_closed tg) (anchor tg) (tg_freq tg) (kap (idx d)) (idx y)) data) = Some d
    end.
Proof.
  intros o data H r Hc [Hs Ht] Hn [q ->] Hr j out i Hj. assert (Hne : H <> []) by (intros ->; destruct Hr). unfold kT in Hr. rewrite tab_cons in Hr by auto.
  apply in_map_iff in Hr as ([lab g] & <- & Hg). pose proof Hc as (Hv & _ & _ & _ & Hb).
  assert (Cj : forall d g', g = d :: g' -> col (S j) (group_row N val (c_agg (o_conf o)) dtypes enc (lab, g)) = enc (Some (val d i))).
  { intros d g' ->. unfold group_row, col. cbn [nth snd fst]. rewrite nth_indep with (d' := enc (value N val dtypes (0%nat, (0%nat, None)) (d :: g'))).
    2: { rewrite map_length. apply nth_error_Some. congruence. }
    rewrite (map_nth (fun o0 => enc (value N val dtypes o0 (d :: g')))). rewrite (nth_error_nth _ _ _ Hj). unfold value. cbn [fst snd].
    destruct (Hv _ _ _ (nth_error_In _ _ Hj)) as [[dt Hd] _]. rewrite Hd. reflexivity. }
  unfold kgb in Hg. unfold no_empty_bin, no_tie in *. destruct (c_by (o_conf o)) as [tg|x cl].
  - destruct Hb as [Hf _]. unfold CsaPiecesProofs.tgb, time_groups in Hg. cbn [app] in Hg. apply in_map_iff in Hg as (k & E & Hk). injection E as <- <-. apply zrange_in in Hk. unfold CsaPiecesProofs.first_period in Hk. cbn [map hd] in Hk.
    destruct (period_has_row (tg_closed tg) (anchor tg) (tg_freq tg) H k) as (d0 & D1 & D2); auto.
    { intros l1 x y l2 ->. apply (Hn l1 x y (l2 ++ q)). rewrite <- app_assoc. auto. }
    assert (F : In d0 (filter (fun r => in_period (tg_closed tg) (anchor tg) (tg_freq tg) k (idx r)) H)) by (apply filter_In; split; auto; apply SegProofs.in_period_kappa; auto).
    destruct (filter (fun r => in_period (tg_closed tg) (anchor tg) (tg_freq tg) k (idx r)) H) as [|d g'] eqn:Eg; [destruct F|].
    assert (Fd : In d (d :: g')) by (left; auto). rewrite <- Eg in Fd. apply filter_In in Fd as [Fd1 Fd2]. apply SegProofs.in_period_kappa in Fd2; auto.
    exists d. split; [apply in_or_app; auto|]. split; [eapply Cj; eauto|]. cbv zeta. rewrite <- Fd2. split; [reflexivity|]. rewrite filter_app, Eg. reflexivity.
  - unfold CsaRowsProofs.rgb, row_groups in Hg. cbn [app length] in Hg. apply in_map_iff in Hg as (b & E & Hb'). injection E as <- <-. apply in_seq in Hb'.
    assert (HL : (0 < length H)%nat) by (destruct H; [congruence|simpl; lia]).
    destruct (CsaRowsProofs.xb_facts x 0 (length H)) as (X0 & _ & _ & _ & X1 & _); auto.
    assert (Lt : (b * x < length H)%nat) by nia.
    destruct (skipn (b * x) H) as [|d rest] eqn:Es; [apply (f_equal (@length D)) in Es; rewrite skipn_length in Es; simpl in Es; lia|].
    assert (Hd : nth_error H (b * x) = Some d) by (rewrite <- (firstn_skipn (b * x) H), Es, nth_error_app2 by (rewrite firstn_length; lia); rewrite firstn_length, Nat.min_l, Nat.sub_diag by lia; auto).
    exists d. split; [apply in_or_app; left; eapply nth_error_In; eauto|]. split.
    + destruct x as [|x]; [lia|]. apply (Cj d (firstn x rest)). unfold row_bin. rewrite Es. reflexivity.
    + unfold group_row, col. cbn [nth fst]. apply nth_error_nth. rewrite nth_error_map, Hd. auto.
Qed.

Lemma first_kept : forall (o : oconf PB) m ms data, conf_ok dtypes (o_conf o) -> sorted (map idx data) -> no_tie idx (o_conf o) data -> no_empty_bin idx (o_conf o) data ->
  on_first val idx enc o data -> (forall r, col 0 (m r) = col 0 r) -> (forall r, col (o_on o) (m r) = col (o_on o) r) -> order_kept N val dtypes idx enc o m ms data.
Proof.
  intros o m ms data Hc Hs Ht Hn (Es & j & out & i & Eo & Hj & Hi) M0 M1. unfold order_kept. unfold type_of. rewrite Es, Eo in *.
  assert (Hk : kok idx (o_conf o) data) by (split; auto).
  assert (G : forall r, result_ever N val dtypes idx enc false (o_conf o) m data r -> exists H r0, starts H data /\ In r0 (kT N val dtypes idx enc (o_conf o) H) /\ r = m r0).
  { intros r (f & more & bins & snaps & r0 & -> & E & Hr & ->). destruct f as [|x f].
    { exfalso. revert E. unfold batch, cumsegagg. destruct (c_by (o_conf o)); discriminate. }
    destruct (batch_tables N val dtypes idx enc (o_conf o) Hc (x :: f) ltac:(discriminate) (kok_app _ _ _ _ Hk)) as (b' & s' & E' & Tb & _).
    rewrite E in E'. injection E' as <- <-. exists (x :: f), r0. split; [apply starts_app|]. split; auto. rewrite <- Tb. exact Hr. }
  intros r s Hr Hs'. destruct (G r Hr) as (H1 & r1 & S1 & I1 & ->), (G s Hs') as (H2 & r2 & S2 & I2 & ->). rewrite !M0, !M1.
  destruct (bin_rows o data H1 r1 Hc Hk Hn S1 I1 j out i Hj) as (d1 & D1 & C1 & L1), (bin_rows o data H2 r2 Hc Hk Hn S2 I2 j out i Hj) as (d2 & D2 & C2 & L2).
  rewrite C1, C2, <- (Hi d1 d2 D1 D2). destruct Hc as (_ & _ & _ & _ & Hb). destruct (c_by (o_conf o)) as [tg|x cl]; [|rewrite L1, L2; tauto].
  destruct L1 as [L1 F1], L2 as [L2 F2], Hb as [Hf _]. rewrite L1, L2. set (kap := kappa (tg_closed tg) (anchor tg) (tg_freq tg)) in *.
  assert (Lk : forall x y, period_label (tg_label tg) (anchor tg) (tg_freq tg) x <= period_label (tg_label tg) (anchor tg) (tg_freq tg) y <-> x <= y) by (intros x y; unfold period_label; destruct (tg_label tg); nia).
  rewrite Lk. split.
  - intros Hle. destruct (Z.eq_dec (kap (idx d1)) (kap (idx d2))) as [E|E].
    + cbv zeta in *. rewrite E, F2 in F1. injection F1 as ->. lia.
    + destruct (Z.le_gt_cases (idx d1) (idx d2)) as [|Hgt]; auto. pose proof (SegProofs.kappa_mono (tg_closed tg) (anchor tg) (tg_freq tg) (idx d2) (idx d1) Hf ltac:(lia)). fold kap in H. lia.
  - intros Hle. apply SegProofs.kappa_mono; auto.
Qed.
End First.
