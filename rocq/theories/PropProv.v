(** Seed data whose last rows are provisional. Models and specifications are those of C50 (StreamSpec.v, BatchSpec.v). *)
Require Import List Arith ZArith Bool Lia Sorting.Sorted.
Require Import Verif.Common Verif.AggModel Verif.AggSpec Verif.SegModel Verif.SegSpec Verif.CsaModel Verif.CsaSpec Verif.WrModel Verif.StreamModel Verif.RaiseModel Verif.StreamSpec
  Verif.KeyModel Verif.BatchSpec Verif.RecordProofs Verif.PropBatch.
Require Import Verif.BatchHoldProofs.
Require Verif.IterProofs Verif.MergeProofs Verif.SegProofs.
Import ListNotations.
Local Open Scope Z_scope.

(** ** C74: rows at the last index of seed data may be given other values afterwards *)

(** Seed data is a first time [old ++ prov], rows of [prov] being those at the last index. A second time, it is [old ++ new], with
    other rows from this index on. Whatever [prov], chunks, and the state being kept in memory or read again from the store,
    keys hold the results of a single aggregation of [old ++ new]. *)
Theorem C74_provisional_is_batch : forall {D V P PB} (N : dtype -> num V) val dtypes (idx : D -> Z) enc truthy usage
    (pre : option (list D -> P -> list D * P * bool)) fs gs pre0 post0 (confs : list (bconf PB)) m ms old prov new seed1 seed2 t final1 fresh g,
  harmless pre -> filters_are fs gs ->
  concat seed1 = old ++ prov -> prov <> [] -> (forall r, In r prov -> idx r = t) -> (forall r, In r old -> idx r < t) -> sorted (map idx old) ->
  concat seed2 = old ++ new -> new <> [] -> (forall r, In r new -> t <= idx r) -> sorted (map idx new) ->
  (forall c, In c seed1 \/ In c seed2 -> c <> []) ->
  stream_ok N val dtypes idx enc gs confs m ms (old ++ new) -> (forall c, In c confs -> c_nirgs c = None) ->
  run_all idx truthy usage pre fs pre0 segbuf_empty post0 (new_stream pre0 segbuf_empty post0 (map (key_of N val dtypes idx enc) confs))
    [mkRun true final1 seed1; mkRun fresh true seed2] = Ok g ->
  all_batch N val dtypes idx enc gs confs m ms (old ++ new) g.
Proof.
  intros D V P PB N val dtypes idx enc truthy usage pre fs gs pre0 post0 confs m ms old prov new seed1 seed2 t final1 fresh g Hp Hf E1 Hpn Hpt Hot Hso E2 Hnn Hnt Hsn Hch Hok Hc E.
  set (rs := [mkRun true final1 seed1; mkRun fresh true seed2]) in *.
  assert (W : whole_seed [] rs = old ++ new) by (unfold whole_seed; cbn; auto). rewrite <- W in Hok |- *.
  assert (L : last_index idx (old ++ prov) = t).
  { unfold last_index. destruct (exists_last Hpn) as (l & x & Ex). rewrite Ex, app_assoc, map_app. cbn [map]. rewrite last_last. apply Hpt. rewrite Ex. apply in_or_app. right. left. auto. }
  assert (S : forall l, sorted (map idx l) -> (forall r, In r l -> t <= idx r) -> sorted (map idx (old ++ l))).
  { intros l Hl Ht. rewrite map_app. apply SegProofs.sorted_app. repeat split; auto. intros a b Ha Hb. apply in_map_iff in Ha as (x & <- & Hx). apply in_map_iff in Hb as (y & <- & Hy).
    specialize (Hot x Hx). specialize (Ht y Hy). lia. }
  eapply C50_streamed_is_batch; eauto; try discriminate. cbn [growing rs r_seed]. rewrite E1, E2. split; [|split; [|split; [|split; [|split; [|split]]]]]; auto.
  - exists (old ++ prov). split; [reflexivity|congruence].
  - apply S; [|intros r Hr; rewrite (Hpt r Hr); lia]. clear - Hpt. induction prov as [|a l IH]; [constructor|]. cbn [map]. constructor; [apply IH; intros; apply Hpt; right; auto|].
    apply Forall_forall. intros z Hz. apply in_map_iff in Hz as (r & <- & Hr). rewrite (Hpt a), (Hpt r); [lia|right; auto|left; auto].
  - exists new. split; [|auto].
    + rewrite L, filter_app, (MergeProofs.filter_all _ old), (MergeProofs.filter_none _ prov), app_nil_r; auto.
      * intros r Hr. rewrite (Hpt r Hr). apply Z.ltb_irrefl.
      * intros r Hr. apply Z.ltb_lt. auto.
    + intros _. rewrite L. auto.
Qed.
Print Assumptions C74_provisional_is_batch.

Definition ex_old : list ex_row := [(1,1);(2,2);(2,3);(3,4);(6,5);(7,6)].
Definition ex_prov : list ex_row := [(8,3);(8,9)].
Definition ex_new : list ex_row := [(8,7);(9,8);(9,8);(12,9);(16,5)].
Example ex_C74 : exists g, ex_run (ex_start ex_confs) [mkRun true true [firstn 3 ex_old; skipn 3 ex_old ++ ex_prov]; mkRun true true [ex_old ++ ex_new]] = Ok g /\
  all_batch (fun _ => Znum) ex_val ex_dtypes ex_idx ex_enc ex_gs ex_confs ex_map ex_map (ex_old ++ ex_new) g /\
  nth_error (ex_data g) 0 = Some ([[0; 20; 4]; [5; 68; 8]; [10; 18; 9]], []).
Proof.
  destruct (shown_ok _ _ (fun g => nth_error (ex_data g) 0) (ex_run (ex_start ex_confs) [mkRun true true [firstn 3 ex_old; skipn 3 ex_old ++ ex_prov]; mkRun true true [ex_old ++ ex_new]])
    (Some ([[0; 20; 4]; [5; 68; 8]; [10; 18; 9]], [])) ltac:(vm_cast_no_check (eq_refl (Some (Some ([[0; 20; 4]; [5; 68; 8]; [10; 18; 9]], @nil row)))))) as (g & E & F).
  exists g. split; [exact E|]. split; [|exact F].
  apply (C74_provisional_is_batch (fun _ => Znum) ex_val ex_dtypes ex_idx ex_enc ex_truthy (fun f => Z.of_nat (length (rows f))) None ex_fs ex_gs tt 0%nat ex_confs ex_map ex_map
    ex_old ex_prov ex_new [firstn 3 ex_old; skipn 3 ex_old ++ ex_prov] [ex_old ++ ex_new] 8 true true g).
  - exact I.
  - apply ex_filters_are.
  - reflexivity.
  - discriminate.
  - intros r [<-|[<-|[]]]; reflexivity.
  - intros r Hr. apply Z.ltb_lt. revert r Hr. apply forallb_forall. reflexivity.
  - apply IterProofs.sortedb_iff. reflexivity.
  - reflexivity.
  - discriminate.
  - intros r Hr. apply Z.leb_le. revert r Hr. apply forallb_forall. reflexivity.
  - apply IterProofs.sortedb_iff. reflexivity.
  - intros c [Hc|Hc]; revert c Hc; apply ex_chunks; reflexivity.
  - intros c Hc. split; [apply ex_conf_ok; auto|]. split; [apply ex_mok; auto|].
    destruct Hc as [<-|[<-|[<-|[<-|[]]]]]; eexists; (split; [first [left; reflexivity|right; left; reflexivity]|]); try exact I.
    apply ex_no_straddle; [lia|]. vm_compute. reflexivity.
  - intros c [<-|[<-|[<-|[<-|[]]]]]; reflexivity.
  - exact E.
Qed.

(** Hence results depend on the last seed data only: two histories of any number of calls, with the same last seed data, lead to the
    same rows in datasets, whatever provisional rows in between. *)
Theorem C74_last_seed_only : forall {D V P PB} (N : dtype -> num V) val dtypes (idx : D -> Z) enc truthy usage
    (pre : option (list D -> P -> list D * P * bool)) fs gs pre0 post0 (confs : list (bconf PB)) m ms rs rs' g g',
  let start := new_stream pre0 segbuf_empty post0 (map (key_of N val dtypes idx enc) confs) in
  harmless pre -> filters_are fs gs -> growing idx [] rs -> growing idx [] rs' -> whole_seed [] rs = whole_seed [] rs' ->
  stream_ok N val dtypes idx enc gs confs m ms (whole_seed [] rs) -> (forall c, In c confs -> c_nirgs c = None) ->
  run_all idx truthy usage pre fs pre0 segbuf_empty post0 start rs = Ok g -> rs <> [] -> r_final (last rs (mkRun false false [])) = true ->
  run_all idx truthy usage pre fs pre0 segbuf_empty post0 start rs' = Ok g' -> rs' <> [] -> r_final (last rs' (mkRun false false [])) = true ->
  forall i c k b s k' b' s', nth_error confs i = Some c -> nth_error (g_keys g) i = Some (k, b, s) -> nth_error (g_keys g') i = Some (k', b', s') ->
    all_rows (data_of (s_main s)) = all_rows (data_of (s_main s')) /\
    (type_of c = BOTH -> all_rows (data_of (s_snap s)) = all_rows (data_of (s_snap s'))).
Proof.
  intros D V P PB N val dtypes idx enc truthy usage pre fs gs pre0 post0 confs m ms rs rs' g g' start Hp Hf Hg Hg' Ew Hok Hc E Hn Hl E' Hn' Hl' i c k b s k' b' s' Ec Ei Ei'.
  assert (B : all_batch N val dtypes idx enc gs confs m ms (whole_seed [] rs) g) by (eapply C50_streamed_is_batch; eauto).
  assert (B' : all_batch N val dtypes idx enc gs confs m ms (whole_seed [] rs) g') by (rewrite Ew in Hok |- *; eapply C50_streamed_is_batch; eauto).
  destruct (B i c Ec) as (b0 & s0 & F & H). destruct (B' i c Ec) as (b1 & s1 & F' & H'). rewrite Ei in F. injection F as _ _ <-. rewrite Ei' in F'. injection F' as _ _ <-.
  destruct (Hok c (nth_error_In _ _ Ec)) as (_ & _ & kp & Hk & _). specialize (H kp Hk). specialize (H' kp Hk). apply holds_batch_as in H. apply holds_batch_as in H'. unfold typed_batch in H, H'.
  destruct (given idx kp (whole_seed [] rs)) as [|a l].
  - destruct H as [-> H], H' as [-> H']. split; auto. intro Ht. rewrite H, H'; auto.
  - destruct H as (bi & sn & F & H), H' as (bi' & sn' & F' & H'). rewrite F in F'. injection F' as <- <-.
    destruct (type_of c), sn; try contradiction; try (split; [congruence|discriminate]). destruct H, H'. split; congruence.
Qed.
Print Assumptions C74_last_seed_only.

Definition ex_runs_prov : list run := [mkRun true true [[(1,1);(2,2);(2,3);(3,-4)]]; mkRun false false [[(1,1);(2,2);(2,3);(3,4);(4,5);(5,6);(8,0);(8,0)]]; mkRun true true ex_seed3].
Example ex_C74_growing : growing ex_idx [] ex_runs_prov /\ growing ex_idx [] ex_runs /\ whole_seed [] ex_runs_prov = whole_seed [] ex_runs /\
  exists g g', ex_run (ex_start ex_confs) ex_runs_prov = Ok g /\ ex_run (ex_start ex_confs) ex_runs = Ok g' /\ ex_data g = ex_data g'.
Proof.
  split; [|split; [exact ex_growing|split; [reflexivity|]]].
  - repeat split; try (apply IterProofs.sortedb_iff; reflexivity); try (apply ex_chunks; reflexivity); extended.
  - destruct ex_C50 as (g' & E' & _ & F' & _).
    destruct (shown_ok _ _ ex_data (ex_run (ex_start ex_confs) ex_runs_prov) (ex_data g')) as (g & E & F); [rewrite F'; vm_compute; reflexivity|].
    exists g, g'. auto.
Qed.

(** Rows before the last index are not provisional: if one of them is modified, results keep its former value. *)
Theorem C74_earlier_rows_refuted : exists seed1 seed2 g, sorted (map ex_idx (concat seed1)) /\ sorted (map ex_idx (concat seed2)) /\ map ex_idx (concat seed1) = map ex_idx (firstn 4 (concat seed2)) /\
  ex_run (ex_start [ex_E]) [mkRun true true seed1; mkRun true true seed2] = Ok g /\
  ~ all_batch (fun _ => Znum) ex_val ex_dtypes ex_idx ex_enc ex_gs [ex_E] ex_map ex_map (concat seed2) g /\ stored g 0 = Some [[0; 10; 4]; [5; 5; 5]].
Proof.
  set (s1 := [[(1,1);(2,2);(3,3);(4,0)]] : list (list ex_row)). set (s2 := [[(1,1);(2,7);(3,3);(4,4);(5,5);(6,6)]] : list (list ex_row)).
  destruct (shown_ok _ _ (fun g => stored g 0) (ex_run (ex_start [ex_E]) [mkRun true true s1; mkRun true true s2]) (Some [[0; 10; 4]; [5; 5; 5]]) ltac:(vm_cast_no_check (eq_refl (Some (Some [[0; 10; 4]; [5; 5; 5]]))))) as (g & E & F).
  exists s1, s2, g. split; [apply IterProofs.sortedb_iff; reflexivity|]. split; [apply IterProofs.sortedb_iff; reflexivity|]. split; [reflexivity|]. split; [exact E|]. split; [|exact F].
  not_batch ex_E F.
Qed.
Print Assumptions C74_earlier_rows_refuted.

(** Without 'discard_last', provisional rows are aggregated: they are not replaced afterwards. *)
Theorem C74_kept_last_refuted : exists old prov new g1 g, (forall r, In r prov -> ex_idx r = 4) /\ (forall r, In r old -> ex_idx r < 4) /\ (forall r, In r new -> 4 <= ex_idx r) /\ sorted (map ex_idx (old ++ new)) /\
  ex_call (ex_start [ex_E]) [old ++ prov] true false true = (g1, Ok None) /\ ex_call g1 [old ++ new] true true true = (g, Ok None) /\
  ~ all_batch (fun _ => Znum) ex_val ex_dtypes ex_idx ex_enc ex_gs [ex_E] ex_map ex_map (old ++ new) g /\ stored g 0 = Some [[0; 110; 100]; [5; 5; 5]].
Proof.
  set (old := [(1,1);(2,2);(3,3)] : list ex_row). set (prov := [(4,100)] : list ex_row). set (new := [(4,4);(5,5);(6,6)] : list ex_row).
  destruct (pair_shown _ _ _ (fun x => (snd x, let y := ex_call (fst x) [old ++ new] true true true in (snd y, stored (fst y) 0))) (ex_call (ex_start [ex_E]) [old ++ prov] true false true)
    (Ok None, (Ok None, Some [[0; 110; 100]; [5; 5; 5]])) ltac:(vm_cast_no_check (eq_refl (@Ok (option exn) None, (@Ok (option exn) None, Some [[0; 110; 100]; [5; 5; 5]]))))) as (g1 & ex & E1 & F).
  cbv zeta in F. cbn [fst snd] in F. destruct (ex_call g1 [old ++ new] true true true) as [g ex2] eqn:E. cbn [fst snd] in F. apply pair_equal_spec in F as [-> F]. apply pair_equal_spec in F as [-> F].
  exists old, prov, new, g1, g. split; [intros r [<-|[]]; reflexivity|]. split; [intros r [<-|[<-|[<-|[]]]]; reflexivity|]. split; [intros r [<-|[<-|[<-|[]]]]; vm_compute; discriminate|].
  split; [apply IterProofs.sortedb_iff; reflexivity|]. split; [exact E1|]. split; [exact E|]. split; [|exact F].
  not_batch ex_E F.
Qed.
Print Assumptions C74_kept_last_refuted.
