(** Properties of streamed aggregation: delivery of seed data, restarts, failures, metadata, memory. *)
Require Import List Arith ZArith Bool Lia Sorted.
Require Import Verif.Common Verif.SegModel Verif.SegSpec Verif.FilterModel Verif.WrModel Verif.StreamModel Verif.StreamSpec Verif.IterProofs
  Verif.StreamProofs Verif.RecordProofs Verif.FailProofs.
Import ListNotations.
Local Open Scope Z_scope.

(** ** C46: each seed row is delivered exactly once *)

(** Over any number of runs, on the same instance or on new ones reading their state from the store, with or
    without final write, any chunks, seed data growing at its end, where its last rows may be
    modified ('extends'): what each key has aggregated is, in order
    and once, the rows of its filter which are before the last index of seed data. *)
Theorem C46_exactly_once : forall {D P PB} (idx : D -> Z) truthy usage pre fs gs (pre0 : P) (post0 : PB) (keys : list (kconf D (list D) PB)) rs,
  harmless pre -> filters_are fs gs -> (forall k, In k keys -> records k) ->
  growing idx [] rs -> rs <> [] ->
  exists g, run_all idx truthy usage pre fs pre0 [] post0 (new_stream pre0 [] post0 keys) rs = Ok g /\
    map (fun x => fst (fst x)) (g_keys g) = keys /\
    forall k b s keep, In (k, b, s) (g_keys g) -> In (k_filter k, keep) gs ->
      let seed := whole_seed [] rs in
      b_seg b = filter (fun r => keep r && (idx r <? last_index idx seed)) seed.
Proof.
  intros D P PB idx truthy usage pre fs gs pre0 post0 keys rs Hp Hf Hr Hg Hne.
  destruct (run_all_inv idx truthy usage fs gs Hf pre Hp pre0 post0 rs [] (new_stream pre0 [] post0 keys)) as (g & E & C & K); auto.
  - exists None. intros [[k b] s] Hin. unfold new_stream in Hin. cbn [g_keys] in Hin. apply in_map_iff in Hin as (k' & Q & Hin). injection Q as -> <- <-.
    split; auto. split; auto. split; [intros g _; reflexivity|]. split; auto.
  - constructor.
  - exists g. split; auto. split.
    + rewrite K. unfold new_stream. cbn [g_keys]. rewrite map_map. apply map_id.
    + intros k b s keep Hin Hk. apply (C Hne k b s keep Hin Hk).
Qed.
Print Assumptions C46_exactly_once.

(** One iteration over seed data, for any restart index and options. *)
Theorem C46_one_run : forall {D P} (idx : D -> Z) pre fs gs (p : P) restart trim discard seed,
  harmless pre -> filters_are fs gs -> (forall c, In c seed -> c <> []) -> sorted (map idx (concat seed)) ->
  let ys := fst (iter_data idx restart pre fs trim discard p seed) in
  no_error ys /\ forall id keep, In (id, keep) gs ->
    delivered id ys = filter (fun r => keep r && (match restart with Some v => negb trim || (v <=? idx r) | None => true end)
                                              && (negb discard || (idx r <? last_index idx (concat seed)))) (concat seed).
Proof.
  intros D P idx pre fs gs p restart trim discard seed Hp Hf Hne Hs ys.
  destruct (iter_data_spec idx fs gs Hf pre Hp restart trim discard seed p Hne Hs) as (A & B & _). split; auto.
  intros id keep Hin. unfold ys. rewrite (B id keep Hin). apply filter_ext. intro r. unfold wanted, IterProofs.keep.
  destruct restart, trim, discard; simpl; rewrite ?andb_true_r, ?andb_assoc; auto.
Qed.
Print Assumptions C46_one_run.

(** The index left to restart from: nothing kept by a filter lies between it and the last index of seed data, and
    nothing after it has been delivered. *)
Theorem C46_restart_index : forall {D P} (idx : D -> Z) pre fs gs (p : P) restart seed,
  harmless pre -> filters_are fs gs -> (forall c, In c seed -> c <> []) -> sorted (map idx (concat seed)) ->
  let ys := fst (iter_data idx restart pre fs true true p seed) in
  forall id keep r, In (id, keep) gs -> In r (concat seed) -> keep r = true ->
    match restart_after restart ys with
    | Some v => (In r (delivered id ys) -> idx r < v) /\ (v <= idx r -> idx r >= last_index idx (concat seed))
    | None => idx r >= last_index idx (concat seed)
    end.
Proof.
  intros D P idx pre fs gs p restart seed Hp Hf Hne Hs ys id keep r Hin Hr Hk.
  destruct (iter_data_spec idx fs gs Hf pre Hp restart true true seed p Hne Hs) as (A & B & C). fold ys in A, B, C.
  set (L := last_index idx (concat seed)) in *.
  assert (W : forall v, match restart with Some R => R <= v | None => True end -> v <= idx r -> idx r < L -> wanted idx restart true true L r = true).
  { intros v Hv H1 H2. unfold wanted, IterProofs.keep. destruct restart as [R|]; simpl; [|apply Z.ltb_lt; auto].
    apply andb_true_iff. split; [apply Z.leb_le; lia|apply Z.ltb_lt; lia]. }
  destruct C as [[-> C]|(N & -> & HN & _ & Hm & C)].
  - destruct restart as [R|].
    + split.
      * intro Hd. exfalso. rewrite (B id keep Hin) in Hd. apply filter_In in Hd as [_ Hd]. apply andb_true_iff in Hd as [_ Hw]. eapply C; eauto.
      * intro Hv. destruct (Z.lt_ge_cases (idx r) L); [|lia]. exfalso. apply (C id keep r Hin Hr Hk). apply (W R); simpl; auto; lia.
    + destruct (Z.lt_ge_cases (idx r) L); [|lia]. exfalso. apply (C id keep r Hin Hr Hk). apply (W (idx r)); simpl; auto; lia.
  - split.
    + intro Hd. rewrite (B id keep Hin) in Hd. apply filter_In in Hd as [_ Hd]. apply andb_true_iff in Hd as [_ Hw]. eapply (C id keep r); eauto.
    + intro Hv. destruct (Z.lt_ge_cases (idx r) L); [|lia]. exfalso. specialize (Hm eq_refl).
      assert (idx r < N); [|lia]. apply (C id keep r Hin Hr Hk). apply (W N); auto.
Qed.
Print Assumptions C46_restart_index.

(** Rows are pairs of an index and of a value. Two keys: all rows, and rows with an even value. *)
Definition ex_row := (Z * Z)%type.
Definition ex_idx (r : ex_row) := fst r.
Definition ex_even (r : ex_row) : bool := Z.even (snd r).
Definition ex_fs : list (nat * option (list ex_row -> res (list bool))) := [(0%nat, None); (1%nat, Some (fun rows => Ok (map ex_even rows)))].
Definition ex_gs : list (nat * (ex_row -> bool)) := [(0%nat, fun _ => true); (1%nat, ex_even)].
Example ex_filters_are : filters_are ex_fs ex_gs.
Proof. split; [repeat constructor; simpl; intuition discriminate|]. repeat constructor. Qed.
Definition ex_params : params := mkParams None Unordered None None.
Definition ex_rec (id : nat) : kconf ex_row (list ex_row) unit :=
  mkConf id (fun rows b => Ok (None, b ++ rows)) BINS None 100 ex_params ex_params.
(** Rows at index 4 in the first seed data, and 6 in the second one, are modified afterwards. *)
Definition ex_seed1 : list (list ex_row) := [[(1,1);(2,2);(2,3)]; [(2,4);(4,0)]; [(4,20)]].
Definition ex_seed2 : list (list ex_row) := [[(1,1)];[(2,2);(2,3);(2,4);(4,5);(4,6)]; [(4,7);(5,8)];[(5,9);(6,10)]].
Definition ex_seed3 : list (list ex_row) := [[(1,1);(2,2);(2,3);(2,4);(4,5);(4,6);(4,7);(5,8);(5,9);(6,11);(7,12);(8,14)]].
Definition ex_runs := [mkRun true true ex_seed1; mkRun false false ex_seed2; mkRun true true ex_seed3].
Example ex_growing : growing ex_idx [] ex_runs.
Proof.
  assert (H : forall (c : list ex_row) l, In c l -> forallb (fun c => match c with [] => false | _ => true end) l = true -> c <> []).
  { intros c l Hin Hl ->. rewrite forallb_forall in Hl. specialize (Hl _ Hin). discriminate. }
  repeat split; try (apply sortedb_iff; reflexivity); try (intros c Hin; eapply H; [exact Hin|reflexivity]).
  - extended.
  - extended.
  - extended.
Qed.
Example ex_C46 : exists g, run_all ex_idx (fun z => negb (z =? 0)) (fun _ => 1) None ex_fs tt [] tt (new_stream tt [] tt [ex_rec 0; ex_rec 1]) ex_runs = Ok g /\
  map (fun x => b_seg (snd (fst x))) (g_keys g)
  = [[(1,1);(2,2);(2,3);(2,4);(4,5);(4,6);(4,7);(5,8);(5,9);(6,11);(7,12)]; [(2,2);(2,4);(4,6);(5,8);(7,12)]].
Proof. eexists. split; [vm_compute; reflexivity|reflexivity]. Qed.

(** Without discard_last, rows are delivered twice at restart. *)
Theorem C46_kept_last_refuted : exists (seed1 seed2 : list (list ex_row)),
  (exists new, concat seed2 = concat seed1 ++ new) /\ sorted (map ex_idx (concat seed2)) /\
  let ys1 := fst (iter_data ex_idx None None ex_fs true false tt seed1) in
  let ys2 := fst (iter_data ex_idx (restart_after None ys1) None ex_fs true false tt seed2) in
  exists r, In r (delivered 0 ys1) /\ In r (delivered 0 ys2).
Proof.
  exists [[(1,1);(2,2)]], [[(1,1);(2,2)];[(3,3)]]. split; [exists [(3,3)]; auto|]. split; [apply sortedb_iff; reflexivity|].
  exists (2,2). vm_compute. auto.
Qed.
Print Assumptions C46_kept_last_refuted.

(** ** C47: every filter sees exactly its own rows *)

(** Two seeds with the same rows in different chunks: same rows for each filter. *)
Theorem C47_chunks : forall {D P} (idx : D -> Z) pre fs gs (p p' : P) restart trim discard seed seed',
  harmless pre -> filters_are fs gs -> (forall c, In c seed -> c <> []) -> (forall c, In c seed' -> c <> []) ->
  concat seed = concat seed' -> sorted (map idx (concat seed)) ->
  forall id, In id (map fst gs) ->
  delivered id (fst (iter_data idx restart pre fs trim discard p seed)) = delivered id (fst (iter_data idx restart pre fs trim discard p' seed')).
Proof.
  intros D P idx pre fs gs p p' restart trim discard seed seed' Hp Hf Hn Hn' E Hs id Hin.
  apply in_map_iff in Hin as ([i keep] & <- & Hin). simpl.
  destruct (C46_one_run idx pre fs gs p restart trim discard seed Hp Hf Hn Hs) as [_ A].
  destruct (C46_one_run idx pre fs gs p' restart trim discard seed' Hp Hf Hn') as [_ B]; [rewrite <- E; auto|].
  rewrite (A i keep Hin), (B i keep Hin), E. auto.
Qed.
Print Assumptions C47_chunks.

(** What a filter sees does not depend on the other filters: it is the filter of what is seen without filter. *)
Theorem C47_own_rows : forall {D P} (idx : D -> Z) pre fs gs (p : P) restart trim discard seed,
  harmless pre -> filters_are fs gs -> (forall c, In c seed -> c <> []) -> sorted (map idx (concat seed)) ->
  forall id keep, In (id, keep) gs ->
  delivered id (fst (iter_data idx restart pre fs trim discard p seed))
  = filter keep (delivered 0 (fst (iter_data idx restart pre [(0%nat, None)] trim discard p seed))).
Proof.
  intros D P idx pre fs gs p restart trim discard seed Hp Hf Hn Hs id keep Hin.
  destruct (C46_one_run idx pre fs gs p restart trim discard seed Hp Hf Hn Hs) as [_ A].
  destruct (C46_one_run idx pre [(0%nat, None)] [(0%nat, fun _ => true)] p restart trim discard seed Hp) as [_ B]; auto.
  { split; [repeat constructor; auto|]. repeat constructor. }
  rewrite (A id keep Hin), (B 0%nat (fun _ => true)) by (left; auto). rewrite filter_filter. apply filter_ext. intro r. cbn [andb].
  rewrite <- andb_assoc. apply andb_comm.
Qed.
Print Assumptions C47_own_rows.
Example ex_C47 : delivered 1 (fst (iter_data ex_idx (Some 2) None ex_fs true true tt ex_seed2)) = [(2,2);(2,4);(4,6);(5,8)].
Proof. reflexivity. Qed.

(** ** C48: unordered seed chunks are refused *)

(** Data delivered from a seed with an unordered chunk is what the chunks before give, followed by the exception
    (unless something has been raised before). This is for any 'pre' and filters. *)
Theorem C48_refused : forall {D P} (idx : D -> Z) pre fs (p : P) restart trim discard before bad after,
  ~ sorted (map idx bad) ->
  let ys := fst (iter_data idx restart pre fs trim discard p before) in
  fst (iter_data idx restart pre fs trim discard p (before ++ bad :: after)) = if stopped ys then ys else ys ++ [Err SeedPre].
Proof.
  intros D P idx pre fs p restart trim discard before bad after Hb ys.
  rewrite (iter_data_fail idx fs pre restart trim discard before p bad after (snd (iter_data idx restart pre fs trim discard p before))) by (left; auto).
  fold ys. destruct (stopped ys); auto.
Qed.
Print Assumptions C48_refused.

(** In a run: everything aggregated from the chunks before is kept, metadata included, and the exception raised. *)
Theorem C48_run : forall {D P SB PB} (idx : D -> Z) truthy usage pre fs (g g1 : stream D P SB PB) before bad after trim discard final,
  ~ sorted (map idx bad) ->
  agg idx truthy usage pre fs g before trim discard final = Ok (g1, None) ->
  agg idx truthy usage pre fs g (before ++ bad :: after) trim discard final = Ok (g1, Some SeedPre).
Proof.
  intros D P SB PB idx truthy usage pre fs g g1 before bad after trim discard final Hb H.
  destruct (agg_fail idx truthy usage fs pre g g1 before bad after trim discard final (g_pre g1) H) as (g2 & E & _ & _ & Q); [left; auto|].
  rewrite <- (Q eq_refl). auto.
Qed.
Print Assumptions C48_run.
Example ex_C48 : exists g1,
  let g := new_stream tt [] tt [ex_rec 0; ex_rec 1] in let tr := fun z => negb (z =? 0) in
  agg ex_idx tr (fun _ => 1) None ex_fs g ex_seed1 true true true = Ok (g1, None) /\ ~ sorted (map ex_idx [(6,1);(5,1)]) /\
  map (fun x => b_seg (snd (fst x))) (g_keys g1) = [[(1,1);(2,2);(2,3);(2,4)];[(2,2);(2,4)]] /\
  agg ex_idx tr (fun _ => 1) None ex_fs g (ex_seed1 ++ [(6,1);(5,1)] :: ex_seed2) true true true = Ok (g1, Some SeedPre).
Proof.
  eexists. cbv zeta. split; [vm_compute; reflexivity|]. split; [intro H; apply sortedb_iff in H; discriminate|]. split; [reflexivity|vm_compute; reflexivity].
Qed.

(** A seed which is not ordered from a chunk to the next one is not always detected: rows are delivered out of order. *)
Theorem C48_across_chunks_refuted : exists (seed : list (list ex_row)),
  ~ sorted (map ex_idx (concat seed)) /\
  let ys := fst (iter_data ex_idx None None [(0%nat, None)] true true tt seed) in
  no_error ys /\ ~ sorted (map ex_idx (delivered 0 ys)).
Proof.
  exists [[(1,0);(4,0);(5,0)];[(3,0);(4,0)]]. split; [intro H; apply sortedb_iff in H; discriminate|]. cbv zeta. split.
  - apply no_error_not_stopped. reflexivity.
  - intro H. apply sortedb_iff in H. discriminate.
Qed.
Print Assumptions C48_across_chunks_refuted.

(** ** C49: a failing pre-check keeps everything aggregated so far *)

(** [g1] is what the chunks before the failing one give. Results, metadata, restart index are the same; only the buffer
    of 'pre' may differ, by what 'pre' did before raising. *)
Theorem C49_kept : forall {D P SB PB} (idx : D -> Z) truthy usage pre fs (g g1 : stream D P SB PB) before bad after trim discard final c p',
  agg idx truthy usage (Some pre) fs g before trim discard final = Ok (g1, None) ->
  sorted (map idx bad) -> pre bad (g_pre g1) = (c, p', false) ->
  exists g2, agg idx truthy usage (Some pre) fs g (before ++ bad :: after) trim discard final = Ok (g2, Some SeedPre) /\
    same_but_pre g1 g2 /\ g_pre g2 = p' /\ (p' = g_pre g1 -> g2 = g1).
Proof.
  intros D P SB PB idx truthy usage pre fs g g1 before bad after trim discard final c p' H Hs Hp.
  destruct (agg_fail idx truthy usage fs (Some pre) g g1 before bad after trim discard final p' H) as (g2 & E & A & B & C); [right; eauto|].
  exists g2. auto.
Qed.
Print Assumptions C49_kept.

(** 'pre' counts chunks, and refuses rows with a negative value. *)
Definition ex_pre (rows : list ex_row) (n : nat) : list ex_row * nat * bool := (rows, S n, forallb (fun r => 0 <=? snd r) rows).
Example ex_C49 : exists g1 g2,
  let g := new_stream 0%nat [] tt [ex_rec 0; ex_rec 1] in let tr := fun z => negb (z =? 0) in
  agg ex_idx tr (fun _ => 1) (Some ex_pre) ex_fs g ex_seed1 true true true = Ok (g1, None) /\ g_pre g1 = 3%nat /\
  agg ex_idx tr (fun _ => 1) (Some ex_pre) ex_fs g (ex_seed1 ++ [(6,-1)] :: ex_seed2) true true true = Ok (g2, Some SeedPre) /\
  g_restart g2 = Some 4 /\ map (fun x => b_seg (snd (fst x))) (g_keys g2) = [[(1,1);(2,2);(2,3);(2,4)];[(2,2);(2,4)]] /\
  map (fun x => match s_main (snd x) with Some e => match e_md e with Some m => (m_restart m, m_pre m) | None => (0, 0%nat) end | None => (0, 0%nat) end) (g_keys g2)
  = [(4, 4%nat); (4, 4%nat)].
Proof. do 2 eexists. cbv zeta. split; [vm_compute; reflexivity|]. split; [reflexivity|]. split; [vm_compute; reflexivity|]. repeat split. Qed.

(** ** C52: the restart index is recorded with each final write *)

Lemma agg_final : forall {D P SB PB} (idx : D -> Z) truthy usage pre fs (g g' : stream D P SB PB) seed trim discard ex,
  agg idx truthy usage pre fs g seed trim discard true = Ok (g', ex) ->
  exists keys, Forall2 (does (fun k b s => post_n_write truthy k b s true (g_restart g') (g_pre g'))) keys (g_keys g').
Proof.
  intros D P SB PB idx truthy usage pre fs g g' seed trim discard ex H. unfold agg in H.
  match type of H with bind ?X _ = _ => destruct X as [[g1 ex1]|] end; cbn [bind] in H; [|discriminate].
  unfold final_write in H. destruct (run_jobs _ 0 (g_keys g1)) as [[l log]|] eqn:E; cbn [bind] in H; [|discriminate].
  injection H as <- _. cbn [g_restart g_pre g_keys]. exists (g_keys g1). eapply run_jobs_inv. eauto.
Qed.
Lemma post_n_write_md : forall {D P SB PB} truthy (k : kconf D SB PB) b (s : kstore P SB PB) r p b' a,
  post_n_write truthy k b s true (Some r) p = Ok (b', a) ->
  md_of (s_main (apply_acts s a)) = Some (mkMd r p (b_seg b') (b_post b')) \/
  truthy r = false /\ (md_of (s_main (apply_acts s a)) = md_of (s_main s) \/ md_of (s_main (apply_acts s a)) = None).
Proof.
  intros D P SB PB truthy k b s r p b' a H. unfold post_n_write in H.
  destruct (results k b true) as [[[main snap] pb]|] eqn:Er; cbn [bind] in H; [|discriminate]. cbn [b_seg b_post] in H.
  assert (Eb : forall a0, Ok (match b_bin b with
      | Some _ => reset_buffers (mkBuf (b_size b) (b_bin b) (b_snap b) (b_bins b) (b_snaps b) (b_seg b) pb)
      | None => mkBuf (b_size b) (b_bin b) (b_snap b) (b_bins b) (b_snaps b) (b_seg b) pb end, a0) = Ok (b', a) -> a0 = a /\ b_seg b' = b_seg b /\ b_post b' = pb).
  { intros a0 Q. injection Q as <- ->. destruct (b_bin b); auto. }
  destruct main as [m|].
  - unfold store_write in H. destruct (write (k_write k) false (data_of (s_main s)) m) as [ds|]; cbn [bind] in H; [|discriminate].
    assert (Q : exists e rest, a = (false, e) :: rest /\ (rest = [] \/ exists e', rest = [(true, e')]) /\ b_seg b' = b_seg b /\ b_post b' = pb /\
      e_md e = match (if truthy r then Some (mkMd r p (b_seg b) pb) else None) with Some md => Some md | None => match data_of (s_main s) with [] => None | _ => md_of (s_main s) end end).
    { destruct (k_type k).
      - cbn [bind] in H. apply Eb in H as (<- & H1 & H2). do 2 eexists. split; [reflexivity|]. split; auto.
      - cbn [bind] in H. apply Eb in H as (<- & H1 & H2). do 2 eexists. split; [reflexivity|]. split; auto.
      - destruct snap as [sn|]; [|discriminate]. destruct (write (k_write_snap k) false (data_of (s_snap s)) sn) as [ds'|]; cbn [bind] in H; [|discriminate].
        apply Eb in H as (<- & H1 & H2). do 2 eexists. split; [reflexivity|]. split; eauto. }
    destruct Q as (e & rest & -> & Hrest & E1 & E2 & E3).
    assert (Q : md_of (s_main (apply_acts s ((false, e) :: rest))) = e_md e) by (destruct Hrest as [->|[e' ->]]; auto).
    rewrite Q, E3, E1, E2. destruct (truthy r); auto. right. split; auto. destruct (data_of (s_main s)); auto.
  - destruct (truthy r); cbn [bind] in H; apply Eb in H as (<- & H1 & H2).
    + left. rewrite H1, H2. auto.
    + right. auto.
Qed.

(** After a run with final write, whatever happened (results or not, 'pre' raising): metadata of each key holds the index to restart
    from, and the buffers of the stream, if that index is true in a boolean context. *)
Theorem C52_recorded : forall {D P SB PB} (idx : D -> Z) truthy usage pre fs (g g' : stream D P SB PB) seed trim discard ex r,
  agg idx truthy usage pre fs g seed trim discard true = Ok (g', ex) -> g_restart g' = Some r -> truthy r = true ->
  forall k b s, In (k, b, s) (g_keys g') ->
  md_of (s_main s) = Some (mkMd r (g_pre g') (b_seg b) (b_post b)).
Proof.
  intros D P SB PB idx truthy usage pre fs g g' seed trim discard ex r H Hr Ht k b s Hin.
  destruct (agg_final _ _ _ _ _ _ _ _ _ _ _ H) as [keys F].
  destruct (Forall2_in_r _ _ _ _ F Hin) as ([[k0 b0] s0] & _ & (b1 & a1 & J & Q)). injection Q as -> -> ->. rewrite Hr in J.
  destruct (post_n_write_md _ _ _ _ _ _ _ _ J) as [Q|[Q _]]; auto. congruence.
Qed.
Print Assumptions C52_recorded.

(** A new instance on the store then starts from there. *)
Theorem C52_restarted : forall {D P SB PB} (idx : D -> Z) truthy usage pre fs (g g' : stream D P SB PB) seed trim discard ex r pre0 seg0 post0,
  agg idx truthy usage pre fs g seed trim discard true = Ok (g', ex) -> g_restart g' = Some r -> truthy r = true -> g_keys g' <> [] ->
  exists g2, init pre0 seg0 post0 (map (fun x => let '(k, b, s) := x in (k, s)) (g_keys g')) = Ok g2 /\ g_restart g2 = Some r /\
    Forall2 (fun x y => let '(k, b, s) := x in let '(k', b', s') := y in k' = k /\ s' = s /\ b_seg b' = b_seg b /\ b_post b' = b_post b /\
                        b_bin b' = None /\ b_bins b' = [] /\ b_snaps b' = []) (g_keys g') (g_keys g2).
Proof.
  intros D P SB PB idx truthy usage pre fs g g' seed trim discard ex r pre0 seg0 post0 H Hr Ht Hne.
  pose proof (C52_recorded idx truthy usage pre fs g g' seed trim discard ex r H Hr Ht) as M.
  set (ks := map _ (g_keys g')).
  assert (Mk : forall k s, In (k, s) ks -> exists e md, s_main s = Some e /\ e_md e = Some md /\ m_restart md = r).
  { intros k s Hin. unfold ks in Hin. apply in_map_iff in Hin as ([[k' b'] s'] & Q & Hin). injection Q as -> ->. specialize (M _ _ _ Hin).
    destruct (s_main s) as [e|]; [|discriminate]. simpl in M. exists e. eexists. eauto. }
  assert (Rs : forall z, In z (restarts_of ks) -> z = r).
  { intros z Hz. unfold restarts_of in Hz. apply in_flat_map in Hz as ([k s] & Hin & Hz). destruct (Mk _ _ Hin) as (e & md & E1 & E2 & E3).
    cbn [snd] in Hz. rewrite E1, E2 in Hz. destruct Hz as [<-|[]]. auto. }
  destruct (init_ok pre0 seg0 post0 ks) as [g2 E].
  - intros k s e Hin Es. destruct (Mk _ _ Hin) as (e' & md & E1 & E2 & _). congruence.
  - intros z z' Hz Hz'. rewrite (Rs _ Hz), (Rs _ Hz'). auto.
  - exists g2. split; auto. destruct (init_inv _ _ _ _ _ E) as [F HR]. split.
    + assert (Q : exists z, In z (restarts_of ks)).
      { destruct (g_keys g') as [|[[k b] s] l]; [congruence|]. exists r. unfold restarts_of. apply in_flat_map. exists (k, s).
        split; [left; auto|]. destruct (Mk k s (or_introl eq_refl)) as (e & md & E1 & E2 & E3). cbn [snd]. rewrite E1, E2. left. auto. }
      destruct Q as [z Hz]. destruct (g_restart g2) as [r2|]; [destruct HR as [HR _]; rewrite (Rs _ HR); auto|]. rewrite HR in Hz. destruct Hz.
    + clear - F M. unfold ks in F. revert F M. generalize (g_keys g2). induction (g_keys g') as [|[[k b] s] l IH]; intros l' F M; cbn [map] in F; inversion F; subst; constructor; auto.
      * simpl in H1. specialize (M k b s (or_introl eq_refl)). destruct (s_main s) as [e|]; [|discriminate]. simpl in M.
        destruct H1 as (md & Em & ->). rewrite M in Em. injection Em as <-. repeat split; auto.
      * apply IH; auto. intros k0 b0 s0 Hin. apply (M k0 b0 s0). right. auto.
Qed.
Print Assumptions C52_restarted.

(** Otherwise metadata is not updated. *)
Theorem C52_falsy : forall {D P SB PB} truthy (g g' : stream D P SB PB) r,
  final_write truthy g = Ok g' -> g_restart g = Some r -> truthy r = false ->
  Forall2 (fun x y => md_of (s_main (snd y)) = md_of (s_main (snd x)) \/ md_of (s_main (snd y)) = None) (g_keys g) (g_keys g').
Proof.
  intros D P SB PB truthy g g' r H Hr Ht. unfold final_write in H.
  destruct (run_jobs _ 0 (g_keys g)) as [[l log]|] eqn:E; cbn [bind] in H; [|discriminate]. injection H as <-. cbn [g_keys].
  apply run_jobs_inv in E. rewrite Hr in E. clear - E Ht. induction E as [|x y l l' Hxy F IH]; constructor; auto.
  destruct x as [[k b] s]. destruct Hxy as (b' & a & J & ->). cbn [snd].
  pose proof J as J'. unfold post_n_write in J'. rewrite Ht in J'.
  destruct (results k b true) as [[[main snap] pb]|]; cbn [bind] in J'; [|discriminate].
  destruct main as [m|].
  - unfold store_write in J'. destruct (write (k_write k) false (data_of (s_main s)) m) as [ds|]; cbn [bind] in J'; [|discriminate].
    destruct (k_type k); [| |destruct snap as [sn|]; [destruct (write (k_write_snap k) false (data_of (s_snap s)) sn)|]]; cbn [bind] in J'; try discriminate;
    injection J' as _ <-; cbn [apply_acts fold_left]; unfold apply_act; cbn [fst snd s_main md_of e_md]; destruct (data_of (s_main s)); auto.
  - cbn [bind] in J'. injection J' as _ <-. auto.
Qed.
Print Assumptions C52_falsy.

(** With an integer index, a run which stops at 0 leaves no record of it. *)
Definition ex_truthy (z : Z) : bool := negb (z =? 0).
Theorem C52_zero_refuted : exists g',
  agg ex_idx ex_truthy (fun _ => 1) None ex_fs (new_stream tt [] tt [ex_rec 0]) [[(-2,1);(-1,2)];[(0,3)]] true true true = Ok (g', None) /\
  g_restart g' = Some 0 /\ map (fun x => s_main (snd x)) (g_keys g') = [None].
Proof. eexists. split; [vm_compute; reflexivity|]. split; reflexivity. Qed.
Print Assumptions C52_zero_refuted.
Example ex_C52 : exists g', agg ex_idx ex_truthy (fun _ => 1) None ex_fs (new_stream tt [] tt [ex_rec 0]) ex_seed1 true true true = Ok (g', None) /\
  g_restart g' = Some 4 /\ map (fun x => md_of (s_main (snd x))) (g_keys g') = [Some (mkMd 4 tt [(1,1);(2,2);(2,3);(2,4)] tt)].
Proof. eexists. split; [vm_compute; reflexivity|]. split; reflexivity. Qed.

(** ** C53: keys of one stream must agree on the restart index *)

(** Indices recorded in store for the keys. *)
Definition recorded {D P SB PB} (ks : list (kconf D SB PB * kstore P SB PB)) (r : Z) : Prop :=
  exists k s md, In (k, s) ks /\ md_of (s_main s) = Some md /\ m_restart md = r.
Lemma recorded_restarts : forall {D P SB PB} (ks : list (kconf D SB PB * kstore P SB PB)) r, recorded ks r <-> In r (restarts_of ks).
Proof.
  intros. unfold recorded, restarts_of. rewrite in_flat_map. split.
  - intros (k & s & md & A & B & C). exists (k, s). split; auto. cbn [snd]. destruct (s_main s) as [e|]; [|discriminate]. simpl in B. rewrite B. left. auto.
  - intros ([k s] & A & B). cbn [snd] in B. destruct (s_main s) as [e|] eqn:E; [|destruct B]. destruct (e_md e) as [md|] eqn:M; [|destruct B].
    destruct B as [<-|[]]. exists k, s, md. rewrite E. auto.
Qed.

Theorem C53_refused : forall {D P SB PB} (pre0 : P) (seg0 : SB) (post0 : PB) (ks : list (kconf D SB PB * kstore P SB PB)) r r',
  recorded ks r -> recorded ks r' -> r <> r' -> init pre0 seg0 post0 ks = Err ValueError.
Proof.
  intros D P SB PB pre0 seg0 post0 ks r r' Hr Hr' Hne. apply recorded_restarts in Hr, Hr'. unfold init.
  pose proof (init_keys_spec seg0 post0 ks [] pre0) as I. destruct (init_keys seg0 post0 ks [] pre0) as [[[l rs] p]|e]; cbn [bind].
  - destruct I as (_ & I & _). destruct rs as [|a [|b rs]]; auto; exfalso.
    + apply (proj2 (I r)). auto.
    + assert (A : In r [a]) by (apply I; auto). assert (B : In r' [a]) by (apply I; auto). simpl in A, B. intuition congruence.
  - destruct I as [-> _]. auto.
Qed.
Print Assumptions C53_refused.
(** A dataset without metadata of a stream is refused too. *)
Theorem C53_foreign_refused : forall {D P SB PB} (pre0 : P) (seg0 : SB) (post0 : PB) (ks : list (kconf D SB PB * kstore P SB PB)) k s e,
  In (k, s) ks -> s_main s = Some e -> e_md e = None -> init pre0 seg0 post0 ks = Err ValueError.
Proof.
  intros D P SB PB pre0 seg0 post0 ks k s e Hin Hs Hm. unfold init.
  pose proof (init_keys_spec seg0 post0 ks [] pre0) as I. destruct (init_keys seg0 post0 ks [] pre0) as [[[l rs] p]|e']; cbn [bind].
  - destruct I as (I & _). destruct (Forall2_in_l _ _ _ _ I Hin) as (y & _ & Hy). simpl in Hy. rewrite Hs in Hy. destruct Hy as (md & Q & _). congruence.
  - destruct I as [-> _]. auto.
Qed.
Print Assumptions C53_foreign_refused.

(** Otherwise the common index is the one to restart from; buffers of a key are those in store, or empty ones for a key
    which is not in store. *)
Theorem C53_common : forall {D P SB PB} (pre0 : P) (seg0 : SB) (post0 : PB) (ks : list (kconf D SB PB * kstore P SB PB)) r,
  recorded ks r -> (forall r', recorded ks r' -> r' = r) -> (forall k s e, In (k, s) ks -> s_main s = Some e -> e_md e <> None) ->
  exists g, init pre0 seg0 post0 ks = Ok g /\ g_restart g = Some r /\
    Forall2 (fun x y => fst x = fst (fst y) /\ snd x = snd y /\
               match md_of (s_main (snd x)) with
               | Some md => b_seg (snd (fst y)) = m_seg md /\ b_post (snd (fst y)) = m_post md
               | None => b_seg (snd (fst y)) = seg0 /\ b_post (snd (fst y)) = post0
               end) ks (g_keys g).
Proof.
  intros D P SB PB pre0 seg0 post0 ks r Hr Hu Hm.
  destruct (init_ok pre0 seg0 post0 ks) as [g E]; auto.
  - intros z z' Hz Hz'. apply recorded_restarts in Hz, Hz'. rewrite (Hu _ Hz), (Hu _ Hz'). auto.
  - exists g. split; auto. destruct (init_inv _ _ _ _ _ E) as [F HR]. apply recorded_restarts in Hr. split.
    + destruct (g_restart g) as [z|]; [destruct HR as [HR _]; apply recorded_restarts in HR; rewrite (Hu _ HR); auto|]. rewrite HR in Hr. destruct Hr.
    + clear - F. induction F as [|[k s] y ks' l Hy F IH]; constructor; auto. simpl in Hy. cbn [fst snd]. destruct (s_main s) as [e|].
      * destruct Hy as (md & Q & ->). simpl. rewrite Q. auto.
      * subst y. simpl. auto.
Qed.
Print Assumptions C53_common.
(** No key in store: nothing is trimmed. *)
Theorem C53_new : forall {D P SB PB} (pre0 : P) (seg0 : SB) (post0 : PB) (ks : list (kconf D SB PB * kstore P SB PB)),
  (forall k s, In (k, s) ks -> s_main s = None) -> exists g, init pre0 seg0 post0 ks = Ok g /\ g_restart g = None /\ g_pre g = pre0.
Proof.
  intros D P SB PB pre0 seg0 post0 ks H. unfold init.
  assert (E : exists l, init_keys seg0 post0 ks [] pre0 = Ok (l, [], pre0)).
  { induction ks as [|[k s] ks IH]; cbn [init_keys]; [eauto|]. rewrite (H k s (or_introl eq_refl)).
    destruct IH as [l ->]; [intros; eapply H; right; eauto|]. cbn [bind]. eauto. }
  destruct E as [l ->]. cbn [bind]. eexists. split; [reflexivity|]. auto.
Qed.
Print Assumptions C53_new.

(** A key added to a stream which already ran does not get the rows before the restart index: no row it is given is before it. *)
Theorem C53_new_key_misses : forall {D P} (idx : D -> Z) pre fs gs (p : P) r seed,
  harmless pre -> filters_are fs gs -> (forall c, In c seed -> c <> []) -> sorted (map idx (concat seed)) ->
  forall id row, In id (map fst gs) -> In row (delivered id (fst (iter_data idx (Some r) pre fs true true p seed))) -> r <= idx row.
Proof.
  intros D P idx pre fs gs p r seed Hp Hf Hne Hs id row Hid Hin. apply in_map_iff in Hid as ([i keep] & <- & Hid). cbn [fst] in Hin.
  destruct (C46_one_run idx pre fs gs p (Some r) true true seed Hp Hf Hne Hs) as [_ A]. rewrite (A _ _ Hid) in Hin.
  apply filter_In in Hin as [_ Hin]. apply andb_true_iff in Hin as [Hin _]. apply andb_true_iff in Hin as [_ Hin]. apply Z.leb_le. auto.
Qed.
Print Assumptions C53_new_key_misses.

Definition ex_entry (r : Z) (rows : list ex_row) : entry unit (list ex_row) unit := mkEntry [] (Some (mkMd r tt rows tt)).
Example ex_C53_common : exists g,
  init tt [] tt [(ex_rec 0, mkStore (Some (ex_entry 4 [(1,1)])) None); (ex_rec 1, mkStore None None)] = Ok g /\ g_restart g = Some 4 /\
  map (fun x => b_seg (snd (fst x))) (g_keys g) = [[(1,1)]; []] /\
  exists g', agg ex_idx ex_truthy (fun _ => 1) None ex_fs g [[(1,2);(4,4)];[(5,6);(6,1)]] true true true = Ok (g', None) /\
  map (fun x => b_seg (snd (fst x))) (g_keys g') = [[(1,1);(4,4);(5,6)]; [(4,4);(5,6)]].
Proof. eexists. split; [vm_compute; reflexivity|]. split; [reflexivity|]. split; [reflexivity|]. eexists. split; [vm_compute; reflexivity|]. reflexivity. Qed.
Example ex_C53_refused :
  init tt [] tt [(ex_rec 0, mkStore (Some (ex_entry 4 [(1,1)])) None); (ex_rec 1, mkStore (Some (ex_entry 5 [])) None)] = Err ValueError.
Proof. reflexivity. Qed.

(** ** C55: bound of results kept in memory *)

Lemma total_app : forall {A} (u : A -> Z) l l', total u (l ++ l') = total u l + total u l'.
Proof. induction l as [|x l IH]; intro l'; simpl; [auto|]. rewrite IH. lia. Qed.
Lemma removelast_snoc_ : forall {A} (l : list A) x, removelast (l ++ [x]) = l.
Proof. intros. rewrite removelast_app by discriminate. simpl. apply app_nil_r. Qed.
Lemma total_nonneg : forall {A} (u : A -> Z) l, (forall x, 0 <= u x) -> 0 <= total u l.
Proof. induction l as [|x l IH]; intro H; simpl; [lia|]. specialize (H x) as Hx. specialize (IH H). lia. Qed.

Section Bound.
Context {D P SB PB : Type}.
Variable truthy : Z -> bool.
Variable usage : frame -> Z.
Hypothesis Hu : forall f, 0 <= usage f.

Lemma bounded_none : forall (k : kconf D SB PB) b, 0 <= k_max k -> b_bins b = [] -> b_snaps b = [] -> b_size b = 0 -> bounded usage k b.
Proof. intros k b Hk H1 H2 H3. exists []. simpl. auto. Qed.
Lemma post_n_write_bounded : forall (k : kconf D SB PB) b (s : kstore P SB PB) last r p b' a, 0 <= k_max k -> post_n_write truthy k b s last r p = Ok (b', a) ->
  b_size b' = 0 /\ b_bins b' = [] /\ b_snaps b' = [] \/ (b_bin b = None /\ b_size b' = b_size b /\ b_bins b' = b_bins b /\ b_snaps b' = b_snaps b).
Proof.
  intros k b s last r p b' a Hk H. unfold post_n_write in H.
  destruct (results k b last) as [[[main snap] pb]|]; cbn [bind] in H; [|discriminate].
  match type of H with bind ?X _ = _ => destruct X as [acts|] end; cbn [bind] in H; [|discriminate].
  injection H as <- _. destruct (b_bin b); simpl; auto.
Qed.
Lemma agg_iter_bounded : forall (k : kconf D SB PB) b (s : kstore P SB PB) p c b' a, 0 <= k_max k -> bounded usage k b ->
  agg_iter truthy usage k b s p c = Ok (b', a) -> bounded usage k b'.
Proof.
  intros k b s p c b' a Hk Hb H. unfold agg_iter in H.
  destruct (buffer_results truthy usage k b s p) as [[b1 a1]|] eqn:E; cbn [bind] in H; [|discriminate].
  destruct (k_agg k c (b_seg b1)) as [[r sg]|]; cbn [bind] in H; [|discriminate].
  assert (Q : bounded usage k b1).
  { clear H. unfold buffer_results in E. destruct (b_bin b) as [bin|] eqn:Eb; [|injection E as <- _; auto].
    destruct (rows bin) eqn:Er; [injection E as <- _; auto|]. clear Er. destruct Hb as (rs & B1 & B2 & B3 & B4).
    match type of E with (if ?t then _ else _) = _ => destruct t eqn:Et end.
    - destruct (post_n_write_bounded _ _ _ _ _ _ _ _ Hk E) as [(A1 & A2 & A3)|[A _]].
      + apply bounded_none; auto.
      + destruct (b_snap b); discriminate.
    - injection E as <- _. apply Z.ltb_ge in Et. exists (rs ++ [(bin, b_snap b)]).
      set (size := fun r : frame * option frame => usage (fst r) + match snd r with Some s => usage s | None => 0 end) in *.
      assert (Hs : 0 <= b_size b) by (rewrite B3; apply total_nonneg; intros [f [sn|]]; unfold size; simpl; [pose proof (Hu f); pose proof (Hu sn)|pose proof (Hu f)]; lia).
      assert (Hle : b_size b <= k_max k).
      { assert (0 <= b_size b / Z.of_nat (length (b_bins b ++ [chop bin]))); [|lia]. apply Z.div_pos; auto. rewrite app_length. simpl. lia. }
      cbv zeta. fold size. rewrite removelast_snoc_, map_app, flat_map_app, total_app. cbn [map flat_map fst snd].
      destruct (b_snap b) as [sn|]; cbn [b_bins b_snaps b_size].
      + rewrite B1, B2, B3. split; auto. split; auto. split; [simpl; unfold size at 3; simpl; lia|lia].
      + rewrite B1, B2, B3, app_nil_r. split; auto. split; auto. split; [simpl; unfold size at 3; simpl; lia|lia]. }
  destruct r as [[f sn]|]; injection H as <- _; destruct Q as (rs & Q); exists rs; exact Q.
Qed.
Lemma run_jobs_bounded : forall (j : kconf D SB PB -> kbuf SB PB -> kstore P SB PB -> res (kbuf SB PB * list act)) n ks l log,
  (forall k b s b' a, j k b s = Ok (b', a) -> 0 <= k_max k -> bounded usage k b -> bounded usage k b') ->
  run_jobs j n ks = Ok (l, log) ->
  (forall k b s, In (k, b, s) ks -> 0 <= k_max k /\ bounded usage k b) -> forall k b s, In (k, b, s) l -> 0 <= k_max k /\ bounded usage k b.
Proof.
  intros j n ks l log Hj H Hk k b s Hin. apply run_jobs_inv in H. destruct (Forall2_in_r _ _ _ _ H Hin) as ([[k0 b0] s0] & H0 & (b1 & a1 & J & Q)).
  injection Q as -> -> ->. destruct (Hk _ _ _ H0) as [A B]. split; auto. eapply Hj; eauto.
Qed.
End Bound.

(** Whatever the runs: the recorded size is the one of all results in memory, and does not exceed the limit
    when the newest one is left out. *)
Theorem C55_bound : forall {D P SB PB} (idx : D -> Z) truthy usage pre fs (g g' : stream D P SB PB) seed trim discard final ex,
  (forall f, 0 <= usage f) ->
  (forall k b s, In (k, b, s) (g_keys g) -> 0 <= k_max k /\ bounded usage k b) ->
  agg idx truthy usage pre fs g seed trim discard final = Ok (g', ex) ->
  forall k b s, In (k, b, s) (g_keys g') -> 0 <= k_max k /\ bounded usage k b.
Proof.
  intros D P SB PB idx truthy usage pre fs g g' seed trim discard final ex Hu Hg H. unfold agg in H.
  match type of H with bind ?X _ = _ => destruct X as [[g1 ex1]|] eqn:E end; cbn [bind] in H; [|discriminate].
  assert (G1 : forall k b s, In (k, b, s) (g_keys g1) -> 0 <= k_max k /\ bounded usage k b).
  { destruct seed as [|c seed]; [injection E as <- _; auto|].
    destruct (iter_data idx (g_restart g) pre fs trim discard (g_pre g) (c :: seed)) as [ys p].
    destruct (consume truthy usage g ys) as [[g2 ex2]|] eqn:E2; cbn [bind] in E; [|discriminate]. injection E as <- _. cbn [g_keys].
    clear H. revert g Hg E2. induction ys as [|[y|e] ys IH]; intros g Hg E2; cbn [consume] in E2.
    - injection E2 as <- _. auto.
    - destruct (consume1 truthy usage g y) as [g3|] eqn:E3; cbn [bind] in E2; [|discriminate]. eapply IH; [|eauto].
      unfold consume1 in E3. destruct y as [[L id] rows]. destruct (run_jobs _ 0 (g_keys g)) as [[l log]|] eqn:E4; cbn [bind] in E3; [|discriminate].
      injection E3 as <-. cbn [g_keys]. eapply run_jobs_bounded; eauto. intros k b s b' a J Hk Hb. cbv beta in J. destruct (k_filter k =? id)%nat; [|injection J as <- _; auto].
      eapply agg_iter_bounded; eauto.
    - destruct e; try discriminate. injection E2 as <- _. auto. }
  destruct final; cbn [bind] in H.
  - unfold final_write in H. destruct (run_jobs _ 0 (g_keys g1)) as [[l log]|] eqn:E4; cbn [bind] in H; [|discriminate]. injection H as <- _. cbn [g_keys].
    eapply run_jobs_bounded; eauto. intros k b s b' a J Hk Hb. destruct (post_n_write_bounded truthy _ _ _ _ _ _ _ _ Hk J) as [(A & B & C)|(_ & A & B & C)].
    + apply bounded_none; auto.
    + destruct Hb as (rs & Hb). exists rs. rewrite A, B, C. auto.
  - injection H as <- _. auto.
Qed.
Print Assumptions C55_bound.
(** It holds at start. *)
Theorem C55_start : forall {D P SB PB} usage (pre0 : P) (seg0 : SB) (post0 : PB) (ks : list (kconf D SB PB * kstore P SB PB)) g,
  (forall k s, In (k, s) ks -> 0 <= k_max k) -> init pre0 seg0 post0 ks = Ok g ->
  forall k b s, In (k, b, s) (g_keys g) -> 0 <= k_max k /\ bounded usage k b.
Proof.
  intros D P SB PB usage pre0 seg0 post0 ks g Hk H k b s Hin. destruct (init_inv _ _ _ _ _ H) as [F _].
  destruct (Forall2_in_r _ _ _ _ F Hin) as ([k0 s0] & H0 & Hf). simpl in Hf. specialize (Hk _ _ H0).
  destruct (s_main s0) as [e|]; [destruct Hf as (md & _ & Hf)|]; injection Hf as -> -> ->; split; auto; apply bounded_none; auto.
Qed.
Print Assumptions C55_start.
(** Once the size is above the limit, the next results of the key flush buffers. *)
Theorem C55_flushed : forall {D P SB PB} truthy usage (k : kconf D SB PB) b (s : kstore P SB PB) p c b' a bin,
  0 <= k_max k -> k_max k < b_size b -> b_bin b = Some bin -> rows bin <> [] ->
  agg_iter truthy usage k b s p c = Ok (b', a) -> b_bins b' = [] /\ b_snaps b' = [] /\ b_size b' = 0.
Proof.
  intros D P SB PB truthy usage k b s p c b' a bin Hk Hlt Hb Hr H. unfold agg_iter, buffer_results in H. rewrite Hb in H.
  destruct (rows bin) as [|x l] eqn:Er; [congruence|].
  replace (k_max k <? b_size b + b_size b / Z.of_nat (length (b_bins b ++ [chop bin]))) with true in H.
  - match type of H with bind ?X _ = _ => destruct X as [[b1 a1]|] eqn:E end; cbn [bind] in H; [|discriminate].
    destruct (k_agg k c (b_seg b1)) as [[r sg]|]; cbn [bind] in H; [|discriminate].
    destruct (post_n_write_bounded truthy _ _ _ _ _ _ _ _ Hk E) as [(A1 & A2 & A3)|[A _]].
    + destruct r as [[f sn]|]; injection H as <- _; auto.
    + destruct (b_snap b); simpl in A; congruence.
  - symmetry. apply Z.ltb_lt. assert (0 <= b_size b / Z.of_nat (length (b_bins b ++ [chop bin]))); [|lia].
    apply Z.div_pos; [lia|]. rewrite app_length. simpl. lia.
Qed.
Print Assumptions C55_flushed.

(** A key which returns its rows as results. *)
Definition ex_out : kconf ex_row (list ex_row) unit :=
  mkConf 0 (fun rows b => Ok (Some (mkFrame 2 (map (fun r => [fst r; snd r]) rows), None), b ++ rows)) BINS None 3
         (mkParams None (OrderedOn 0) None None) ex_params.
Example ex_C55 : exists g', let seed := [[(1,1);(2,2);(3,3)]; [(4,5);(5,5)]; [(6,6);(7,7);(8,8);(9,9)]] in
  let usage := fun f => Z.of_nat (length (rows f)) in
  agg ex_idx ex_truthy usage None ex_fs (new_stream tt [] tt [ex_out]) seed true true false = Ok (g', None) /\
  map (fun x => (b_size (snd (fst x)), b_bins (snd (fst x)))) (g_keys g')
  = [(4, [mkFrame 2 [[1;1]]; mkFrame 2 [[3;3]]])].
Proof. eexists. cbv zeta. split; [vm_compute; reflexivity|]. vm_compute. reflexivity. Qed.
