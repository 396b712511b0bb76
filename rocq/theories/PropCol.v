(** Properties of stores ('ParquetSet'): C07 to C12. *)
Require Import String List Arith ZArith Bool Lia.
Require Import Verif.Common Verif.IdxModel Verif.IdxSpec Verif.IdxProofs Verif.IdxStrProofs Verif.ColModel Verif.ColSpec Verif.ColProofs Verif.ColScanProofs Verif.ColStoreProofs Verif.ColWriter Verif.PropIdx.
Import ListNotations.
Local Open Scope list_scope.

(** Examples used below: class 'ex_cls' of PropIdx, base path, keys and writers. *)
Definition ex_base : base := mkBase (lit "/data/store") false.
Definition ex_empty : fs := [([lit "data"], KDir)].
Definition ex_k1 : value := VDC [VStr (lit "france"); VInt 20%Z; VDC [VStr (lit "paris"); VInt 7%Z]].
Definition ex_k2 : value := VDC [VStr (lit "france"); VInt 20%Z; VDC [VStr (lit "lyon"); VInt 7%Z]].
Definition ex_k3 : value := VDC [VStr (lit "spain"); VInt 3%Z; VDC [VStr (lit "madrid"); VInt 1%Z]].
Definition ex_w : writer := simple_writer [1].
Definition ex_fail : writer := fun f _ => (f, Some UserExn).
Definition ex_set (k : value) : op := OSet (Instance k) (DataFrame ex_w).
Definition ex_events : list (op * option exn) :=
  [(ex_set ex_k1, None); (ex_set ex_k3, None); (ex_set ex_k2, None); (ODel ex_k3, None); (OReopen, None);
   (OSet (Instance ex_k3) (DataFrame ex_fail), Some UserExn); (ODel ex_k1, None); (ODel ex_k3, None);
   (OSet NotInstance (DataFrame ex_w), Some TypeError)].
Definition run (c : cls) (b : base) (st : store) (evs : list (op * option exn)) : store :=
  fold_left (fun st e => fst (step c b st (fst e))) evs st.
Definition ex_st0 : store := mkStore ex_empty [].
Definition ex_st : store := run ex_cls ex_base ex_st0 ex_events.

Lemma ex_good_key : forall k, In k [ex_k1; ex_k2; ex_k3] -> good_key ex_cls k.
Proof.
  assert (K : forall a x b y, key_of (c_fields ex_cls) [VStr a; VInt x; VDC [VStr b; VInt y]]).
  { intros. apply (KNest [TStr; TInt] [_; _] ex_sub); [discriminate|repeat constructor|]. apply KLeaf; [discriminate|]. repeat constructor. }
  assert (D : forall a x b y, b <> [] -> ~ empty_then_one [VStr a; VInt x; VDC [VStr b; VInt y]]).
  { intros a x b y Hb H. inversion H as [r E|vs sub H0 E].
    subst. destruct vs as [|v1 [|v2 [|v3 [|]]]]; try discriminate. simpl in E. injection E as E1 E2 E3. subst sub.
    inversion H0 as [r E Er|vs sub H1 E]; [subst; congruence|]. destruct vs as [|? [|? [|]]]; discriminate. }
  assert (N : forall a x b y, no_empty_level [VStr a; VInt x; VDC [VStr b; VInt y]]).
  { intros. apply (NNest [_; _]); [discriminate|repeat constructor|]. apply NLeaf; [discriminate|discriminate|repeat constructor]. }
  intros k [<-|[<-|[<-|[]]]]; (eexists; split; [reflexivity|]; split; [apply K|]; split; [reflexivity|]; split; [apply D; discriminate|]; split; [apply N|]);
    (intros p E; vm_compute in E; injection E as <-; intros n Hn; vm_compute in Hn; destruct Hn as [<-|[<-|[]]]; split; discriminate).
Qed.
Lemma ex_fail_good : good_writer ex_fail.
Proof. intros f s _. reflexivity. Qed.
Lemma ex_wf : wf ex_empty.
Proof.
  split; [repeat constructor; simpl; auto|]. intros p k [E|[]]. injection E as <- <-. split; [discriminate|]. split; [|reflexivity].
  repeat constructor; [discriminate|]. simpl. intuition discriminate.
Qed.
Lemma ex_clean : clean_disk ex_cls ex_base ex_empty.
Proof.
  intros names L (n & ct & _ & H). apply lookup_In in H; [|destruct names; discriminate]. destruct H as [H|[]]. discriminate.
Qed.
Lemma ex_good_events : forall o e, In (o, e) ex_events -> good_op ex_cls o.
Proof.
  intros o e H.
  assert (A : forall k, In k [ex_k1; ex_k2; ex_k3] -> good_op ex_cls (ex_set k)) by (intros k Q; split; [apply ex_good_key; auto|apply simple_writer_good]).
  unfold ex_events in H. cbn [In] in H.
  repeat (destruct H as [H|H]; [injection H as <- <-; first [exact I|apply A; simpl; tauto|split; [apply ex_good_key; simpl; tauto|apply ex_fail_good]]|]).
  contradiction.
Qed.
Lemma ex_history : history ex_cls ex_base ex_st0 ex_events ex_st.
Proof. unfold ex_events. repeat (eapply HCons; [vm_compute; reflexivity|]). vm_compute. apply HNil. Qed.

(** * C07: keys listed are those found by opening the store again *)
Theorem C07_reopen : forall c b f st0 evs st,
  plain_sep (c_sep c) = true -> c_sep c <> slash -> b_path b <> [] -> wf f -> clean_disk c b f ->
  open_store c b f = Ok st0 -> (forall o e, In (o, e) evs -> good_op c o) -> history c b st0 evs st ->
  exists st', open_store c b (disk st) = Ok st' /\ ps_iter st' = ps_iter st.
Proof.
  intros c b f st0 evs st Hp Hs Hb Hw Hc Ho Hg H. destruct (open_inv c b Hs f st0 Hp Hb Hw Hc Ho) as [_ I].
  pose proof (history_inv c b Hs st0 evs st Hp Hb I Hg H) as I'. rewrite (inv_open c b Hs st Hp Hb I'). eexists. split; [reflexivity|]. reflexivity.
Qed.
Print Assumptions C07_reopen.

(** Starting from a directory where there is no file. *)
Theorem C07_from_empty : forall c b f evs st,
  plain_sep (c_sep c) = true -> c_sep c <> slash -> b_path b <> [] -> wf f -> (forall p ct, lookup f p <> Some (KFile ct)) ->
  (forall o e, In (o, e) evs -> good_op c o) -> history c b (mkStore f []) evs st ->
  exists st', open_store c b (disk st) = Ok st' /\ ps_iter st' = ps_iter st.
Proof.
  intros c b f evs st Hp Hs Hb Hw Hn Hg H.
  assert (Hc : clean_disk c b f) by (intros names _ (n & ct & _ & Q); exfalso; eapply Hn; eauto).
  assert (Ho : open_store c b f = Ok (mkStore f [])).
  { destruct (get_keys_spec c f (b_path b) Hw Hb (Hn _)) as (ks & E & _ & S). unfold open_store. rewrite E. cbn [bind]. destruct ks as [|k ks]; auto.
    exfalso. destruct (proj1 (S k) (or_introl eq_refl)) as (names & _ & (n & ct & _ & Q) & _). eapply Hn; eauto. }
  eapply C07_reopen; eauto.
Qed.
Print Assumptions C07_from_empty.

Example ex_C07 : plain_sep (c_sep ex_cls) = true /\ c_sep ex_cls <> slash /\ b_path ex_base <> [] /\ wf ex_empty
  /\ clean_disk ex_cls ex_base ex_empty /\ open_store ex_cls ex_base ex_empty = Ok ex_st0
  /\ (forall o e, In (o, e) ex_events -> good_op ex_cls o) /\ history ex_cls ex_base ex_st0 ex_events ex_st
  /\ ps_iter ex_st = [ex_k2].
Proof.
  split; [reflexivity|]. split; [discriminate|]. split; [discriminate|]. split; [apply ex_wf|]. split; [apply ex_clean|]. split; [reflexivity|].
  split; [apply ex_good_events|]. split; [apply ex_history|reflexivity].
Qed.

(** A write which fails after having created a file of the dataset: the key is not listed, but it is
    when the store is opened again. *)
Definition ex_partial_writer : writer := fun f s => (fst (ex_w f s), Some OSError).
Theorem C07_failed_write_refuted :
  confined_writer ex_partial_writer /\ exists st, step ex_cls ex_base ex_st0 (OSet (Instance ex_k1) (DataFrame ex_partial_writer)) = (st, Some OSError)
    /\ ps_iter st = [] /\ exists st', open_store ex_cls ex_base (disk st) = Ok st' /\ ps_iter st' = [ex_k1].
Proof.
  split.
  - intros f s Hw. unfold ex_partial_writer. simpl fst. apply (good_confined _ (simple_writer_good [1])); auto.
  - eexists. split; [vm_compute; reflexivity|]. split; [reflexivity|]. eexists. split; [vm_compute; reflexivity|]. reflexivity.
Qed.
Print Assumptions C07_failed_write_refuted.

(** * C08: other datasets are left untouched *)
Theorem C08_write : forall c b st k w st' e k' dir,
  c_sep c <> slash -> wf (disk st) -> good_key c k -> good_key c k' -> k <> k' -> confined_writer w ->
  ps_set c b st (Instance k) (DataFrame w) = (st', e) -> key_dir c b k' dir ->
  forall q, prefix dir q -> lookup (disk st') q = lookup (disk st) q.
Proof.
  intros c b st k w st' e k' dir Hs Hw G G' Hne W H (p' & Ep' & ->) q Hq.
  destruct (good_key_dir c b Hs k' G') as (p2 & names & E1 & _ & E3 & _ & _ & _ & E4 & _). assert (p2 = p') by congruence. subst p2.
  rewrite E3 in Hq. apply (set_frame c b Hs st k w st' e k' p' Hw G G' Hne W H Ep'). rewrite E4. auto.
Qed.
Print Assumptions C08_write.

Theorem C08_delete : forall c b st k st' e k' dir,
  c_sep c <> slash -> wf (disk st) -> good_key c k -> good_key c k' -> k <> k' ->
  ps_delitem c b st k = (st', e) -> key_dir c b k' dir ->
  forall q content, prefix dir q -> (lookup (disk st') q = Some (KFile content) <-> lookup (disk st) q = Some (KFile content)).
Proof.
  intros c b st k st' e k' dir Hs Hw G G' Hne H (p' & Ep' & ->) q ct Hq.
  destruct (good_key_dir c b Hs k' G') as (p2 & names & E1 & _ & E3 & _ & _ & _ & E4 & _). assert (p2 = p') by congruence. subst p2.
  rewrite E3 in Hq. apply (del_frame c b Hs st k k' p' st' e Hw G G' Hne H Ep'). rewrite E4. auto.
Qed.
Print Assumptions C08_delete.

Definition ex_st2 : store := run ex_cls ex_base ex_st0 [(ex_set ex_k1, None); (ex_set ex_k2, None)].
Lemma ex_st2_wf : wf (disk ex_st2).
Proof.
  assert (H : history ex_cls ex_base ex_st0 [(ex_set ex_k1, None); (ex_set ex_k2, None)] ex_st2)
    by (repeat (eapply HCons; [vm_compute; reflexivity|]); vm_compute; apply HNil).
  destruct (open_inv ex_cls ex_base ltac:(discriminate) ex_empty ex_st0 eq_refl ltac:(discriminate) ex_wf ex_clean eq_refl) as [_ I].
  apply (history_inv ex_cls ex_base ltac:(discriminate) _ _ _ eq_refl ltac:(discriminate) I) in H; [apply H|].
  intros o e [Q|[Q|[]]]; injection Q as <- <-; simpl; (split; [apply ex_good_key; simpl; auto|apply simple_writer_good]).
Qed.
Example ex_C08 : wf (disk ex_st2) /\ good_key ex_cls ex_k1 /\ good_key ex_cls ex_k2 /\ ex_k1 <> ex_k2 /\ confined_writer ex_w
  /\ In ex_k1 (keys ex_st2) /\ snd (ps_set ex_cls ex_base ex_st2 (Instance ex_k1) (DataFrame ex_w)) = None
  /\ snd (ps_delitem ex_cls ex_base ex_st2 ex_k1) = None
  /\ key_dir ex_cls ex_base ex_k2 (dir_names (lit "/data/store/france-20/lyon-7"))
  /\ lookup (disk ex_st2) (dir_names (lit "/data/store/france-20/lyon-7/_metadata")) = Some (KFile [1])
  /\ lookup (disk (fst (ps_delitem ex_cls ex_base ex_st2 ex_k1))) (dir_names (lit "/data/store/france-20/paris-7/_metadata")) = None.
Proof.
  split; [apply ex_st2_wf|]. split; [apply ex_good_key; simpl; auto|]. split; [apply ex_good_key; simpl; auto|]. split; [discriminate|].
  split; [apply good_confined, simple_writer_good|]. split; [vm_compute; auto|]. split; [reflexivity|]. split; [reflexivity|]. split; [|split; reflexivity].
  eexists. split; [vm_compute; reflexivity|reflexivity].
Qed.

(** * C09: deletion removes the directory of the dataset, then empty directories above, below the base path *)
Theorem C09_pruning : forall c b st k dir,
  c_sep c <> slash -> b_pathlib b = false -> b_path b <> [] -> last (b_path b) 0 <> slash ->
  wf (disk st) -> good_key c k -> In k (keys st) -> key_dir c b k dir -> lookup (disk st) dir = Some KDir ->
  exists st', ps_delitem c b st k = (st', None) /\
    forall q,
      let gone := prefix dir q \/ (strictly_between (dir_names (b_path b)) q dir /\ only_leads_to (disk st) q dir) in
      (gone -> lookup (disk st') q = None) /\ (~ gone -> lookup (disk st') q = lookup (disk st) q).
Proof.
  intros c b st k dir Hs Hl Hb Ht Hw G Hin (p & Ep & ->) Hd.
  destruct (del_exact c b Hs st k Hl Hb Ht Hw G Hin) as (p2 & names & st' & E1 & E2 & E3 & _ & R1 & R2); [intros p' Ep'; replace p' with p by congruence; auto|].
  assert (p2 = p) by congruence. subst p2. destruct (good_key_dir c b Hs k G) as (p2 & names2 & E4 & _ & E5 & _ & _ & _ & E6 & _).
  assert (p2 = p) by congruence. subst p2. assert (X : names2 = names) by congruence. rewrite X in E5. clear X. rewrite E5 in *. set (B := dir_names (b_path b)) in *.
  exists st'. split; auto. intro q. cbv zeta.
  assert (Q : (exists ms, prefix ms names /\ ms <> [] /\ ms <> names /\ q = B ++ ms /\ (forall r, below q r -> lookup (disk st) r <> None -> prefix r (B ++ names) \/ prefix (B ++ names) r))
              <-> (strictly_between B q (B ++ names) /\ only_leads_to (disk st) q (B ++ names))).
  { split.
    - intros (ms & [t Et] & H1 & H2 & -> & H3). split; auto. split.
      + destruct ms as [|m ms]; [congruence|]. exists m, ms. auto.
      + destruct t as [|y t]; [rewrite app_nil_r in Et; congruence|]. exists y, t. rewrite Et, app_assoc. auto.
    - intros (([m [ms Q1]] & [y [t Q2]]) & H3). subst q. exists (m :: ms). rewrite <- app_assoc in Q2. apply app_inv_head in Q2. split.
      + exists (y :: t). auto.
      + split; [discriminate|]. split; auto. intro Q. rewrite Q2 in Q. apply (f_equal (@length _)) in Q. rewrite app_length in Q. simpl in Q. lia. }
  split.
  - intro Hg. apply R1. destruct Hg; [auto|]. right. apply Q. auto.
  - intro Hg. apply R2; [tauto|]. intro Q'. apply Hg. right. apply Q. auto.
Qed.
Print Assumptions C09_pruning.

(** In particular the base path remains. *)
Theorem C09_base_kept : forall c b st k dir,
  c_sep c <> slash -> b_pathlib b = false -> b_path b <> [] -> last (b_path b) 0 <> slash ->
  wf (disk st) -> good_key c k -> In k (keys st) -> key_dir c b k dir -> lookup (disk st) dir = Some KDir ->
  lookup (disk (fst (ps_delitem c b st k))) (dir_names (b_path b)) = Some KDir.
Proof.
  intros c b st k dir Hs Hl Hb Ht Hw G Hin Hd HD. destruct (C09_pruning c b st k dir Hs Hl Hb Ht Hw G Hin Hd HD) as (st' & -> & R). simpl.
  destruct Hd as (p & Ep & ->). destruct (good_key_dir c b Hs k G) as (p2 & names & E1 & _ & E2 & _ & _ & N & _). assert (p2 = p) by congruence. subst p2. rewrite E2 in *.
  rewrite (proj2 (R _)).
  - apply (lookup_prefix (disk st) _ (dir_names (b_path b) ++ names) KDir Hw); auto; [exists names; auto|]. intro Q. apply (f_equal (@length _)) in Q. rewrite app_length in Q. destruct names; [congruence|]. simpl in Q. lia.
  - intros [[r P]|[[[n [r P]] _] _]]; apply (f_equal (@length _)) in P; rewrite !app_length in P; simpl in P; destruct names; simpl in P; try congruence; lia.
Qed.
Print Assumptions C09_base_kept.

Example ex_C09 : b_pathlib ex_base = false /\ b_path ex_base <> [] /\ last (b_path ex_base) 0 <> slash /\ wf (disk ex_st2)
  /\ good_key ex_cls ex_k1 /\ In ex_k1 (keys ex_st2) /\ key_dir ex_cls ex_base ex_k1 (dir_names (lit "/data/store/france-20/paris-7"))
  /\ lookup (disk ex_st2) (dir_names (lit "/data/store/france-20/paris-7")) = Some KDir
  /\ lookup (disk (fst (ps_delitem ex_cls ex_base ex_st2 ex_k1))) (dir_names (lit "/data/store/france-20")) = Some KDir
  /\ lookup (disk (fst (ps_delitem ex_cls ex_base (fst (ps_delitem ex_cls ex_base ex_st2 ex_k1)) ex_k2))) (dir_names (lit "/data/store/france-20")) = None.
Proof.
  split; [reflexivity|]. split; [discriminate|]. split; [discriminate|]. split; [apply ex_st2_wf|]. split; [apply ex_good_key; simpl; auto|].
  split; [vm_compute; auto|]. split; [eexists; split; [vm_compute; reflexivity|reflexivity]|]. repeat split.
Qed.

(** With a base path which ends with '/', or is a 'pathlib.Path', deleting the last dataset removes the
    base directory, and the directory above when it becomes empty. *)
Theorem C09_base_removed_refuted : forall b, In b [mkBase (lit "/data/store/") false; mkBase (lit "/data/store") true] ->
  exists st st', step ex_cls b ex_st0 (ex_set ex_k1) = (st, None) /\ step ex_cls b st (ODel ex_k1) = (st', Some FileNotFound)
    /\ lookup (disk st') (dir_names (b_path b)) = None /\ lookup (disk st') [lit "data"] = None.
Proof.
  intros b [<-|[<-|[]]]; (eexists; eexists; split; [vm_compute; reflexivity|]; split; [vm_compute; reflexivity|]; split; reflexivity).
Qed.
Print Assumptions C09_base_removed_refuted.

(** * C10: key collection *)
Theorem C10_collection : forall c b f st0 evs st,
  plain_sep (c_sep c) = true -> c_sep c <> slash -> b_pathlib b = false -> b_path b <> [] -> last (b_path b) 0 <> slash ->
  wf f -> clean_disk c b f ->
  open_store c b f = Ok st0 -> (forall o e, In (o, e) evs -> good_op c o) -> history c b st0 evs st ->
  increasing (ps_iter st) /\ NoDup (ps_iter st) /\ ps_len st = length (ps_iter st)
  /\ (forall k, ps_contains st k = true <-> In k (ps_iter st))
  /\ (forall k, In k (ps_iter st) <-> stored k (In k (ps_iter st0)) evs)
  /\ (forall k e, In (ODel k, e) evs -> e = None).
Proof.
  intros c b f st0 evs st Hp Hs Hl Hb Ht Hw Hc Ho Hg H. destruct (open_inv c b Hs f st0 Hp Hb Hw Hc Ho) as [_ I].
  pose proof (history_inv c b Hs st0 evs st Hp Hb I Hg H) as I'. destruct (history_stored c b Hs st0 evs st Hp Hl Hb Ht I Hg H) as [A C].
  split; [apply I'|]. split; [apply increasing_NoDup, I'|]. split; [reflexivity|]. split; [|split; auto]. intro k. apply set_mem_In.
Qed.
Print Assumptions C10_collection.

Example ex_C10 : b_pathlib ex_base = false /\ last (b_path ex_base) 0 <> slash
  /\ ps_iter (run ex_cls ex_base ex_st0 (firstn 3 ex_events)) = [ex_k2; ex_k1; ex_k3]
  /\ stored ex_k2 False ex_events /\ ~ stored ex_k1 False ex_events /\ ~ stored ex_k3 False ex_events.
Proof. split; [reflexivity|]. split; [discriminate|]. split; [reflexivity|]. simpl. repeat split; try discriminate; intuition discriminate. Qed.

(** * C11: a rejected write registers nothing *)
Theorem C11_rejected : forall c b st key item st' e,
  ps_setitem c b st key item = (st', Some e) -> ps_iter st' = ps_iter st
  /\ ((key = NotInstance \/ item = Plain NotDataFrame \/ (exists d, item = Tuple false d) \/ item = Tuple true NotDataFrame) -> st' = st /\ e = TypeError).
Proof.
  intros c b st key item st' e H. unfold ps_setitem in H.
  assert (G : forall data, ps_set c b st key data = (st', Some e) -> ps_iter st' = ps_iter st /\ ((key = NotInstance \/ data = NotDataFrame) -> st' = st /\ e = TypeError)).
  { intros data Q. unfold ps_set in Q. destruct key as [k|]; [|injection Q as <- <-; auto]. destruct data as [w|]; [|injection Q as <- <-; auto].
    split; [|intros [R|R]; discriminate].
    destruct (to_path c k) as [p|]; [|injection Q as <- <-; auto]. destruct (w (disk st) (path_join (b_path b) p)) as [f' [e'|]]; [injection Q as <- <-; auto|discriminate]. }
  destruct item as [data|[|] data].
  - destruct (G data H) as [A B]. split; auto. intros [R|[R|[[d R]|R]]]; try discriminate; apply B; [auto|right; congruence].
  - destruct (G data H) as [A B]. split; auto. intros [R|[R|[[d R]|R]]]; try discriminate; apply B; [auto|right; congruence].
  - injection H as <- <-. auto.
Qed.
Print Assumptions C11_rejected.

(** And an accepted one registers the key, and only this one. *)
Theorem C11_accepted : forall c b st key item st',
  ps_setitem c b st key item = (st', None) ->
  exists k, key = Instance k /\ forall k', In k' (ps_iter st') <-> k' = k \/ In k' (ps_iter st).
Proof.
  intros c b st key item st' H.
  assert (G : forall data, ps_set c b st key data = (st', None) -> exists k, key = Instance k /\ forall k', In k' (ps_iter st') <-> k' = k \/ In k' (ps_iter st)).
  { intros data Q. unfold ps_set in Q. destruct key as [k|]; [|discriminate]. destruct data as [w|]; [|discriminate]. exists k. split; auto.
    destruct (to_path c k) as [p|]; [|discriminate]. destruct (w (disk st) (path_join (b_path b) p)) as [f' [e'|]]; [discriminate|]. injection Q as <-.
    unfold ps_iter. simpl. intro k'. destruct (set_mem k (keys st)) eqn:E; [|apply set_add_In]. apply set_mem_In in E. split; auto. intros [->|]; auto. }
  unfold ps_setitem in H. destruct item as [data|[|] data]; eauto. discriminate.
Qed.
Print Assumptions C11_accepted.

Example ex_C11 :
  snd (ps_setitem ex_cls ex_base ex_st2 (Instance ex_k3) (Tuple true (DataFrame ex_partial_writer))) = Some OSError
  /\ ps_iter (fst (ps_setitem ex_cls ex_base ex_st2 (Instance ex_k3) (Tuple true (DataFrame ex_partial_writer)))) = [ex_k2; ex_k1]
  /\ snd (ps_setitem ex_cls ex_base ex_st2 (Instance ex_k3) (Tuple false (DataFrame ex_w))) = Some TypeError
  /\ snd (ps_setitem ex_cls ex_base ex_st2 (Instance ex_k3) (Plain (DataFrame ex_w))) = None.
Proof. repeat split. Qed.

(** * C12: directory scan *)
Theorem C12_scan : forall f basepath depth, wf f -> basepath <> [] -> lookup f (dir_names basepath) = Some KDir ->
  exists l, files_at_depth f basepath depth = Ok l /\ NoDup (map fst l) /\
    forall p files, In (p, files) l <->
      exists names, length names = depth /\ p = path_of basepath names
        /\ lookup f (dir_names basepath ++ names) = Some KDir
        /\ files = file_names f (dir_names basepath ++ names) /\ files <> [].
Proof. intros f basepath depth Hw Hb Hd. apply files_at_depth_spec; auto. Qed.
Print Assumptions C12_scan.

(** Names of files are those of the files, each once; paths are those of directories. *)
Theorem C12_names : forall f dir, wf f -> NoDup (file_names f dir) /\
  forall n, In n (file_names f dir) <-> exists content, lookup f (dir ++ [n]) = Some (KFile content).
Proof.
  intros f dir Hw. split.
  - unfold file_names. pose proof (children_NoDup f dir Hw) as H. induction (children f dir) as [|[n k] l IH]; simpl in *; [constructor|].
    inversion H; subst. destruct (negb (is_dir k)); simpl; auto. constructor; auto. intro Q. apply H2. apply in_map_iff in Q as ([m k'] & E & Q).
    simpl in E. subst m. apply filter_In in Q as [Q _]. apply in_map_iff. exists (n, k'). auto.
  - intro n. unfold file_names. rewrite in_map_iff. split.
    + intros ([m k] & E & Q). simpl in E. subst m. apply filter_In in Q as [Q K]. apply children_In in Q; auto. simpl in K. destruct k as [|ct]; [discriminate|]. eauto.
    + intros (ct & Q). exists (n, KFile ct). split; auto. apply filter_In. split; auto. apply children_In; auto.
Qed.
Print Assumptions C12_names.
Theorem C12_paths : forall basepath names, Forall good_name names -> dir_names (path_of basepath names) = dir_names basepath ++ names.
Proof. intros. apply path_of_names. auto. Qed.
Print Assumptions C12_paths.

Theorem C12_missing : forall f basepath depth, lookup f (dir_names basepath) = None -> 0 < depth -> files_at_depth f basepath depth = Ok [].
Proof. intros f basepath [|d] H Hd; [lia|]. apply files_at_depth_missing. auto. Qed.
Print Assumptions C12_missing.

(** Opening: exactly the keys of the directories, at the depth of the class, with a parquet file. *)
Theorem C12_opening : forall c b f, wf f -> b_path b <> [] -> (forall content, lookup f (dir_names (b_path b)) <> Some (KFile content)) ->
  exists st, open_store c b f = Ok st /\ disk st = f /\ increasing (ps_iter st) /\
    forall k, In k (ps_iter st) <->
      exists names, length names = depth c /\ dataset f (dir_names (b_path b) ++ names) /\ from_str c (join [slash] names) = Some k.
Proof.
  intros c b f Hw Hb Hf. destruct (get_keys_spec c f (b_path b) Hw Hb Hf) as (ks & E & I & S). exists (mkStore f ks).
  unfold open_store. rewrite E. auto.
Qed.
Print Assumptions C12_opening.

(** Parquet files: names ending with '.parquet' or '.parq', '_metadata' and '_common_metadata'. *)
Theorem C12_parquet_names : forall n, is_parquet_file n = true <->
  (exists s, n = s ++ lit ".parquet") \/ (exists s, n = s ++ lit ".parq") \/ n = lit "_metadata" \/ n = lit "_common_metadata".
Proof.
  assert (E : forall suf n, ends_with suf n = true <-> exists s, n = s ++ suf).
  { intros suf n. unfold ends_with. rewrite str_eqb_eq. split.
    - intro H. exists (firstn (length n - length suf) n). rewrite <- H at 2. rewrite firstn_skipn. auto.
    - intros [s ->]. rewrite app_length. replace (length s + length suf - length suf) with (length s) by lia. rewrite skipn_app, Nat.sub_diag, skipn_all. auto. }
  intro n. unfold is_parquet_file. rewrite !orb_true_iff, !E, !str_eqb_eq. tauto.
Qed.
Print Assumptions C12_parquet_names.

Definition ex_tree : fs := [(dir_names (lit "/d"), KDir); (dir_names (lit "/d/a"), KDir); (dir_names (lit "/d/a/x.parq"), KFile []);
  (dir_names (lit "/d/a/y.txt"), KFile []); (dir_names (lit "/d/b"), KDir); (dir_names (lit "/d/c"), KDir); (dir_names (lit "/d/c/e"), KDir);
  (dir_names (lit "/d/c/e/_metadata"), KFile []); (dir_names (lit "/d/f"), KFile [])].
Example ex_C12 : wf ex_tree /\ lookup ex_tree (dir_names (lit "/d")) = Some KDir
  /\ files_at_depth ex_tree (lit "/d") 1 = Ok [(lit "/d/a", [lit "x.parq"; lit "y.txt"])]
  /\ files_at_depth ex_tree (lit "/d") 2 = Ok [(lit "/d/c/e", [lit "_metadata"])]
  /\ files_at_depth ex_tree (lit "/z") 2 = Ok [].
Proof.
  split; [|repeat split]. split.
  - vm_compute. repeat (constructor; [simpl; intuition discriminate|]). constructor.
  - intros p k H. vm_compute in H. repeat (destruct H as [H|H]; [injection H as <- <-; split; [discriminate|]; split; [|reflexivity];
      repeat (constructor; [split; [discriminate|]; simpl; intuition discriminate|]); constructor|]). contradiction.
Qed.
