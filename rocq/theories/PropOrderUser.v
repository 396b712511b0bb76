(** C81, for keys whose bins are made by a function of the user. *)
Require Import List Arith ZArith Bool Lia Sorting.Sorted.
Require Import Verif.RecordProofs.
Require Import Verif.Common Verif.AggModel Verif.AggSpec Verif.SegModel Verif.SegSpec Verif.CsaModel Verif.CsaSpec Verif.WrModel Verif.StreamModel Verif.StreamSpec
  Verif.KeyModel Verif.TableProofs Verif.BatchSpec Verif.LabelProofs Verif.BatchProofs Verif.BatchRunProofs Verif.BatchKeyProofs Verif.BatchHoldProofs Verif.BatchOkProofs Verif.MdProofs
  Verif.UserBinsSpec Verif.UserBinsProofs Verif.UserKeyModel Verif.UserKeySpec Verif.UserKeyProofs Verif.PropBatch Verif.PropUser Verif.PropUserKey
  Verif.OrderModel Verif.OrderSpec Verif.PropOrder Verif.OrderUserModel Verif.OrderUserSpec.
Require Verif.CsaProofs Verif.IterProofs Verif.SegProofs.
Import ListNotations.
Local Open Scope Z_scope.

Section Main.
Context {D V B P PB : Type}.
Variable N : dtype -> num V.
Variable val : D -> cname -> V.
Variable dtypes : list (cname * dtype).
Variable idx : D -> Z.
Variable enc : option V -> Z.
Variable truthy : Z -> bool.
Variable usage : WrModel.frame -> Z.
Variable pre : option (list D -> P -> list D * P * bool).
Variables (fs : @filters D) (gs : list (nat * (D -> bool))).
Variables (pre0 : P) (post0 : PB).
Variable confs : list (uoconf D B PB).
Variable sp : uconf D B PB -> uspec D B.
Variables (m ms : uoconf D B PB -> row -> row).
Notation key := (@order_user_key D V B PB N val dtypes idx enc).
Notation seg0 := (Some csabuf_empty : option (csabuf B V)).
Notation start := (new_stream pre0 seg0 post0 (map key confs)).
Definition vT (o : uoconf D B PB) := uT N val dtypes enc (uo_conf o) (sp (uo_conf o)).
Definition vTS (o : uoconf D B PB) := uTS N val dtypes idx enc (uo_conf o) (sp (uo_conf o)).
Definition vInv (o : uoconf D B PB) := uInv N val dtypes idx (uo_conf o) (sp (uo_conf o)).
Definition vkeep (o : uoconf D B PB) : D -> bool := match dict_get Nat.eqb (u_filter (uo_conf o)) gs with Some g => g | None => fun _ => true end.
Definition vgood (o : uoconf D B PB) (l : list D) : Prop := (exists more, us_good (sp (uo_conf o)) (l ++ more)) /\ user_order_kept N val dtypes idx enc o (m o) (ms o) l.
Lemma vkeep_is : forall o kp, NoDup (map fst gs) -> In (u_filter (uo_conf o), kp) gs -> vkeep o = kp.
Proof. intros o kp Hn H. unfold vkeep. rewrite (CsaProofs.In_dict_get _ Nat.eqb_eq _ _ _ Hn H). auto. Qed.

Lemma user_ever_app : forall sn u m0 a b r, user_result_ever N val dtypes idx enc (B := B) (PB := PB) sn u m0 a r -> user_result_ever N val dtypes idx enc sn u m0 (a ++ b) r.
Proof. intros sn u m0 a b r (f & more & bins & snaps & r0 & -> & E). exists f, (more ++ b), bins, snaps, r0. rewrite app_assoc. auto. Qed.
Lemma vgood_app : forall o (a b : list D), vgood o (a ++ b) -> vgood o a.
Proof.
  intros o a b [[more H] H']. split; [exists (b ++ more); rewrite app_assoc; auto|]. clear H. revert H'. unfold user_order_kept, same_order. destruct (u_snap (uo_conf o)); [destruct (u_two (uo_conf o))|].
  - intros [H H']. split; intros r s Hr Hs; [apply H|apply H']; apply user_ever_app; auto.
  - intros H r s Hr Hs. apply H; apply user_ever_app; auto.
  - intros H r s Hr Hs. apply H; apply user_ever_app; auto.
Qed.
Lemma vgood_ugood : forall o l, user_ok dtypes idx (uo_conf o) (sp (uo_conf o)) -> BatchRunProofs.ok idx vgood o l -> ugood idx (sp (uo_conf o)) l.
Proof. intros o l (_ & _ & _ & Hb & _) [A [[more A'] _]]. split; auto. eapply bn_good; eauto. Qed.
Lemma ugood_first : forall o a b, user_ok dtypes idx (uo_conf o) (sp (uo_conf o)) -> ugood idx (sp (uo_conf o)) (a ++ b) -> ugood idx (sp (uo_conf o)) a.
Proof. intros o a b (_ & _ & _ & Hb & _) [A A']. split; [exact (IterProofs.sorted_app_l idx _ _ A)|eapply bn_good; eauto]. Qed.

Lemma vever_bins : forall o m0 Hf r, user_ok dtypes idx (uo_conf o) (sp (uo_conf o)) -> ugood idx (sp (uo_conf o)) Hf -> ever (vT o) m0 Hf r -> user_result_ever N val dtypes idx enc false (uo_conf o) m0 Hf r.
Proof.
  intros o m0 Hf r Hc Hk (H & r0 & [q ->] & Hr & ->). assert (Hne : H <> []) by (intros ->; destruct Hr).
  destruct (user_batch_tables N val dtypes idx enc _ _ Hc H Hne (ugood_first _ _ _ Hc Hk)) as (bins & snaps & E & Tb & _).
  exists H, q, bins, snaps, r0. split; auto. split; auto. split; auto. unfold vT in Hr. rewrite <- Tb in Hr. exact Hr.
Qed.
Lemma vever_snaps : forall o m0 Hf r, user_ok dtypes idx (uo_conf o) (sp (uo_conf o)) -> ugood idx (sp (uo_conf o)) Hf -> ever (vTS o) m0 Hf r -> u_snap (uo_conf o) <> None ->
  user_result_ever N val dtypes idx enc true (uo_conf o) m0 Hf r.
Proof.
  intros o m0 Hf r Hc Hk (H & r0 & [q ->] & Hr & ->) Hs. assert (Hne : H <> []) by (intros ->; destruct Hr).
  destruct (user_batch_tables N val dtypes idx enc _ _ Hc H Hne (ugood_first _ _ _ Hc Hk)) as (bins & snaps & E & _ & Ts). destruct snaps as [sn|]; [|congruence]. destruct Ts as [_ Ts].
  exists H, q, bins, (Some sn), r0. split; auto. split; auto. split; auto. unfold vTS in Hr. rewrite <- Ts in Hr. exact Hr.
Qed.
Lemma vwrites : forall o, user_ok dtypes idx (uo_conf o) (sp (uo_conf o)) -> user_dup_ok o -> writes_as_labels (key o) (BatchRunProofs.ok idx vgood o) (vT o) (vTS o) (m o) (ms o).
Proof.
  intros o Hc [Hd Hd'] Hf Hok. pose proof (vgood_ugood o Hf Hc Hok) as Hk. destruct Hok as (_ & _ & Ho).
  assert (A : forall (U U' : row -> Prop) size nirgs, (forall r, U' r -> U r) -> same_order (uo_on o) U -> as_by_label U' (write_on (uo_on o) (uo_dup o) size nirgs)).
  { intros U U' size nirgs HU H. exists (uo_on o), (uo_dup o). split; [auto|]. split; [auto|]. split; [auto|]. split; [auto|]. intros; apply H; auto. }
  unfold user_order_kept in Ho. cbn [k_type order_user_key k_write k_write_snap]. unfold user_type.
  destruct (u_snap (uo_conf o)) eqn:Es; [destruct (u_two (uo_conf o))|].
  - destruct Ho as [H1 H2]. split; [eapply A; [|exact H1]; intros; apply vever_bins; auto|eapply A; [|exact H2]; intros; apply vever_snaps; auto; congruence].
  - eapply A; [|exact Ho]. intros; apply vever_snaps; auto; congruence.
  - eapply A; [|exact Ho]. intros; apply vever_bins; auto.
Qed.

Notation stream_ok := (user_order_ok N val dtypes idx enc gs confs sp m ms).
Lemma vkeys : forall (A : uoconf D B PB -> (D -> bool) -> Prop), NoDup (map fst gs) ->
  (forall o, In o confs -> user_ok dtypes idx (uo_conf o) (sp (uo_conf o)) /\ user_dup_ok o /\ post_does (u_post (uo_conf o)) (user_type (uo_conf o)) (m o) (ms o) /\
    exists kp, In (u_filter (uo_conf o), kp) gs /\ A o kp) ->
  (forall o, In o confs -> tabular (key o) seg0 (BatchRunProofs.ok idx vgood o) (vT o) (vTS o) (vInv o)) /\
  (forall o, In o confs -> post_is (key o) (m o) (ms o)) /\
  (forall o, In o confs -> writes_as_labels (key o) (BatchRunProofs.ok idx vgood o) (vT o) (vTS o) (m o) (ms o)) /\
  (forall o, In o confs -> In (k_filter (key o), vkeep o) gs).
Proof.
  intros A Hnd Hok. split; [|split; [|split]].
  - intros o Hin. pose proof (proj1 (Hok o Hin)) as Hc. pose proof (user_tabular N val dtypes idx enc (uo_conf o) (sp (uo_conf o)) Hc) as T.
    assert (T' : tabular (key o) seg0 (ugood idx (sp (uo_conf o))) (vT o) (vTS o) (vInv o)) by (destruct T; constructor; auto).
    refine (tabular_weaken _ _ _ _ _ _ _ _ T'). intros l Hl. apply vgood_ugood; auto.
  - intros o Hin. apply (Hok o Hin).
  - intros o Hin. apply vwrites; apply (Hok o Hin).
  - intros o Hin. destruct (Hok o Hin) as (_ & _ & _ & kp & Hk & _). rewrite (vkeep_is o kp Hnd Hk). exact Hk.
Qed.
Lemma vhyps : forall Sf, filters_are fs gs -> stream_ok Sf ->
  (forall o, In o confs -> tabular (key o) seg0 (BatchRunProofs.ok idx vgood o) (vT o) (vTS o) (vInv o)) /\
  (forall o, In o confs -> post_is (key o) (m o) (ms o)) /\
  (forall o, In o confs -> writes_as_labels (key o) (BatchRunProofs.ok idx vgood o) (vT o) (vTS o) (m o) (ms o)) /\
  (forall o, In o confs -> In (k_filter (key o), vkeep o) gs) /\ (forall o, In o confs -> vgood o (rows_of idx vkeep o Sf)).
Proof.
  intros Sf [Hnd _] Hok. destruct (vkeys _ Hnd Hok) as (H1 & H2 & H3 & H4). repeat (split; [assumption|]).
  intros o Hin. destruct (Hok o Hin) as (_ & _ & _ & kp & Hk & Ht & Ho). change (rows_of idx vkeep o Sf) with (given idx (vkeep o) Sf). rewrite (vkeep_is o kp Hnd Hk).
  split; auto. exists []. rewrite app_nil_r. auto.
Qed.

(** Rows of datasets, as results of a single aggregation. *)
Lemma vholds : forall o rows_ (s : kstore P (option (csabuf B V)) PB), user_ok dtypes idx (uo_conf o) (sp (uo_conf o)) -> ugood idx (sp (uo_conf o)) rows_ ->
  match user_type (uo_conf o) with
  | BINS => all_rows (data_of (s_main s)) = map (m o) (vT o rows_)
  | SNAPS => all_rows (data_of (s_main s)) = map (m o) (vTS o rows_)
  | BOTH => all_rows (data_of (s_main s)) = map (m o) (vT o rows_) /\ all_rows (data_of (s_snap s)) = map (ms o) (vTS o rows_)
  end -> holds_user N val dtypes idx enc (uo_conf o) (m o) (ms o) rows_ s.
Proof.
  intros o rows_ s Ho1 Hg Hb. apply holds_user_as. unfold typed_user. destruct rows_ as [|a l].
  - destruct (user_type (uo_conf o)).
    + split; [exact Hb|discriminate].
    + split; [exact Hb|discriminate].
    + destruct Hb as [H1 H2]. split; [exact H1|]. intros _. exact H2.
  - destruct (user_batch_tables N val dtypes idx enc (uo_conf o) (sp (uo_conf o)) Ho1 (a :: l) ltac:(discriminate) Hg) as (fb & fs0 & E1 & E2 & E3).
    exists fb, fs0. split; auto. rewrite E2. unfold user_type in *. destruct fs0 as [sn|].
    + destruct E3 as [E3 E4]. rewrite E4. destruct (u_snap (uo_conf o)); [|congruence]. destruct (u_two (uo_conf o)); exact Hb.
    + rewrite E3 in *. exact Hb.
Qed.

Lemma to_user_order_batch : forall Sf (g : stream D P (option (csabuf B V)) PB), filters_are fs gs -> stream_ok Sf -> sorted (map idx Sf) ->
  map (fun x => fst (fst x)) (g_keys g) = map key confs ->
  (forall i k b s, nth_error (g_keys g) i = Some (k, b, s) -> holds idx key confs vT vTS m ms vkeep Sf i k s) ->
  user_order_batch N val dtypes idx enc gs confs m ms Sf g.
Proof.
  intros Sf g [Hnd _] Hok Hs Ek Hh i o Hi.
  assert (En : nth_error (map (fun x => fst (fst x)) (g_keys g)) i = Some (key o)) by (rewrite Ek, nth_error_map, Hi; auto).
  rewrite nth_error_map in En. destruct (nth_error (g_keys g) i) as [[[k b] s]|] eqn:Eg; [|discriminate]. cbn [fst option_map] in En. injection En as ->.
  exists b, s. split; auto. intros kp Hkp. destruct (Hh i _ b s Eg) as (o' & _ & Hi' & Hb). rewrite Hi in Hi'. injection Hi' as <-.
  destruct (Hok o (nth_error_In _ _ Hi)) as (Ho1 & _ & _ & kp' & Hk' & Ht & _).
  change (rows_of idx vkeep o Sf) with (given idx (vkeep o) Sf) in Hb. rewrite (vkeep_is o kp Hnd Hkp) in Hb.
  assert (kp' = kp) as -> by (rewrite <- (vkeep_is o kp' Hnd Hk'); apply vkeep_is; auto).
  assert (Hg : ugood idx (sp (uo_conf o)) (given idx kp Sf)) by (split; auto; apply IterProofs.sorted_filter; auto).
  apply vholds; auto. unfold chans in Hb. change (k_type (key o)) with (user_type (uo_conf o)) in Hb. destruct (user_type (uo_conf o)).
  - apply (Hb _ (or_introl eq_refl)).
  - apply (Hb _ (or_introl eq_refl)).
  - split; [apply (Hb _ (or_introl eq_refl))|apply (Hb _ (or_intror (or_introl eq_refl)))].
Qed.

Lemma user_order_run : forall rs g, harmless pre -> filters_are fs gs -> growing idx [] rs -> stream_ok (whole_seed [] rs) ->
  ((forall o, In o confs -> u_nirgs (uo_conf o) = None) \/ ((forall i, truthy i = true) /\ all_written true rs)) ->
  run_all idx truthy usage pre fs pre0 seg0 post0 start rs = Ok g -> rs <> [] -> r_final (last rs (mkRun false false [])) = true ->
  user_order_batch N val dtypes idx enc gs confs m ms (whole_seed [] rs) g.
Proof.
  intros rs g Hp Hf Hg Hok Hc E Hne Hl. assert (Hs : sorted (map idx (whole_seed [] rs))) by (apply sorted_whole; auto; constructor).
  destruct (vhyps _ Hf Hok) as (T1 & T2 & T3 & T4 & T5).
  apply to_user_order_batch; auto.
  - rewrite (run_all_keys idx truthy usage _ _ _ _ _ _ _ _ E). unfold new_stream. cbn [g_keys]. rewrite map_map. cbn [fst]. apply map_id.
  - destruct (new_mem_inv idx truthy pre0 seg0 post0 key confs vT vTS vInv m ms vkeep vgood T1 T2 T3 (whole_seed [] rs)) as [M W].
    apply (run_all_batch idx truthy usage fs gs Hf pre Hp pre0 seg0 post0 key confs vT vTS vInv m ms vkeep vgood vgood_app T1 T2 T3 T4 (whole_seed [] rs) Hs T5 rs [] start g true M (SSorted_nil _) Hg eq_refl); auto.
    destruct Hc as [Hc|[Tq Hw]]; [left|right; auto]. intros o Hin. unfold no_coalescing. cbn. split; intros; apply Hc; auto.
Qed.

Lemma user_order_steps : forall rs g0 xs g r, harmless pre -> filters_are fs gs -> growing idx [] rs -> growing idx (whole_seed [] rs) (map run_of xs) ->
  stream_ok (whole_seed (whole_seed [] rs) (map run_of xs)) ->
  (forall o, In o confs -> user_type (uo_conf o) <> BOTH /\ u_nirgs (uo_conf o) = None) ->
  run_all idx truthy usage pre fs pre0 seg0 post0 start rs = Ok g0 ->
  (forall s, In s (map snd (g_keys g0)) -> s_main s <> None) -> restarted false xs ->
  step_all idx truthy usage pre fs pre0 seg0 post0 g0 xs = Ok g ->
  last xs (Complete (mkRun false false [])) = Complete r -> r_final r = true ->
  user_order_batch N val dtypes idx enc gs confs m ms (whole_seed (whole_seed [] rs) (map run_of xs)) g.
Proof.
  intros rs g0 xs g r Hp Hf Hg Hg' Hok Hc E0 Hmn Hr E Hl Hfin.
  assert (Hs0 : sorted (map idx (whole_seed [] rs))) by (apply sorted_whole; auto; constructor).
  assert (Hs : sorted (map idx (whole_seed (whole_seed [] rs) (map run_of xs)))) by (apply sorted_whole; auto).
  destruct (vhyps _ Hf Hok) as (T1 & T2 & T3 & T4 & T5).
  assert (Hnc : forall o, In o confs -> k_type (key o) <> BOTH /\ no_coalescing (key o)).
  { intros o Hin. destruct (Hc o Hin) as [C1 C2]. split; auto. split; auto. }
  apply to_user_order_batch; auto.
  - rewrite (step_all_keys idx truthy usage _ _ _ _ _ _ _ _ E), (run_all_keys idx truthy usage _ _ _ _ _ _ _ _ E0). unfold new_stream. cbn [g_keys]. rewrite map_map. cbn [fst]. apply map_id.
  - set (Sf := whole_seed (whole_seed [] rs) (map run_of xs)) in *.
    destruct (new_mem_inv idx truthy pre0 seg0 post0 key confs vT vTS vInv m ms vkeep vgood T1 T2 T3 Sf) as [M W].
    assert (M0 : mem_inv idx truthy key confs vT vTS vInv m ms vkeep Sf (whole_seed [] rs) g0).
    { apply (run_all_keeps idx truthy usage fs gs Hf pre Hp pre0 seg0 post0 key confs vT vTS vInv m ms vkeep vgood vgood_app T1 T2 T3 T4 Sf Hs T5 rs [] start g0); auto.
      - intros o Hin. apply (Hnc o Hin).
      - constructor.
      - apply (growing_starts idx (map run_of xs)); auto. }
    apply (step_all_batch idx truthy usage fs gs Hf pre Hp pre0 seg0 post0 key confs vT vTS vInv m ms vkeep vgood vgood_app T1 T2 T3 T4 Sf Hs T5 Hnc xs (whole_seed [] rs) g0 g false (or_introl M0) Hmn Hs0 Hg' eq_refl Hr E r Hl Hfin).
Qed.
Lemma user_segagg_cols : forall (u : uconf D B PB) l b b' f sn, user_segagg N val dtypes idx enc u l b = Ok (Some (f, sn), b') ->
  ncols f = S (length (u_agg u)) /\ forall s, sn = Some s -> ncols s = S (length (u_agg u)).
Proof.
  intros u l b b' f sn H. unfold user_segagg in H. destruct (cumsegagg _ _ _ _ _ _ _ _ _ _ _) as [[r b1]|]; [|discriminate]. cbn [bind] in H.
  assert (E : tables enc (u_agg u) r = Some (f, sn)) by congruence. destruct r as [[r1 r2]|]; [|discriminate]. injection E as <- <-. split; auto.
  intros s Es. destruct r2; [injection Es as <-; auto|discriminate].
Qed.
Lemma user_reach : forall o, user_dup_ok o -> (uo_on o <= length (u_agg (uo_conf o)))%nat -> (reach (key o) < S (length (u_agg (uo_conf o))))%nat.
Proof.
  intros o [_ Hi] Ho. unfold reach, last_named. cbn [k_write k_write_snap order_user_key write_on ordered_on duplicates_on].
  assert (fold_right Nat.max 0 (uo_dup o) <= uo_on o)%nat; [|lia].
  clear Ho. induction (uo_dup o) as [|d l IH]; cbn [fold_right]; [lia|]. specialize (IH (fun x Hx => Hi x (or_intror Hx))). destruct (Hi d (or_introl eq_refl)) as [<-|[<-|[]]]; lia.
Qed.
Lemma user_order_runs : forall rs w, harmless pre -> filters_are fs gs -> growing idx [] rs -> stream_ok (whole_seed [] rs) ->
  (forall i, truthy i = true) -> all_written true rs -> 0 <= w -> (forall f, usage f <= w * Z.of_nat (S (length (rows f)))) ->
  (forall o kp, In o confs -> In (u_filter (uo_conf o), kp) gs -> user_order_accepted N val dtypes idx o w (chunks_between 0 rs) (given idx kp (whole_seed [] rs))) ->
  exists g, run_all idx truthy usage pre fs pre0 seg0 post0 start rs = Ok g.
Proof.
  intros rs w Hp Hf Hg Hok Hq Hw Hw0 Hu Ha. assert (Hs : sorted (map idx (whole_seed [] rs))) by (apply sorted_whole; auto; constructor).
  destruct (vhyps _ Hf Hok) as (T1 & T2 & T3 & T4 & T5). set (Sf := whole_seed [] rs) in *.
  assert (A : forall o, In o confs -> user_order_accepted N val dtypes idx o w (chunks_between 0 rs) (rows_of idx vkeep o Sf)) by (intros o Hin; apply Ha; auto; apply (T4 o Hin)).
  assert (K : forall o H, In o confs -> starts H (rows_of idx vkeep o Sf) -> ugood idx (sp (uo_conf o)) H).
  { intros o H Hin [e E]. apply vgood_ugood; [apply (Hok o Hin)|]. split.
    - assert (Z0 : sorted (map idx (rows_of idx vkeep o Sf))) by (unfold rows_of; repeat apply IterProofs.sorted_filter; auto). rewrite E in Z0. exact (IterProofs.sorted_app_l idx _ _ Z0).
    - specialize (T5 o Hin). rewrite E in T5. exact (vgood_app o _ _ T5). }
  destruct (new_mem_inv idx truthy pre0 seg0 post0 key confs vT vTS vInv m ms vkeep vgood T1 T2 T3 Sf) as [M _].
  destruct (new_ok (P := P) idx pre0 seg0 post0 key confs vT vTS vkeep w Hw0) as (N1 & N2 & N3).
  eapply (run_all_ok idx truthy usage fs gs Hf pre Hp pre0 seg0 post0 key confs vT vTS vInv m ms vkeep vgood vgood_app T1 T2 T3 T4 Sf Hs T5 Hq); eauto.
  6: constructor.
  - intros o H p b Hin Hne Hst Hi. destruct (A o Hin) as (Ho & _ & _ & _ & _ & _ & Hz & _).
    destruct (user_accepts N val dtypes idx enc (uo_conf o) (sp (uo_conf o)) (proj1 (Hok o Hin)) H p b Hne (K o _ Hin Hst) Hi) as (f & sn & b' & E & _ & _).
    + intros q i f d l v I1 I2 I3 I4. apply (Hz q i f d l v I1 I2); auto. destruct Hst as [e Ee]. rewrite Ee. apply incl_appl. auto.
    + exists f, sn, b'. split; [exact E|]. destruct (user_segagg_cols _ _ _ _ _ _ E) as [W W']. pose proof (user_reach o (proj1 (proj2 (Hok o Hin))) Ho) as R.
      unfold wide. rewrite W. split; [exact R|]. intros s Es. rewrite (W' s Es). exact R.
  - intros o Hin. destruct (A o Hin) as (_ & H1 & _). unfold post_wide, reach. cbn [k_write k_write_snap order_user_key]. rewrite Nat.max_id. exact H1.
  - intros o Hin. destruct (A o Hin) as (_ & _ & _ & H1 & H2 & _). cbn. split; [destruct (u_size (uo_conf o)); cbn; auto|intros _; destruct (u_size_snap (uo_conf o)); cbn; auto].
  - intros o Hin. destruct (A o Hin) as (_ & _ & H1 & _). unfold no_coalescing. cbn. auto.
  - intros o Hin. destruct (A o Hin) as (_ & _ & _ & _ & _ & _ & _ & H1). cbn [k_type k_max order_user_key]. cbv zeta in H1.
    assert (Hgu : ugood idx (sp (uo_conf o)) (rows_of idx vkeep o Sf)) by (apply K; auto; exists []; rewrite app_nil_r; auto).
    destruct (user_type (uo_conf o)) eqn:Et; auto;
      (rewrite <- (user_results N val dtypes idx enc (uo_conf o) (sp (uo_conf o)) (proj1 (Hok o Hin)) (rows_of idx vkeep o Sf) Hgu) in H1 by congruence; rewrite Nat.add_assoc in H1; exact H1).
Qed.
End Main.

(** The condition on the order of the column, over results of first rows, follows from bins of all rows if results are ordered on a first
    value. *)
Section First.
Context {D V B PB : Type}.
Variable N : dtype -> num V.
Variable val : D -> cname -> V.
Variable dtypes : list (cname * dtype).
Variable idx : D -> Z.
Variable enc : option V -> Z.
Lemma first_rows : forall (u : uconf D B PB) sp H q lab g, user_ok dtypes idx u sp -> us_good sp (H ++ q) -> (forall b, In b (us_bins sp (H ++ q)) -> snd b <> []) -> H <> [] ->
  In (lab, g) (us_bins sp H) -> exists d g' g'', g = d :: g' /\ In (lab, d :: g'') (us_bins sp (H ++ q)).
Proof.
  intros u sp H q lab g (_ & _ & _ & Hb & _) Hg Hn Hne Hin. destruct (bn_more _ _ _ _ _ Hb H q Hne Hg) as (bs & l & r & r' & bs' & E & Hr & E'). rewrite E in Hin. rewrite E' in *.
  apply in_app_or in Hin as [Hin|[Hin|[]]].
  - assert (Hin' : In (lab, g) (bs ++ (l, r ++ r') :: bs')) by (apply in_or_app; auto). pose proof (Hn _ Hin') as Q. destruct g as [|d g']; [exfalso; apply Q; auto|]. exists d, g', g'. auto.
  - injection Hin as <- <-. destruct r as [|d r]; [congruence|]. exists d, r, (r ++ r'). split; auto. apply in_or_app. right. left. auto.
Qed.
Lemma user_first_kept : forall (o : uoconf D B PB) sp m ms data, user_ok dtypes idx (uo_conf o) sp -> sorted (map idx data) -> us_good sp data -> user_on_first val enc sp o data ->
  (forall r, col 0 (m r) = col 0 r) -> (forall r, col (uo_on o) (m r) = col (uo_on o) r) -> user_order_kept N val dtypes idx enc o m ms data.
Proof.
  intros o sp m ms data Hc Hs Hg (Es & j & out & i & Eo & Hj & Hn & Hi) M0 M1. unfold user_order_kept. rewrite Es, Eo in *.
  assert (G : forall r, user_result_ever N val dtypes idx enc false (uo_conf o) m data r ->
    exists lab d g, In (lab, d :: g) (us_bins sp data) /\ col 0 r = lab /\ col (S j) r = enc (Some (val d i))).
  { intros r (f & more & bins & snaps & r0 & -> & E & Hr & ->). rewrite M0, M1. destruct f as [|x f]; [exfalso; revert E; unfold user_batch, cumsegagg; discriminate|].
    assert (Hu : ugood idx sp (x :: f)) by (split; [exact (IterProofs.sorted_app_l idx _ _ Hs)|destruct Hc as (_ & _ & _ & Hb & _); eapply bn_good; eauto]).
    destruct (user_batch_tables N val dtypes idx enc (uo_conf o) sp Hc (x :: f) ltac:(discriminate) Hu) as (b' & s' & E' & Tb & _).
    rewrite E in E'. injection E' as <- <-. assert (Hr' : In r0 (uT N val dtypes enc (uo_conf o) sp (x :: f))) by (rewrite <- Tb; exact Hr).
    unfold uT in Hr'. rewrite tab_cons in Hr' by discriminate. rewrite (new_nil dtypes idx (uo_conf o) sp Hc) in Hr'. apply in_map_iff in Hr' as ([lab g] & <- & Hin).
    destruct (first_rows (uo_conf o) sp (x :: f) more lab g Hc Hg Hn ltac:(discriminate) Hin) as (d & g' & g'' & -> & Hin').
    exists lab, d, g''. split; auto. split; [reflexivity|]. unfold group_row, col. cbn [nth snd fst]. rewrite nth_indep with (d' := enc (value N val dtypes (0%nat, (0%nat, None)) (d :: g'))).
    2: { rewrite map_length. apply nth_error_Some. congruence. }
    rewrite (map_nth (fun o0 => enc (value N val dtypes o0 (d :: g')))). rewrite (nth_error_nth _ _ _ Hj). unfold value. cbn [fst snd].
    destruct Hc as (Hv & _). destruct (Hv _ _ _ (nth_error_In _ _ Hj)) as [[dt Hd] _]. rewrite Hd. reflexivity. }
  intros r s Hr Hs'. destruct (G r Hr) as (l1 & d1 & g1 & I1 & -> & ->), (G s Hs') as (l2 & d2 & g2 & I2 & -> & ->). eapply Hi; eauto.
Qed.
End First.

(** ** C81 *)
(** As C81_streamed_is_batch, for keys whose bins are made by any function of the user. *)
Theorem C81_user_streamed : forall {D V B P PB} (N : dtype -> num V) val dtypes (idx : D -> Z) enc truthy usage
    (pre : option (list D -> P -> list D * P * bool)) fs gs pre0 post0 (confs : list (uoconf D B PB)) sp m ms rs g,
  harmless pre -> filters_are fs gs -> growing idx [] rs -> user_order_ok N val dtypes idx enc gs confs sp m ms (whole_seed [] rs) ->
  ((forall o, In o confs -> u_nirgs (uo_conf o) = None) \/ ((forall i, truthy i = true) /\ all_written true rs)) ->
  run_all idx truthy usage pre fs pre0 (Some csabuf_empty) post0 (new_stream pre0 (Some csabuf_empty) post0 (map (order_user_key N val dtypes idx enc) confs)) rs = Ok g ->
  rs <> [] -> r_final (last rs (mkRun false false [])) = true ->
  user_order_batch N val dtypes idx enc gs confs m ms (whole_seed [] rs) g.
Proof. intros. eapply user_order_run; eauto. Qed.
Print Assumptions C81_user_streamed.

(** As C81_interrupted_is_batch, for such keys. *)
Theorem C81_user_interrupted : forall {D V B P PB} (N : dtype -> num V) val dtypes (idx : D -> Z) enc truthy usage
    (pre : option (list D -> P -> list D * P * bool)) fs gs pre0 post0 (confs : list (uoconf D B PB)) sp m ms rs g0 xs g r,
  harmless pre -> filters_are fs gs -> growing idx [] rs -> growing idx (whole_seed [] rs) (map run_of xs) ->
  user_order_ok N val dtypes idx enc gs confs sp m ms (whole_seed (whole_seed [] rs) (map run_of xs)) ->
  (forall o, In o confs -> user_type (uo_conf o) <> BOTH /\ u_nirgs (uo_conf o) = None) ->
  run_all idx truthy usage pre fs pre0 (Some csabuf_empty) post0 (new_stream pre0 (Some csabuf_empty) post0 (map (order_user_key N val dtypes idx enc) confs)) rs = Ok g0 ->
  (forall s, In s (map snd (g_keys g0)) -> s_main s <> None) -> restarted false xs ->
  step_all idx truthy usage pre fs pre0 (Some csabuf_empty) post0 g0 xs = Ok g ->
  last xs (Complete (mkRun false false [])) = Complete r -> r_final r = true ->
  user_order_batch N val dtypes idx enc gs confs m ms (whole_seed (whole_seed [] rs) (map run_of xs)) g.
Proof. intros. eapply user_order_steps; eauto. Qed.
Print Assumptions C81_user_interrupted.

(** Nothing is raised under the conditions of C68_accepted, and if the column results are ordered on is one of them. *)
Theorem C81_user_accepted : forall {D V B P PB} (N : dtype -> num V) val dtypes (idx : D -> Z) enc truthy usage
    (pre : option (list D -> P -> list D * P * bool)) fs gs pre0 post0 (confs : list (uoconf D B PB)) sp m ms rs w,
  harmless pre -> filters_are fs gs -> growing idx [] rs -> user_order_ok N val dtypes idx enc gs confs sp m ms (whole_seed [] rs) ->
  (forall i, truthy i = true) -> all_written true rs -> 0 <= w -> (forall f, usage f <= w * Z.of_nat (S (length (rows f)))) ->
  (forall o keep, In o confs -> In (u_filter (uo_conf o), keep) gs -> user_order_accepted N val dtypes idx o w (chunks_between 0 rs) (given idx keep (whole_seed [] rs))) ->
  exists g, run_all idx truthy usage pre fs pre0 (Some csabuf_empty) post0 (new_stream pre0 (Some csabuf_empty) post0 (map (order_user_key N val dtypes idx enc) confs)) rs = Ok g /\
    (rs <> [] -> r_final (last rs (mkRun false false [])) = true -> user_order_batch N val dtypes idx enc gs confs m ms (whole_seed [] rs) g).
Proof.
  intros D V B P PB N val dtypes idx enc truthy usage pre fs gs pre0 post0 confs sp m ms rs w Hp Hf Hg Hok Hq Hw Hw0 Hu Ha.
  destruct (user_order_runs N val dtypes idx enc truthy usage pre fs gs pre0 post0 confs sp m ms rs w Hp Hf Hg Hok Hq Hw Hw0 Hu Ha) as [g E].
  exists g. split; [exact E|]. intros. eapply C81_user_streamed; eauto.
Qed.
Print Assumptions C81_user_accepted.

(** The condition on the order of the column holds for bins ordered on a first value, if bins of all rows have rows and labels in the order
    of this value; 'post' does not change these columns. *)
Theorem C81_user_first_value : forall {D V B PB} (N : dtype -> num V) val dtypes (idx : D -> Z) enc (o : uoconf D B PB) sp m ms data,
  user_ok dtypes idx (uo_conf o) sp -> sorted (map idx data) -> us_good sp data -> user_on_first val enc sp o data ->
  (forall r, col 0 (m r) = col 0 r) -> (forall r, col (uo_on o) (m r) = col (uo_on o) r) ->
  user_order_kept N val dtypes idx enc o m ms data.
Proof. intros. eapply user_first_kept; eauto. Qed.
Print Assumptions C81_user_first_value.

(** *** Concrete case: bins are runs of successive rows with the same value, results are ordered on the first time stamp of
    bins, on which duplicates are found too. *)
Definition ou_R : uoconf ex_row (list ex_row) nat := mkUoconf (mkUconf 0 (or_agg First) (generic_bin_by runs) [] None false None 1 (Some 2) None None) 1 [1%nat].
Definition ou_sp (_ : uconf ex_row (list ex_row) nat) := only_bins runs (fun rows b => b = rows) (fun _ => True).
Definition ou_map (_ : uoconf ex_row (list ex_row) nat) (r : row) : row := r.
Definition ou_seed1 : list (list ex_row) := [[(1,1);(2,1)]; [(3,4);(4,4)]; [(5,4);(6,8)]].
Definition ou_seed2 : list (list ex_row) := [concat ou_seed1; [(7,8);(9,3)]; [(10,3);(11,3)]].
Definition ou_seed3 : list (list ex_row) := [concat ou_seed2 ++ [(12,6)]; [(13,6);(15,1)]].
Definition ou_runs := [mkRun true true ou_seed1; mkRun false false ou_seed2; mkRun true true ou_seed3].
Notation ou_key := (@order_user_key ex_row Z (list ex_row) nat (fun _ => Znum) or_val or_dtypes ex_idx ex_enc).
Notation ou_buf := (option (csabuf (list ex_row) Z)).
Notation ou_start cs := (new_stream tt (Some csabuf_empty : ou_buf) 0%nat (map ou_key cs) : stream ex_row unit ou_buf nat).
Notation ou_run := (run_all ex_idx (fun _ => true) (fun f => Z.of_nat (length (rows f))) (None : option (list ex_row -> unit -> list ex_row * unit * bool)) ex_fs tt (Some csabuf_empty : ou_buf) 0%nat).
Notation ou_step := (step_all ex_idx (fun _ => true) (fun f => Z.of_nat (length (rows f))) (None : option (list ex_row -> unit -> list ex_row * unit * bool)) ex_fs tt (Some csabuf_empty : ou_buf) 0%nat).
Definition ou_data (g : stream ex_row unit ou_buf nat) := map (fun x => all_rows (data_of (s_main (snd x)))) (g_keys g).
(** All rows of results of first rows of some data. *)
Definition ou_ever (u : uconf ex_row (list ex_row) nat) (data : list ex_row) : list row :=
  flat_map (fun n => match user_batch (fun _ => Znum) or_val or_dtypes ex_idx u (firstn n data) with Ok (Some (f, _)) => rows (table ex_enc (u_agg u) f) | _ => [] end) (seq 0 (S (length data))).
Lemma ou_ever_in : forall u data r, user_result_ever (fun _ => Znum) or_val or_dtypes ex_idx ex_enc false u (fun r => r) data r -> In r (ou_ever u data).
Proof.
  intros u data r (first & more & bins & snaps & r0 & -> & E & Hr & ->). unfold ou_ever. apply in_flat_map. exists (length first). split.
  - apply in_seq. rewrite app_length. lia.
  - rewrite firstn_app, Nat.sub_diag, firstn_all, firstn_O, app_nil_r, E. exact Hr.
Qed.
Lemma ou_same : forall j l, forallb (fun r => forallb (fun s => Bool.eqb (col 0 r <=? col 0 s) (col j r <=? col j s)) l) l = true -> same_order j (fun r => In r l).
Proof.
  intros j l H r s Hr Hs. rewrite forallb_forall in H. specialize (H r Hr). rewrite forallb_forall in H. specialize (H s Hs). apply Bool.eqb_prop in H.
  rewrite <- !Z.leb_le, H. reflexivity.
Qed.
Example ou_ok : user_order_ok (fun _ => Znum) or_val or_dtypes ex_idx ex_enc ex_gs [ou_R] ou_sp ou_map ou_map (whole_seed [] ou_runs).
Proof.
  intros o [<-|[]]. destruct (or_conf_ok or_A ltac:(left; auto)) as (A1 & A2 & A3 & _). split; [|split; [|split]].
  - split; [exact A1|]. split; [exact A2|]. split; [exact A3|]. split; [apply runs_binning|]. split; [|discriminate]. intros rows _ _. apply runs_strict.
  - split; [discriminate|]. intros x Hx. simpl in *. tauto.
  - split; [|split]; cbn; auto.
  - eexists. split; [left; reflexivity|]. split; [exact I|]. unfold user_order_kept. cbn [u_snap uo_conf ou_R uo_on].
    intros r s Hr Hs. apply ou_ever_in in Hr, Hs. revert r s Hr Hs. apply ou_same. vm_compute. reflexivity.
Qed.
Lemma ou_growing : growing ex_idx [] ou_runs.
Proof.
  repeat split; try (apply IterProofs.sortedb_iff; vm_compute; reflexivity); try (apply ex_chunks; reflexivity); extended.
Qed.
Definition ou_expected : list (list row) := [[[0; 1; 2]; [1; 3; 12]; [2; 6; 16]; [3; 9; 9]; [4; 12; 12]]].
Example ex_C81_user : exists g, ou_run (ou_start [ou_R]) ou_runs = Ok g /\
  user_order_batch (fun _ => Znum) or_val or_dtypes ex_idx ex_enc ex_gs [ou_R] ou_map ou_map (concat ou_seed3) g /\ ou_data g = ou_expected.
Proof.
  destruct (shown_ok _ _ ou_data (ou_run (ou_start [ou_R]) ou_runs) ou_expected ltac:(vm_cast_no_check (eq_refl (Some ou_expected)))) as (g & E & Ed). exists g. split; [exact E|]. split; [|exact Ed].
  change (concat ou_seed3) with (whole_seed [] ou_runs). eapply (C81_user_streamed (fun _ => Znum) or_val or_dtypes ex_idx ex_enc) with (sp := ou_sp); try exact E; auto.
  - exact I.
  - apply ex_filters_are.
  - apply ou_growing.
  - apply ou_ok.
  - left. intros o [<-|[]]; auto.
  - discriminate.
Qed.
(** A run interrupted after an intermediate write, then one with a new instance. *)
Definition ou_steps := [Interrupted (mkRun false true ou_seed2) [0%nat]; Complete (mkRun true true ou_seed3)].
Example ex_C81_user_interrupted : exists g0 g, ou_run (ou_start [ou_R]) [mkRun true true ou_seed1] = Ok g0 /\ ou_step g0 ou_steps = Ok g /\
  user_order_batch (fun _ => Znum) or_val or_dtypes ex_idx ex_enc ex_gs [ou_R] ou_map ou_map (concat ou_seed3) g /\ ou_data g = ou_expected.
Proof.
  destruct (shown_ok _ _ (fun g0 => (forallb (fun s => match s_main s with Some _ => true | None => false end) (map snd (g_keys g0)), shown ou_data (ou_step g0 ou_steps)))
    (ou_run (ou_start [ou_R]) [mkRun true true ou_seed1]) (true, Some ou_expected) ltac:(vm_cast_no_check (eq_refl (Some (true, Some ou_expected))))) as (g0 & E0 & Ed0).
  injection Ed0 as Em Ed0. destruct (shown_ok _ _ ou_data _ _ Ed0) as (g & E & Ed). exists g0, g. split; [exact E0|]. split; [exact E|]. split; [|exact Ed].
  change (concat ou_seed3) with (whole_seed (whole_seed [] [mkRun true true ou_seed1]) (map run_of ou_steps)).
  refine (C81_user_interrupted (fun _ => Znum) or_val or_dtypes ex_idx ex_enc (fun _ => true) (fun f => Z.of_nat (length (rows f))) None ex_fs ex_gs tt 0%nat [ou_R] ou_sp ou_map ou_map
    [mkRun true true ou_seed1] g0 ou_steps g (mkRun true true ou_seed3) I ex_filters_are _ _ ou_ok _ E0 _ _ E eq_refl eq_refl).
  - repeat split; try (apply IterProofs.sortedb_iff; reflexivity); try (apply ex_chunks; reflexivity); extended.
  - repeat split; try (apply IterProofs.sortedb_iff; reflexivity); try (apply ex_chunks; reflexivity); extended.
  - intros o [<-|[]]; split; auto; discriminate.
  - intros s Hs Q. rewrite forallb_forall in Em. specialize (Em s Hs). rewrite Q in Em. discriminate.
  - repeat split; auto; discriminate.
Qed.

(** Final writes by one instance, with memory for 8 chunks. *)
Definition ou_R2 : uoconf ex_row (list ex_row) nat := mkUoconf (mkUconf 0 (or_agg First) (generic_bin_by runs) [] None false None 32 (Some 2) None None) 1 [1%nat].
Definition ou_runs1 := [mkRun true true ou_seed1; mkRun false false ou_seed2; mkRun false true ou_seed3].
Example ex_C81_user_accepted : exists g, ou_run (ou_start [ou_R2]) ou_runs1 = Ok g /\
  user_order_batch (fun _ => Znum) or_val or_dtypes ex_idx ex_enc ex_gs [ou_R2] ou_map ou_map (concat ou_seed3) g.
Proof.
  destruct (C81_user_accepted (fun _ => Znum) or_val or_dtypes ex_idx ex_enc (fun _ => true) (fun f => Z.of_nat (length (rows f)))
    (None : option (list ex_row -> unit -> list ex_row * unit * bool)) ex_fs ex_gs tt 0%nat [ou_R2] ou_sp ou_map ou_map ou_runs1 1) as (g & E & B).
  - exact I.
  - apply ex_filters_are.
  - repeat split; try (apply IterProofs.sortedb_iff; vm_compute; reflexivity); try (apply ex_chunks; reflexivity); extended.
  - intros o [<-|[]]. exact (ou_ok ou_R (or_introl eq_refl)).
  - reflexivity.
  - repeat split; auto.
  - lia.
  - intro f. lia.
  - intros o keep [<-|[]] Hk. destruct Hk as [Hk|[Hk|[]]]; [|discriminate]. injection Hk as <-.
    split; [cbn; lia|]. split; [exact I|]. split; [reflexivity|]. split; [intros z Hz; injection Hz as <-; lia|]. split; [intros z Hz; discriminate|]. split; [exact I|]. split; [|vm_compute; discriminate].
    apply (or_never_zero (o_conf or_A)); [reflexivity|]. vm_compute. reflexivity.
  - exists g. split; [exact E|]. apply B; [discriminate|reflexivity].
Qed.

(** Order of first time stamps, for these rows. *)
Lemma ou_on_first : user_on_first or_val ex_enc (ou_sp (uo_conf ou_R)) ou_R (concat ou_seed3).
Proof.
  split; [reflexivity|]. exists 0%nat, 10%nat, 2%nat. split; [reflexivity|]. split; [reflexivity|]. cbn [us_bins ou_sp only_bins].
  assert (E : forallb (fun b => match snd b with [] => false | _ => true end) (runs (concat ou_seed3)) = true) by (vm_compute; reflexivity).
  assert (E' : forallb (fun b => forallb (fun c => match snd b, snd c with d1 :: _, d2 :: _ => Bool.eqb (fst b <=? fst c) (fst d1 <=? fst d2) | _, _ => true end) (runs (concat ou_seed3))) (runs (concat ou_seed3)) = true)
    by (vm_compute; reflexivity).
  rewrite forallb_forall in E, E'. split.
  - intros [l [|d g]] Hb Q; [specialize (E _ Hb)|]; discriminate.
  - intros l1 d1 g1 l2 d2 g2 H1 H2. specialize (E' _ H1). rewrite forallb_forall in E'. specialize (E' _ H2). cbn [fst snd] in E'. apply Bool.eqb_prop in E'.
    cbn [ex_enc or_val]. rewrite <- !Z.leb_le, E'. reflexivity.
Qed.
Example ex_C81_user_first_value : user_order_kept (fun _ => Znum) or_val or_dtypes ex_idx ex_enc ou_R (ou_map ou_R) (ou_map ou_R) (concat ou_seed3).
Proof.
  apply (C81_user_first_value _ _ _ _ _ _ (ou_sp (uo_conf ou_R))); try reflexivity.
  - apply (ou_ok ou_R (or_introl eq_refl)).
  - apply IterProofs.sortedb_iff. vm_compute. reflexivity.
  - apply ou_on_first.
Qed.
