(** C81: calls which are given new data only, results being ordered on another column than labels of bins, which are made by functions of the
    user. *)
Require Import List Arith ZArith Bool Lia Sorting.Sorted.
Require Import Verif.Common Verif.AggModel Verif.AggSpec Verif.SegModel Verif.SegSpec Verif.CsaModel Verif.CsaSpec Verif.WrModel Verif.StreamModel Verif.RaiseModel Verif.StreamSpec
  Verif.KeyModel Verif.TableProofs Verif.BatchSpec Verif.BatchProofs Verif.BatchRunProofs Verif.BatchKeyProofs Verif.BatchHoldProofs Verif.BatchOkProofs Verif.UserKeyModel Verif.UserKeySpec Verif.UserKeyProofs
  Verif.PropBatch Verif.PropUser Verif.PropUserKey Verif.FeedSpec Verif.FeedProofs Verif.FeedOkProofs Verif.PropFeed Verif.OrderModel Verif.OrderSpec Verif.RecordProofs Verif.PropOrder
  Verif.OrderUserModel Verif.OrderUserSpec Verif.PropOrderUser.
Require Verif.IterProofs.
Import ListNotations.
Local Open Scope Z_scope.

Section Main.
Context {D V B P PB : Type}.
Variable N : dtype -> num V.
Variable val : D -> cname -> V.
Variable dtypes : list (cname * dtype).
Variable idx : D -> Z.
Variable enc : option V -> Z.
Variable truthy : Z -> bool.
Variable usage : WrModel.frame -> Z.
Variable pre : option (list D -> P -> list D * P * bool).
Variables (fs : @filters D) (gs : list (nat * (D -> bool))).
Variables (pre0 : P) (post0 : PB).
Variable confs : list (uoconf D B PB).
Variable sp : uconf D B PB -> uspec D B.
Variables (m ms : uoconf D B PB -> row -> row).
Notation key := (@order_user_key D V B PB N val dtypes idx enc).
Notation seg0 := (Some csabuf_empty : option (csabuf B V)).
Notation vT := (vT N val dtypes enc sp).
Notation vTS := (vTS N val dtypes idx enc sp).
Notation vInv := (vInv N val dtypes idx sp).
Notation vkeep := (vkeep gs).
Notation vgood := (vgood N val dtypes idx enc sp m ms).
Notation start := (new_stream pre0 seg0 post0 (map key confs)).
Notation fed_ok := (user_order_fed_ok N val dtypes idx enc gs confs sp m ms).

Lemma user_fed_hyps : forall data, filters_are fs gs -> fed_ok data -> forall o, In o confs -> vgood o (frows vkeep o data).
Proof.
  intros data [Hnd _] Hok o Hin. destruct (Hok o Hin) as (_ & _ & _ & kp & Hk & Ht & Ho). unfold frows. rewrite (vkeep_is gs o kp Hnd Hk). split; auto. exists []. rewrite app_nil_r. auto.
Qed.

Lemma user_order_feed : forall cs g, harmless pre -> filters_are fs gs -> sorted (map idx (fed cs)) -> (forall c, In c cs -> forall chunk, In chunk (f_seed c) -> chunk <> []) ->
  fed_ok (fed cs) ->
  (forall c, In c cs -> f_fresh c = false) \/ ((forall i, truthy i = true) /\ written_first true cs) ->
  feed_all idx truthy usage pre fs pre0 seg0 post0 start cs = Ok g -> cs <> [] -> f_final (last cs (mkCall false false false [])) = true ->
  user_order_fed_batch N val dtypes idx enc gs confs m ms (fed cs) g.
Proof.
  intros cs g Hp Hf Hs Hch Hok Hc E Hne Hl. destruct (vkeys N val dtypes idx enc gs confs sp m ms _ (proj1 Hf) Hok) as (T1 & T2 & T3 & T4). pose proof (user_fed_hyps _ Hf Hok) as T5.
  assert (Hw : written_first true cs).
  { destruct Hc as [Hc|[_ Hc]]; auto. clear - Hc. revert Hc. generalize true. induction cs as [|c cs IH]; intros w Hc; cbn [written_first]; auto. split; [|apply IH; intros c' H; apply Hc; right; auto].
    rewrite (Hc c (or_introl eq_refl)). discriminate. }
  assert (Hq : (forall i, truthy i = true) \/ (forall c, In c cs -> f_fresh c = false)) by tauto.
  destruct (new_fmem idx truthy pre0 seg0 post0 key confs vT vTS vInv m ms vkeep vgood T1 T2 T3 (fed cs)) as [M W].
  pose proof (feed_all_holds idx truthy usage fs gs Hf pre Hp pre0 seg0 post0 key confs _ _ _ m ms vkeep vgood (vgood_app N val dtypes idx enc sp m ms) T1 T2 T3 T4 (fed cs) Hs T5 cs [] start g true M (fun _ => W) eq_refl Hch Hw Hq E Hne Hl) as Hh.
  pose proof (feed_all_keys idx truthy usage pre fs pre0 _ post0 _ _ _ E) as Ek. unfold new_stream in Ek. cbn [g_keys] in Ek. rewrite map_map in Ek. cbn [fst] in Ek. rewrite map_id in Ek.
  intros i o Hc0. assert (En : nth_error (map (fun x => fst (fst x)) (g_keys g)) i = Some (key o)) by (rewrite Ek, nth_error_map, Hc0; auto).
  rewrite nth_error_map in En. destruct (nth_error (g_keys g) i) as [[[k b] s]|] eqn:Eg; [|discriminate]. cbn [fst option_map] in En. injection En as ->.
  exists b, s. split; auto. intros kp Hkp. destruct (Hh i _ b s Eg) as (o' & _ & Hc' & Hb). rewrite Hc0 in Hc'. injection Hc' as <-. pose proof (nth_error_In _ _ Hc0) as Hin.
  specialize (T5 o Hin). unfold frows in Hb, T5. rewrite (vkeep_is gs o kp (proj1 Hf) Hkp) in Hb, T5. pose proof (proj1 (Hok o Hin)) as Ho.
  apply (vholds N val dtypes idx enc sp); auto.
  - apply (vgood_ugood N val dtypes idx enc sp m ms); auto. split; auto. apply IterProofs.sorted_filter; auto.
  - unfold chans in Hb. change (k_type (key o)) with (user_type (uo_conf o)) in Hb. destruct (user_type (uo_conf o)).
    + apply (Hb _ (or_introl eq_refl)).
    + apply (Hb _ (or_introl eq_refl)).
    + split; [apply (Hb _ (or_introl eq_refl))|apply (Hb _ (or_intror (or_introl eq_refl)))].
Qed.

Lemma user_order_feed_runs : forall cs w, harmless pre -> filters_are fs gs -> sorted (map idx (fed cs)) -> (forall c, In c cs -> forall chunk, In chunk (f_seed c) -> chunk <> []) ->
  fed_ok (fed cs) -> (forall i, truthy i = true) -> written_first true cs -> 0 <= w -> (forall f, usage f <= w * Z.of_nat (S (length (rows f)))) ->
  (forall o kp, In o confs -> In (u_filter (uo_conf o), kp) gs -> user_order_accepted N val dtypes idx o w (calls_between 0 cs) (filter kp (fed cs))) ->
  exists g, feed_all idx truthy usage pre fs pre0 seg0 post0 start cs = Ok g.
Proof.
  intros cs w Hp Hf Hs Hch Hok Hq Hw Hw0 Hu Ha. destruct (vkeys N val dtypes idx enc gs confs sp m ms _ (proj1 Hf) Hok) as (T1 & T2 & T3 & T4). pose proof (user_fed_hyps _ Hf Hok) as T5.
  assert (A : forall o, In o confs -> user_order_accepted N val dtypes idx o w (calls_between 0 cs) (frows vkeep o (fed cs))) by (intros o Hin; apply Ha; auto; apply (T4 o Hin)).
  assert (K : forall o H, In o confs -> starts H (frows vkeep o (fed cs)) -> ugood idx (sp (uo_conf o)) H).
  { intros o H Hin [e E]. apply (vgood_ugood N val dtypes idx enc sp m ms); [apply (Hok o Hin)|]. split.
    - assert (Z0 : sorted (map idx (frows vkeep o (fed cs)))) by (apply IterProofs.sorted_filter; auto). rewrite E in Z0. exact (IterProofs.sorted_app_l idx _ _ Z0).
    - specialize (T5 o Hin). rewrite E in T5. exact (vgood_app N val dtypes idx enc sp m ms o _ _ T5). }
  destruct (new_fmem idx truthy pre0 seg0 post0 key confs vT vTS vInv m ms vkeep vgood T1 T2 T3 (fed cs)) as [M W].
  destruct (new_ok (P := P) idx pre0 seg0 post0 key confs vT vTS vkeep w Hw0) as (_ & N2 & N3).
  refine (feed_all_ok idx truthy usage fs gs Hf pre Hp pre0 seg0 post0 key confs vT vTS vInv m ms vkeep vgood (vgood_app N val dtypes idx enc sp m ms) T1 T2 T3 T4 (fed cs) Hs T5 Hq
    _ _ _ _ w Hw0 Hu (calls_between 0 cs) _ cs [] start 0 true M _ N2 (fun _ => conj W N3) eq_refl Hch Hw (le_n _)).
  - intros o H p b Hin Hne Hst Hi. destruct (A o Hin) as (Ho & _ & _ & _ & _ & _ & Hz & _).
    destruct (user_accepts N val dtypes idx enc (uo_conf o) (sp (uo_conf o)) (proj1 (Hok o Hin)) H p b Hne (K o _ Hin Hst) Hi) as (f & sn & b' & E & _ & _).
    + intros q i f d l v I1 I2 I3 I4. apply (Hz q i f d l v I1 I2); auto. destruct Hst as [e Ee]. rewrite Ee. apply incl_appl. auto.
    + exists f, sn, b'. split; [exact E|]. destruct (user_segagg_cols N val dtypes idx enc _ _ _ _ _ _ E) as [W1 W2]. pose proof (user_reach N val dtypes idx enc o (proj1 (proj2 (Hok o Hin))) Ho) as R.
      unfold wide. rewrite W1. split; [exact R|]. intros s Es. rewrite (W2 s Es). exact R.
  - intros o Hin. destruct (A o Hin) as (_ & H1 & _). unfold post_wide, reach. cbn [k_write k_write_snap order_user_key]. rewrite Nat.max_id. exact H1.
  - intros o Hin. destruct (A o Hin) as (_ & _ & _ & H1 & H2 & _). cbn. split; [destruct (u_size (uo_conf o)); cbn; auto|intros _; destruct (u_size_snap (uo_conf o)); cbn; auto].
  - intros o Hin. destruct (A o Hin) as (_ & _ & H1 & _). unfold no_coalescing. cbn. auto.
  - intros o Hin. destruct (A o Hin) as (_ & _ & _ & _ & _ & _ & _ & H1). cbn [k_type k_max order_user_key]. cbv zeta in H1.
    assert (Hgu : ugood idx (sp (uo_conf o)) (frows vkeep o (fed cs))) by (apply K; auto; exists []; rewrite app_nil_r; auto).
    destruct (user_type (uo_conf o)) eqn:Et; auto;
      (rewrite <- (user_results N val dtypes idx enc (uo_conf o) (sp (uo_conf o)) (proj1 (Hok o Hin)) (frows vkeep o (fed cs)) Hgu) in H1 by congruence; rewrite Nat.add_assoc in H1; exact H1).
  - apply new_fok; auto.
Qed.
End Main.

(** As C81_fed_is_batch, for keys whose bins are made by functions of the user. *)
Theorem C81_user_fed : forall {D V B P PB} (N : dtype -> num V) val dtypes (idx : D -> Z) enc truthy usage
    (pre : option (list D -> P -> list D * P * bool)) fs gs pre0 post0 (confs : list (uoconf D B PB)) sp m ms cs g,
  harmless pre -> filters_are fs gs -> sorted (map idx (fed cs)) -> (forall c, In c cs -> forall chunk, In chunk (f_seed c) -> chunk <> []) ->
  user_order_fed_ok N val dtypes idx enc gs confs sp m ms (fed cs) ->
  (forall c, In c cs -> f_fresh c = false) \/ ((forall i, truthy i = true) /\ written_first true cs) ->
  feed_all idx truthy usage pre fs pre0 (Some csabuf_empty) post0 (new_stream pre0 (Some csabuf_empty) post0 (map (order_user_key N val dtypes idx enc) confs)) cs = Ok g ->
  cs <> [] -> f_final (last cs (mkCall false false false [])) = true ->
  user_order_fed_batch N val dtypes idx enc gs confs m ms (fed cs) g.
Proof. intros. eapply user_order_feed; eauto. Qed.
Print Assumptions C81_user_fed.

(** Such calls raise nothing under the conditions of C75_user_accepted. *)
Theorem C81_user_fed_accepted : forall {D V B P PB} (N : dtype -> num V) val dtypes (idx : D -> Z) enc truthy usage
    (pre : option (list D -> P -> list D * P * bool)) fs gs pre0 post0 (confs : list (uoconf D B PB)) sp m ms cs w,
  harmless pre -> filters_are fs gs -> sorted (map idx (fed cs)) -> (forall c, In c cs -> forall chunk, In chunk (f_seed c) -> chunk <> []) ->
  user_order_fed_ok N val dtypes idx enc gs confs sp m ms (fed cs) -> (forall i, truthy i = true) -> written_first true cs -> 0 <= w -> (forall f, usage f <= w * Z.of_nat (S (length (rows f)))) ->
  (forall o keep, In o confs -> In (u_filter (uo_conf o), keep) gs -> user_order_accepted N val dtypes idx o w (calls_between 0 cs) (filter keep (fed cs))) ->
  exists g, feed_all idx truthy usage pre fs pre0 (Some csabuf_empty) post0 (new_stream pre0 (Some csabuf_empty) post0 (map (order_user_key N val dtypes idx enc) confs)) cs = Ok g /\
    (cs <> [] -> f_final (last cs (mkCall false false false [])) = true -> user_order_fed_batch N val dtypes idx enc gs confs m ms (fed cs) g).
Proof.
  intros D V B P PB N val dtypes idx enc truthy usage pre fs gs pre0 post0 confs sp m ms cs w Hp Hf Hs Hch Hok Hq Hw Hw0 Hu Ha.
  destruct (user_order_feed_runs N val dtypes idx enc truthy usage pre fs gs pre0 post0 confs sp m ms cs w Hp Hf Hs Hch Hok Hq Hw Hw0 Hu Ha) as [g E].
  exists g. split; [exact E|]. intros. eapply C81_user_fed; eauto.
Qed.
Print Assumptions C81_user_fed_accepted.

(** *** Concrete case: three calls, the last one with a new instance. *)
Definition ou_calls : list (@fcall ex_row) := [mkCall false false false [[(1,1);(2,1)]; [(3,4);(4,4)]]; mkCall false true true [[(4,4);(6,8)]; [(7,8);(9,3)]]; mkCall true true true [[(9,3);(11,3)]; [(12,6);(15,1)]]].
Lemma ou_calls_ok : user_order_fed_ok (fun _ => Znum) or_val or_dtypes ex_idx ex_enc ex_gs [ou_R2] ou_sp ou_map ou_map (fed ou_calls).
Proof.
  intros o [<-|[]]. destruct (ou_ok ou_R (or_introl eq_refl)) as (A1 & A2 & A3 & _). split; [exact A1|]. split; [exact A2|]. split; [exact A3|].
  eexists. split; [left; reflexivity|]. split; [exact I|]. unfold user_order_kept. cbn [u_snap uo_conf ou_R2 uo_on].
  intros r s Hr Hs. apply ou_ever_in in Hr, Hs. revert r s Hr Hs. apply ou_same. vm_compute. reflexivity.
Qed.
Notation ou_feed := (feed_all ex_idx (fun _ => true) (fun f => Z.of_nat (length (rows f))) (None : option (list ex_row -> unit -> list ex_row * unit * bool)) ex_fs tt (Some csabuf_empty : ou_buf) 0%nat).
Example ex_C81_user_fed : exists g, ou_feed (ou_start [ou_R2]) ou_calls = Ok g /\
  user_order_fed_batch (fun _ => Znum) or_val or_dtypes ex_idx ex_enc ex_gs [ou_R2] ou_map ou_map (fed ou_calls) g.
Proof.
  destruct (C81_user_fed_accepted (fun _ => Znum) or_val or_dtypes ex_idx ex_enc (fun _ => true) (fun f => Z.of_nat (length (rows f)))
    (None : option (list ex_row -> unit -> list ex_row * unit * bool)) ex_fs ex_gs tt 0%nat [ou_R2] ou_sp ou_map ou_map ou_calls 1) as (g & E & B).
  - exact I.
  - apply ex_filters_are.
  - apply IterProofs.sortedb_iff. vm_compute. reflexivity.
  - intros c Hc chunk Hk. destruct Hc as [<-|[<-|[<-|[]]]]; cbn in Hk; repeat (destruct Hk as [<-|Hk]; [discriminate|]); destruct Hk.
  - apply ou_calls_ok.
  - reflexivity.
  - repeat split; auto; discriminate.
  - lia.
  - intro f. lia.
  - intros o keep [<-|[]] Hk. destruct Hk as [Hk|[Hk|[]]]; [|discriminate]. injection Hk as <-.
    split; [cbn; lia|]. split; [exact I|]. split; [reflexivity|]. split; [intros z Hz; injection Hz as <-; lia|]. split; [intros z Hz; discriminate|]. split; [exact I|]. split; [|vm_compute; discriminate].
    apply (or_never_zero (o_conf or_A)); [reflexivity|]. vm_compute. reflexivity.
  - exists g. split; [exact E|]. apply B; [discriminate|reflexivity].
Qed.
(** Results then, all rows included. *)
Example ex_C81_user_fed_rows : shown ou_data (ou_feed (ou_start [ou_R2]) ou_calls) = Some [[[0; 1; 2]; [1; 3; 12]; [2; 6; 16]; [3; 9; 9]; [4; 12; 6]; [5; 15; 1]]].
Proof. vm_compute. reflexivity. Qed.
