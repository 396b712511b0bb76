(** C68: streamed aggregation with bins made by functions of the user. *)
Require Import List Arith ZArith Bool Lia Sorting.Sorted.
Require Import Verif.RecordProofs.
Require Import Verif.Common Verif.AggModel Verif.AggSpec Verif.SegModel Verif.SegSpec Verif.CsaModel Verif.CsaSpec Verif.WrModel Verif.StreamModel Verif.StreamSpec
  Verif.KeyModel Verif.TableProofs Verif.BatchSpec Verif.LabelProofs Verif.BatchProofs Verif.BatchRunProofs Verif.BatchKeyProofs Verif.BatchHoldProofs Verif.BatchOkProofs Verif.MdProofs
  Verif.UserBinsSpec Verif.UserBinsProofs Verif.UserKeyModel Verif.UserKeySpec Verif.UserKeyProofs Verif.PropBatch Verif.PropUser.
Require Verif.CsaProofs Verif.IterProofs Verif.SegProofs.
Import ListNotations.
Local Open Scope Z_scope.

(** [holds_user] as cases of the type of results. *)
Section Typed_u.
Context {D V B P SB PB : Type}.
Variable N : dtype -> num V.
Variable val : D -> cname -> V.
Variable dtypes : list (cname * dtype).
Variable idx : D -> Z.
Variable enc : option V -> Z.
Definition typed_user (u : uconf D B PB) (m ms : row -> row) (rows_ : list D) (s : kstore P SB PB) : Prop :=
  match rows_ with
  | [] => all_rows (data_of (s_main s)) = [] /\ (user_type u = BOTH -> all_rows (data_of (s_snap s)) = [])
  | _ => exists bins snaps, user_batch N val dtypes idx u rows_ = Ok (Some (bins, snaps)) /\
      match user_type u, snaps with
      | BINS, None => all_rows (data_of (s_main s)) = map m (rows (table enc (u_agg u) bins))
      | SNAPS, Some sn => all_rows (data_of (s_main s)) = map m (rows (table enc (u_agg u) sn))
      | BOTH, Some sn => all_rows (data_of (s_main s)) = map m (rows (table enc (u_agg u) bins)) /\
                         all_rows (data_of (s_snap s)) = map ms (rows (table enc (u_agg u) sn))
      | _, _ => False
      end
  end.
Lemma holds_user_as : forall u m ms l s, holds_user N val dtypes idx enc u m ms l s <-> typed_user u m ms l s.
Proof.
  intros u m ms l s. unfold holds_user, typed_user, user_type. destruct l as [|a l].
  - destruct (u_snap u), (u_two u); intuition congruence.
  - split; intros (b & sn & E & H); exists b, sn; (split; [exact E|]); destruct (u_snap u), (u_two u), sn; intuition congruence.
Qed.
End Typed_u.

Section Main.
Context {D V B P PB : Type}.
Variable N : dtype -> num V.
Variable val : D -> cname -> V.
Variable dtypes : list (cname * dtype).
Variable idx : D -> Z.
Variable enc : option V -> Z.
Variable truthy : Z -> bool.
Variable usage : WrModel.frame -> Z.
Variable pre : option (list D -> P -> list D * P * bool).
Variables (fs : @filters D) (gs : list (nat * (D -> bool))).
Variables (pre0 : P) (post0 : PB).
Notation anykey := (@anykey D B PB).
Variable confs : list anykey.
Variable sp : uconf D B PB -> uspec D B.
Variables (m ms : anykey -> row -> row).
Notation any_key := (@any_key D V B PB N val dtypes idx enc).
Notation start := (new_stream pre0 anybuf_empty post0 (map any_key confs)).
Notation stream_ok := (any_stream_ok N val dtypes idx enc sp m ms gs confs).

Definition aT (c : anykey) : list D -> list row := match c with inl c => kT N val dtypes idx enc c | inr u => uT N val dtypes enc u (sp u) end.
Definition aTS (c : anykey) : list D -> list row := match c with inl c => kTS N val dtypes idx enc c | inr u => uTS N val dtypes idx enc u (sp u) end.
Definition aInv (c : anykey) (H : list D) (b : anybuf) : Prop := match c with inl c => kInv N val dtypes idx c H (fst b) | inr u => uInv N val dtypes idx u (sp u) H (snd b) end.
(** Conditions on rows, for valid configurations only, so that they hold of first rows. *)
Definition agood (c : anykey) (l : list D) : Prop := match c with inl c => no_tie idx c l | inr u => exists more, us_good (sp u) (l ++ more) end.
Definition akeep (c : anykey) : D -> bool := match dict_get Nat.eqb (any_filter c) gs with Some g => g | None => fun _ => true end.
Lemma akeep_is : forall c keep, NoDup (map fst gs) -> In (any_filter c, keep) gs -> akeep c = keep.
Proof. intros c keep Hn H. unfold akeep. rewrite (CsaProofs.In_dict_get _ Nat.eqb_eq _ _ _ Hn H). auto. Qed.

Lemma any_writes : forall c, writes_by_label (any_key c).
Proof. intros [c|u]; (split; [|intros _]; split; reflexivity). Qed.
Lemma any_hyps : forall Sf, filters_are fs gs -> stream_ok Sf ->
  (forall c (a b : list D), agood c (a ++ b) -> agood c a) /\
  (forall c, In c confs -> tabular (any_key c) anybuf_empty (BatchRunProofs.ok idx agood c) (aT c) (aTS c) (aInv c)) /\
  (forall c, In c confs -> post_is (any_key c) (m c) (ms c)) /\ (forall c, In c confs -> writes_as_labels (any_key c) (BatchRunProofs.ok idx agood c) (aT c) (aTS c) (m c) (ms c)) /\
  (forall c, In c confs -> In (k_filter (any_key c), akeep c) gs) /\ (forall c, In c confs -> agood c (rows_of idx akeep c Sf)).
Proof.
  intros Sf [Hnd _] Hok. split; [|split; [|split; [|split; [|split]]]].
  - intros [c|u] a b; cbn [agood]; [apply no_tie_app|]. intros [more H]. exists (b ++ more). rewrite app_assoc. auto.
  - intros c Hin. destruct (Hok c Hin) as (_ & keep & _ & Hc). destruct c as [c|u]; destruct Hc as [Hc _].
    + exact (tabular_left _ _ _ _ _ _ _ (key_tabular N val dtypes idx enc c Hc)).
    + pose proof (tabular_right _ _ (segbuf_empty : @segbuf V) _ _ _ _ (user_tabular N val dtypes idx enc u (sp u) Hc)) as T.
      destruct Hc as (_ & _ & _ & Hb & _).
      assert (G : forall l, BatchRunProofs.ok idx agood (inr u) l -> ugood idx (sp u) l) by (intros l [A [more A']]; split; auto; eapply bn_good; eauto).
      exact (tabular_weaken _ _ _ _ _ _ _ G T).
  - intros c Hin. destruct (Hok c Hin) as [Hp _]. destruct c; exact Hp.
  - intros c _. apply writes_labels, any_writes.
  - intros c Hin. destruct (Hok c Hin) as (_ & keep & Hk & _). rewrite (akeep_is c keep Hnd Hk). destruct c; auto.
  - intros c Hin. destruct (Hok c Hin) as (_ & keep & Hk & Hc). change (rows_of idx akeep c Sf) with (given idx (akeep c) Sf). rewrite (akeep_is c keep Hnd Hk).
    destruct c; destruct Hc as [_ Hc]; cbn [agood]; auto. exists []. rewrite app_nil_r. auto.
Qed.

Lemma to_any_batch : forall Sf (g : stream D P (@anybuf V B) PB), filters_are fs gs -> stream_ok Sf -> sorted (map idx Sf) ->
  map (fun x => fst (fst x)) (g_keys g) = map any_key confs ->
  (forall i k b s, nth_error (g_keys g) i = Some (k, b, s) -> holds idx any_key confs aT aTS m ms akeep Sf i k s) ->
  any_batch N val dtypes idx enc m ms gs confs Sf g.
Proof.
  intros Sf g [Hnd _] Hok Hs Ek Hh i c Hc.
  assert (En : nth_error (map (fun x => fst (fst x)) (g_keys g)) i = Some (any_key c)) by (rewrite Ek, nth_error_map, Hc; auto).
  rewrite nth_error_map in En. destruct (nth_error (g_keys g) i) as [[[k b] s]|] eqn:Eg; [|discriminate]. cbn [fst option_map] in En. injection En as ->.
  exists b, s. split; auto. intros kp Hkp. destruct (Hh i _ b s Eg) as (c' & _ & Hc' & Hb). rewrite Hc in Hc'. injection Hc' as <-.
  change (rows_of idx akeep c Sf) with (given idx (akeep c) Sf) in Hb. rewrite (akeep_is c kp Hnd Hkp) in Hb.
  destruct (Hok c (nth_error_In _ _ Hc)) as (_ & kp' & Hk' & Ho). assert (kp' = kp) as -> by (rewrite <- (akeep_is c kp' Hnd Hk'); apply akeep_is; auto).
  assert (Hsg : sorted (map idx (given idx kp Sf))) by (apply IterProofs.sorted_filter; auto).
  destruct c as [c|u]; destruct Ho as [Ho1 Ho2].
  - eapply holds_chans_any; eauto; [reflexivity|split; auto].
  - assert (Hg : ugood idx (sp u) (given idx kp Sf)) by (split; auto). unfold chans in Hb. change (k_type (any_key (inr u))) with (user_type u) in Hb.
    apply holds_user_as. unfold typed_user. destruct (given idx kp Sf) as [|a l] eqn:El.
    + destruct (user_type u).
      * split; [|discriminate]. apply (Hb _ (or_introl eq_refl)).
      * split; [|discriminate]. apply (Hb _ (or_introl eq_refl)).
      * split; [apply (Hb _ (or_introl eq_refl))|]. intros _. apply (Hb _ (or_intror (or_introl eq_refl))).
    + rewrite <- El in *. destruct (user_batch_tables N val dtypes idx enc u (sp u) Ho1 (given idx kp Sf)) as (fb & fs0 & E1 & E2 & E3); [congruence|auto|].
      exists fb, fs0. split; auto. rewrite E2. unfold user_type in *. destruct fs0 as [sn|].
      * destruct E3 as [E3 E4]. rewrite E4. destruct (u_snap u); [|congruence]. destruct (u_two u).
        -- split; [apply (Hb _ (or_introl eq_refl))|apply (Hb _ (or_intror (or_introl eq_refl)))].
        -- apply (Hb _ (or_introl eq_refl)).
      * rewrite E3 in *. apply (Hb _ (or_introl eq_refl)).
Qed.

Lemma any_run : forall rs g, harmless pre -> filters_are fs gs -> growing idx [] rs -> stream_ok (whole_seed [] rs) ->
  ((forall c, In c confs -> any_nirgs c = None) \/ ((forall i, truthy i = true) /\ all_written true rs)) ->
  run_all idx truthy usage pre fs pre0 anybuf_empty post0 start rs = Ok g -> rs <> [] -> r_final (last rs (mkRun false false [])) = true ->
  any_batch N val dtypes idx enc m ms gs confs (whole_seed [] rs) g.
Proof.
  intros rs g Hp Hf Hg Hok Hc E Hne Hl. assert (Hs : sorted (map idx (whole_seed [] rs))) by (apply sorted_whole; auto; constructor).
  destruct (any_hyps _ Hf Hok) as (T0 & T1 & T2 & T3 & T4 & T5).
  apply to_any_batch; auto.
  - rewrite (run_all_keys idx truthy usage _ _ _ _ _ _ _ _ E). unfold new_stream. cbn [g_keys]. rewrite map_map. cbn [fst]. apply map_id.
  - destruct (new_mem_inv idx truthy pre0 anybuf_empty post0 any_key confs aT aTS aInv m ms akeep agood T1 T2 T3 (whole_seed [] rs)) as [M W].
    apply (run_all_batch idx truthy usage fs gs Hf pre Hp pre0 anybuf_empty post0 any_key confs aT aTS aInv m ms akeep agood T0 T1 T2 T3 T4 (whole_seed [] rs) Hs T5 rs [] start g true M (SSorted_nil _) Hg eq_refl); auto.
    destruct Hc as [Hc|[Tq Hw]]; [left|right; auto]. intros c Hin. specialize (Hc c Hin). unfold no_coalescing. destruct c; cbn in *; auto.
Qed.

Lemma any_steps : forall rs g0 xs g r, harmless pre -> filters_are fs gs -> growing idx [] rs -> growing idx (whole_seed [] rs) (map run_of xs) ->
  stream_ok (whole_seed (whole_seed [] rs) (map run_of xs)) ->
  (forall c, In c confs -> k_type (any_key c) <> BOTH /\ any_nirgs c = None) ->
  run_all idx truthy usage pre fs pre0 anybuf_empty post0 start rs = Ok g0 ->
  (forall s, In s (map snd (g_keys g0)) -> s_main s <> None) -> restarted false xs ->
  step_all idx truthy usage pre fs pre0 anybuf_empty post0 g0 xs = Ok g ->
  last xs (Complete (mkRun false false [])) = Complete r -> r_final r = true ->
  any_batch N val dtypes idx enc m ms gs confs (whole_seed (whole_seed [] rs) (map run_of xs)) g.
Proof.
  intros rs g0 xs g r Hp Hf Hg Hg' Hok Hc E0 Hmn Hr E Hl Hfin.
  assert (Hs0 : sorted (map idx (whole_seed [] rs))) by (apply sorted_whole; auto; constructor).
  assert (Hs : sorted (map idx (whole_seed (whole_seed [] rs) (map run_of xs)))) by (apply sorted_whole; auto).
  destruct (any_hyps _ Hf Hok) as (T0 & T1 & T2 & T3 & T4 & T5).
  assert (Hnc : forall c, In c confs -> k_type (any_key c) <> BOTH /\ no_coalescing (any_key c)).
  { intros c Hin. destruct (Hc c Hin) as [C1 C2]. split; auto. destruct c; split; auto. }
  apply to_any_batch; auto.
  - rewrite (step_all_keys idx truthy usage _ _ _ _ _ _ _ _ E), (run_all_keys idx truthy usage _ _ _ _ _ _ _ _ E0). unfold new_stream. cbn [g_keys]. rewrite map_map. cbn [fst]. apply map_id.
  - set (Sf := whole_seed (whole_seed [] rs) (map run_of xs)) in *.
    destruct (new_mem_inv idx truthy pre0 anybuf_empty post0 any_key confs aT aTS aInv m ms akeep agood T1 T2 T3 Sf) as [M W].
    assert (M0 : mem_inv idx truthy any_key confs aT aTS aInv m ms akeep Sf (whole_seed [] rs) g0).
    { apply (run_all_keeps idx truthy usage fs gs Hf pre Hp pre0 anybuf_empty post0 any_key confs aT aTS aInv m ms akeep agood T0 T1 T2 T3 T4 Sf Hs T5 rs [] start g0); auto.
      - intros c Hin. apply (Hnc c Hin).
      - constructor.
      - apply (growing_starts idx (map run_of xs)); auto. }
    apply (step_all_batch idx truthy usage fs gs Hf pre Hp pre0 anybuf_empty post0 any_key confs aT aTS aInv m ms akeep agood T0 T1 T2 T3 T4 Sf Hs T5 Hnc xs (whole_seed [] rs) g0 g false (or_introl M0) Hmn Hs0 Hg' eq_refl Hr E r Hl Hfin).
Qed.

Lemma any_run_accepted : forall rs w, harmless pre -> filters_are fs gs -> growing idx [] rs -> stream_ok (whole_seed [] rs) ->
  (forall i, truthy i = true) -> all_written true rs -> 0 <= w -> (forall f, usage f <= w * Z.of_nat (S (length (rows f)))) ->
  (forall c kp, In c confs -> In (any_filter c, kp) gs -> any_accepted N val dtypes idx enc c w (chunks_between 0 rs) (given idx kp (whole_seed [] rs))) ->
  exists g, run_all idx truthy usage pre fs pre0 anybuf_empty post0 start rs = Ok g.
Proof.
  intros rs w Hp Hf Hg Hok Hq Hw Hw0 Hu Ha. assert (Hs : sorted (map idx (whole_seed [] rs))) by (apply sorted_whole; auto; constructor).
  destruct (any_hyps _ Hf Hok) as (T0 & T1 & T2 & T3 & T4 & T5). set (Sf := whole_seed [] rs) in *.
  assert (A : forall c, In c confs -> any_accepted N val dtypes idx enc c w (chunks_between 0 rs) (rows_of idx akeep c Sf)).
  { intros c Hin. apply Ha; auto. specialize (T4 c Hin). destruct c; auto. }
  assert (K : forall c H, In c confs -> starts H (rows_of idx akeep c Sf) -> sorted (map idx H) /\ agood c H).
  { intros c H Hin [e E]. split.
    - assert (Z0 : sorted (map idx (rows_of idx akeep c Sf))) by (unfold rows_of; repeat apply IterProofs.sorted_filter; auto). rewrite E in Z0. exact (IterProofs.sorted_app_l idx _ _ Z0).
    - specialize (T5 c Hin). rewrite E in T5. exact (T0 c _ _ T5). }
  assert (Z : forall c H p (agg : aggspec), starts (H ++ p) (rows_of idx akeep c Sf) ->
    (forall out i f d l v, In (out, (i, Some f)) agg -> dict_get Nat.eqb i dtypes = Some d -> incl l (rows_of idx akeep c Sf) -> agg_of N val d f i l = Some v -> is0 (N d) v = false) ->
    forall out i f d l v, In (out, (i, Some f)) agg -> dict_get Nat.eqb i dtypes = Some d -> incl l (H ++ p) -> agg_of N val d f i l = Some v -> is0 (N d) v = false).
  { intros c H p ag [e Ee] Hz out i f d l v I1 I2 I3 I4. apply (Hz out i f d l v I1 I2); auto. rewrite Ee. apply incl_appl. auto. }
  destruct (new_mem_inv idx truthy pre0 anybuf_empty post0 any_key confs aT aTS aInv m ms akeep agood T1 T2 T3 Sf) as [M _].
  destruct (new_ok (P := P) idx pre0 anybuf_empty post0 any_key confs aT aTS akeep w Hw0) as (N1 & N2 & N3).
  eapply (run_all_ok idx truthy usage fs gs Hf pre Hp pre0 anybuf_empty post0 any_key confs aT aTS aInv m ms akeep agood T0 T1 T2 T3 T4 Sf Hs T5 Hq); eauto.
  - intros c H p b Hin Hne Hst Hi. pose proof (A c Hin) as Ac. pose proof (K c _ Hin Hst) as Kc. destruct (Hok c Hin) as (_ & kp & _ & Hc). destruct c as [c|u].
    + destruct Ac as (_ & _ & _ & _ & Hz & _).
      destruct (key_accepts N val dtypes idx enc c (proj1 Hc) H p (fst b) Hne Kc Hi) as (f & sn & b' & E & W & W'); [exact (Z (inl c) H p _ Hst Hz)|].
      exists f, sn, (b', snd b). split; auto. cbn [k_agg UserKeyModel.any_key on_left]. rewrite E. auto.
    + destruct Ac as (_ & _ & _ & _ & Hz & _). destruct Hc as [Hc _]. pose proof Hc as (_ & _ & _ & Hb & _).
      destruct (user_accepts N val dtypes idx enc u (sp u) Hc H p (snd b) Hne) as (f & sn & b' & E & W & W'); auto.
      * destruct Kc as [K1 [more K2]]. split; auto. eapply bn_good; eauto.
      * exact (Z (inr u) H p _ Hst Hz).
      * exists f, sn, (fst b, b'). split; [|split; auto]. cbn [k_agg UserKeyModel.any_key on_right]. rewrite E. auto.
  - intros c Hin. specialize (A c Hin). destruct c; apply A.
  - intros c Hin. specialize (A c Hin). destruct c as [c|u]; destruct A as (_ & H1 & H2 & _); cbn.
    + split; [destruct (c_size c); cbn; auto|intros _; destruct (c_size_snap c); cbn; auto].
    + split; [destruct (u_size u); cbn; auto|intros _; destruct (u_size_snap u); cbn; auto].
  - intros c Hin. specialize (A c Hin). destruct c as [c|u]; destruct A as (H1 & _); unfold no_coalescing; cbn; auto.
  - intros c Hin. pose proof (A c Hin) as Ac. destruct (Hok c Hin) as (_ & kp & _ & Hc). destruct c as [c|u].
    + destruct Ac as (_ & _ & _ & _ & _ & H1). unfold enough_memory in H1. cbn [k_type k_max UserKeyModel.any_key on_left KeyModel.key_of]. destruct (type_of c) eqn:Et; auto;
        (rewrite <- (result_rows N val dtypes idx enc c (rows_of idx akeep (inl c) Sf)) in H1; [rewrite Nat.add_assoc in H1; exact H1|apply Hc|apply (K (inl c)); auto; exists []; rewrite app_nil_r; auto|congruence]).
    + destruct Ac as (_ & _ & _ & _ & _ & H1). cbn [k_type k_max UserKeyModel.any_key on_right user_key]. destruct Hc as [Hc _]. pose proof Hc as (_ & _ & _ & Hb & _).
      assert (Hgu : ugood idx (sp u) (rows_of idx akeep (inr u) Sf)).
      { destruct (K (inr u) (rows_of idx akeep (inr u) Sf) Hin) as [K1 [more K2]]; [exists []; rewrite app_nil_r; auto|]. split; auto. eapply bn_good; eauto. }
      cbv zeta in H1. destruct (user_type u) eqn:Et; auto;
        (rewrite <- (user_results N val dtypes idx enc u (sp u) Hc (rows_of idx akeep (inr u) Sf) Hgu) in H1 by congruence; rewrite Nat.add_assoc in H1; exact H1).
  - constructor.
Qed.
End Main.

(** ** C68 *)
(** As C50, for streams whose keys have bins of time, of a number of rows, or made by any function of the user. *)
Theorem C68_streamed_is_batch : forall {D V B P PB} (N : dtype -> num V) val dtypes (idx : D -> Z) enc truthy usage
    (pre : option (list D -> P -> list D * P * bool)) fs gs pre0 post0 (confs : list (@anykey D B PB)) sp m ms rs g,
  harmless pre -> filters_are fs gs -> growing idx [] rs -> any_stream_ok N val dtypes idx enc sp m ms gs confs (whole_seed [] rs) ->
  ((forall c, In c confs -> any_nirgs c = None) \/ ((forall i, truthy i = true) /\ all_written true rs)) ->
  run_all idx truthy usage pre fs pre0 anybuf_empty post0 (new_stream pre0 anybuf_empty post0 (map (any_key N val dtypes idx enc) confs)) rs = Ok g ->
  rs <> [] -> r_final (last rs (mkRun false false [])) = true ->
  any_batch N val dtypes idx enc m ms gs confs (whole_seed [] rs) g.
Proof. intros. eapply any_run; eauto. Qed.
Print Assumptions C68_streamed_is_batch.

(** Runs are accepted, with the same conditions as in C50_accepted. *)
Theorem C68_accepted : forall {D V B P PB} (N : dtype -> num V) val dtypes (idx : D -> Z) enc truthy usage
    (pre : option (list D -> P -> list D * P * bool)) fs gs pre0 post0 (confs : list (@anykey D B PB)) sp m ms rs w,
  harmless pre -> filters_are fs gs -> growing idx [] rs -> any_stream_ok N val dtypes idx enc sp m ms gs confs (whole_seed [] rs) ->
  (forall i, truthy i = true) -> all_written true rs -> 0 <= w -> (forall f, usage f <= w * Z.of_nat (S (length (rows f)))) ->
  (forall c keep, In c confs -> In (any_filter c, keep) gs -> any_accepted N val dtypes idx enc c w (chunks_between 0 rs) (given idx keep (whole_seed [] rs))) ->
  exists g, run_all idx truthy usage pre fs pre0 anybuf_empty post0 (new_stream pre0 anybuf_empty post0 (map (any_key N val dtypes idx enc) confs)) rs = Ok g /\
    (rs <> [] -> r_final (last rs (mkRun false false [])) = true -> any_batch N val dtypes idx enc m ms gs confs (whole_seed [] rs) g).
Proof.
  intros D V B P PB N val dtypes idx enc truthy usage pre fs gs pre0 post0 confs sp m ms rs w Hp Hf Hg Hok Hq Hw Hw0 Hu Ha.
  destruct (any_run_accepted N val dtypes idx enc truthy usage pre fs gs pre0 post0 confs sp m ms rs w Hp Hf Hg Hok Hq Hw Hw0 Hu Ha) as [g E].
  exists g. split; [exact E|]. intros. eapply C68_streamed_is_batch; eauto.
Qed.
Print Assumptions C68_accepted.

(** As C51, with interruptions. *)
Theorem C68_interrupted_is_batch : forall {D V B P PB} (N : dtype -> num V) val dtypes (idx : D -> Z) enc truthy usage
    (pre : option (list D -> P -> list D * P * bool)) fs gs pre0 post0 (confs : list (@anykey D B PB)) sp m ms rs g0 xs g r,
  harmless pre -> filters_are fs gs -> growing idx [] rs -> growing idx (whole_seed [] rs) (map run_of xs) ->
  any_stream_ok N val dtypes idx enc sp m ms gs confs (whole_seed (whole_seed [] rs) (map run_of xs)) ->
  (forall c, In c confs -> any_nirgs c = None /\ any_type c <> BOTH) ->
  run_all idx truthy usage pre fs pre0 anybuf_empty post0 (new_stream pre0 anybuf_empty post0 (map (any_key N val dtypes idx enc) confs)) rs = Ok g0 ->
  (forall s, In s (map snd (g_keys g0)) -> s_main s <> None) ->
  restarted false xs -> step_all idx truthy usage pre fs pre0 anybuf_empty post0 g0 xs = Ok g ->
  last xs (Complete (mkRun false false [])) = Complete r -> r_final r = true ->
  any_batch N val dtypes idx enc m ms gs confs (whole_seed (whole_seed [] rs) (map run_of xs)) g.
Proof.
  intros D V B P PB N val dtypes idx enc truthy usage pre fs gs pre0 post0 confs sp m ms rs g0 xs g r Hp Hf Hg Hg' Hok Hc E0 Hmn Hr E Hl Hfin.
  eapply any_steps; eauto. intros c Hin. destruct (Hc c Hin) as [A A']. split; auto. destruct c; exact A'.
Qed.
Print Assumptions C68_interrupted_is_batch.

(** *** Concrete case: a key with bins of time, and a key whose bins are runs of successive rows with the same value. *)
Definition ex_R : uconf ex_row (list ex_row) nat := mkUconf 0 ex_agg (generic_bin_by runs) [] None false None 44 (Some 2) None None.
Definition ex_user : list (@anykey ex_row (list ex_row) nat) := [inl ex_A1; inr ex_R].
Definition ex_user_map (c : @anykey ex_row (list ex_row) nat) : row -> row := match c with inl c => ex_map c | inr _ => fun r => r end.
Lemma runs_strict : forall rows, StronglySorted Z.lt (map fst (runs rows)).
Proof.
  intro rows. destruct (runs_shape rows) as [[_ ->]|(bs & l & r0 & rs & _ & _ & _ & -> & _)]; [constructor|].
  generalize 0%nat at 1. generalize (length (runs rows)). intro n. induction n as [|n IH]; intro k; simpl; constructor; auto.
  apply Forall_forall. intros z Hz. apply in_map_iff in Hz as (j & <- & Hj). apply in_seq in Hj. lia.
Qed.
Lemma ex_R_ok : user_ok ex_dtypes ex_idx ex_R (only_bins runs (fun rows b => b = rows) (fun _ => True)).
Proof.
  destruct (ex_conf_ok ex_A ltac:(left; auto)) as (A1 & A2 & A3 & _). split; [exact A1|]. split; [exact A2|]. split; [exact A3|].
  split; [apply runs_binning|]. split; [|discriminate]. intros rows _ _. apply runs_strict.
Qed.
Example ex_user_ok : forall seed, any_stream_ok (fun _ => Znum) ex_val ex_dtypes ex_idx ex_enc (fun _ => only_bins runs (fun rows b => b = rows) (fun _ => True)) ex_user_map ex_user_map ex_gs ex_user seed.
Proof.
  intros seed c [<-|[<-|[]]]; (split; [|eexists; split; [left; reflexivity|]]).
  - apply (ex_mok ex_A). left. auto.
  - split; [apply (ex_conf_ok ex_A); left; auto|exact I].
  - split; [|split]; cbn; auto.
  - split; [apply ex_R_ok|exact I].
Qed.
Notation ex_any cs := (new_stream tt (anybuf_empty : @anybuf Z (list ex_row)) 0%nat (map (any_key (fun _ => Znum) ex_val ex_dtypes ex_idx ex_enc) cs) : stream ex_row unit (@anybuf Z (list ex_row)) nat).
Notation ex_any_run := (run_all ex_idx (fun _ => true) (fun f => Z.of_nat (length (rows f))) (None : option (list ex_row -> unit -> list ex_row * unit * bool)) ex_fs tt (anybuf_empty : @anybuf Z (list ex_row)) 0%nat).
Definition ex_any_data (g : stream ex_row unit (@anybuf Z (list ex_row)) nat) := map (fun x => all_rows (data_of (s_main (snd x)))) (g_keys g).
Definition ex_seed6 : list (list ex_row) := [[(1,1);(2,1)]; [(4,1);(5,4)]; [(7,4);(11,8)]].
Definition ex_seed7 : list (list ex_row) := [concat ex_seed6; [(11,9);(13,9)]; [(13,9);(14,1);(14,1)]].
Definition ex_seed8 : list (list ex_row) := [concat ex_seed7 ++ [(15,1)]; [(18,7)]].
Definition ex_user_runs := [mkRun true false ex_seed6; mkRun false true ex_seed7; mkRun true true ex_seed8].
Lemma ex_user_growing : growing ex_idx [] ex_user_runs.
Proof.
  repeat split; try (apply IterProofs.sortedb_iff; vm_compute; reflexivity); try (apply ex_chunks; reflexivity).
  - extended.
  - extended.
  - extended.
Qed.
Example ex_C68 : exists g, ex_any_run (ex_any ex_user) ex_user_runs = Ok g /\
  any_batch (fun _ => Znum) ex_val ex_dtypes ex_idx ex_enc ex_user_map ex_user_map ex_gs ex_user (concat ex_seed8) g /\
  ex_any_data g = [[[0; 6; 1]; [5; 16; 4]; [10; 74; 9]; [15; 2; 1]]; [[0; 3; 1]; [1; 8; 4]; [2; 8; 8]; [3; 27; 9]; [4; 3; 1]]].
Proof.
  destruct (C68_accepted (fun _ => Znum) ex_val ex_dtypes ex_idx ex_enc (fun _ => true) (fun f => Z.of_nat (length (rows f)))
    (None : option (list ex_row -> unit -> list ex_row * unit * bool)) ex_fs ex_gs tt 0%nat ex_user (fun _ => only_bins runs (fun rows b => b = rows) (fun _ => True)) ex_user_map ex_user_map ex_user_runs 1) as (g & E & B).
  - exact I.
  - apply ex_filters_are.
  - apply ex_user_growing.
  - apply ex_user_ok.
  - reflexivity.
  - repeat split; auto.
  - lia.
  - intro f. lia.
  - intros c keep Hc Hk. assert (Hf : any_filter c = 0%nat) by (destruct Hc as [<-|[<-|[]]]; auto). rewrite Hf in Hk. destruct Hk as [Hk|[Hk|[]]]; [|discriminate]. injection Hk as <-.
    assert (Nz : never_zero (fun _ => Znum) ex_val ex_dtypes ex_A1 (given ex_idx (fun _ => true) (whole_seed [] ex_user_runs))) by (apply never_zero_pos; [reflexivity|vm_compute; reflexivity]).
    destruct Hc as [<-|[<-|[]]].
    + split; [reflexivity|]. split; [intros z H; injection H as <-; lia|]. split; [intros z H; discriminate|]. split; [|split; [exact Nz|vm_compute; discriminate]].
      intros pb f sn. eexists. eexists. split; [reflexivity|]. cbn. lia.
    + split; [reflexivity|]. split; [intros z H; injection H as <-; lia|]. split; [intros z H; discriminate|]. split; [exact I|]. split; [exact Nz|vm_compute; discriminate].
  - exists g. split; [exact E|]. split; [apply B; [discriminate|reflexivity]|].
    destruct (shown_ok _ _ ex_any_data (ex_any_run (ex_any ex_user) ex_user_runs) [[[0; 6; 1]; [5; 16; 4]; [10; 74; 9]; [15; 2; 1]]; [[0; 3; 1]; [1; 8; 4]; [2; 8; 8]; [3; 27; 9]; [4; 3; 1]]]
      ltac:(vm_cast_no_check (eq_refl (Some [[[0; 6; 1]; [5; 16; 4]; [10; 74; 9]; [15; 2; 1]]; [[0; 3; 1]; [1; 8; 4]; [2; 8; 8]; [3; 27; 9]; [4; 3; 1]]])))) as (g' & E' & Ed).
    assert (Some g = Some g') as Q by (exact (f_equal (fun r => match r with Ok a => Some a | Err _ => None end) (eq_trans (eq_sym E) E'))). injection Q as ->. exact Ed.
Qed.

(** Same keys, with results of the second one written as soon as there are 2 rows. The run on [ex_seed9] is interrupted after the first modification,
    which is the writing of rows of the second key: see [ex_C68_written]. *)
Definition ex_R2 : uconf ex_row (list ex_row) nat := mkUconf 0 ex_agg (generic_bin_by runs) [] None false None 1 (Some 2) None None.
Definition ex_user2 : list (@anykey ex_row (list ex_row) nat) := [inl ex_A1; inr ex_R2].
Definition ex_seed9 : list (list ex_row) := [concat ex_seed6; [(11,9);(13,8)]; [(13,7);(14,2)]; [(15,6)]; [(15,5);(16,1);(17,1)]].
Definition ex_seed10 : list (list ex_row) := [concat ex_seed9 ++ [(17,1)]; [(18,7)]].
Definition ex_user_steps := [Interrupted (mkRun false true ex_seed9) [0; 1]%nat; Complete (mkRun true true ex_seed10)].
Lemma ex_user2_growing : growing ex_idx [] [mkRun true true ex_seed6; mkRun false true ex_seed9; mkRun true true ex_seed10].
Proof.
  repeat split; try (apply IterProofs.sortedb_iff; vm_compute; reflexivity); try (apply ex_chunks; reflexivity).
  - extended.
  - extended.
  - extended.
Qed.
Example ex_user2_ok : forall seed, any_stream_ok (fun _ => Znum) ex_val ex_dtypes ex_idx ex_enc (fun _ => only_bins runs (fun rows b => b = rows) (fun _ => True)) ex_user_map ex_user_map ex_gs ex_user2 seed.
Proof.
  intros seed c [<-|[<-|[]]]; (split; [|eexists; split; [left; reflexivity|]]).
  - apply (ex_mok ex_A). left. auto.
  - split; [apply (ex_conf_ok ex_A); left; auto|exact I].
  - split; [|split]; cbn; auto.
  - split; [apply ex_R_ok|exact I].
Qed.
Notation ex_any_step := (step_all ex_idx (fun _ => true) (fun f => Z.of_nat (length (rows f))) (None : option (list ex_row -> unit -> list ex_row * unit * bool)) ex_fs tt (anybuf_empty : @anybuf Z (list ex_row)) 0%nat).
Example ex_C68_interrupted : exists g0 g, ex_any_run (ex_any ex_user2) [mkRun true true ex_seed6] = Ok g0 /\ ex_any_step g0 ex_user_steps = Ok g /\
  any_batch (fun _ => Znum) ex_val ex_dtypes ex_idx ex_enc ex_user_map ex_user_map ex_gs ex_user2 (concat ex_seed10) g.
Proof.
  destruct (shown_ok _ _ (fun g => map (fun x => match s_main (snd x) with Some _ => true | None => false end) (g_keys g)) (ex_any_run (ex_any ex_user2) [mkRun true true ex_seed6]) [true; true]
    ltac:(vm_cast_no_check (eq_refl (Some [true; true])))) as (g0 & E0 & Em).
  assert (Es : exists g, bind (ex_any_run (ex_any ex_user2) [mkRun true true ex_seed6]) (fun g0 => ex_any_step g0 ex_user_steps) = Ok g /\ length (g_keys g) = 2%nat).
  { apply shown_ok. vm_cast_no_check (eq_refl (Some 2%nat)). }
  destruct Es as (g & Es & _). assert (E : ex_any_step g0 ex_user_steps = Ok g) by (exact (eq_trans (f_equal (fun r => bind r (fun g0 => ex_any_step g0 ex_user_steps)) (eq_sym E0)) Es)).
  exists g0, g. split; [exact E0|]. split; [exact E|].
  change (concat ex_seed10) with (whole_seed (whole_seed [] [mkRun true true ex_seed6]) (map run_of ex_user_steps)).
  refine (C68_interrupted_is_batch (fun _ => Znum) ex_val ex_dtypes ex_idx ex_enc (fun _ => true) (fun f => Z.of_nat (length (rows f)))
    (None : option (list ex_row -> unit -> list ex_row * unit * bool)) ex_fs ex_gs tt 0%nat ex_user2 (fun _ => only_bins runs (fun rows b => b = rows) (fun _ => True)) ex_user_map ex_user_map [mkRun true true ex_seed6] g0 ex_user_steps g (mkRun true true ex_seed10) _ _ _ _ _ _ E0 _ _ E eq_refl eq_refl).
  - exact I.
  - apply ex_filters_are.
  - destruct ex_user2_growing as (A & B & C & _). exact (conj A (conj B (conj C I))).
  - destruct ex_user2_growing as (_ & _ & _ & A). exact A.
  - apply ex_user2_ok.
  - intros c [<-|[<-|[]]]; split; auto; discriminate.
  - intros s Hs Q. apply in_map_iff in Hs as (x & Ex & Hx). assert (Hin : In false [true; true]) by (rewrite <- Em; apply in_map_iff; exists x; rewrite Ex, Q; auto). destruct Hin as [Q0|[Q0|[]]]; discriminate.
  - split; [discriminate|]. split; [reflexivity|exact I].
Qed.

Example ex_C68_written : exists g0 g1, ex_any_run (ex_any ex_user2) [mkRun true true ex_seed6] = Ok g0 /\ ex_any_step g0 (firstn 1 ex_user_steps) = Ok g1 /\
  ex_any_data g0 = [[[0; 6; 1]; [5; 16; 4]]; [[0; 3; 1]; [1; 8; 4]]] /\
  ex_any_data g1 = [[[0; 6; 1]; [5; 16; 4]]; [[0; 3; 1]; [1; 8; 4]; [2; 8; 8]; [3; 9; 9]; [4; 8; 8]]].
Proof.
  destruct (shown_ok _ _ ex_any_data (ex_any_run (ex_any ex_user2) [mkRun true true ex_seed6]) [[[0; 6; 1]; [5; 16; 4]]; [[0; 3; 1]; [1; 8; 4]]]
    ltac:(vm_cast_no_check (eq_refl (Some [[[0; 6; 1]; [5; 16; 4]]; [[0; 3; 1]; [1; 8; 4]]])))) as (g0 & E0 & D0).
  destruct (shown_bind _ _ _ ex_any_data (ex_any_run (ex_any ex_user2) [mkRun true true ex_seed6]) (fun g => ex_any_step g (firstn 1 ex_user_steps))
    [[[0; 6; 1]; [5; 16; 4]]; [[0; 3; 1]; [1; 8; 4]; [2; 8; 8]; [3; 9; 9]; [4; 8; 8]]]
    ltac:(vm_cast_no_check (eq_refl (Some [[[0; 6; 1]; [5; 16; 4]]; [[0; 3; 1]; [1; 8; 4]; [2; 8; 8]; [3; 9; 9]; [4; 8; 8]]])))) as (g0' & g1 & E0' & E1 & D1).
  assert (Q : g0' = g0) by (pose proof (eq_trans (eq_sym E0') E0) as Q; exact (match Q in _ = r return match r with Ok x => g0' = x | Err _ => True end with eq_refl => eq_refl end)). subst g0'.
  exists g0, g1. split; [exact E0|]. split; [exact E1|]. split; [exact D0|exact D1].
Qed.

(** *** Labels in another order *)
(** Runs of rows are numbered downwards: labels are distinct, not ascending. *)
Definition down (rows : list ex_row) : list (Z * list ex_row) := map (fun b => (- fst b, snd b)) (runs rows).
Definition ex_down : uconf ex_row (list ex_row) nat := mkUconf 0 ex_agg (generic_bin_by down) [] None false None 44 (Some 2) None None.
Lemma down_binning : binning (generic_bin_by down) [] down (fun rows b => b = rows) (fun _ => True).
Proof.
  assert (Hf : forall rows, map fst (down rows) = map Z.opp (map fst (runs rows))) by (intro rows; unfold down; rewrite !map_map; auto).
  assert (Hs : forall rows, map snd (down rows) = map snd (runs rows)) by (intro rows; unfold down; rewrite !map_map; auto).
  pose proof runs_binning as H. apply generic_binning; auto.
  - intros rows _. rewrite Hf. apply FinFun.Injective_map_NoDup; [intros a b Q; lia|]. exact (bn_labels _ _ _ _ _ H rows I).
  - intros rows more Hne _. destruct (bn_more _ _ _ _ _ H rows more Hne I) as (bs & l & r & r' & bs' & E1 & E2 & E3).
    exists (map (fun b => (- fst b, snd b)) bs), (- l), r, r', (map (fun b => (- fst b, snd b)) bs'). split; [|split; [exact E2|]].
    + refine (eq_trans (f_equal _ E1) _). rewrite map_app. auto.
    + refine (eq_trans (f_equal _ E3) _). rewrite map_app. auto.
  - intros rows _. rewrite Hs. destruct (runs_shape rows) as [[-> ->]|(bs & l & r0 & rs & _ & _ & _ & _ & Ec)]; auto.
Qed.
(** It is false that distinct labels are enough: a bin is stored twice. *)
Theorem C68_labels_refuted : exists (u : uconf ex_row (list ex_row) nat) bins rs g,
  binning (u_bins u) (u_empty u) bins (fun rows b => b = rows) (fun _ => True) /\ growing ex_idx [] rs /\ u_nirgs u = None /\
  ex_any_run (ex_any [inr u]) rs = Ok g /\ r_final (last rs (mkRun false false [])) = true /\
  ~ any_batch (fun _ => Znum) ex_val ex_dtypes ex_idx ex_enc ex_user_map ex_user_map ex_gs [inr u] (whole_seed [] rs) g /\
  ex_any_data g = [[[0; 3; 1]; [-1; 8; 4]; [-2; 8; 8]; [-3; 27; 9]; [-3; 27; 9]; [-4; 3; 1]]].
Proof.
  destruct (shown_ok _ _ ex_any_data (ex_any_run (ex_any [inr ex_down]) ex_user_runs) [[[0; 3; 1]; [-1; 8; 4]; [-2; 8; 8]; [-3; 27; 9]; [-3; 27; 9]; [-4; 3; 1]]]
    ltac:(vm_cast_no_check (eq_refl (Some [[[0; 3; 1]; [-1; 8; 4]; [-2; 8; 8]; [-3; 27; 9]; [-3; 27; 9]; [-4; 3; 1]]])))) as (g & E & Ed).
  exists ex_down, down, ex_user_runs, g. split; [apply down_binning|]. split; [apply ex_user_growing|]. split; [reflexivity|]. split; [exact E|]. split; [reflexivity|]. split; [|exact Ed].
  intro H. destruct (H 0%nat _ eq_refl) as (b & s & Ei & Hb). specialize (Hb (fun _ => true) (or_introl eq_refl)).
  assert (En : exists a l, given ex_idx (fun _ => true) (whole_seed [] ex_user_runs) = a :: l) by (vm_compute; eauto). destruct En as (a & l & En).
  unfold holds_user in Hb. rewrite En in Hb. rewrite <- En in Hb. destruct Hb as (fr & sn & Eb & _ & Hb). vm_compute in Eb. injection Eb as <- <-. vm_compute in Hb.
  assert (Q : nth_error (ex_any_data g) 0 = Some (all_rows (data_of (s_main s)))) by (unfold ex_any_data; rewrite nth_error_map, Ei; reflexivity).
  rewrite Ed in Q. change (all_rows (data_of (s_main s)) = [[0; 3; 1]; [-1; 8; 4]; [-2; 8; 8]; [-3; 27; 9]; [-4; 3; 1]]) in Hb. rewrite Hb in Q. discriminate.
Qed.
Print Assumptions C68_labels_refuted.
