(** C75: calls to 'agg' which are given new data only are accepted. *)
Require Import List Arith ZArith Bool Lia Sorting.Sorted.
Require Import Verif.RecordProofs.
Require Import Verif.Common Verif.AggModel Verif.AggSpec Verif.SegModel Verif.SegSpec Verif.CsaModel Verif.CsaSpec Verif.WrModel Verif.StreamModel Verif.StreamSpec
  Verif.KeyModel Verif.TableProofs Verif.BatchSpec Verif.BatchProofs Verif.BatchRunProofs Verif.BatchOkProofs Verif.BatchKeyProofs Verif.BatchHoldProofs
  Verif.UserBinsSpec Verif.UserBinsProofs Verif.UserKeyModel Verif.UserKeySpec Verif.UserKeyProofs Verif.PropBatch Verif.PropUser Verif.PropUserKey Verif.FeedSpec Verif.FeedProofs Verif.FeedOkProofs Verif.PropFeed Verif.PropFeedUser.
Require Verif.CsaProofs Verif.IterProofs Verif.SegProofs.
Import ListNotations.
Local Open Scope Z_scope.

Section Main.
Context {D V P PB : Type}.
Variable N : dtype -> num V.
Variable val : D -> cname -> V.
Variable dtypes : list (cname * dtype).
Variable idx : D -> Z.
Variable enc : option V -> Z.
Variable truthy : Z -> bool.
Variable usage : WrModel.frame -> Z.
Variable pre : option (list D -> P -> list D * P * bool).
Variables (fs : @filters D) (gs : list (nat * (D -> bool))).
Variables (pre0 : P) (post0 : PB).
Variable confs : list (bconf PB).
Variables (m ms : bconf PB -> row -> row).
Notation key_of := (@key_of D V PB N val dtypes idx enc).
Notation start := (new_stream pre0 segbuf_empty post0 (map key_of confs)).
Notation keep := (keep_of gs).

Lemma feed_accepted : forall cs w, harmless pre -> filters_are fs gs -> sorted (map idx (fed cs)) -> (forall c, In c cs -> forall chunk, In chunk (f_seed c) -> chunk <> []) ->
  fed_ok N val dtypes idx enc gs confs m ms (fed cs) -> (forall i, truthy i = true) -> written_first true cs -> 0 <= w -> (forall f, usage f <= w * Z.of_nat (S (length (rows f)))) ->
  (forall c kp, In c confs -> In (c_filter c, kp) gs -> accepted_conf N val dtypes idx enc c w (calls_between 0 cs) (filter kp (fed cs))) ->
  exists g, feed_all idx truthy usage pre fs pre0 segbuf_empty post0 start cs = Ok g.
Proof.
  intros cs w Hp Hf Hs Hch Hok Hq Hw Hw0 Hu Ha. destruct (fed_hyps N val dtypes idx enc fs gs confs m ms _ Hf Hok) as [Hso T5].
  destruct (tab_hyps N val dtypes idx enc fs gs confs m ms _ Hf Hso) as (T0 & T1 & T2 & T3 & T4 & _).
  assert (A : forall c, In c confs -> accepted_conf N val dtypes idx enc c w (calls_between 0 cs) (frows keep c (fed cs))) by (intros c Hin; apply Ha; auto; apply (T4 c Hin)).
  assert (K : forall c H, In c confs -> starts H (frows keep c (fed cs)) -> kok idx c H).
  { intros c H Hin [e E]. split.
    - assert (Z0 : sorted (map idx (frows keep c (fed cs)))) by (apply IterProofs.sorted_filter; auto). rewrite E in Z0. exact (IterProofs.sorted_app_l idx _ _ Z0).
    - specialize (T5 c Hin). rewrite E in T5. exact (T0 c _ _ T5). }
  destruct (new_fmem idx truthy pre0 segbuf_empty post0 key_of confs (kT N val dtypes idx enc) (kTS N val dtypes idx enc) (kInv N val dtypes idx) m ms keep (no_tie idx) T1 T2 T3 (fed cs)) as [M W].
  destruct (new_ok (P := P) idx pre0 segbuf_empty post0 key_of confs (kT N val dtypes idx enc) (kTS N val dtypes idx enc) keep w Hw0) as (_ & N2 & N3).
  refine (feed_all_ok idx truthy usage fs gs Hf pre Hp pre0 segbuf_empty post0 key_of confs (kT N val dtypes idx enc) (kTS N val dtypes idx enc) (kInv N val dtypes idx) m ms keep (no_tie idx) T0 T1 T2 T3 T4 (fed cs) Hs T5 Hq
    _ _ _ _ w Hw0 Hu (calls_between 0 cs) _ cs [] start 0 true M _ N2 (fun _ => conj W N3) eq_refl Hch Hw (le_n _)).
  - intros c H p b Hin Hne Hst Hi. destruct (A c Hin) as (_ & _ & _ & _ & Hz & _).
    destruct (key_accepts N val dtypes idx enc c (proj1 (Hok c Hin)) H p b Hne (K c _ Hin Hst) Hi) as (f & sn & b' & E & W1 & W2); [|exists f, sn, b'; auto].
    intros o i f d l v I1 I2 I3 I4. apply (Hz o i f d l v I1 I2); auto. destruct Hst as [e Ee]. rewrite Ee. apply incl_appl. auto.
  - intros c Hin. apply (A c Hin).
  - intros c Hin. destruct (A c Hin) as (_ & H1 & H2 & _). cbn. split; [destruct (c_size c); cbn; auto|intros _; destruct (c_size_snap c); cbn; auto].
  - intros c Hin. destruct (A c Hin) as (H1 & _). unfold no_coalescing. cbn. auto.
  - intros c Hin. destruct (A c Hin) as (_ & _ & _ & _ & _ & H1). unfold enough_memory in H1. cbn [k_type k_max KeyModel.key_of]. destruct (type_of c) eqn:Et; auto;
      (rewrite <- (result_rows N val dtypes idx enc c (frows keep c (fed cs))) in H1; [rewrite Nat.add_assoc in H1; exact H1|apply (Hok c Hin)|apply K; auto; exists []; rewrite app_nil_r; auto|congruence]).
  - apply new_fok; auto.
Qed.
End Main.

(** Calls given new data only are accepted, with the conditions of C50_accepted: a new instance is used once results have been
    written only, [w] bounds the size in memory of a row (and of an empty data frame), indexes are all 'true' (time stamps) and
    configurations are accepted, with enough memory for the chunks given between two final writes. *)
Theorem C75_accepted : forall {D V P PB} (N : dtype -> num V) val dtypes (idx : D -> Z) enc truthy usage
    (pre : option (list D -> P -> list D * P * bool)) fs gs pre0 post0 (confs : list (bconf PB)) m ms cs w,
  harmless pre -> filters_are fs gs -> sorted (map idx (fed cs)) -> (forall c, In c cs -> forall chunk, In chunk (f_seed c) -> chunk <> []) ->
  fed_ok N val dtypes idx enc gs confs m ms (fed cs) -> (forall i, truthy i = true) -> written_first true cs -> 0 <= w -> (forall f, usage f <= w * Z.of_nat (S (length (rows f)))) ->
  (forall c keep, In c confs -> In (c_filter c, keep) gs -> accepted_conf N val dtypes idx enc c w (calls_between 0 cs) (filter keep (fed cs))) ->
  exists g, feed_all idx truthy usage pre fs pre0 segbuf_empty post0 (new_stream pre0 segbuf_empty post0 (map (key_of N val dtypes idx enc) confs)) cs = Ok g /\
    (cs <> [] -> f_final (last cs (mkCall false false false [])) = true -> fed_batch N val dtypes idx enc gs confs m ms (fed cs) g).
Proof.
  intros D V P PB N val dtypes idx enc truthy usage pre fs gs pre0 post0 confs m ms cs w Hp Hf Hs Hch Hok Hq Hw Hw0 Hu Ha.
  destruct (feed_accepted N val dtypes idx enc truthy usage pre fs gs pre0 post0 confs m ms cs w Hp Hf Hs Hch Hok Hq Hw Hw0 Hu Ha) as [g E].
  exists g. split; [exact E|]. intros. eapply C75_fed_is_batch; eauto.
Qed.
Print Assumptions C75_accepted.

(** Three calls, the second one with a new instance; the first key has an intermediate write in the second call. *)
Definition ex_calls2 : list (@fcall ex_row) := [mkCall false false true (firstn 3 ex_seed4); mkCall true true false (skipn 3 ex_seed4); mkCall false true true [[(504,14)]; [(505,16);(510,18)]]].
Example ex_C75_accepted : exists g, ex_feed (ex_start ex_confs1) ex_calls2 = Ok g /\
  fed_batch (fun _ => Znum) ex_val ex_dtypes ex_idx ex_enc ex_gs ex_confs1 ex_map ex_map (fed ex_calls2) g.
Proof.
  destruct (C75_accepted (fun _ => Znum) ex_val ex_dtypes ex_idx ex_enc (fun _ => true) (fun f => Z.of_nat (length (rows f)))
    (None : option (list ex_row -> unit -> list ex_row * unit * bool)) ex_fs ex_gs tt 0%nat ex_confs1 ex_map ex_map ex_calls2 1) as (g & E & B).
  - exact I.
  - apply ex_filters_are.
  - apply IterProofs.sortedb_iff. vm_compute. reflexivity.
  - intros c Hc. apply ex_chunks. revert c Hc. apply forallb_forall. reflexivity.
  - intros c [<-|[<-|[<-|[]]]]; (split; [first [apply (ex_conf_ok ex_A); left; reflexivity|apply (ex_conf_ok ex_B); right; left; reflexivity|apply (ex_conf_ok ex_C); right; right; left; reflexivity]|]);
      (split; [first [apply (ex_mok ex_A); left; reflexivity|apply (ex_mok ex_B); right; left; reflexivity|apply (ex_mok ex_C); right; right; left; reflexivity]|]);
      eexists; (split; [first [left; reflexivity|right; left; reflexivity]|]); try exact I.
    apply ex_no_straddle; [lia|]. vm_compute. reflexivity.
  - reflexivity.
  - cbn. repeat split; auto; discriminate.
  - lia.
  - intro f. lia.
  - intros c keep Hc Hk. assert (Ha : c_agg c = ex_agg) by (destruct Hc as [<-|[<-|[<-|[]]]]; reflexivity). split; [|split; [|split; [|split; [|split]]]].
    + destruct Hc as [<-|[<-|[<-|[]]]]; reflexivity.
    + destruct Hc as [<-|[<-|[<-|[]]]]; intros z H; injection H as <-; lia.
    + destruct Hc as [<-|[<-|[<-|[]]]]; intros z H; [discriminate|injection H as <-; lia|discriminate].
    + destruct Hc as [<-|[<-|[<-|[]]]]; [|exact I|exact I]. intros pb f sn. eexists. eexists. split; [reflexivity|]. cbn. lia.
    + apply never_zero_pos; auto. apply forallb_forall. intros r Hr. apply filter_In in Hr as [Hr _]. revert r Hr. apply forallb_forall. vm_compute. reflexivity.
    + assert (Hk' : keep = (fun _ => true) \/ keep = ex_even) by (destruct Hk as [Hk|[Hk|[]]]; injection Hk as _ <-; auto).
      unfold enough_memory. destruct Hc as [<-|[<-|[<-|[]]]]; destruct Hk' as [-> | ->]; vm_compute; discriminate.
  - exists g. split; [exact E|]. apply B; [discriminate|reflexivity].
Qed.

Section Any.
Context {D V B P PB : Type}.
Variable N : dtype -> num V.
Variable val : D -> cname -> V.
Variable dtypes : list (cname * dtype).
Variable idx : D -> Z.
Variable enc : option V -> Z.
Variable truthy : Z -> bool.
Variable usage : WrModel.frame -> Z.
Variable pre : option (list D -> P -> list D * P * bool).
Variables (fs : @filters D) (gs : list (nat * (D -> bool))).
Variables (pre0 : P) (post0 : PB).
Notation anykey := (@anykey D B PB).
Variable confs : list anykey.
Variable sp : uconf D B PB -> uspec D B.
Variables (m ms : anykey -> row -> row).
Notation any_key := (@any_key D V B PB N val dtypes idx enc).
Notation start := (new_stream pre0 anybuf_empty post0 (map any_key confs)).
Notation akeep := (akeep (PB := PB) (B := B) gs).
Notation agood := (agood (PB := PB) idx sp).
Notation aT := (aT N val dtypes idx enc sp).
Notation aTS := (aTS N val dtypes idx enc sp).
Notation aInv := (aInv N val dtypes idx sp).

Lemma any_feed_accepted : forall cs w, harmless pre -> filters_are fs gs -> sorted (map idx (fed cs)) -> (forall c, In c cs -> forall chunk, In chunk (f_seed c) -> chunk <> []) ->
  any_fed_ok N val dtypes idx enc sp m ms gs confs (fed cs) -> (forall i, truthy i = true) -> written_first true cs -> 0 <= w -> (forall f, usage f <= w * Z.of_nat (S (length (rows f)))) ->
  (forall c kp, In c confs -> In (any_filter c, kp) gs -> any_accepted N val dtypes idx enc c w (calls_between 0 cs) (filter kp (fed cs))) ->
  exists g, feed_all idx truthy usage pre fs pre0 anybuf_empty post0 start cs = Ok g.
Proof.
  intros cs w Hp Hf Hs Hch Hok Hq Hw Hw0 Hu Ha. destruct (any_fed_hyps N val dtypes idx enc fs gs confs sp m ms _ Hf Hok) as [Hso T5].
  destruct (any_hyps N val dtypes idx enc fs gs confs sp m ms _ Hf Hso) as (T0 & T1 & T2 & T3 & T4 & _). set (Sf := fed cs) in *.
  assert (A : forall c, In c confs -> any_accepted N val dtypes idx enc c w (calls_between 0 cs) (frows akeep c Sf)).
  { intros c Hin. apply Ha; auto. specialize (T4 c Hin). destruct c; auto. }
  assert (K : forall c H, In c confs -> starts H (frows akeep c Sf) -> sorted (map idx H) /\ agood c H).
  { intros c H Hin [e E]. split.
    - assert (Z0 : sorted (map idx (frows akeep c Sf))) by (apply IterProofs.sorted_filter; auto). rewrite E in Z0. exact (IterProofs.sorted_app_l idx _ _ Z0).
    - specialize (T5 c Hin). rewrite E in T5. exact (T0 c _ _ T5). }
  assert (Z : forall c H p (agg : aggspec), starts (H ++ p) (frows akeep c Sf) ->
    (forall out i f d l v, In (out, (i, Some f)) agg -> dict_get Nat.eqb i dtypes = Some d -> incl l (frows akeep c Sf) -> agg_of N val d f i l = Some v -> is0 (N d) v = false) ->
    forall out i f d l v, In (out, (i, Some f)) agg -> dict_get Nat.eqb i dtypes = Some d -> incl l (H ++ p) -> agg_of N val d f i l = Some v -> is0 (N d) v = false).
  { intros c H p ag [e Ee] Hz out i f d l v I1 I2 I3 I4. apply (Hz out i f d l v I1 I2); auto. rewrite Ee. apply incl_appl. auto. }
  destruct (new_fmem idx truthy pre0 anybuf_empty post0 any_key confs aT aTS aInv m ms akeep agood T1 T2 T3 Sf) as [M W].
  destruct (new_ok (P := P) idx pre0 anybuf_empty post0 any_key confs aT aTS akeep w Hw0) as (_ & N2 & N3).
  refine (feed_all_ok idx truthy usage fs gs Hf pre Hp pre0 anybuf_empty post0 any_key confs aT aTS aInv m ms akeep agood T0 T1 T2 T3 T4 Sf Hs T5 Hq
    _ _ _ _ w Hw0 Hu (calls_between 0 cs) _ cs [] start 0 true M _ N2 (fun _ => conj W N3) eq_refl Hch Hw (le_n _)).
  - intros c H p b Hin Hne Hst Hi. pose proof (A c Hin) as Ac. pose proof (K c _ Hin Hst) as Kc. destruct (Hok c Hin) as (_ & kp & _ & Hc). destruct c as [c|u].
    + destruct Ac as (_ & _ & _ & _ & Hz & _).
      destruct (key_accepts N val dtypes idx enc c (proj1 Hc) H p (fst b) Hne Kc Hi) as (f & sn & b' & E & W1 & W2); [exact (Z (inl c) H p _ Hst Hz)|].
      exists f, sn, (b', snd b). split; auto. cbn [k_agg UserKeyModel.any_key on_left]. rewrite E. auto.
    + destruct Ac as (_ & _ & _ & _ & Hz & _). destruct Hc as [Hc _]. pose proof Hc as (_ & _ & _ & Hb & _).
      destruct (user_accepts N val dtypes idx enc u (sp u) Hc H p (snd b) Hne) as (f & sn & b' & E & W1 & W2); auto.
      * destruct Kc as [K1 [more K2]]. split; auto. eapply bn_good; eauto.
      * exact (Z (inr u) H p _ Hst Hz).
      * exists f, sn, (fst b, b'). split; [|split; auto]. cbn [k_agg UserKeyModel.any_key on_right]. rewrite E. auto.
  - intros c Hin. specialize (A c Hin). destruct c; apply A.
  - intros c Hin. specialize (A c Hin). destruct c as [c|u]; destruct A as (_ & H1 & H2 & _); cbn.
    + split; [destruct (c_size c); cbn; auto|intros _; destruct (c_size_snap c); cbn; auto].
    + split; [destruct (u_size u); cbn; auto|intros _; destruct (u_size_snap u); cbn; auto].
  - intros c Hin. specialize (A c Hin). destruct c as [c|u]; destruct A as (H1 & _); unfold no_coalescing; cbn; auto.
  - intros c Hin. pose proof (A c Hin) as Ac. destruct (Hok c Hin) as (_ & kp & _ & Hc). destruct c as [c|u].
    + destruct Ac as (_ & _ & _ & _ & _ & H1). unfold enough_memory in H1. cbn [k_type k_max UserKeyModel.any_key on_left KeyModel.key_of]. destruct (type_of c) eqn:Et; auto;
        (rewrite <- (result_rows N val dtypes idx enc c (frows akeep (inl c) Sf)) in H1; [rewrite Nat.add_assoc in H1; exact H1|apply Hc|apply (K (inl c)); auto; exists []; rewrite app_nil_r; auto|congruence]).
    + destruct Ac as (_ & _ & _ & _ & _ & H1). cbn [k_type k_max UserKeyModel.any_key on_right user_key]. destruct Hc as [Hc _]. pose proof Hc as (_ & _ & _ & Hb & _).
      assert (Hgu : ugood idx (sp u) (frows akeep (inr u) Sf)).
      { destruct (K (inr u) (frows akeep (inr u) Sf) Hin) as [K1 [more K2]]; [exists []; rewrite app_nil_r; auto|]. split; auto. eapply bn_good; eauto. }
      cbv zeta in H1. destruct (user_type u) eqn:Et; auto;
        (rewrite <- (user_results N val dtypes idx enc u (sp u) Hc (frows akeep (inr u) Sf) Hgu) in H1 by congruence; rewrite Nat.add_assoc in H1; exact H1).
  - apply new_fok; auto.
Qed.
End Any.

(** The same, for streams whose keys have bins of time, of a number of rows, or made by any function of the user. *)
Theorem C75_user_accepted : forall {D V B P PB} (N : dtype -> num V) val dtypes (idx : D -> Z) enc truthy usage
    (pre : option (list D -> P -> list D * P * bool)) fs gs pre0 post0 (confs : list (@anykey D B PB)) sp m ms cs w,
  harmless pre -> filters_are fs gs -> sorted (map idx (fed cs)) -> (forall c, In c cs -> forall chunk, In chunk (f_seed c) -> chunk <> []) ->
  any_fed_ok N val dtypes idx enc sp m ms gs confs (fed cs) -> (forall i, truthy i = true) -> written_first true cs -> 0 <= w -> (forall f, usage f <= w * Z.of_nat (S (length (rows f)))) ->
  (forall c keep, In c confs -> In (any_filter c, keep) gs -> any_accepted N val dtypes idx enc c w (calls_between 0 cs) (filter keep (fed cs))) ->
  exists g, feed_all idx truthy usage pre fs pre0 anybuf_empty post0 (new_stream pre0 anybuf_empty post0 (map (any_key N val dtypes idx enc) confs)) cs = Ok g /\
    (cs <> [] -> f_final (last cs (mkCall false false false [])) = true -> any_fed_batch N val dtypes idx enc m ms gs confs (fed cs) g).
Proof.
  intros D V B P PB N val dtypes idx enc truthy usage pre fs gs pre0 post0 confs sp m ms cs w Hp Hf Hs Hch Hok Hq Hw Hw0 Hu Ha.
  destruct (any_feed_accepted N val dtypes idx enc truthy usage pre fs gs pre0 post0 confs sp m ms cs w Hp Hf Hs Hch Hok Hq Hw Hw0 Hu Ha) as [g E].
  exists g. split; [exact E|]. intros. eapply C75_user_bins; eauto.
Qed.
Print Assumptions C75_user_accepted.

(** A run of rows with the same value (bin of the second key) goes on over three calls. *)
Example ex_C75_user_accepted : exists g, ex_any_feed (ex_any ex_user) ex_user_calls = Ok g /\
  any_fed_batch (fun _ => Znum) ex_val ex_dtypes ex_idx ex_enc ex_user_map ex_user_map ex_gs ex_user (fed ex_user_calls) g.
Proof.
  destruct (C75_user_accepted (fun _ => Znum) ex_val ex_dtypes ex_idx ex_enc (fun _ => true) (fun f => Z.of_nat (length (rows f)))
    (None : option (list ex_row -> unit -> list ex_row * unit * bool)) ex_fs ex_gs tt 0%nat ex_user (fun _ => only_bins runs (fun rows b => b = rows) (fun _ => True)) ex_user_map ex_user_map ex_user_calls 1) as (g & E & B).
  - exact I.
  - apply ex_filters_are.
  - apply IterProofs.sortedb_iff. reflexivity.
  - intros c Hc. apply ex_chunks. revert c Hc. apply forallb_forall. reflexivity.
  - intros c [<-|[<-|[]]]; (split; [|eexists; split; [left; reflexivity|]]).
    + apply (ex_mok ex_A). left. auto.
    + split; [apply (ex_conf_ok ex_A); left; auto|exact I].
    + split; [|split]; cbn; auto.
    + split; [apply ex_R_ok|exact I].
  - reflexivity.
  - cbn. repeat split; auto; discriminate.
  - lia.
  - intro f. lia.
  - intros c keep Hc Hk. assert (Hf : any_filter c = 0%nat) by (destruct Hc as [<-|[<-|[]]]; auto). rewrite Hf in Hk. destruct Hk as [Hk|[Hk|[]]]; [|discriminate]. injection Hk as <-.
    assert (Nz : never_zero (fun _ => Znum) ex_val ex_dtypes ex_A1 (filter (fun _ => true) (fed ex_user_calls))) by (apply never_zero_pos; [reflexivity|vm_compute; reflexivity]).
    destruct Hc as [<-|[<-|[]]].
    + split; [reflexivity|]. split; [intros z H; injection H as <-; lia|]. split; [intros z H; discriminate|]. split; [|split; [exact Nz|vm_compute; discriminate]].
      intros pb f sn. eexists. eexists. split; [reflexivity|]. cbn. lia.
    + split; [reflexivity|]. split; [intros z H; injection H as <-; lia|]. split; [intros z H; discriminate|]. split; [exact I|]. split; [exact Nz|vm_compute; discriminate].
  - exists g. split; [exact E|]. apply B; [discriminate|reflexivity].
Qed.
