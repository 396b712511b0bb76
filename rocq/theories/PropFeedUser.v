(** C75, with bins made by functions of the user. *)
Require Import List Arith ZArith Bool Lia Sorting.Sorted.
Require Import Verif.RecordProofs.
Require Import Verif.Common Verif.AggModel Verif.AggSpec Verif.SegModel Verif.SegSpec Verif.CsaModel Verif.CsaSpec Verif.WrModel Verif.StreamModel Verif.StreamSpec
  Verif.KeyModel Verif.TableProofs Verif.BatchSpec Verif.BatchProofs Verif.BatchRunProofs Verif.BatchKeyProofs Verif.BatchHoldProofs
  Verif.UserBinsSpec Verif.UserBinsProofs Verif.UserKeyModel Verif.UserKeySpec Verif.UserKeyProofs Verif.PropBatch Verif.PropUser Verif.PropUserKey Verif.FeedSpec Verif.FeedProofs Verif.PropFeed.
Require Verif.CsaProofs Verif.IterProofs Verif.SegProofs.
Import ListNotations.
Local Open Scope Z_scope.

Section Main.
Context {D V B P PB : Type}.
Variable N : dtype -> num V.
Variable val : D -> cname -> V.
Variable dtypes : list (cname * dtype).
Variable idx : D -> Z.
Variable enc : option V -> Z.
Variable truthy : Z -> bool.
Variable usage : WrModel.frame -> Z.
Variable pre : option (list D -> P -> list D * P * bool).
Variables (fs : @filters D) (gs : list (nat * (D -> bool))).
Variables (pre0 : P) (post0 : PB).
Notation anykey := (@anykey D B PB).
Variable confs : list anykey.
Variable sp : uconf D B PB -> uspec D B.
Variables (m ms : anykey -> row -> row).
Notation any_key := (@any_key D V B PB N val dtypes idx enc).
Notation start := (new_stream pre0 anybuf_empty post0 (map any_key confs)).
Notation akeep := (akeep (PB := PB) (B := B) gs).
Notation agood := (agood (PB := PB) idx sp).

Lemma any_fed_hyps : forall data, filters_are fs gs -> any_fed_ok N val dtypes idx enc sp m ms gs confs data ->
  any_stream_ok N val dtypes idx enc sp m ms gs confs [] /\ (forall c, In c confs -> agood c (frows akeep c data)).
Proof.
  intros data [Hnd _] Hok. split.
  - intros c Hin. destruct (Hok c Hin) as (H1 & kp & H3 & H4). split; auto. exists kp. split; auto. destruct c as [c|u]; destruct H4 as [H4 H5]; (split; [exact H4|]).
    + exact (no_tie_app idx c [] _ H5).
    + destruct H4 as (_ & _ & _ & Hb & _). cbn. eapply bn_good; [exact Hb|]. cbn [app]. exact H5.
  - intros c Hin. destruct (Hok c Hin) as (_ & kp & Hk & Hc). unfold frows. rewrite (akeep_is gs c kp Hnd Hk).
    destruct c; destruct Hc as [_ Hc]; cbn [PropUserKey.agood]; auto. exists []. rewrite app_nil_r. auto.
Qed.

Lemma any_feed_batch : forall cs g, harmless pre -> filters_are fs gs -> sorted (map idx (fed cs)) -> (forall c, In c cs -> forall chunk, In chunk (f_seed c) -> chunk <> []) ->
  any_fed_ok N val dtypes idx enc sp m ms gs confs (fed cs) ->
  (forall c, In c cs -> f_fresh c = false) \/ ((forall i, truthy i = true) /\ written_first true cs) ->
  feed_all idx truthy usage pre fs pre0 anybuf_empty post0 start cs = Ok g -> cs <> [] -> f_final (last cs (mkCall false false false [])) = true ->
  any_fed_batch N val dtypes idx enc m ms gs confs (fed cs) g.
Proof.
  intros cs g Hp Hf Hs Hch Hok Hc E Hne Hl. destruct (any_fed_hyps _ Hf Hok) as [Hso T5]. destruct (any_hyps N val dtypes idx enc fs gs confs sp m ms _ Hf Hso) as (T0 & T1 & T2 & T3 & T4 & _).
  assert (Hw : written_first true cs).
  { destruct Hc as [Hc|[_ Hc]]; auto. clear - Hc. revert Hc. generalize true. induction cs as [|c cs IH]; intros w Hc; cbn [written_first]; auto. split; [|apply IH; intros c' H; apply Hc; right; auto].
    rewrite (Hc c (or_introl eq_refl)). discriminate. }
  assert (Hq : (forall i, truthy i = true) \/ (forall c, In c cs -> f_fresh c = false)) by tauto.
  destruct (new_fmem idx truthy pre0 anybuf_empty post0 any_key confs (aT N val dtypes idx enc sp) (aTS N val dtypes idx enc sp) (aInv N val dtypes idx sp) m ms akeep agood T1 T2 T3 (fed cs)) as [M W].
  pose proof (feed_all_holds idx truthy usage fs gs Hf pre Hp pre0 anybuf_empty post0 any_key confs _ _ _ m ms akeep agood T0 T1 T2 T3 T4 (fed cs) Hs T5 cs [] start g true M (fun _ => W) eq_refl Hch Hw Hq E Hne Hl) as Hh.
  pose proof (feed_all_keys idx truthy usage pre fs pre0 _ post0 _ _ _ E) as Ek. unfold new_stream in Ek. cbn [g_keys] in Ek. rewrite map_map in Ek. cbn [fst] in Ek. rewrite map_id in Ek.
  intros i c Hc0. assert (En : nth_error (map (fun x => fst (fst x)) (g_keys g)) i = Some (any_key c)) by (rewrite Ek, nth_error_map, Hc0; auto).
  rewrite nth_error_map in En. destruct (nth_error (g_keys g) i) as [[[k b] s]|] eqn:Eg; [|discriminate]. cbn [fst option_map] in En. injection En as ->.
  exists b, s. split; auto. intros kp Hkp. destruct (Hh i _ b s Eg) as (c' & _ & Hc' & Hb). rewrite Hc0 in Hc'. injection Hc' as <-.
  unfold frows in Hb. rewrite (akeep_is gs c kp (proj1 Hf) Hkp) in Hb.
  destruct (Hok c (nth_error_In _ _ Hc0)) as (_ & kp' & Hk' & Ho). assert (kp' = kp) as -> by (rewrite <- (akeep_is gs c kp' (proj1 Hf) Hk'); apply akeep_is; auto; apply Hf).
  assert (Hsg : sorted (map idx (filter kp (fed cs)))) by (apply IterProofs.sorted_filter; auto).
  destruct c as [c|u]; destruct Ho as [Ho1 Ho2].
  - eapply holds_chans_any; eauto; [reflexivity|split; auto].
  - assert (Hg : ugood idx (sp u) (filter kp (fed cs))) by (split; auto). unfold chans in Hb. change (k_type (any_key (inr u))) with (user_type u) in Hb.
    apply holds_user_as. unfold typed_user. destruct (filter kp (fed cs)) as [|a l] eqn:El.
    + destruct (user_type u).
      * split; [|discriminate]. apply (Hb _ (or_introl eq_refl)).
      * split; [|discriminate]. apply (Hb _ (or_introl eq_refl)).
      * split; [apply (Hb _ (or_introl eq_refl))|]. intros _. apply (Hb _ (or_intror (or_introl eq_refl))).
    + rewrite <- El in *. destruct (user_batch_tables N val dtypes idx enc u (sp u) Ho1 (filter kp (fed cs))) as (fb & fs0 & E1 & E2 & E3); [congruence|auto|].
      exists fb, fs0. split; auto. rewrite E2. unfold user_type in *. destruct fs0 as [sn|].
      * destruct E3 as [E3 E4]. rewrite E4. destruct (u_snap u); [|congruence]. destruct (u_two u).
        -- split; [apply (Hb _ (or_introl eq_refl))|apply (Hb _ (or_intror (or_introl eq_refl)))].
        -- apply (Hb _ (or_introl eq_refl)).
      * rewrite E3 in *. apply (Hb _ (or_introl eq_refl)).
Qed.
End Main.

(** As C75_fed_is_batch, for streams whose keys have bins of time, of a number of rows, or made by any function of the user. *)
Theorem C75_user_bins : forall {D V B P PB} (N : dtype -> num V) val dtypes (idx : D -> Z) enc truthy usage
    (pre : option (list D -> P -> list D * P * bool)) fs gs pre0 post0 (confs : list (@anykey D B PB)) sp m ms cs g,
  harmless pre -> filters_are fs gs -> sorted (map idx (fed cs)) -> (forall c, In c cs -> forall chunk, In chunk (f_seed c) -> chunk <> []) ->
  any_fed_ok N val dtypes idx enc sp m ms gs confs (fed cs) ->
  (forall c, In c cs -> f_fresh c = false) \/ ((forall i, truthy i = true) /\ written_first true cs) ->
  feed_all idx truthy usage pre fs pre0 anybuf_empty post0 (new_stream pre0 anybuf_empty post0 (map (any_key N val dtypes idx enc) confs)) cs = Ok g ->
  cs <> [] -> f_final (last cs (mkCall false false false [])) = true ->
  any_fed_batch N val dtypes idx enc m ms gs confs (fed cs) g.
Proof. intros. eapply any_feed_batch; eauto. Qed.
Print Assumptions C75_user_bins.

Notation ex_any_feed := (feed_all ex_idx (fun _ => true) (fun f => Z.of_nat (length (rows f))) (None : option (list ex_row -> unit -> list ex_row * unit * bool)) ex_fs tt (anybuf_empty : @anybuf Z (list ex_row)) 0%nat).
(** A run of rows with the same value (bin of the second key) goes on over three calls. *)
Definition ex_user_calls : list (@fcall ex_row) := [mkCall false false true [[(1,1);(2,1)]; [(4,1);(5,4)]]; mkCall true true false [[(5,4);(7,4)]]; mkCall false true true [[(8,4);(11,8)]; [(11,8)]]].
Example ex_C75_user_bins : exists g, ex_any_feed (ex_any ex_user2) ex_user_calls = Ok g /\
  any_fed_batch (fun _ => Znum) ex_val ex_dtypes ex_idx ex_enc ex_user_map ex_user_map ex_gs ex_user2 (fed ex_user_calls) g /\
  ex_any_data g = [[[0; 6; 1]; [5; 32; 4]; [10; 32; 8]]; [[0; 3; 1]; [1; 16; 4]; [2; 16; 8]]].
Proof.
  destruct (shown_ok _ _ ex_any_data (ex_any_feed (ex_any ex_user2) ex_user_calls) [[[0; 6; 1]; [5; 32; 4]; [10; 32; 8]]; [[0; 3; 1]; [1; 16; 4]; [2; 16; 8]]]
    ltac:(vm_cast_no_check (eq_refl (Some [[[0; 6; 1]; [5; 32; 4]; [10; 32; 8]]; [[0; 3; 1]; [1; 16; 4]; [2; 16; 8]]])))) as (g & E & F).
  exists g. split; [exact E|]. split; [|exact F].
  refine (C75_user_bins (fun _ => Znum) ex_val ex_dtypes ex_idx ex_enc (fun _ => true) (fun f => Z.of_nat (length (rows f)))
    (None : option (list ex_row -> unit -> list ex_row * unit * bool)) ex_fs ex_gs tt 0%nat ex_user2 (fun _ => only_bins runs (fun rows b => b = rows) (fun _ => True)) ex_user_map ex_user_map ex_user_calls g _ _ _ _ _ _ E _ _).
  - exact I.
  - apply ex_filters_are.
  - apply IterProofs.sortedb_iff. reflexivity.
  - intros c Hc. apply ex_chunks. revert c Hc. apply forallb_forall. reflexivity.
  - intros c [<-|[<-|[]]]; (split; [|eexists; split; [left; reflexivity|]]).
    + apply (ex_mok ex_A). left. auto.
    + split; [apply (ex_conf_ok ex_A); left; auto|exact I].
    + split; [|split]; cbn; auto.
    + split; [apply ex_R_ok|exact I].
  - right. split; [auto|]. cbn. repeat split; auto; discriminate.
  - discriminate.
  - reflexivity.
Qed.
