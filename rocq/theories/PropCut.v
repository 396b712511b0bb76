(** Properties of streamed aggregation when calls are given seed data from the restart index only. *)
Require Import List Arith ZArith Bool Lia Sorting.Sorted.
Require Import Verif.Common Verif.AggModel Verif.AggSpec Verif.SegModel Verif.SegSpec Verif.CsaModel Verif.CsaSpec Verif.WrModel Verif.FilterModel Verif.StreamModel Verif.StreamSpec
  Verif.KeyModel Verif.BatchSpec Verif.CutSpec Verif.CutProofs Verif.PropBatch.
Require Verif.IterProofs.
Import ListNotations.
Local Open Scope Z_scope.

(** *** C65: a call given only rows from the restart index does exactly what the call given all seed data does. *)
Theorem C65_same_call : forall {D P SB PB} (idx : D -> Z) truthy usage (pre : option (list D -> P -> list D * P * bool)) fs gs (g : stream D P SB PB) R seed discard final,
  neutral pre -> filters_are fs gs -> g_restart g = Some R -> (forall c, In c seed -> c <> []) -> sorted (map idx (concat seed)) ->
  agg idx truthy usage pre fs g (rows_from idx R seed) true discard final = agg idx truthy usage pre fs g seed true discard final.
Proof. intros. eapply agg_cut; eauto. Qed.
Print Assumptions C65_same_call.

(** Rows given, whatever the chunks. *)
Theorem C65_rows_given : forall {D} (idx : D -> Z) R seed, concat (rows_from idx R seed) = filter (fun r => R <=? idx r) (concat seed) /\ forall c, In c (rows_from idx R seed) -> c <> [].
Proof.
  intros D idx R seed. split.
  - unfold rows_from. induction seed as [|c seed IH]; auto. cbn [map filter concat]. rewrite filter_app, <- IH. destruct (filter _ c); auto.
  - intros c Hc. apply filter_In in Hc as [_ Hc]. destruct c; discriminate.
Qed.
Print Assumptions C65_rows_given.

(** *** C65: histories, with interruptions or not. *)
Theorem C65_same_history : forall {D P SB PB} (idx : D -> Z) truthy usage (pre : option (list D -> P -> list D * P * bool)) fs gs pre0 seg0 post0 (g : stream D P SB PB) before xs,
  neutral pre -> filters_are fs gs -> growing idx before (map run_of (map snd xs)) ->
  feed_all idx truthy usage pre fs pre0 seg0 post0 g xs = step_all idx truthy usage pre fs pre0 seg0 post0 g (map snd xs).
Proof. intros. eapply feed_cut; eauto. Qed.
Print Assumptions C65_same_history.

Lemma neutral_harmless : forall {D P} (pre : option (list D -> P -> list D * P * bool)), neutral pre -> harmless pre.
Proof. intros D P [f|] H; cbn in *; auto. intros rows p. exists p. auto. Qed.
Lemma step_all_complete : forall {D P SB PB} (idx : D -> Z) truthy usage (pre : option (list D -> P -> list D * P * bool)) fs pre0 seg0 post0 rs (g : stream D P SB PB),
  step_all idx truthy usage pre fs pre0 seg0 post0 g (map Complete rs) = run_all idx truthy usage pre fs pre0 seg0 post0 g rs.
Proof.
  induction rs as [|r rs IH]; intro g; auto. cbn [map step_all run_all step_once]. destruct (run_once _ _ _ _ _ _ _ _ g r); cbn [bind]; auto.
Qed.

Lemma feed_complete : forall {D P SB PB} (idx : D -> Z) truthy usage (pre : option (list D -> P -> list D * P * bool)) fs gs pre0 seg0 post0 recent rs (g : stream D P SB PB),
  neutral pre -> filters_are fs gs -> growing idx [] rs -> length recent = length rs ->
  feed_all idx truthy usage pre fs pre0 seg0 post0 g (combine recent (map Complete rs)) = run_all idx truthy usage pre fs pre0 seg0 post0 g rs.
Proof.
  intros D P SB PB idx truthy usage pre fs gs pre0 seg0 post0 recent rs g Hp Hf Hg Hl.
  assert (Es : map snd (combine recent (map Complete rs)) = map Complete rs).
  { clear - Hl. revert recent Hl. induction rs as [|r rs IH]; intros [|b recent] Hl; try discriminate; auto. cbn [map combine snd]. f_equal. apply IH. injection Hl; auto. }
  assert (Er : map run_of (map Complete rs) = rs) by (rewrite map_map; apply map_id).
  rewrite (feed_cut idx truthy usage fs gs Hf pre Hp pre0 seg0 post0 _ []) by (rewrite Es, Er; auto). rewrite Es. apply step_all_complete.
Qed.

(** Hence results are those of a single aggregation. *)
Theorem C65_is_batch : forall {D V P PB} (N : dtype -> num V) val dtypes (idx : D -> Z) enc truthy usage
    (pre : option (list D -> P -> list D * P * bool)) fs gs pre0 post0 (confs : list (bconf PB)) m ms (recent : list bool) rs g,
  neutral pre -> filters_are fs gs -> growing idx [] rs -> stream_ok N val dtypes idx enc gs confs m ms (whole_seed [] rs) -> length recent = length rs ->
  ((forall c, In c confs -> c_nirgs c = None) \/ ((forall i, truthy i = true) /\ all_written true rs)) ->
  feed_all idx truthy usage pre fs pre0 segbuf_empty post0 (new_stream pre0 segbuf_empty post0 (map (key_of N val dtypes idx enc) confs)) (combine recent (map Complete rs)) = Ok g ->
  rs <> [] -> r_final (last rs (mkRun false false [])) = true ->
  all_batch N val dtypes idx enc gs confs m ms (whole_seed [] rs) g.
Proof.
  intros D V P PB N val dtypes idx enc truthy usage pre fs gs pre0 post0 confs m ms recent rs g Hp Hf Hg Hok Hl Hc E Hne Hfin.
  rewrite (feed_complete idx truthy usage pre fs gs) in E; auto.
  eapply C50_streamed_is_batch; eauto. apply neutral_harmless; auto.
Qed.
Print Assumptions C65_is_batch.

(** Rows given in the runs of ex_C50, when the second and third ones are given rows from the restart index only. *)
Notation ex_feed := (feed_all ex_idx ex_truthy (fun f => Z.of_nat (length (rows f))) (None : option (list ex_row -> unit -> list ex_row * unit * bool)) ex_fs tt (segbuf_empty : @segbuf Z) 0%nat).
Example ex_C65 : exists g, ex_feed (ex_start ex_confs) (combine [false; true; true] (map Complete ex_runs)) = Ok g /\
  all_batch (fun _ => Znum) ex_val ex_dtypes ex_idx ex_enc ex_gs ex_confs ex_map ex_map (concat ex_seed3) g.
Proof.
  destruct ex_C50 as (g & E & B & _). exists g. split; [|exact B].
  etransitivity; [|exact E]. apply feed_complete with (gs := ex_gs); [exact I|exact ex_filters_are|exact ex_growing|reflexivity].
Qed.

(** The same with interruptions, for keys which have a single dataset. *)
Theorem C65_interrupted_is_batch : forall {D V P PB} (N : dtype -> num V) val dtypes (idx : D -> Z) enc truthy usage
    (pre : option (list D -> P -> list D * P * bool)) fs gs pre0 post0 (confs : list (bconf PB)) m ms rs g0 xs g r,
  neutral pre -> filters_are fs gs -> growing idx [] rs -> growing idx (whole_seed [] rs) (map run_of (map snd xs)) ->
  stream_ok N val dtypes idx enc gs confs m ms (whole_seed (whole_seed [] rs) (map run_of (map snd xs))) ->
  (forall c, In c confs -> type_of c <> BOTH /\ c_nirgs c = None) ->
  run_all idx truthy usage pre fs pre0 segbuf_empty post0 (new_stream pre0 segbuf_empty post0 (map (key_of N val dtypes idx enc) confs)) rs = Ok g0 ->
  (forall s, In s (map snd (g_keys g0)) -> s_main s <> None) ->
  restarted false (map snd xs) -> feed_all idx truthy usage pre fs pre0 segbuf_empty post0 g0 xs = Ok g ->
  last (map snd xs) (Complete (mkRun false false [])) = Complete r -> r_final r = true ->
  all_batch N val dtypes idx enc gs confs m ms (whole_seed (whole_seed [] rs) (map run_of (map snd xs))) g.
Proof.
  intros D V P PB N val dtypes idx enc truthy usage pre fs gs pre0 post0 confs m ms rs g0 xs g r Hp Hf Hg Hg2 Hok Hc E0 Hm Hr E Hl Hfin.
  rewrite (feed_cut idx truthy usage fs gs Hf pre Hp pre0 segbuf_empty post0 _ (whole_seed [] rs)) in E by exact Hg2.
  eapply C51_interrupted_is_batch; eauto. apply neutral_harmless; auto.
Qed.
Print Assumptions C65_interrupted_is_batch.

(** *** C65, refuted for rows strictly after the restart index: rows at this index have been discarded by the previous call, they are then never aggregated. *)
Definition rows_after {D} (idx : D -> Z) (R : Z) (seed : list (list D)) : list (list D) := filter has_rows (map (filter (fun r => R <? idx r)) seed).
Require Import Verif.TestsStream.
Definition cut_first := let* g := tinit tt [plain] in tagg1 24 no_filter [seed_b] true true g.
Theorem C65_after_refuted :
  ~ (forall (g : tstream unit) R seed, cut_first = Ok g -> g_restart g = Some R -> (forall c, In c seed -> c <> []) -> sorted (map tidx (concat seed)) ->
     shows mains (tagg1 24 no_filter (rows_after tidx R seed) true true g) = shows mains (tagg1 24 no_filter seed true true g)).
Proof.
  intro H.
  pose (f := fun g : tstream unit => (g_restart g, shows mains (tagg1 24 no_filter (rows_after tidx (at_ 10 0) [seed_b2]) true true g), shows mains (tagg1 24 no_filter [seed_b2] true true g))).
  destruct (shown_ok _ _ f cut_first (Some (at_ 10 0), Ok [at_hours [(8,3);(9,3);(10,3);(11,3)]], Ok [at_hours [(8,3);(9,3);(10,7);(11,3)]])
    ltac:(vm_cast_no_check (eq_refl (Some (Some (at_ 10 0), Ok [at_hours [(8,3);(9,3);(10,3);(11,3)]], Ok [at_hours [(8,3);(9,3);(10,7);(11,3)]]))))) as (g & E & Ef).
  pose proof (f_equal (fun x => fst (fst x)) Ef) as E1. pose proof (f_equal (fun x => snd (fst x)) Ef) as E2. pose proof (f_equal snd Ef) as E3.
  unfold f in E1, E2, E3. cbn [fst snd] in E1, E2, E3. clear Ef f.
  assert (A : forall c, In c [seed_b2] -> c <> []) by (intros c [<-|[]]; discriminate).
  assert (B : sorted (map tidx (concat [seed_b2]))) by (apply IterProofs.sortedb_iff; vm_compute; reflexivity).
  pose proof (H g (at_ 10 0) [seed_b2] E E1 A B) as Q.
  pose proof (eq_trans (eq_sym E2) (eq_trans Q E3)) as F. discriminate F.
Qed.
Print Assumptions C65_after_refuted.
