(** Properties of streamed aggregation when each call is given new data only. *)
Require Import List Arith ZArith Bool Lia Sorting.Sorted.
Require Import Verif.Common Verif.AggModel Verif.AggSpec Verif.SegModel Verif.SegSpec Verif.CsaModel Verif.CsaSpec Verif.WrModel Verif.StreamModel Verif.StreamSpec
  Verif.KeyModel Verif.TableProofs Verif.BatchSpec Verif.LabelProofs Verif.BatchProofs Verif.BatchRunProofs Verif.BatchKeyProofs Verif.BatchHoldProofs Verif.NewSpec Verif.NewProofs Verif.PropBatch.
Require Verif.IterProofs.
Import ListNotations.
Local Open Scope Z_scope.

Section Main.
Context {D V P PB : Type}.
Variable N : dtype -> num V.
Variable val : D -> cname -> V.
Variable dtypes : list (cname * dtype).
Variable idx : D -> Z.
Variable enc : option V -> Z.
Variable truthy : Z -> bool.
Variable usage : WrModel.frame -> Z.
Variable pre : option (list D -> P -> list D * P * bool).
Variables (fs : @filters D) (gs : list (nat * (D -> bool))).
Variables (pre0 : P) (post0 : PB).
Variable confs : list (bconf PB).
Variables (m ms : bconf PB -> row -> row).
Notation key_of := (@key_of D V PB N val dtypes idx enc).
Notation kT := (kT N val dtypes idx enc).
Notation kTS := (kTS N val dtypes idx enc).
Notation kInv := (kInv N val dtypes idx).
Notation start := (new_stream pre0 segbuf_empty post0 (map key_of confs)).
Notation keep := (keep_of gs).

Lemma call_once_keys : forall (g g' : stream D P (@segbuf V) PB) c, call_once idx truthy usage pre fs pre0 segbuf_empty post0 g c = Ok g' ->
  map (fun x => fst (fst x)) (g_keys g') = map (fun x => fst (fst x)) (g_keys g).
Proof.
  intros g g' c E. unfold call_once in E. match type of E with bind ?X _ = _ => destruct X as [g1|] eqn:E1 end; cbn [bind] in E; [|discriminate].
  destruct (agg idx truthy usage pre fs g1 (c_seed c) (c_trim c) (c_discard c) (c_final c)) as [[g2 ex]|] eqn:E2; cbn [bind] in E; [|discriminate]. destruct ex; [discriminate|]. injection E as <-.
  rewrite (agg_keys _ _ _ _ _ _ _ _ _ _ _ _ E2). eapply start_keys; eauto.
Qed.
Lemma call_all_keys : forall cs (g g' : stream D P (@segbuf V) PB), call_all idx truthy usage pre fs pre0 segbuf_empty post0 g cs = Ok g' ->
  map (fun x => fst (fst x)) (g_keys g') = map (fun x => fst (fst x)) (g_keys g).
Proof.
  induction cs as [|c cs IH]; intros g g' E; cbn [call_all] in E; [injection E as <-; auto|].
  destruct (call_once idx truthy usage pre fs pre0 segbuf_empty post0 g c) as [g1|] eqn:E1; cbn [bind] in E; [|discriminate]. rewrite (IH _ _ E). eapply call_once_keys; eauto.
Qed.

Lemma sorted_taken : forall cs, sorted (map idx (all_seed cs)) -> sorted (map idx (all_taken idx cs)).
Proof.
  assert (A : forall cs before, sorted (map idx (before ++ all_seed cs)) -> sorted (map idx (before ++ all_taken idx cs))).
  {assert (B : forall (f : D -> bool) (a b d : list D), sorted (map idx (a ++ b ++ d)) -> sorted (map idx (a ++ filter f b ++ d))).
    { intros f a b d. induction a as [|x a IHa]; cbn [app map].
      - induction b as [|y b IHb]; cbn [app map filter]; auto. intro Hs. apply StronglySorted_inv in Hs as [Hs Hy]. destruct (f y); [|auto]. cbn [app map]. constructor; [apply IHb; auto|].
        rewrite Forall_forall in *. intros z Hz. apply Hy. rewrite map_app in *. apply in_app_or in Hz as [Hz|Hz]; apply in_or_app; auto. left.
        apply in_map_iff in Hz as (r & <- & Hz). apply in_map. apply filter_In in Hz. tauto.
      - intro Hs. apply StronglySorted_inv in Hs as [Hs Hy]. constructor; [apply IHa; auto|]. rewrite Forall_forall in *. intros z Hz. apply Hy.
        apply in_map_iff in Hz as (r & <- & Hz). apply in_map. apply in_app_or in Hz as [Hz|Hz]; [apply in_or_app; auto|]. apply in_app_or in Hz as [Hz|Hz]; apply in_or_app; right; apply in_or_app; auto.
        left. apply filter_In in Hz. tauto. }
    induction cs as [|c cs IH]; intros before H; auto. unfold all_seed, all_taken in *. cbn [flat_map] in *. rewrite app_assoc. apply IH. rewrite <- app_assoc.
    unfold taken. destruct (c_discard c); auto. }
  intros cs H. apply (A cs [] H).
Qed.

Lemma new_batch : forall cs g, harmless pre -> filters_are fs gs -> new_data idx cs -> stream_ok_on N val dtypes idx enc gs confs m ms (all_taken idx cs) ->
  ((forall c, In c cs -> c_fresh c = false) \/ ((forall i, truthy i = true) /\ written_before_fresh true cs)) ->
  call_all idx truthy usage pre fs pre0 segbuf_empty post0 start cs = Ok g -> c_final (last cs (mkCall false false false true [])) = true ->
  all_batch_of N val dtypes idx enc gs confs m ms (all_taken idx cs) g.
Proof.
  intros cs g Hp Hf [Hs Hne] Hok Hw E Hl. pose proof (sorted_taken cs Hs) as Ht. pose proof Hf as [Hnd _].
  assert (T1 : forall c, In c confs -> tabular (key_of c) segbuf_empty (BatchRunProofs.ok idx (no_tie idx) c) (kT c) (kTS c) (kInv c)) by (intros c Hin; apply key_tabular; apply (Hok c Hin)).
  assert (T2 : forall c, In c confs -> post_is (key_of c) (m c) (ms c)) by (intros c Hin; apply (Hok c Hin)).
  assert (T3 : forall c, In c confs -> writes_as_labels (key_of c) (BatchRunProofs.ok idx (no_tie idx) c) (kT c) (kTS c) (m c) (ms c)) by (intros c _; apply writes_labels, key_writes).
  assert (T4 : forall c, In c confs -> In (k_filter (key_of c), keep c) gs).
  { intros c Hin. destruct (Hok c Hin) as (_ & _ & kp & Hk & _). cbn [k_filter KeyModel.key_of]. apply keep_of_in. apply in_map_iff. exists (c_filter c, kp). auto. }
  assert (T5 : forall c, In c confs -> no_tie idx c (filter (keep c) (all_taken idx cs))).
  { intros c Hin. destruct (Hok c Hin) as (_ & _ & kp & Hk & Hn). rewrite (keep_of_is gs c kp Hnd Hk). auto. }
  destruct (new_start idx truthy pre0 segbuf_empty post0 key_of confs kT kTS kInv m ms keep (no_tie idx) T1 T2 T3 (all_taken idx cs)) as [M W].
  pose proof (call_all_batch idx truthy usage fs gs Hf pre Hp pre0 segbuf_empty post0 key_of confs kT kTS kInv m ms keep (no_tie idx) (no_tie_app idx) T1 T2 T3 T4 (all_taken idx cs) Ht T5
    cs start g M W Hs eq_refl Hne Hw E Hl) as B.
  intros i c Hc.
  assert (En : nth_error (map (fun x => fst (fst x)) (g_keys g)) i = Some (key_of c)).
  { rewrite (call_all_keys _ _ _ E). unfold new_stream. cbn [g_keys]. rewrite map_map. cbn [fst]. rewrite map_id, nth_error_map, Hc. auto. }
  rewrite nth_error_map in En. destruct (nth_error (g_keys g) i) as [[[k b] s]|] eqn:Eg; [|discriminate]. cbn [fst option_map] in En. injection En as ->.
  exists b, s. split; auto. intros kp Hkp. destruct (B _ _ _ _ Eg) as (c' & _ & Hc' & Hh). rewrite Hc in Hc'. injection Hc' as <-.
  pose proof (nth_error_In _ _ Hc) as Hin. rewrite (keep_of_is gs c kp Hnd Hkp) in Hh. apply holds_chans; auto; [apply (Hok c Hin)|].
  split; [apply IterProofs.sorted_filter; auto|]. specialize (T5 c Hin). rewrite (keep_of_is gs c kp Hnd Hkp) in T5. auto.
Qed.
End Main.

(** ** C63: calls which are given new data only *)

(** Whatever the values of 'trim_start', 'discard_last' and 'final_write' of each call: if each call is given rows which come after
    those of previous calls, or at the same index as the last ones, then once the last call has written its results, each key holds
    the results of a single aggregation of the rows of its filter, over all calls. Rows at the last index of a call which
    discards them are not part of them, unless they are given again. Results are written before a new AggStream instance is used. *)
Theorem C63_new_data : forall {D V P PB} (N : dtype -> num V) val dtypes (idx : D -> Z) enc truthy usage
    (pre : option (list D -> P -> list D * P * bool)) fs gs pre0 post0 (confs : list (bconf PB)) m ms cs g,
  harmless pre -> filters_are fs gs -> new_data idx cs -> stream_ok_on N val dtypes idx enc gs confs m ms (all_taken idx cs) ->
  ((forall c, In c cs -> c_fresh c = false) \/ ((forall i, truthy i = true) /\ written_before_fresh true cs)) ->
  call_all idx truthy usage pre fs pre0 segbuf_empty post0 (new_stream pre0 segbuf_empty post0 (map (key_of N val dtypes idx enc) confs)) cs = Ok g ->
  c_final (last cs (mkCall false false false true [])) = true ->
  all_batch_of N val dtypes idx enc gs confs m ms (all_taken idx cs) g.
Proof. intros. eapply new_batch; eauto. Qed.
Print Assumptions C63_new_data.

(** Four calls on the keys of PropBatch.v: all rows are taken, then last ones are discarded without a final write, then they are given again to
    the same instance, which writes results, then a new instance goes on. *)
Notation ex_calls := (call_all ex_idx (fun _ => true) (fun f => Z.of_nat (length (rows f))) (None : option (list ex_row -> unit -> list ex_row * unit * bool)) ex_fs tt (segbuf_empty : @segbuf Z) 0%nat).
Definition ex_cs : list (@call ex_row) :=
  [mkCall false true false true [[(1,1);(2,2);(2,3)];[(3,4)]]; mkCall false false true false [[(4,5);(5,6)];[(8,7);(9,8)]];
   mkCall false true false true [[(9,8);(11,10);(12,11)]]; mkCall true true false true [[(13,12);(20,13);(21,15)];[(21,16);(22,18)]]].
Definition ex_rows : list ex_row := [(1,1);(2,2);(2,3);(3,4);(4,5);(5,6);(8,7);(9,8);(11,10);(12,11);(13,12);(20,13);(21,15);(21,16);(22,18)].
Example ex_C63 : exists g, ex_calls (ex_start ex_confs) ex_cs = Ok g /\ all_batch_of (fun _ => Znum) ex_val ex_dtypes ex_idx ex_enc ex_gs ex_confs ex_map ex_map ex_rows g /\
  map fst (ex_data g) = [[[0; 30; 5]; [5; 42; 8]; [10; 66; 12]; [15; -2; -1]; [20; 124; 18]]; [[0; 6; 4]; [5; 14; 8]; [10; 22; 12]; [15; -1; -1]; [20; 34; 18]];
    [[1; 6; 3]; [3; 15; 6]; [8; 25; 10]; [12; 36; 13]; [21; 49; 18]];
    [[0; 1; 1]; [2; 10; 4]; [4; 6; 6]; [6; 6; 6]; [8; 21; 8]; [10; 10; 10]; [12; 33; 12]; [14; -1; -1]; [16; -1; -1]; [18; -1; -1]; [20; 44; 16]; [22; 62; 18]]].
Proof.
  destruct (shown_ok _ _ (fun g => map fst (ex_data g)) (ex_calls (ex_start ex_confs) ex_cs) [[[0; 30; 5]; [5; 42; 8]; [10; 66; 12]; [15; -2; -1]; [20; 124; 18]]; [[0; 6; 4]; [5; 14; 8]; [10; 22; 12]; [15; -1; -1]; [20; 34; 18]];
    [[1; 6; 3]; [3; 15; 6]; [8; 25; 10]; [12; 36; 13]; [21; 49; 18]];
    [[0; 1; 1]; [2; 10; 4]; [4; 6; 6]; [6; 6; 6]; [8; 21; 8]; [10; 10; 10]; [12; 33; 12]; [14; -1; -1]; [16; -1; -1]; [18; -1; -1]; [20; 44; 16]; [22; 62; 18]]] ltac:(vm_cast_no_check (eq_refl (Some [[[0; 30; 5]; [5; 42; 8]; [10; 66; 12]; [15; -2; -1]; [20; 124; 18]]; [[0; 6; 4]; [5; 14; 8]; [10; 22; 12]; [15; -1; -1]; [20; 34; 18]];
    [[1; 6; 3]; [3; 15; 6]; [8; 25; 10]; [12; 36; 13]; [21; 49; 18]];
    [[0; 1; 1]; [2; 10; 4]; [4; 6; 6]; [6; 6; 6]; [8; 21; 8]; [10; 10; 10]; [12; 33; 12]; [14; -1; -1]; [16; -1; -1]; [18; -1; -1]; [20; 44; 16]; [22; 62; 18]]])))) as (g & E & Ed).
  exists g. split; [exact E|]. split; [|exact Ed]. change ex_rows with (all_taken ex_idx ex_cs). eapply C63_new_data; try exact E; auto.
  - exact I.
  - apply ex_filters_are.
  - split; [apply IterProofs.sortedb_iff; reflexivity|]. intros c p [<-|[<-|[<-|[<-|[]]]]]; apply ex_chunks; reflexivity.
  - intros c Hc. split; [apply ex_conf_ok; auto|]. split; [apply ex_mok; auto|].
    destruct Hc as [<-|[<-|[<-|[<-|[]]]]]; eexists; (split; [first [left; reflexivity|right; left; reflexivity]|]); try exact I.
    apply ex_no_straddle; [lia|]. vm_compute. reflexivity.
  - right. split; auto. simpl. auto.
Qed.

(** Conditions are needed.
    - A new instance used while results are not written starts again from those which are: rows given since are lost. *)
Definition ex_lost : list (@call ex_row) := [mkCall false true true true [[(1,1);(2,2);(6,3)]]; mkCall false true true false [[(6,3);(7,4);(8,5)]]; mkCall true true false true [[(8,5);(9,6)]]].
Theorem C63_unwritten_refuted : exists cs g, new_data ex_idx cs /\ ex_calls (ex_start [ex_A]) cs = Ok g /\ c_final (last cs (mkCall false false false true [])) = true /\
  ~ all_batch_of (fun _ => Znum) ex_val ex_dtypes ex_idx ex_enc ex_gs [ex_A] ex_map ex_map (all_taken ex_idx cs) g /\
  all_taken ex_idx cs = [(1,1);(2,2);(6,3);(7,4);(8,5);(9,6)] /\ map fst (ex_data g) = [[[0; 6; 2]; [5; 22; 6]]].
Proof.
  destruct (shown_ok _ _ ex_data (ex_calls (ex_start [ex_A]) ex_lost) [([[0; 6; 2]; [5; 22; 6]], [])] ltac:(vm_cast_no_check (eq_refl (Some [([[0; 6; 2]; [5; 22; 6]], @nil row)])))) as (g & E & Ed).
  exists ex_lost, g. split; [|split; [exact E|split; [reflexivity|split; [|split; [reflexivity|rewrite Ed; reflexivity]]]]].
  - split; [apply IterProofs.sortedb_iff; reflexivity|]. intros c p [<-|[<-|[<-|[]]]]; apply ex_chunks; reflexivity.
  - intro H. destruct (H 0%nat ex_A eq_refl) as (b & s & Eg & Hb). specialize (Hb (fun _ => true) (or_introl eq_refl)).
    assert (Es : all_rows (data_of (s_main s)) = [[0; 6; 2]; [5; 22; 6]]).
    { unfold ex_data in Ed. destruct (g_keys g) as [|[[k0 b0] s0] l]; [discriminate|]. injection Eg as -> -> ->. cbn in Ed. injection Ed as Ed _ _. exact Ed. }
    vm_compute in Es, Hb. destruct Hb as (bi & sn & Eb & _ & Hb). injection Eb as <- <-. rewrite Es in Hb. discriminate Hb.
Qed.
Print Assumptions C63_unwritten_refuted.

(** - 'trim_start' does not make it harmless to give rows again, when the previous call has not discarded its last ones: those at the last
      index are taken twice. *)
Definition ex_twice : list (@call ex_row) := [mkCall false true false true [[(1,1);(2,2);(6,3)]]; mkCall false true false true [[(1,1);(2,2);(6,3);(7,4);(8,5)]]].
Theorem C63_trimmed_overlap_refuted : exists cs g seed, ex_calls (ex_start [ex_A]) cs = Ok g /\
  cs = [mkCall false true false true [firstn 3 seed]; mkCall false true false true [seed]] /\ sorted (map ex_idx seed) /\
  ~ all_batch_of (fun _ => Znum) ex_val ex_dtypes ex_idx ex_enc ex_gs [ex_A] ex_map ex_map seed g /\ map fst (ex_data g) = [[[0; 6; 2]; [5; 30; 5]]].
Proof.
  destruct (shown_ok _ _ ex_data (ex_calls (ex_start [ex_A]) ex_twice) [([[0; 6; 2]; [5; 30; 5]], [])] ltac:(vm_cast_no_check (eq_refl (Some [([[0; 6; 2]; [5; 30; 5]], @nil row)])))) as (g & E & Ed).
  exists ex_twice, g, [(1,1);(2,2);(6,3);(7,4);(8,5)]. split; [exact E|split; [reflexivity|split; [apply IterProofs.sortedb_iff; reflexivity|split; [|rewrite Ed; reflexivity]]]].
  intro H. destruct (H 0%nat ex_A eq_refl) as (b & s & Eg & Hb). specialize (Hb (fun _ => true) (or_introl eq_refl)).
  assert (Es : all_rows (data_of (s_main s)) = [[0; 6; 2]; [5; 30; 5]]).
  { unfold ex_data in Ed. destruct (g_keys g) as [|[[k0 b0] s0] l]; [discriminate|]. injection Eg as -> -> ->. cbn in Ed. injection Ed as Ed _ _. exact Ed. }
  vm_compute in Es, Hb. destruct Hb as (bi & sn & Eb & _ & Hb). injection Eb as <- <-. rewrite Es in Hb. discriminate Hb.
Qed.
Print Assumptions C63_trimmed_overlap_refuted.
