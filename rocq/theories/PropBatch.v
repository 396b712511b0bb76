(** Properties of streamed aggregation: equality with aggregation made at once, interruptions. *)
Require Import List Arith ZArith Bool Lia Sorting.Sorted.
Require Import Verif.Common Verif.AggModel Verif.AggSpec Verif.SegModel Verif.SegSpec Verif.CsaModel Verif.CsaSpec Verif.WrModel Verif.StreamModel Verif.RaiseModel Verif.StreamSpec
  Verif.KeyModel Verif.TableProofs Verif.BatchSpec Verif.LabelProofs Verif.BatchProofs Verif.BatchRunProofs Verif.BatchKeyProofs Verif.BatchHoldProofs Verif.BatchOkProofs Verif.MdProofs.
Require Import Verif.RecordProofs.
Require Verif.CsaProofs Verif.IterProofs Verif.SegProofs Verif.PropStream.
Import ListNotations.
Local Open Scope Z_scope.

(** A stream: its configurations are valid, post-processings [m] and [ms] work row by row, the filter of each key keeps rows
    [keep], which have no tie at the end of bins made of a number of rows. *)
Definition stream_ok {D V PB} (N : dtype -> num V) (val : D -> cname -> V) dtypes (idx : D -> Z) (enc : option V -> Z) (gs : list (nat * (D -> bool))) (confs : list (bconf PB)) (m ms : bconf PB -> row -> row) (seed : list D) : Prop :=
  forall c, In c confs -> conf_ok dtypes c /\ post_does (c_post c) (type_of c) (m c) (ms c) /\
    exists keep, In (c_filter c, keep) gs /\ no_tie idx c (given idx keep seed).

(** Each key holds the results of a single aggregation of the rows of its filter, before the last index. *)
Definition all_batch {D V P PB} (N : dtype -> num V) val dtypes (idx : D -> Z) enc (gs : list (nat * (D -> bool))) (confs : list (bconf PB)) (m ms : bconf PB -> row -> row) (seed : list D)
    (g : stream D P (@segbuf V) PB) : Prop :=
  forall i c, nth_error confs i = Some c -> exists b s, nth_error (g_keys g) i = Some (key_of N val dtypes idx enc c, b, s) /\
    forall keep, In (c_filter c, keep) gs -> holds_batch N val dtypes idx enc c (m c) (ms c) (given idx keep seed) s.

Section Main.
Context {D V P PB : Type}.
Variable N : dtype -> num V.
Variable val : D -> cname -> V.
Variable dtypes : list (cname * dtype).
Variable idx : D -> Z.
Variable enc : option V -> Z.
Variable truthy : Z -> bool.
Variable usage : WrModel.frame -> Z.
Variable pre : option (list D -> P -> list D * P * bool).
Variables (fs : @filters D) (gs : list (nat * (D -> bool))).
Variables (pre0 : P) (post0 : PB).
Variable confs : list (bconf PB).
Variables (m ms : bconf PB -> row -> row).
Notation key_of := (@key_of D V PB N val dtypes idx enc).
Notation kT := (kT N val dtypes idx enc).
Notation kTS := (kTS N val dtypes idx enc).
Notation kInv := (kInv N val dtypes idx).
Notation start := (new_stream pre0 segbuf_empty post0 (map key_of confs)).
Notation keep := (keep_of gs).

Lemma to_batch : forall Sf (g : stream D P (@segbuf V) PB), filters_are fs gs -> stream_ok N val dtypes idx enc gs confs m ms Sf -> sorted (map idx Sf) ->
  map (fun x => fst (fst x)) (g_keys g) = map key_of confs ->
  (forall i k b s, nth_error (g_keys g) i = Some (k, b, s) -> holds idx key_of confs kT kTS m ms keep Sf i k s) ->
  all_batch N val dtypes idx enc gs confs m ms Sf g.
Proof.
  intros Sf g [Hnd _] Hok Hs Ek Hh i c Hc.
  assert (En : nth_error (map (fun x => fst (fst x)) (g_keys g)) i = Some (key_of c)) by (rewrite Ek, nth_error_map, Hc; auto).
  rewrite nth_error_map in En. destruct (nth_error (g_keys g) i) as [[[k b] s]|] eqn:Eg; [|discriminate]. cbn [fst option_map] in En. injection En as ->.
  exists b, s. split; auto. intros kp Hkp.
  destruct (holds_holds N val dtypes idx enc confs gs m ms Sf i (key_of c) s) as (c' & _ & Hc' & Hb); auto.
  - intros c' Hin. apply (Hok c' Hin).
  - intros c' Hin. destruct (Hok c' Hin) as (_ & _ & kp' & Hk' & Ht). rewrite (keep_of_is gs c' kp' Hnd Hk'). auto.
  - eapply Hh; eauto.
  - rewrite Hc in Hc'. injection Hc' as <-. rewrite (keep_of_is gs c kp Hnd Hkp) in Hb. auto.
Qed.
Lemma sorted_whole : forall rs before, growing idx before rs -> sorted (map idx before) -> sorted (map idx (whole_seed before rs)).
Proof.
  induction rs as [|r rs IH]; intros before Hg Hs; [unfold whole_seed; simpl; rewrite app_nil_r; auto|]. cbn [growing] in Hg. destruct Hg as (_ & H1 & _ & H2).
  rewrite whole_seed_cons. apply IH; auto.
Qed.
Lemma tab_hyps : forall Sf, filters_are fs gs -> stream_ok N val dtypes idx enc gs confs m ms Sf ->
  (forall (c : bconf PB) (a b : list D), no_tie idx c (a ++ b) -> no_tie idx c a) /\
  (forall c, In c confs -> tabular (key_of c) segbuf_empty (BatchRunProofs.ok idx (no_tie idx) c) (kT c) (kTS c) (kInv c)) /\
  (forall c, In c confs -> post_is (key_of c) (m c) (ms c)) /\ (forall c, In c confs -> writes_as_labels (key_of c) (BatchRunProofs.ok idx (no_tie idx) c) (kT c) (kTS c) (m c) (ms c)) /\
  (forall c, In c confs -> In (k_filter (key_of c), keep c) gs) /\ (forall c, In c confs -> no_tie idx c (rows_of idx keep c Sf)).
Proof.
  intros Sf [Hnd _] Hok. split; [apply no_tie_app|]. split; [intros c Hin; apply key_tabular; apply (Hok c Hin)|]. split; [intros c Hin; apply (Hok c Hin)|].
  split; [intros c _; apply writes_labels, key_writes|]. split.
  - intros c Hin. destruct (Hok c Hin) as (_ & _ & kp & Hk & _). cbn [k_filter KeyModel.key_of]. apply keep_of_in. apply in_map_iff. exists (c_filter c, kp). auto.
  - intros c Hin. destruct (Hok c Hin) as (_ & _ & kp & Hk & Ht). change (rows_of idx keep c Sf) with (given idx (keep c) Sf). rewrite (keep_of_is gs c kp Hnd Hk). auto.
Qed.

Lemma batch_run : forall rs g, harmless pre -> filters_are fs gs -> growing idx [] rs -> stream_ok N val dtypes idx enc gs confs m ms (whole_seed [] rs) ->
  ((forall c, In c confs -> c_nirgs c = None) \/ ((forall i, truthy i = true) /\ all_written true rs)) ->
  run_all idx truthy usage pre fs pre0 segbuf_empty post0 start rs = Ok g -> rs <> [] -> r_final (last rs (mkRun false false [])) = true ->
  all_batch N val dtypes idx enc gs confs m ms (whole_seed [] rs) g.
Proof.
  intros rs g Hp Hf Hg Hok Hc E Hne Hl. assert (Hs : sorted (map idx (whole_seed [] rs))) by (apply sorted_whole; auto; constructor).
  destruct (tab_hyps _ Hf Hok) as (T0 & T1 & T2 & T3 & T4 & T5).
  apply to_batch; auto.
  - rewrite (run_all_keys idx truthy usage _ _ _ _ _ _ _ _ E). unfold new_stream. cbn [g_keys]. rewrite map_map. cbn [fst]. apply map_id.
  - destruct (new_mem_inv idx truthy pre0 segbuf_empty post0 key_of confs kT kTS kInv m ms keep (no_tie idx) T1 T2 T3 (whole_seed [] rs)) as [M W].
    apply (run_all_batch idx truthy usage fs gs Hf pre Hp pre0 segbuf_empty post0 key_of confs kT kTS kInv m ms keep (no_tie idx) T0 T1 T2 T3 T4 (whole_seed [] rs) Hs T5 rs [] start g true M (SSorted_nil _) Hg eq_refl); auto.
    destruct Hc as [Hc|[Tq Hw]]; [left|right; auto]. intros c Hin. unfold no_coalescing. cbn. split; intros; apply Hc; auto.
Qed.

Lemma batch_steps : forall rs g0 xs g r, harmless pre -> filters_are fs gs -> growing idx [] rs -> growing idx (whole_seed [] rs) (map run_of xs) ->
  stream_ok N val dtypes idx enc gs confs m ms (whole_seed (whole_seed [] rs) (map run_of xs)) ->
  (forall c, In c confs -> type_of c <> BOTH /\ c_nirgs c = None) ->
  run_all idx truthy usage pre fs pre0 segbuf_empty post0 start rs = Ok g0 ->
  (forall s, In s (map snd (g_keys g0)) -> s_main s <> None) -> restarted false xs ->
  step_all idx truthy usage pre fs pre0 segbuf_empty post0 g0 xs = Ok g ->
  last xs (Complete (mkRun false false [])) = Complete r -> r_final r = true ->
  all_batch N val dtypes idx enc gs confs m ms (whole_seed (whole_seed [] rs) (map run_of xs)) g.
Proof.
  intros rs g0 xs g r Hp Hf Hg Hg' Hok Hc E0 Hmn Hr E Hl Hfin.
  assert (Hs0 : sorted (map idx (whole_seed [] rs))) by (apply sorted_whole; auto; constructor).
  assert (Hs : sorted (map idx (whole_seed (whole_seed [] rs) (map run_of xs)))) by (apply sorted_whole; auto).
  destruct (tab_hyps _ Hf Hok) as (T0 & T1 & T2 & T3 & T4 & T5).
  assert (Hnc : forall c, In c confs -> k_type (key_of c) <> BOTH /\ no_coalescing (key_of c)).
  { intros c Hin. destruct (Hc c Hin) as [C1 C2]. split; auto. split; auto. }
  apply to_batch; auto.
  - rewrite (step_all_keys idx truthy usage _ _ _ _ _ _ _ _ E), (run_all_keys idx truthy usage _ _ _ _ _ _ _ _ E0). unfold new_stream. cbn [g_keys]. rewrite map_map. cbn [fst]. apply map_id.
  - set (Sf := whole_seed (whole_seed [] rs) (map run_of xs)) in *.
    destruct (new_mem_inv idx truthy pre0 segbuf_empty post0 key_of confs kT kTS kInv m ms keep (no_tie idx) T1 T2 T3 Sf) as [M W].
    assert (M0 : mem_inv idx truthy key_of confs kT kTS kInv m ms keep Sf (whole_seed [] rs) g0).
    { apply (run_all_keeps idx truthy usage fs gs Hf pre Hp pre0 segbuf_empty post0 key_of confs kT kTS kInv m ms keep (no_tie idx) T0 T1 T2 T3 T4 Sf Hs T5 rs [] start g0); auto.
      - intros c Hin. apply (Hnc c Hin).
      - constructor.
      - apply (growing_starts idx (map run_of xs)); auto. }
    apply (step_all_batch idx truthy usage fs gs Hf pre Hp pre0 segbuf_empty post0 key_of confs kT kTS kInv m ms keep (no_tie idx) T0 T1 T2 T3 T4 Sf Hs T5 Hnc xs (whole_seed [] rs) g0 g false (or_introl M0) Hmn Hs0 Hg' eq_refl Hr E r Hl Hfin).
Qed.
Lemma result_rows : forall (c : bconf PB) l, conf_ok dtypes c -> kok idx c l -> type_of c <> BINS -> (length (kT c l) + length (kTS c l))%nat = match batch N val dtypes idx c l with
  | Ok (Some (bins, Some snaps)) => (length (f_labels bins) + length (f_labels snaps))%nat
  | _ => 0%nat
  end.
Proof.
  intros c l Hc Hk Ht. assert (R : forall fr, length (rows (table enc (c_agg c) fr)) = length (f_labels fr)) by (intro fr; cbn; rewrite map_length, seq_length; auto).
  assert (Hs : c_snap c <> None) by (intro E; apply Ht; unfold type_of; rewrite E; auto).
  destruct l as [|a l].
  - pose proof (key_tabular N val dtypes idx enc c Hc) as Q. rewrite (tab_nil _ _ _ _ _ _ Q), (tab_nil_snap _ _ _ _ _ _ Q). cbn [length Nat.add].
    destruct (batch N val dtypes idx c []) as [[[b [s|]]|]|e] eqn:E; auto. exfalso. revert E. unfold batch, cumsegagg. destruct (c_by c); discriminate.
  - destruct (batch_tables N val dtypes idx enc c Hc (a :: l) ltac:(discriminate) Hk) as (b & s & -> & E1 & E2). rewrite <- E1, R.
    destruct s as [s|]; [destruct E2 as [_ E2]; rewrite <- E2, R; auto|contradiction].
Qed.
Lemma run_accepted : forall rs w, harmless pre -> filters_are fs gs -> growing idx [] rs -> stream_ok N val dtypes idx enc gs confs m ms (whole_seed [] rs) ->
  (forall i, truthy i = true) -> all_written true rs -> 0 <= w -> (forall f, usage f <= w * Z.of_nat (S (length (rows f)))) ->
  (forall c kp, In c confs -> In (c_filter c, kp) gs -> accepted_conf N val dtypes idx enc c w (chunks_between 0 rs) (given idx kp (whole_seed [] rs))) ->
  exists g, run_all idx truthy usage pre fs pre0 segbuf_empty post0 start rs = Ok g.
Proof.
  intros rs w Hp Hf Hg Hok Hq Hw Hw0 Hu Ha. assert (Hs : sorted (map idx (whole_seed [] rs))) by (apply sorted_whole; auto; constructor).
  destruct (tab_hyps _ Hf Hok) as (T0 & T1 & T2 & T3 & T4 & T5). set (Sf := whole_seed [] rs) in *.
  assert (A : forall c, In c confs -> accepted_conf N val dtypes idx enc c w (chunks_between 0 rs) (rows_of idx keep c Sf)) by (intros c Hin; apply Ha; auto; apply (T4 c Hin)).
  assert (K : forall c H, In c confs -> starts H (rows_of idx keep c Sf) -> kok idx c H).
  { intros c H Hin [e E]. split.
    - assert (Z0 : sorted (map idx (rows_of idx keep c Sf))) by (unfold rows_of; repeat apply IterProofs.sorted_filter; auto). rewrite E in Z0. exact (IterProofs.sorted_app_l idx _ _ Z0).
    - specialize (T5 c Hin). rewrite E in T5. exact (T0 c _ _ T5). }
  destruct (new_mem_inv idx truthy pre0 segbuf_empty post0 key_of confs kT kTS kInv m ms keep (no_tie idx) T1 T2 T3 Sf) as [M _].
  destruct (new_ok (P := P) idx pre0 segbuf_empty post0 key_of confs kT kTS keep w Hw0) as (N1 & N2 & N3).
  eapply (run_all_ok idx truthy usage fs gs Hf pre Hp pre0 segbuf_empty post0 key_of confs kT kTS kInv m ms keep (no_tie idx) T0 T1 T2 T3 T4 Sf Hs T5 Hq); eauto.
  6: constructor.
  - intros c H p b Hin Hne Hst Hi. destruct (A c Hin) as (_ & _ & _ & _ & Hz & _).
    destruct (key_accepts N val dtypes idx enc c (proj1 (Hok c Hin)) H p b Hne (K c _ Hin Hst) Hi) as (f & sn & b' & E & W & W'); [|exists f, sn, b'; auto].
    intros o i f d l v I1 I2 I3 I4. apply (Hz o i f d l v I1 I2); auto. destruct Hst as [e Ee]. rewrite Ee. apply incl_appl. auto.
  - intros c Hin. apply (A c Hin).
  - intros c Hin. destruct (A c Hin) as (_ & H1 & H2 & _). cbn. split; [destruct (c_size c); cbn; auto|intros _; destruct (c_size_snap c); cbn; auto].
  - intros c Hin. destruct (A c Hin) as (H1 & _). unfold no_coalescing. cbn. auto.
  - intros c Hin. destruct (A c Hin) as (_ & _ & _ & _ & _ & H1). unfold enough_memory in H1. cbn [k_type k_max KeyModel.key_of]. destruct (type_of c) eqn:Et; auto; (rewrite <- (result_rows c (rows_of idx keep c Sf)) in H1; [rewrite Nat.add_assoc in H1; exact H1|apply (Hok c Hin)|apply K; auto; exists []; rewrite app_nil_r; auto|congruence]).
Qed.
End Main.

(** ** Concrete cases *)
(** Rows are pairs of an index and of a value. Keys: bins of 5 units of time; bins of 5 units of time, with snapshots each 2
    units, of rows with an even value; bins of 3 rows; snapshots only. *)
Definition ex_row := (Z * Z)%type.
Definition ex_idx (r : ex_row) := fst r.
Definition ex_val (r : ex_row) (_ : cname) : Z := snd r.
Definition ex_dtypes := [(1%nat, DInt64)].
Definition ex_even (r : ex_row) : bool := Z.even (snd r).
Definition ex_fs : list (nat * option (list ex_row -> res (list bool))) := [(0%nat, None); (1%nat, Some (fun rows => Ok (map ex_even rows)))].
Definition ex_gs : list (nat * (ex_row -> bool)) := [(0%nat, fun _ => true); (1%nat, ex_even)].
Example ex_filters_are : filters_are ex_fs ex_gs.
Proof. split; [repeat constructor; simpl; intuition discriminate|]. repeat constructor. Qed.
Definition ex_agg : aggspec := [(10%nat, (1%nat, Some Sum)); (11%nat, (1%nat, Some Max))].
Definition ex_enc (o : option Z) : Z := match o with Some v => v | None => -1 end.
(** Post-processing: a column is multiplied by 2. *)
Definition ex_m (r : row) : row := match r with [l; a; b] => [l; 2 * a; b] | _ => r end.
Definition ex_post : nat -> WrModel.frame -> option WrModel.frame -> res (post_res * nat) :=
  fun n f sn => Ok (POne (Some (WrModel.mkFrame 3 (map ex_m (rows (match sn with Some s => s | None => f end))))), S n).
Definition ex_tg := mkTG 5 SLeft SLeft OEpoch 0.
Definition ex_snap := mkTG 2 SLeft SLeft OEpoch 0.
Definition ex_A : bconf nat := mkBconf 0 ex_agg (ByTime ex_tg) None false (Some ex_post) 1 (Some 2) None None.
Definition ex_B : bconf nat := mkBconf 1 ex_agg (ByTime ex_tg) (Some ex_snap) true None 100 (Some 2) (Some 3) None.
Definition ex_C : bconf nat := mkBconf 0 ex_agg (ByRows 3 SLeft) None false None 1 (Some 2) None None.
Definition ex_D : bconf nat := mkBconf 0 ex_agg (ByTime ex_tg) (Some ex_snap) false None 1 (Some 2) None None.
Definition ex_confs := [ex_A; ex_B; ex_C; ex_D].
Definition ex_map (c : bconf nat) : row -> row := match c_post c with None => fun r => r | Some _ => ex_m end.
Notation ex_key := (@key_of ex_row Z nat (fun _ => Znum) ex_val ex_dtypes ex_idx ex_enc).
Definition ex_truthy (z : Z) : bool := negb (z =? 0).
Notation ex_start cs := (new_stream tt (segbuf_empty : @segbuf Z) 0%nat (map ex_key cs) : stream ex_row unit (@segbuf Z) nat).
Notation ex_run := (run_all ex_idx ex_truthy (fun f => Z.of_nat (length (rows f))) (None : option (list ex_row -> unit -> list ex_row * unit * bool)) ex_fs tt (segbuf_empty : @segbuf Z) 0%nat).
Notation ex_step := (step_all ex_idx ex_truthy (fun f => Z.of_nat (length (rows f))) (None : option (list ex_row -> unit -> list ex_row * unit * bool)) ex_fs tt (segbuf_empty : @segbuf Z) 0%nat).
Definition ex_data (g : stream ex_row unit (@segbuf Z) nat) := map (fun x => (all_rows (data_of (s_main (snd x))), all_rows (data_of (s_snap (snd x))))) (g_keys g).
Definition ex_seed1 : list (list ex_row) := [[(1,1);(2,2);(2,3)]; [(3,4);(4,5)]; [(5,6);(8,3);(8,9)]].
Definition ex_seed2 : list (list ex_row) := [[(1,1)];[(2,2);(2,3);(3,4);(4,5);(5,6)]; [(8,7);(9,8)];[(11,10);(12,11);(13,12)];[(20,13);(21,1)]].
Definition ex_seed3 : list (list ex_row) := [[(1,1);(2,2);(2,3);(3,4);(4,5);(5,6);(8,7);(9,8);(11,10)];[(12,11);(13,12);(20,13)];[(21,15);(21,16);(22,18)]].
Definition ex_runs := [mkRun true true ex_seed1; mkRun false false ex_seed2; mkRun true true ex_seed3].
Definition shown {A B} (f : A -> B) (r : res A) : option B := match r with Ok a => Some (f a) | Err _ => None end.
Lemma shown_ok : forall A B (f : A -> B) r x, shown f r = Some x -> exists a, r = Ok a /\ f a = x.
Proof. intros A B f [a|e] x H; [|discriminate]. injection H as <-. eauto. Qed.
Lemma ex_mok : forall c, In c ex_confs -> post_is (ex_key c) (ex_map c) (ex_map c).
Proof.
  intros c [<-|[<-|[<-|[<-|[]]]]]; (split; [|split]); unfold ex_map; cbn [c_post ex_A ex_B ex_C ex_D]; auto; try (intros [|a [|b [|d [|e r]]]]; reflexivity); try (split; auto).
  intros pb f sn r pb' E. injection E as <- <-. exists 3%nat, 3%nat. destruct sn; cbn; auto.
Qed.
Lemma ex_conf_ok : forall c, In c ex_confs -> conf_ok ex_dtypes c.
Proof.
  intros c Hc. assert (c_agg c = ex_agg) as Ea by (destruct Hc as [<-|[<-|[<-|[<-|[]]]]]; auto). unfold conf_ok. rewrite Ea. split; [|split; [|split]].
  - intros o i f [H|[H|[]]]; injection H as <- <- <-; split; try discriminate; eexists; reflexivity.
  - simpl. repeat constructor; simpl; intuition lia.
  - discriminate.
  - destruct Hc as [<-|[<-|[<-|[<-|[]]]]]; split; cbn [c_snap c_by ex_A ex_B ex_C ex_D]; try lia; try (intros s0 H; discriminate);
      try (split; [reflexivity|exact I]); (intros s0 H; injection H as <-; split; [reflexivity|exact I]).
Qed.
Lemma ex_no_straddle : forall x (l : list ex_row), (0 < x)%nat ->
  forallb (fun b => (nth (b * x - 1) (map ex_idx l) 0 <? nth (b * x) (map ex_idx l) 0)) (filter (fun b => (b * x <? length l)%nat) (seq 1 (length l))) = true -> no_straddle ex_idx x l.
Proof.
  intros x l Hx H b Hb Hl. rewrite forallb_forall in H. apply Z.ltb_lt, H, filter_In. split; [|apply Nat.ltb_lt; auto]. apply in_seq. nia.
Qed.
Lemma ex_chunks : forall (l : list (list ex_row)), forallb (fun c => match c with [] => false | _ => true end) l = true -> forall c, In c l -> c <> [].
Proof. intros l H c Hc ->. rewrite forallb_forall in H. specialize (H _ Hc). discriminate. Qed.
Example ex_growing : growing ex_idx [] ex_runs.
Proof.
  repeat split; try (apply IterProofs.sortedb_iff; reflexivity); try (apply ex_chunks; reflexivity).
  - extended.
  - extended.
  - extended.
Qed.
Example ex_stream_ok : stream_ok (fun _ => Znum) ex_val ex_dtypes ex_idx ex_enc ex_gs ex_confs ex_map ex_map (whole_seed [] ex_runs).
Proof.
  intros c Hc. split; [apply ex_conf_ok; auto|]. split; [apply ex_mok; auto|].
  destruct Hc as [<-|[<-|[<-|[<-|[]]]]]; eexists; (split; [first [left; reflexivity|right; left; reflexivity]|]); try exact I.
  apply ex_no_straddle; [lia|]. vm_compute. reflexivity.
Qed.

(** ** C50: results of streamed aggregation are those of an aggregation made at once *)

(** Whatever the runs (with the same AggStream instance or a new one, with final write of results or not), the chunks of seed
    data, the filters, the memory limit leading to intermediate writes and sizes of row groups: once the last run has written
    its results, each key holds the results of a single aggregation of the rows of its filter before the last index of
    seed data. Without limit on the number of incomplete row groups, or with one, when results are written before each
    start and indexes are all 'true' (time stamps). *)
Theorem C50_streamed_is_batch : forall {D V P PB} (N : dtype -> num V) val dtypes (idx : D -> Z) enc truthy usage
    (pre : option (list D -> P -> list D * P * bool)) fs gs pre0 post0 (confs : list (bconf PB)) m ms rs g,
  harmless pre -> filters_are fs gs -> growing idx [] rs -> stream_ok N val dtypes idx enc gs confs m ms (whole_seed [] rs) ->
  ((forall c, In c confs -> c_nirgs c = None) \/ ((forall i, truthy i = true) /\ all_written true rs)) ->
  run_all idx truthy usage pre fs pre0 segbuf_empty post0 (new_stream pre0 segbuf_empty post0 (map (key_of N val dtypes idx enc) confs)) rs = Ok g ->
  rs <> [] -> r_final (last rs (mkRun false false [])) = true ->
  all_batch N val dtypes idx enc gs confs m ms (whole_seed [] rs) g.
Proof. intros. eapply batch_run; eauto. Qed.
Print Assumptions C50_streamed_is_batch.

(** Stored rows of main datasets, for runs of the case above; there are intermediate writes. *)
Example ex_C50 : exists g, ex_run (ex_start ex_confs) ex_runs = Ok g /\ all_batch (fun _ => Znum) ex_val ex_dtypes ex_idx ex_enc ex_gs ex_confs ex_map ex_map (concat ex_seed3) g /\
  ex_data g = [([[0; 30; 5]; [5; 42; 8]; [10; 66; 12]; [15; -2; -1]; [20; 88; 16]], []);
    ([[0; 6; 4]; [5; 14; 8]; [10; 22; 12]; [15; -1; -1]; [20; 16; 16]],
     [[2; 6; 4]; [4; 6; 6]; [6; 6; 6]; [8; 14; 8]; [10; 10; 10]; [12; 22; 12]; [14; -1; -1]; [16; -1; -1]; [18; -1; -1]; [20; 16; 16]]);
    ([[1; 6; 3]; [3; 15; 6]; [8; 25; 10]; [12; 36; 13]; [21; 31; 16]], []);
    ([[0; 1; 1]; [2; 10; 4]; [4; 6; 6]; [6; 6; 6]; [8; 21; 8]; [10; 10; 10]; [12; 33; 12]; [14; -1; -1]; [16; -1; -1]; [18; -1; -1]; [20; 44; 16]], [])] /\
  (exists g1, ex_run (ex_start ex_confs) (firstn 2 ex_runs) = Ok g1 /\ map fst (g_log g1) = [3; 0; 1; 1; 2; 3; 2; 3]%nat).
Proof.
  destruct (shown_ok _ _ ex_data (ex_run (ex_start ex_confs) ex_runs) [([[0; 30; 5]; [5; 42; 8]; [10; 66; 12]; [15; -2; -1]; [20; 88; 16]], []);
    ([[0; 6; 4]; [5; 14; 8]; [10; 22; 12]; [15; -1; -1]; [20; 16; 16]],
     [[2; 6; 4]; [4; 6; 6]; [6; 6; 6]; [8; 14; 8]; [10; 10; 10]; [12; 22; 12]; [14; -1; -1]; [16; -1; -1]; [18; -1; -1]; [20; 16; 16]]);
    ([[1; 6; 3]; [3; 15; 6]; [8; 25; 10]; [12; 36; 13]; [21; 31; 16]], []);
    ([[0; 1; 1]; [2; 10; 4]; [4; 6; 6]; [6; 6; 6]; [8; 21; 8]; [10; 10; 10]; [12; 33; 12]; [14; -1; -1]; [16; -1; -1]; [18; -1; -1]; [20; 44; 16]], [])] ltac:(vm_cast_no_check (eq_refl (Some [([[0; 30; 5]; [5; 42; 8]; [10; 66; 12]; [15; -2; -1]; [20; 88; 16]], []);
    ([[0; 6; 4]; [5; 14; 8]; [10; 22; 12]; [15; -1; -1]; [20; 16; 16]],
     [[2; 6; 4]; [4; 6; 6]; [6; 6; 6]; [8; 14; 8]; [10; 10; 10]; [12; 22; 12]; [14; -1; -1]; [16; -1; -1]; [18; -1; -1]; [20; 16; 16]]);
    ([[1; 6; 3]; [3; 15; 6]; [8; 25; 10]; [12; 36; 13]; [21; 31; 16]], []);
    ([[0; 1; 1]; [2; 10; 4]; [4; 6; 6]; [6; 6; 6]; [8; 21; 8]; [10; 10; 10]; [12; 33; 12]; [14; -1; -1]; [16; -1; -1]; [18; -1; -1]; [20; 44; 16]], [])])))) as (g & E & Ed). exists g. split; [exact E|]. split; [|split].
  - change (concat ex_seed3) with (whole_seed [] ex_runs). eapply C50_streamed_is_batch; try exact E; auto.
    + exact I.
    + apply ex_filters_are.
    + apply ex_growing.
    + apply ex_stream_ok.
    + left. intros c [<-|[<-|[<-|[<-|[]]]]]; auto.
    + discriminate.
  - exact Ed.
  - destruct (shown_ok _ _ (fun g => map fst (g_log g)) (ex_run (ex_start ex_confs) (firstn 2 ex_runs)) [3; 0; 1; 1; 2; 3; 2; 3]%nat ltac:(vm_cast_no_check (eq_refl (Some [3; 0; 1; 1; 2; 3; 2; 3]%nat)))) as (g1 & E1 & Ed1). exists g1. auto.
Qed.

(** Runs are accepted, when results are written before a new instance is used, provided that [w] bounds the size in memory of a
    row (and of an empty data frame), indexes are all 'true' (time stamps), and configurations are accepted: no zero as result
    of an aggregation, positive sizes of row groups, at least a column in results of 'post', and enough memory for the chunks
    given between two final writes. Intermediate writes are then possible for keys without snapshots. *)
Theorem C50_accepted : forall {D V P PB} (N : dtype -> num V) val dtypes (idx : D -> Z) enc truthy usage
    (pre : option (list D -> P -> list D * P * bool)) fs gs pre0 post0 (confs : list (bconf PB)) m ms rs w,
  harmless pre -> filters_are fs gs -> growing idx [] rs -> stream_ok N val dtypes idx enc gs confs m ms (whole_seed [] rs) ->
  (forall i, truthy i = true) -> all_written true rs -> 0 <= w -> (forall f, usage f <= w * Z.of_nat (S (length (rows f)))) ->
  (forall c keep, In c confs -> In (c_filter c, keep) gs -> accepted_conf N val dtypes idx enc c w (chunks_between 0 rs) (given idx keep (whole_seed [] rs))) ->
  exists g, run_all idx truthy usage pre fs pre0 segbuf_empty post0 (new_stream pre0 segbuf_empty post0 (map (key_of N val dtypes idx enc) confs)) rs = Ok g /\
    (rs <> [] -> r_final (last rs (mkRun false false [])) = true -> all_batch N val dtypes idx enc gs confs m ms (whole_seed [] rs) g).
Proof.
  intros D V P PB N val dtypes idx enc truthy usage pre fs gs pre0 post0 confs m ms rs w Hp Hf Hg Hok Hq Hw Hw0 Hu Ha.
  destruct (run_accepted N val dtypes idx enc truthy usage pre fs gs pre0 post0 confs m ms rs w Hp Hf Hg Hok Hq Hw Hw0 Hu Ha) as [g E].
  exists g. split; [exact E|]. intros. eapply C50_streamed_is_batch; eauto.
Qed.
Print Assumptions C50_accepted.

(** 11 chunks at most between two final writes; the first key has an intermediate write in the second run. *)
Definition ex_A1 : bconf nat := mkBconf 0 ex_agg (ByTime ex_tg) None false (Some ex_post) 44 (Some 2) None None.
Definition ex_B1 : bconf nat := mkBconf 1 ex_agg (ByTime ex_tg) (Some ex_snap) true None 900 (Some 2) (Some 3) None.
Definition ex_C1 : bconf nat := mkBconf 0 ex_agg (ByRows 3 SLeft) None false None 44 (Some 2) None None.
Definition ex_confs1 := [ex_A1; ex_B1; ex_C1].
Definition ex_seed4 : list (list ex_row) := [[(1,1);(2,2)]; [(4,3);(5,4)]; [(100,6);(150,8)]; [(400,9);(401,10)]; [(401,11)]; [(402,12);(403,13)]; [(404,14);(501,15)]; [(502,15);(503,16)]].
Definition ex_seed5 : list (list ex_row) := [concat ex_seed4 ++ [(504,14);(505,16);(510,18)]].
Definition ex_runs1 := [mkRun true false (firstn 3 ex_seed4); mkRun false true ex_seed4; mkRun true true ex_seed5].
Lemma never_zero_pos : forall (c : bconf nat) l, c_agg c = ex_agg -> forallb (fun r : ex_row => 0 <? snd r) l = true -> never_zero (fun _ => Znum) ex_val ex_dtypes c l.
Proof.
  intros c l Ec H. assert (P : forall l0, incl l0 l -> Forall (fun v => 0 < v) (map (fun r => ex_val r 1%nat) l0)).
  { intros l0 Hl. apply Forall_forall. intros v Hv. apply in_map_iff in Hv as (r & <- & Hr). rewrite forallb_forall in H. specialize (H r (Hl r Hr)). apply Z.ltb_lt in H. exact H. }
  assert (F : forall f, f = Z.add \/ f = (fun a b => if a <? b then b else a) -> forall t x, 0 < x -> Forall (fun v => 0 < v) t -> 0 < fold_left f t x).
  { intros f Hf. induction t as [|y t IH]; intros x Hx Ht; [auto|]. cbn [fold_left]. apply Forall_cons_iff in Ht as [Hy Ht]. apply IH; auto. destruct Hf as [->| ->]; [lia|destruct (x <? y); auto]. }
  intros o i f d l0 v Hin Hd Hl Hv. rewrite Ec in Hin. unfold agg_of in Hv.
  destruct Hin as [Hin|[Hin|[]]]; injection Hin as <- <- <-; specialize (P l0 Hl); destruct (map (fun r => ex_val r 1%nat) l0) as [|x t]; try discriminate;
    apply Forall_cons_iff in P as [Px Pt]; cbn [spec_agg] in Hv; injection Hv as <-; cbn [is0 Znum]; apply Z.eqb_neq; intro Q; symmetry in Q; revert Q; apply Z.neq_sym, Z.lt_neq;
    (apply F; [cbn; auto|exact Px|exact Pt]).
Qed.
Example ex_C50_accepted : exists g,
  run_all ex_idx (fun _ => true) (fun f => Z.of_nat (length (rows f))) (None : option (list ex_row -> unit -> list ex_row * unit * bool)) ex_fs tt segbuf_empty 0%nat (ex_start ex_confs1) ex_runs1 = Ok g /\
  all_batch (fun _ => Znum) ex_val ex_dtypes ex_idx ex_enc ex_gs ex_confs1 ex_map ex_map (concat ex_seed5) g /\
  shown (fun g => map fst (g_log g)) (run_all ex_idx (fun _ => true) (fun f => Z.of_nat (length (rows f))) (None : option (list ex_row -> unit -> list ex_row * unit * bool)) ex_fs tt segbuf_empty 0%nat (ex_start ex_confs1) (firstn 2 ex_runs1)) = Some [0; 0; 1; 1; 2]%nat.
Proof.
  destruct (C50_accepted (fun _ => Znum) ex_val ex_dtypes ex_idx ex_enc (fun _ => true) (fun f => Z.of_nat (length (rows f)))
    (None : option (list ex_row -> unit -> list ex_row * unit * bool)) ex_fs ex_gs tt 0%nat ex_confs1 ex_map ex_map ex_runs1 1) as (g & E & B).
  - exact I.
  - apply ex_filters_are.
  - repeat split; try (apply IterProofs.sortedb_iff; vm_compute; reflexivity); try (apply ex_chunks; reflexivity).
    + extended.
    + extended.
    + extended.
  - intros c [<-|[<-|[<-|[]]]]; (split; [first [apply (ex_conf_ok ex_A); left; reflexivity|apply (ex_conf_ok ex_B); right; left; reflexivity|apply (ex_conf_ok ex_C); right; right; left; reflexivity]|]);
      (split; [first [apply (ex_mok ex_A); left; reflexivity|apply (ex_mok ex_B); right; left; reflexivity|apply (ex_mok ex_C); right; right; left; reflexivity]|]);
      eexists; (split; [first [left; reflexivity|right; left; reflexivity]|]); try exact I.
    apply ex_no_straddle; [lia|]. vm_compute. reflexivity.
  - reflexivity.
  - repeat split; auto.
  - lia.
  - intro f. lia.
  - intros c keep Hc Hk. assert (Ha : c_agg c = ex_agg) by (destruct Hc as [<-|[<-|[<-|[]]]]; reflexivity). split; [|split; [|split; [|split; [|split]]]].
    + destruct Hc as [<-|[<-|[<-|[]]]]; reflexivity.
    + destruct Hc as [<-|[<-|[<-|[]]]]; intros z H; injection H as <-; lia.
    + destruct Hc as [<-|[<-|[<-|[]]]]; intros z H; [discriminate|injection H as <-; lia|discriminate].
    + destruct Hc as [<-|[<-|[<-|[]]]]; [|exact I|exact I]. intros pb f sn. eexists. eexists. split; [reflexivity|]. cbn. lia.
    + apply never_zero_pos; auto. apply forallb_forall. intros r Hr. apply filter_In in Hr as [Hr _]. revert r Hr. apply forallb_forall. vm_compute. reflexivity.
    + assert (Hk' : keep = (fun _ => true) \/ keep = ex_even) by (destruct Hk as [Hk|[Hk|[]]]; injection Hk as _ <-; auto).
      unfold enough_memory. destruct Hc as [<-|[<-|[<-|[]]]]; destruct Hk' as [-> | ->]; vm_compute; discriminate.
  - exists g. split; [exact E|]. split; [apply B; [discriminate|reflexivity]|].
    vm_cast_no_check (eq_refl (Some [0; 0; 1; 1; 2]%nat)).
Qed.

(** The same with indexes which are all true, and a limit on the number of incomplete row groups. *)
Definition ex_L : bconf nat := mkBconf 0 ex_agg (ByTime ex_tg) None false None 100 (Some 4) None (Some 1).
Definition ex_runs_L := [mkRun true false ex_seed1; mkRun false true ex_seed2; mkRun true true ex_seed3].
Example ex_C50_coalescing : exists g,
  run_all ex_idx (fun _ => true) (fun f => Z.of_nat (length (rows f))) (None : option (list ex_row -> unit -> list ex_row * unit * bool)) ex_fs tt segbuf_empty 0%nat (ex_start [ex_L]) ex_runs_L = Ok g /\
  all_batch (fun _ => Znum) ex_val ex_dtypes ex_idx ex_enc ex_gs [ex_L] ex_map ex_map (concat ex_seed3) g /\
  map (fun x => map content (data_of (s_main (snd x)))) (g_keys g) = [[[[0; 15; 5]; [5; 21; 8]; [10; 33; 12]]; [[15; -1; -1]; [20; 44; 16]]]].
Proof.
  destruct (shown_ok _ _ (fun g => map (fun x => map content (data_of (s_main (snd x)))) (g_keys g))
    (run_all ex_idx (fun _ => true) (fun f => Z.of_nat (length (rows f))) (None : option (list ex_row -> unit -> list ex_row * unit * bool)) ex_fs tt segbuf_empty 0%nat (ex_start [ex_L]) ex_runs_L) [[[[0; 15; 5]; [5; 21; 8]; [10; 33; 12]]; [[15; -1; -1]; [20; 44; 16]]]] ltac:(vm_cast_no_check (eq_refl (Some [[[[0; 15; 5]; [5; 21; 8]; [10; 33; 12]]; [[15; -1; -1]; [20; 44; 16]]]])))) as (g & E & Ed).
  exists g. split; [exact E|]. split.
  - change (concat ex_seed3) with (whole_seed [] ex_runs_L). eapply C50_streamed_is_batch; try exact E; auto.
    + exact I.
    + apply ex_filters_are.
    + apply ex_growing.
    + intros c [<-|[]]. split; [apply (ex_conf_ok ex_A); left; auto|]. split; [apply (ex_mok ex_C); right; right; left; auto|]. eexists. split; [left; reflexivity|exact I].
    + right. split; auto. repeat split; auto; discriminate.
    + discriminate.
  - exact Ed.
Qed.

(** Results need not be those of a single aggregation: *)
Definition stored (g : stream ex_row unit (@segbuf Z) nat) (i : nat) : option (list row) := option_map (fun x => all_rows (data_of (s_main (snd x)))) (nth_error (g_keys g) i).
Lemma batch_stored : forall confs seed g i c kp, all_batch (fun _ => Znum) ex_val ex_dtypes ex_idx ex_enc ex_gs confs ex_map ex_map seed g ->
  nth_error confs i = Some c -> In (c_filter c, kp) ex_gs -> given ex_idx kp seed <> [] -> type_of c = BINS ->
  exists bins, batch (fun _ => Znum) ex_val ex_dtypes ex_idx c (given ex_idx kp seed) = Ok (Some (bins, None)) /\ stored g i = Some (map (ex_map c) (rows (table ex_enc (c_agg c) bins))).
Proof.
  intros confs seed g i c kp H Ec Hk Hn Ht. destruct (H i c Ec) as (b & s & Ei & Hb). specialize (Hb kp Hk). apply holds_batch_as in Hb. unfold typed_batch in Hb. destruct (given ex_idx kp seed) as [|a l]; [contradiction|].
  destruct Hb as (bins & sn & E & Hb). rewrite Ht in Hb. destruct sn; [destruct Hb|]. exists bins. split; auto. unfold stored. rewrite Ei. cbn. rewrite Hb. auto.
Qed.
Ltac not_batch c Ed := let H0 := fresh in let H := fresh in let bi := fresh in let E := fresh in intro H0;
  destruct (batch_stored _ _ _ 0%nat c (fun _ => true) H0 eq_refl (or_introl eq_refl)) as (bi & E & H); [vm_compute; discriminate|reflexivity|]; rewrite Ed in H; vm_compute in E; injection E as <-; vm_compute in H; discriminate.

(** - with bins of 2 rows, when rows on each side of the end of a bin have the same time stamp: bins with the same label are
      merged or not, depending on chunks; *)
Definition ex_T : bconf nat := mkBconf 0 ex_agg (ByRows 2 SLeft) None false None 100 (Some 2) None None.
Theorem C50_ties_refuted : exists rs g, growing ex_idx [] rs /\ ex_run (ex_start [ex_T]) rs = Ok g /\ r_final (last rs (mkRun false false [])) = true /\
  ~ all_batch (fun _ => Znum) ex_val ex_dtypes ex_idx ex_enc ex_gs [ex_T] ex_map ex_map (whole_seed [] rs) g.
Proof.
  set (rs := [mkRun true true [[(1,1);(1,2);(1,3)];[(2,5);(3,6)]]; mkRun false true [[(1,1);(1,2);(1,3)];[(2,5);(3,6);(4,7)]]]).
  destruct (shown_ok _ _ (fun g => stored g 0) (ex_run (ex_start [ex_T]) rs) (Some [[1; 8; 5]; [3; 6; 6]]) ltac:(vm_cast_no_check (eq_refl (Some (Some [[1; 8; 5]; [3; 6; 6]]))))) as (g & E & Ed). exists rs, g.
  split; [|split; [exact E|split; [reflexivity|]]].
  - repeat split; try (apply IterProofs.sortedb_iff; reflexivity); try (apply ex_chunks; reflexivity); extended.
  - not_batch ex_T Ed.
Qed.
Print Assumptions C50_ties_refuted.

(** - with a limit on the number of incomplete row groups, when a new AggStream instance is used while intermediate results
      have been written, but not final ones: bins are duplicated. *)
Definition ex_U : bconf nat := mkBconf 0 ex_agg (ByTime ex_tg) None false None 4 (Some 2) None (Some 1).
Definition ex_unit_rows (n : nat) : list (list ex_row) := map (fun i => [(Z.of_nat i, 1)]) (seq 1 n).
Theorem C50_coalescing_refuted : exists rs g, growing ex_idx [] rs /\ ex_run (ex_start [ex_U]) rs = Ok g /\ r_final (last rs (mkRun false false [])) = true /\
  ~ all_batch (fun _ => Znum) ex_val ex_dtypes ex_idx ex_enc ex_gs [ex_U] ex_map ex_map (whole_seed [] rs) g /\
  stored g 0 = Some [[0; 4; 1]; [5; 5; 1]; [5; 5; 1]; [10; 5; 1]; [15; 5; 1]; [20; 2; 1]].
Proof.
  set (rs := [mkRun true true (ex_unit_rows 8); mkRun false false (ex_unit_rows 22); mkRun true true [concat (ex_unit_rows 22)]]).
  destruct (shown_ok _ _ (fun g => stored g 0) (ex_run (ex_start [ex_U]) rs) (Some [[0; 4; 1]; [5; 5; 1]; [5; 5; 1]; [10; 5; 1]; [15; 5; 1]; [20; 2; 1]]) ltac:(vm_cast_no_check (eq_refl (Some (Some [[0; 4; 1]; [5; 5; 1]; [5; 5; 1]; [10; 5; 1]; [15; 5; 1]; [20; 2; 1]]))))) as (g & E & Ed). exists rs, g.
  split; [|split; [exact E|split; [reflexivity|split; [|exact Ed]]]].
  - repeat split; try (apply IterProofs.sortedb_iff; reflexivity); try (apply ex_chunks; reflexivity); extended.
  - not_batch ex_U Ed.
Qed.
Print Assumptions C50_coalescing_refuted.

(** A run can fail: chunks which do not complete a bin lead to the write of an empty data frame. *)
Theorem C50_small_chunks_refuted : exists c rs, growing ex_idx [] rs /\ conf_ok ex_dtypes c /\ ex_run (ex_start [c]) rs = Err IndexError.
Proof.
  exists (mkBconf 0 ex_agg (ByTime ex_tg) None false None 0 (Some 2) None None), [mkRun true true (ex_unit_rows 8); mkRun false false (ex_unit_rows 22)].
  split; [|split; [|vm_compute; reflexivity]].
  - repeat split; try (apply IterProofs.sortedb_iff; reflexivity); try (apply ex_chunks; reflexivity); extended.
  - apply (ex_conf_ok ex_A). left. auto.
Qed.
Print Assumptions C50_small_chunks_refuted.

(** ** C51: interruptions *)

(** Once all keys have results of complete runs, runs may be interrupted after any number of writes, or stop by themselves at an
    exception (of the seed, a filter, the aggregation, 'post' or a write): with a new AggStream
    instance, and the last run complete, keys hold the results of a single aggregation. For keys with results of bins or
    of snapshots, and no limit on the number of incomplete row groups. *)
Theorem C51_interrupted_is_batch : forall {D V P PB} (N : dtype -> num V) val dtypes (idx : D -> Z) enc truthy usage
    (pre : option (list D -> P -> list D * P * bool)) fs gs pre0 post0 (confs : list (bconf PB)) m ms rs g0 xs g r,
  harmless pre -> filters_are fs gs -> growing idx [] rs -> growing idx (whole_seed [] rs) (map run_of xs) ->
  stream_ok N val dtypes idx enc gs confs m ms (whole_seed (whole_seed [] rs) (map run_of xs)) ->
  (forall c, In c confs -> type_of c <> BOTH /\ c_nirgs c = None) ->
  run_all idx truthy usage pre fs pre0 segbuf_empty post0 (new_stream pre0 segbuf_empty post0 (map (key_of N val dtypes idx enc) confs)) rs = Ok g0 ->
  (forall s, In s (map snd (g_keys g0)) -> s_main s <> None) ->
  restarted false xs -> step_all idx truthy usage pre fs pre0 segbuf_empty post0 g0 xs = Ok g ->
  last xs (Complete (mkRun false false [])) = Complete r -> r_final r = true ->
  all_batch N val dtypes idx enc gs confs m ms (whole_seed (whole_seed [] rs) (map run_of xs)) g.
Proof. intros. eapply batch_steps; eauto. Qed.
Print Assumptions C51_interrupted_is_batch.

Lemma nth_error_ext : forall A (l l' : list A), (forall i, nth_error l i = nth_error l' i) -> l = l'.
Proof.
  induction l as [|a l IH]; intros [|b l'] H; auto; try (specialize (H 0%nat); discriminate). f_equal; [specialize (H 0%nat); injection H; auto|].
  apply IH. intro i. apply (H (S i)).
Qed.
(** Hence stored rows are those of any uninterrupted history over the same seed data. *)
Theorem C51_same_as_uninterrupted : forall {D V P PB} (N : dtype -> num V) val dtypes (idx : D -> Z) enc truthy usage
    (pre : option (list D -> P -> list D * P * bool)) fs gs pre0 post0 (confs : list (bconf PB)) m ms rs g0 xs g r rs' g',
  let start := new_stream pre0 segbuf_empty post0 (map (key_of N val dtypes idx enc) confs) in
  harmless pre -> filters_are fs gs -> growing idx [] rs -> growing idx (whole_seed [] rs) (map run_of xs) -> growing idx [] rs' ->
  whole_seed [] rs' = whole_seed (whole_seed [] rs) (map run_of xs) ->
  stream_ok N val dtypes idx enc gs confs m ms (whole_seed [] rs') ->
  (forall c, In c confs -> type_of c <> BOTH /\ c_nirgs c = None) ->
  run_all idx truthy usage pre fs pre0 segbuf_empty post0 start rs = Ok g0 ->
  (forall s, In s (map snd (g_keys g0)) -> s_main s <> None) ->
  restarted false xs -> step_all idx truthy usage pre fs pre0 segbuf_empty post0 g0 xs = Ok g ->
  last xs (Complete (mkRun false false [])) = Complete r -> r_final r = true ->
  run_all idx truthy usage pre fs pre0 segbuf_empty post0 start rs' = Ok g' ->
  rs' <> [] -> r_final (last rs' (mkRun false false [])) = true ->
  map (fun s => all_rows (data_of (s_main s))) (map snd (g_keys g)) = map (fun s => all_rows (data_of (s_main s))) (map snd (g_keys g')).
Proof.
  intros D V P PB N val dtypes idx enc truthy usage pre fs gs pre0 post0 confs m ms rs g0 xs g r rs' g' start Hp Hf Hg Hg1 Hg' Es Hok Hc E0 Hmn Hr E Hl Hfin E' Hne Hl'.
  assert (B' : all_batch N val dtypes idx enc gs confs m ms (whole_seed [] rs') g').
  { eapply C50_streamed_is_batch; eauto. left. intros c Hin. apply (Hc c Hin). }
  assert (B : all_batch N val dtypes idx enc gs confs m ms (whole_seed [] rs') g).
  { rewrite Es in Hok |- *. eapply C51_interrupted_is_batch; eauto. }
  assert (K : length (g_keys g) = length confs).
  { assert (A := step_all_keys idx truthy usage _ _ _ _ _ _ _ _ E). rewrite (run_all_keys idx truthy usage _ _ _ _ _ _ _ _ E0) in A.
    apply (f_equal (@length _)) in A. unfold start, new_stream in A. cbn [g_keys] in A. rewrite !map_length in A. auto. }
  assert (K' : length (g_keys g') = length confs).
  { assert (A := run_all_keys idx truthy usage _ _ _ _ _ _ _ _ E').
    apply (f_equal (@length _)) in A. unfold start, new_stream in A. cbn [g_keys] in A. rewrite !map_length in A. auto. }
  apply nth_error_ext. intro i. rewrite !nth_error_map. destruct (nth_error confs i) as [c|] eqn:Ec.
  - destruct (B i c Ec) as (b & s & Ei & Hb), (B' i c Ec) as (b' & s' & Ei' & Hb'). rewrite Ei, Ei'. cbn. f_equal.
    destruct (Hok c (nth_error_In _ _ Ec)) as (_ & _ & kp & Hk & _). specialize (Hb kp Hk). specialize (Hb' kp Hk).
    destruct (Hc c (nth_error_In _ _ Ec)) as [Hty _]. apply holds_batch_as in Hb. apply holds_batch_as in Hb'. unfold typed_batch in Hb, Hb'.
    destruct (given idx kp (whole_seed [] rs')) as [|a l].
    + destruct Hb as [-> _], Hb' as [-> _]. auto.
    + destruct Hb as (bi & sn & F & Hb), Hb' as (bi' & sn' & F' & Hb'). rewrite F in F'. injection F' as <- <-.
      destruct (type_of c), sn; try contradiction; congruence.
  - apply nth_error_None in Ec. rewrite (proj2 (nth_error_None (g_keys g) i)), (proj2 (nth_error_None (g_keys g') i)) by congruence. auto.
Qed.
Print Assumptions C51_same_as_uninterrupted.

(** Keys whose results stem from a run interrupted in its first run, once an intermediate write has been made and before the
    final ones, are refused: metadata is only written with final results. *)
Theorem C51_first_run_refused : forall {D P SB PB} (idx : D -> Z) truthy usage (pre : option (list D -> P -> list D * P * bool)) fs pre0 (seg0 : SB) (post0 : PB) (ks : list (kconf D SB PB))
    seed trim_start discard_last g ex n,
  let new := new_stream pre0 seg0 post0 ks in
  agg_t idx truthy usage pre fs new seed trim_start discard_last false = (g, ex) ->
  (exists i e, In (i, (false, e)) (made n (g_log g)) /\ (i < length ks)%nat) ->
  init pre0 seg0 post0 (map (fun x => let '(k, b, s) := x in (k, s)) (after_acts 0 (g_keys new) (made n (g_log g)))) = Err ValueError.
Proof.
  intros D P SB PB idx truthy usage pre fs pre0 seg0 post0 ks seed tr dl g ex n new H (i & e & Hin & Hi).
  assert (A0 : all_phi without_md (fun _ : kconf D SB PB => True) (g_keys new)).
  { intros k b s Hk. apply in_map_iff in Hk as (k' & Q & _). injection Q as <- <- <-. split; [exact I|reflexivity]. }
  destruct (agg_phi idx truthy usage without_md (fun _ : kconf D SB PB => True) (iter_without truthy usage) pre fs new g seed tr dl false ex) as (_ & l & El & Hl); auto; [discriminate|].
  cbn [new new_stream g_log app] in El. rewrite El in *.
  assert (Hd : log_phi without_md (made n l)) by (apply (log_phi_made without_md n l Hl)).
  pose proof (after_acts_phi without_md (fun _ : kconf D SB PB => True) (g_keys new) 0 (made n l) A0 Hd) as Ap.
  assert (Ex : exists k b s, In (k, b, s) (after_acts 0 (g_keys new) (made n l)) /\ s_main s <> None).
  { set (done := made n l) in *. clear - Hin Hi.
    assert (M : forall acts (s : kstore P SB PB), (s_main s <> None \/ exists e, In (false, e) acts) -> s_main (apply_acts s acts) <> None).
    { induction acts as [|[c a] acts IH]; intros s [H|[e' H]]; [auto|destruct H|apply IH; left; destruct c; [auto|discriminate]|]. destruct H as [H|H]; [injection H as -> ->; apply IH; left; discriminate|apply IH; right; eauto]. }
    assert (G : forall (ks : list (kconf D SB PB * kbuf SB PB * kstore P SB PB)) m, (m <= i < m + length ks)%nat -> exists k b s, In (k, b, s) (after_acts m ks done) /\ s_main s <> None).
    { induction ks0 as [|[[k b] s] ks0 IH]; intros m Hm; cbn [length] in Hm; [lia|]. cbn [after_acts]. destruct (Nat.eq_dec m i) as [->|Hne].
      - exists k, b, (apply_acts s (acts_of i done)). split; [left; auto|]. apply M. right. exists e. unfold acts_of. apply in_map_iff. exists (i, (false, e)). split; auto. apply filter_In. split; auto. apply Nat.eqb_eq. auto.
      - destruct (IH (S m)) as (k' & b' & s' & Q & Q'); [lia|]. exists k', b', s'. split; [right|]; auto. }
    apply G. unfold new, new_stream. cbn [g_keys]. rewrite map_length. lia. }
  destruct Ex as (k & b & s & Hs & Hm). destruct (s_main s) as [en|] eqn:Es; [|congruence].
  eapply PropStream.C53_foreign_refused; [apply in_map_iff; exists (k, b, s); split; [reflexivity|exact Hs]|exact Es|].
  destruct (Ap k b s Hs) as [_ Q]. rewrite Es in Q. exact Q.
Qed.
Print Assumptions C51_first_run_refused.

(** A single key with results and metadata is accepted after the interruption of a run, wherever it occurs, or an exception. *)
Theorem C51_single_key_accepted : forall {D P SB PB} (idx : D -> Z) truthy usage (pre : option (list D -> P -> list D * P * bool)) fs pre0 (seg0 : SB) (post0 : PB) (k : kconf D SB PB) b s e md
    restart p log seed trim_start discard_last final g ex n,
  writes_by_label k -> s_main s = Some e -> e_md e = Some md -> all_rows (e_data e) <> [] ->
  let g0 := mkStream restart p [(k, b, s)] log in
  agg_t idx truthy usage pre fs g0 seed trim_start discard_last final = (g, ex) ->
  exists g1, init pre0 seg0 post0 (map (fun x => let '(k, b, s) := x in (k, s)) (after_acts 0 (g_keys g0) (made n (skipn (length log) (g_log g))))) = Ok g1.
Proof.
  intros D P SB PB idx truthy usage pre fs pre0 seg0 post0 k b s e md restart p log seed tr dl final g ex n [Hw _] Es Em Hd g0 H.
  assert (A0 : all_phi with_md (fun k : kconf D SB PB => by_label (k_write k)) (g_keys g0)).
  { intros k' b' s' [Q|[]]. injection Q as <- <- <-. split; auto. rewrite Es. split; cbn; [congruence|auto]. }
  destruct (agg_phi idx truthy usage with_md (fun k : kconf D SB PB => by_label (k_write k)) (iter_with truthy usage) pre fs g0 g seed tr dl final ex) as (_ & l & El & Hl); auto.
  { intros _. apply final_with. }
  cbn [g0 g_log] in El. rewrite El, skipn_app, skipn_all, Nat.sub_diag. cbn [skipn app].
  pose proof (after_acts_phi with_md (fun k : kconf D SB PB => by_label (k_write k)) (g_keys g0) 0 (made n l) A0 (log_phi_made with_md n l Hl)) as Ap.
  cbn [g0 g_keys after_acts map] in Ap |- *. set (s' := apply_acts s _) in *. destruct (Ap k b s' (or_introl eq_refl)) as [_ [Q _]]. unfold init. cbn [init_keys].
  destruct (s_main s') as [e'|]; cbn [md_of] in Q; [|congruence]. destruct (e_md e') as [md'|]; [|congruence]. cbn. eauto.
Qed.
Print Assumptions C51_single_key_accepted.

(** *** Cases *)
Definition ex_steps := [Interrupted (mkRun true true ex_seed2) [0; 0; 1]%nat; Interrupted (mkRun true true ex_seed3) []; Complete (mkRun true true ex_seed3)].
Definition ex_first := [mkRun true true ex_seed1].
Definition ex_main (g : stream ex_row unit (@segbuf Z) nat) := map (fun x => map content (data_of (s_main (snd x)))) (g_keys g).
Lemma shown_bind : forall A B C (f : B -> C) (r : res A) (k : A -> res B) x, shown f (let* a := r in k a) = Some x -> exists a b, r = Ok a /\ k a = Ok b /\ f b = x.
Proof. intros A B C f [a|e] k x H; [|discriminate]. cbn [bind] in H. destruct (shown_ok _ _ _ _ _ H) as (b & E & F). eauto. Qed.
(** Runs interrupted once a modification of store has been made, for the last key only, then before any of them, then complete. *)
Example ex_C51 : exists g0 g1 g, ex_run (ex_start [ex_A; ex_C; ex_D]) ex_first = Ok g0 /\ ex_step g0 (firstn 1 ex_steps) = Ok g1 /\ ex_step g0 ex_steps = Ok g /\
  all_batch (fun _ => Znum) ex_val ex_dtypes ex_idx ex_enc ex_gs [ex_A; ex_C; ex_D] ex_map ex_map (concat ex_seed3) g /\
  ex_main g0 = [[[[0; 30; 5]; [5; 12; 6]]]; [[[1; 6; 3]; [3; 15; 6]]]; [[[0; 1; 1]]; [[2; 10; 4]; [4; 6; 6]]]] /\
  ex_main g1 = [[[[0; 30; 5]; [5; 12; 6]]]; [[[1; 6; 3]; [3; 15; 6]]];
    [[[0; 1; 1]]; [[2; 10; 4]]; [[4; 6; 6]; [6; 6; 6]]; [[8; 21; 8]; [10; 10; 10]]]] /\
  ex_main g = [[[[0; 30; 5]]; [[5; 42; 8]; [10; 66; 12]]; [[15; -2; -1]; [20; 88; 16]]];
    [[[1; 6; 3]]; [[3; 15; 6]; [8; 25; 10]]; [[12; 36; 13]; [21; 31; 16]]];
    [[[0; 1; 1]]; [[2; 10; 4]]; [[4; 6; 6]]; [[6; 6; 6]]; [[8; 21; 8]]; [[10; 10; 10]]; [[12; 33; 12]; [14; -1; -1]]; [[16; -1; -1]; [18; -1; -1]]; [[20; 44; 16]]]].
Proof.
  destruct (shown_ok _ _ (fun g => (ex_main g, map (fun x => match s_main (snd x) with Some _ => true | None => false end) (g_keys g))) (ex_run (ex_start [ex_A; ex_C; ex_D]) ex_first)
    ([[[[0; 30; 5]; [5; 12; 6]]]; [[[1; 6; 3]; [3; 15; 6]]]; [[[0; 1; 1]]; [[2; 10; 4]; [4; 6; 6]]]], [true; true; true])) as (g0 & E0 & D0).
  { vm_cast_no_check (eq_refl (Some ([[[[0; 30; 5]; [5; 12; 6]]]; [[[1; 6; 3]; [3; 15; 6]]]; [[[0; 1; 1]]; [[2; 10; 4]; [4; 6; 6]]]], [true; true; true]))). }
  destruct (shown_bind _ _ _ ex_main (ex_run (ex_start [ex_A; ex_C; ex_D]) ex_first) (fun g => ex_step g (firstn 1 ex_steps))
    [[[[0; 30; 5]; [5; 12; 6]]]; [[[1; 6; 3]; [3; 15; 6]]]; [[[0; 1; 1]]; [[2; 10; 4]]; [[4; 6; 6]; [6; 6; 6]]; [[8; 21; 8]; [10; 10; 10]]]]) as (g0' & g1 & E0' & E1 & D1).
  { vm_cast_no_check (eq_refl (Some [[[[0; 30; 5]; [5; 12; 6]]]; [[[1; 6; 3]; [3; 15; 6]]]; [[[0; 1; 1]]; [[2; 10; 4]]; [[4; 6; 6]; [6; 6; 6]]; [[8; 21; 8]; [10; 10; 10]]]])). }
  assert (g0' = g0) as -> by congruence. clear E0'.
  destruct (shown_bind _ _ _ ex_main (ex_run (ex_start [ex_A; ex_C; ex_D]) ex_first) (fun g => ex_step g ex_steps)
    [[[[0; 30; 5]]; [[5; 42; 8]; [10; 66; 12]]; [[15; -2; -1]; [20; 88; 16]]];
    [[[1; 6; 3]]; [[3; 15; 6]; [8; 25; 10]]; [[12; 36; 13]; [21; 31; 16]]];
    [[[0; 1; 1]]; [[2; 10; 4]]; [[4; 6; 6]]; [[6; 6; 6]]; [[8; 21; 8]]; [[10; 10; 10]]; [[12; 33; 12]; [14; -1; -1]]; [[16; -1; -1]; [18; -1; -1]]; [[20; 44; 16]]]]) as (g0' & g & E0' & E2 & D2).
  { vm_cast_no_check (eq_refl (Some [[[[0; 30; 5]]; [[5; 42; 8]; [10; 66; 12]]; [[15; -2; -1]; [20; 88; 16]]];
    [[[1; 6; 3]]; [[3; 15; 6]; [8; 25; 10]]; [[12; 36; 13]; [21; 31; 16]]];
    [[[0; 1; 1]]; [[2; 10; 4]]; [[4; 6; 6]]; [[6; 6; 6]]; [[8; 21; 8]]; [[10; 10; 10]]; [[12; 33; 12]; [14; -1; -1]]; [[16; -1; -1]; [18; -1; -1]]; [[20; 44; 16]]]])). }
  assert (g0' = g0) as -> by congruence. clear E0'. injection D0 as D0 D0'.
  exists g0, g1, g. split; [exact E0|]. split; [exact E1|]. split; [exact E2|]. split; [|auto].
  change (concat ex_seed3) with (whole_seed (whole_seed [] ex_first) (map run_of ex_steps)).
  assert (Sub : forall c, In c [ex_A; ex_C; ex_D] -> In c ex_confs) by (intros c [<-|[<-|[<-|[]]]]; unfold ex_confs; simpl; auto).
  apply (C51_interrupted_is_batch (fun _ => Znum) ex_val ex_dtypes ex_idx ex_enc ex_truthy (fun f => Z.of_nat (length (rows f))) None ex_fs ex_gs tt 0%nat [ex_A; ex_C; ex_D] ex_map ex_map ex_first g0 ex_steps g (mkRun true true ex_seed3)).
  - exact I.
  - apply ex_filters_are.
  - destruct ex_growing as (A & B & C & _). repeat split; auto.
  - destruct ex_growing as (_ & _ & _ & A & B & C & D & E & F & _). repeat split; auto; extended.
  - intros c Hc. apply (ex_stream_ok c (Sub c Hc)).
  - intros c [<-|[<-|[<-|[]]]]; split; auto; discriminate.
  - exact E0.
  - intros s Hs Hn. assert (Q : In false (map (fun x : kconf ex_row (@segbuf Z) nat * kbuf (@segbuf Z) nat * kstore unit (@segbuf Z) nat => match s_main (snd x) with Some _ => true | None => false end) (g_keys g0))).
    { apply in_map_iff in Hs as (x & Ex & Hx). apply in_map_iff. exists x. rewrite Ex, Hn. auto. }
    rewrite D0' in Q. destruct Q as [Q|[Q|[Q|[]]]]; discriminate.
  - repeat split; auto; discriminate.
  - exact E2.
  - reflexivity.
  - reflexivity.
Qed.
(** A run stopped by an exception of 'post', which refuses a provisional bin, then a complete one. *)
Definition ex_post_raises : nat -> WrModel.frame -> option WrModel.frame -> res (post_res * nat) :=
  fun n f sn => match last (rows f) [] with [20; 13; 13] => Err UserExn | _ => ex_post n f sn end.
Definition ex_R : bconf nat := mkBconf 0 ex_agg (ByTime ex_tg) None false (Some ex_post_raises) 1 (Some 2) None None.
Definition ex_raising := [Interrupted (mkRun true true ex_seed2) [100; 1]%nat; Complete (mkRun true true ex_seed3)].
Lemma ex_mok_R : post_is (ex_key ex_R) (ex_map ex_R) (ex_map ex_R).
Proof.
  destruct (ex_mok ex_A (or_introl eq_refl)) as (A & B & C). split; [exact A|]. split; [exact B|]. intros pb f sn r pb' E. apply (C pb f sn r pb').
  cbn [k_post key_of ex_R ex_A c_post] in E |- *. unfold ex_post_raises in E. repeat (match type of E with context[match ?x with _ => _ end] => is_var x; destruct x end; try exact E).
  revert E. generalize (last (rows f) []). intros l E.
  repeat (match type of E with context[match ?x with _ => _ end] => is_var x; destruct x end; try exact E; try discriminate E).
Qed.
Lemma raised_shown : forall A (r : res A) e, match r with Err e => Some e | Ok _ => None end = Some e -> r = Err e.
Proof. intros A [a|e'] e H; [discriminate|]. injection H as ->. reflexivity. Qed.
Example ex_C51_raises : exists g0 g1 g, ex_run (ex_start [ex_R; ex_D]) ex_first = Ok g0 /\ ex_run g0 [mkRun true true ex_seed2] = Err UserExn /\
  ex_step g0 (firstn 1 ex_raising) = Ok g1 /\ ex_step g0 ex_raising = Ok g /\
  all_batch (fun _ => Znum) ex_val ex_dtypes ex_idx ex_enc ex_gs [ex_R; ex_D] ex_map ex_map (concat ex_seed3) g /\
  ex_main g1 = [[[[0; 30; 5]; [5; 12; 6]]]; [[[0; 1; 1]]; [[2; 10; 4]]; [[4; 6; 6]; [6; 6; 6]]; [[8; 21; 8]; [10; 10; 10]]]].
Proof.
  destruct (shown_ok _ _ (fun g => (match ex_run g [mkRun true true ex_seed2] with Err e => Some e | _ => None end, map (fun x => match s_main (snd x) with Some _ => true | None => false end) (g_keys g)))
    (ex_run (ex_start [ex_R; ex_D]) ex_first) (Some UserExn, [true; true]) ltac:(vm_cast_no_check (eq_refl (Some (Some UserExn, [true; true]))))) as (g0 & E0 & D0).
  destruct (shown_bind _ _ _ ex_main (ex_run (ex_start [ex_R; ex_D]) ex_first) (fun g => ex_step g (firstn 1 ex_raising)) [[[[0; 30; 5]; [5; 12; 6]]]; [[[0; 1; 1]]; [[2; 10; 4]]; [[4; 6; 6]; [6; 6; 6]]; [[8; 21; 8]; [10; 10; 10]]]]
    ltac:(vm_cast_no_check (eq_refl (Some [[[[0; 30; 5]; [5; 12; 6]]]; [[[0; 1; 1]]; [[2; 10; 4]]; [[4; 6; 6]; [6; 6; 6]]; [[8; 21; 8]; [10; 10; 10]]]])))) as (g0' & g1 & E0' & E1 & D1).
  assert (g0' = g0) as -> by congruence. clear E0'.
  destruct (shown_bind _ _ _ (fun _ => tt) (ex_run (ex_start [ex_R; ex_D]) ex_first) (fun g => ex_step g ex_raising) tt
    ltac:(vm_cast_no_check (eq_refl (Some tt)))) as (g0' & g & E0' & E2 & _).
  assert (g0' = g0) as -> by congruence. clear E0'. injection D0 as Dr D0'.
  exists g0, g1, g. split; [exact E0|]. split; [exact (raised_shown _ _ _ Dr)|]. split; [exact E1|]. split; [exact E2|]. split; [|exact D1].
  change (concat ex_seed3) with (whole_seed (whole_seed [] ex_first) (map run_of ex_raising)).
  apply (C51_interrupted_is_batch (fun _ => Znum) ex_val ex_dtypes ex_idx ex_enc ex_truthy (fun f => Z.of_nat (length (rows f))) None ex_fs ex_gs tt 0%nat [ex_R; ex_D] ex_map ex_map ex_first g0 ex_raising g (mkRun true true ex_seed3)).
  - exact I.
  - apply ex_filters_are.
  - destruct ex_growing as (A & B & C & _). repeat split; auto.
  - destruct ex_growing as (_ & _ & _ & A & B & C & D & E & F & _). repeat split; auto.
  - intros c [<-|[<-|[]]].
    + split; [apply (ex_conf_ok ex_A); left; auto|]. split; [apply ex_mok_R|]. eexists. split; [left; reflexivity|exact I].
    + apply (ex_stream_ok ex_D). unfold ex_confs. simpl. auto.
  - intros c [<-|[<-|[]]]; split; auto; discriminate.
  - exact E0.
  - intros s Hs Hn. assert (Q : In false (map (fun x : kconf ex_row (@segbuf Z) nat * kbuf (@segbuf Z) nat * kstore unit (@segbuf Z) nat => match s_main (snd x) with Some _ => true | None => false end) (g_keys g0))).
    { apply in_map_iff in Hs as (x & Ex & Hx). apply in_map_iff. exists x. rewrite Ex, Hn. auto. }
    rewrite D0' in Q. destruct Q as [Q|[Q|[]]]; discriminate.
  - repeat split; auto; discriminate.
  - exact E2.
  - reflexivity.
  - reflexivity.
Qed.
Lemma pair_shown : forall A B C (f : A * B -> C) x y, f x = y -> exists a b, x = (a, b) /\ f (a, b) = y.
Proof. intros A B C f [a b] y H. eauto. Qed.
Notation ex_call := (agg_t ex_idx ex_truthy (fun f => Z.of_nat (length (rows f))) (None : option (list ex_row -> unit -> list ex_row * unit * bool)) ex_fs).
Example ex_C51_first_run : exists g, ex_call (ex_start [ex_A; ex_C; ex_D]) ex_seed1 true true false = (g, Ok None) /\
  exists e, In (2%nat, (false, e)) (made (fun i => nth i [0; 0; 1]%nat O) (g_log g)).
Proof.
  destruct (pair_shown _ _ _ (fun x => (map (fun y => (fst y, fst (snd y))) (g_log (fst x)), snd x)) (ex_call (ex_start [ex_A; ex_C; ex_D]) ex_seed1 true true false)
    ([(2%nat, false)], Ok None) ltac:(vm_cast_no_check (eq_refl ([(2%nat, false)], @Ok (option exn) None)))) as (g & ex & E & F). cbn [fst snd] in F. injection F as F ->.
  exists g. split; [exact E|]. destruct (g_log g) as [|[i [c e]] l]; [discriminate|]. injection F as -> -> _. exists e. left. auto.
Qed.

(** *** What does not hold *)
Definition ex_E : bconf nat := mkBconf 0 ex_agg (ByTime ex_tg) None false None 100 (Some 2) None None.
Definition ex_F : bconf nat := mkBconf 1 ex_agg (ByTime ex_tg) None false None 100 (Some 2) None None.
Definition ex_G : bconf nat := mkBconf 0 ex_agg (ByTime ex_tg) (Some ex_snap) true None 100 (Some 20) (Some 30) None.
(** - With 2 keys, if final results are written for the first only, restart indexes are not the same: no new AggStream instance can be
      made. *)
Theorem C51_several_keys_refuted : exists g0 r, ex_run (ex_start [ex_E; ex_F]) ex_first = Ok g0 /\ growing ex_idx (whole_seed [] ex_first) [r] /\ r_fresh r = true /\
  ex_step g0 [Interrupted r [1%nat]; Complete r] = Err ValueError.
Proof.
  destruct (shown_ok _ _ (fun g => match ex_step g [Interrupted (mkRun true true ex_seed2) [1%nat]; Complete (mkRun true true ex_seed2)] with Err e => Some e | _ => None end) (ex_run (ex_start [ex_E; ex_F]) ex_first)
    (Some ValueError) ltac:(vm_cast_no_check (eq_refl (Some (Some ValueError))))) as (g0 & E & F). exists g0, (mkRun true true ex_seed2). split; [exact E|]. split; [|split; [reflexivity|]].
  - destruct ex_growing as (_ & _ & _ & A & B & C & _). repeat split; auto.
  - destruct (ex_step g0 _) as [g|e]; [discriminate F|]. injection F as ->. reflexivity.
Qed.
Print Assumptions C51_several_keys_refuted.

(** - If this happens in the first run, a new instance is accepted, but results of the second key miss the rows which are before the index
      recorded for the first key. *)
Theorem C51_absent_key_refuted : exists r1 r2 g, growing ex_idx [] [r1; r2] /\ r_fresh r2 = true /\ r_final r2 = true /\
  ex_step (ex_start [ex_E; ex_F]) [Interrupted r1 [1%nat]; Complete r2] = Ok g /\
  ex_main g = [[[[0; 15; 5]; [5; 21; 8]]; [[10; 33; 12]; [15; -1; -1]]; [[20; 44; 16]]]; [[[20; 16; 16]]]] /\
  shown (fun r => match r with Some (bins, _) => rows (table ex_enc ex_agg bins) | None => [] end) (batch (fun _ => Znum) ex_val ex_dtypes ex_idx ex_F (given ex_idx ex_even (concat (r_seed r2))))
  = Some [[0; 6; 4]; [5; 14; 8]; [10; 22; 12]; [15; -1; -1]; [20; 16; 16]].
Proof.
  destruct (shown_ok _ _ ex_main (ex_step (ex_start [ex_E; ex_F]) [Interrupted (mkRun true true ex_seed2) [1%nat]; Complete (mkRun true true ex_seed3)])
    [[[[0; 15; 5]; [5; 21; 8]]; [[10; 33; 12]; [15; -1; -1]]; [[20; 44; 16]]]; [[[20; 16; 16]]]]
    ltac:(vm_cast_no_check (eq_refl (Some [[[[0; 15; 5]; [5; 21; 8]]; [[10; 33; 12]; [15; -1; -1]]; [[20; 44; 16]]]; [[[20; 16; 16]]]])))) as (g & E & F).
  exists (mkRun true true ex_seed2), (mkRun true true ex_seed3), g. split; [|split; [reflexivity|split; [reflexivity|split; [exact E|split; [exact F|]]]]].
  - destruct ex_growing as (_ & _ & _ & _ & B & C & D0 & G & H & _). repeat split; auto; extended.
  - vm_cast_no_check (eq_refl (Some [[0; 6; 4]; [5; 14; 8]; [10; 22; 12]; [15; -1; -1]; [20; 16; 16]])).
Qed.
Print Assumptions C51_absent_key_refuted.

(** - With results of bins and snapshots, metadata is written with bins: if results of snapshots are not written, they are not made again
      afterwards. *)
Theorem C51_snapshots_refuted : exists g0 r1 r2 g, growing ex_idx (whole_seed [] ex_first) [r1; r2] /\ r_fresh r2 = true /\ r_final r2 = true /\
  ex_run (ex_start [ex_G]) ex_first = Ok g0 /\ ex_step g0 [Interrupted r1 [1%nat]; Complete r2] = Ok g /\
  ex_data g = [([[0; 15; 5]; [5; 21; 8]; [10; 33; 12]; [15; -1; -1]; [20; 44; 16]], [[0; 1; 1]; [2; 10; 4]; [4; 6; 6]; [20; 44; 16]])] /\
  shown (fun r => match r with Some (_, Some snaps) => rows (table ex_enc ex_agg snaps) | _ => [] end) (batch (fun _ => Znum) ex_val ex_dtypes ex_idx ex_G (given ex_idx (fun _ => true) (concat (r_seed r2))))
  = Some [[0; 1; 1]; [2; 10; 4]; [4; 6; 6]; [6; 6; 6]; [8; 21; 8]; [10; 10; 10]; [12; 33; 12]; [14; -1; -1]; [16; -1; -1]; [18; -1; -1]; [20; 44; 16]].
Proof.
  destruct (shown_bind _ _ _ ex_data (ex_run (ex_start [ex_G]) ex_first) (fun g => ex_step g [Interrupted (mkRun true true ex_seed2) [1%nat]; Complete (mkRun true true ex_seed3)])
    [([[0; 15; 5]; [5; 21; 8]; [10; 33; 12]; [15; -1; -1]; [20; 44; 16]], [[0; 1; 1]; [2; 10; 4]; [4; 6; 6]; [20; 44; 16]])]
    ltac:(vm_cast_no_check (eq_refl (Some [([[0; 15; 5]; [5; 21; 8]; [10; 33; 12]; [15; -1; -1]; [20; 44; 16]], [[0; 1; 1]; [2; 10; 4]; [4; 6; 6]; [20; 44; 16]])])))) as (g0 & g & E0 & E & F).
  exists g0, (mkRun true true ex_seed2), (mkRun true true ex_seed3), g. split; [|split; [reflexivity|split; [reflexivity|split; [exact E0|split; [exact E|split; [exact F|]]]]]].
  - destruct ex_growing as (_ & _ & _ & A & B & C & D0 & G & H & _). repeat split; auto.
  - vm_cast_no_check (eq_refl (Some [[0; 1; 1]; [2; 10; 4]; [4; 6; 6]; [6; 6; 6]; [8; 21; 8]; [10; 10; 10]; [12; 33; 12]; [14; -1; -1]; [16; -1; -1]; [18; -1; -1]; [20; 44; 16]])).
Qed.
Print Assumptions C51_snapshots_refuted.
