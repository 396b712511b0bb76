(** Property of streamed aggregation: calls made again with the same AggStream instance, after a failed final write. *)
Require Import List Arith ZArith Bool Lia Sorting.Sorted.
Require Import Verif.RecordProofs.
Require Import Verif.Common Verif.AggModel Verif.AggSpec Verif.SegModel Verif.SegSpec Verif.CsaModel Verif.CsaSpec Verif.WrModel Verif.StreamModel Verif.RaiseModel Verif.StreamSpec
  Verif.KeyModel Verif.TableProofs Verif.BatchSpec Verif.BatchProofs Verif.BatchRunProofs Verif.BatchKeyProofs Verif.BatchHoldProofs Verif.BatchOkProofs Verif.MdProofs Verif.PropBatch
  Verif.ReuseModel Verif.ReuseSpec Verif.ReuseProofs.
Require Verif.IterProofs.
Import ListNotations.
Local Open Scope Z_scope.

Section Main.
Context {D V P PB : Type}.
Variable N : dtype -> num V.
Variable val : D -> cname -> V.
Variable dtypes : list (cname * dtype).
Variable idx : D -> Z.
Variable enc : option V -> Z.
Variable truthy : Z -> bool.
Variable usage : WrModel.frame -> Z.
Variable pre : option (list D -> P -> list D * P * bool).
Variables (fs : @filters D) (gs : list (nat * (D -> bool))).
Variables (pre0 : P) (post0 : PB).
Variable confs : list (bconf PB).
Variables (m ms : bconf PB -> row -> row).
Notation key_of := (@key_of D V PB N val dtypes idx enc).
Notation kT := (kT N val dtypes idx enc).
Notation kTS := (kTS N val dtypes idx enc).
Notation kInv := (kInv N val dtypes idx).
Notation start := (new_stream pre0 segbuf_empty post0 (map key_of confs)).
Notation keep := (keep_of gs).
Notation ustream := (@ustream D P (@segbuf V) PB).

Lemma run_jobs_u_keys : forall job ws ks i ks' ex, run_jobs_u (D := D) (P := P) (SB := @segbuf V) (PB := PB) job ws i ks = (ks', ex) ->
  map (fun x => fst (fst (fst x))) ks' = map (fun x => fst (fst (fst x))) ks.
Proof.
  intros job ws. induction ks as [|[[[k b] s] pend] ks IH]; intros i ks' ex E; cbn [run_jobs_u] in E; [injection E as <- _; auto|].
  destruct (job (ws i) k b s pend) as [[[b' acts] pend'] e]. destruct (run_jobs_u job ws (S i) ks) as [l ex'] eqn:El. injection E as <- _. cbn [map fst]. f_equal. eapply IH; eauto.
Qed.
Definition keys_u (g : ustream) := map (fun x => fst (fst (fst x))) (u_keys g).
Lemma consume_u_keys : forall ws ys (g : ustream) n g' r, consume_u truthy usage g ws n ys = (g', r) -> keys_u g' = keys_u g.
Proof.
  intros ws. induction ys as [|[y|e] ys IH]; intros g n g' r E; cbn [consume_u] in E.
  - injection E as <- _. auto.
  - destruct (consume1_u truthy usage g (ws n) y) as [g1 ex] eqn:E1. assert (K : keys_u g1 = keys_u g).
    { destruct y as [[li id] chunk]. unfold consume1_u in E1. destruct (run_jobs_u _ _ _ _) as [ks ex'] eqn:Ej. injection E1 as <- _. unfold keys_u. cbn [u_keys]. eapply run_jobs_u_keys; eauto. }
    destruct ex; [injection E as <- _; auto|]. rewrite <- K. eapply IH; eauto.
  - destruct e; injection E as <- _; auto.
Qed.
Lemma agg_u_keys : forall c (g g' : ustream) o, agg_u idx truthy usage pre fs g true true c = (g', o) -> keys_u g' = keys_u g.
Proof.
  intros c g g' o E. unfold agg_u in E. match type of E with (let '(_, _) := ?A in _) = _ => destruct A as [g1 r] eqn:E1 end.
  assert (K : keys_u g1 = keys_u g).
  { destruct (u_seed c); [injection E1 as <- _; auto|]. destruct (iter_data _ _ _ _ _ _ _ _) as [ys p]. destruct (consume_u truthy usage g (u_loop c) 0 ys) as [g2 r2] eqn:Ec. injection E1 as <- _.
    rewrite <- (consume_u_keys _ _ _ _ _ _ Ec). reflexivity. }
  destruct r as [ex|e]; [|injection E as <- _; auto]. destruct (u_final c); [|injection E as <- _; auto].
  unfold final_write_u in E. destruct (run_jobs_u _ _ _ _) as [ks ex'] eqn:Ej. assert (K2 : keys_u (mkU (u_restart g1) (u_pre g1) ks) = keys_u g1) by (unfold keys_u; cbn [u_keys]; eapply run_jobs_u_keys; eauto).
  destruct ex'; injection E as <- _; congruence.
Qed.
Lemma calls_u_keys : forall cs (g g' : ustream) os, calls_u idx truthy usage pre fs g cs = (g', os) -> keys_u g' = keys_u g.
Proof.
  induction cs as [|c cs IH]; intros g g' os E; cbn [calls_u] in E; [injection E as <- _; auto|].
  destruct (agg_u idx truthy usage pre fs g true true c) as [g1 o] eqn:E1. destruct (calls_u idx truthy usage pre fs g1 cs) as [g2 os'] eqn:E2. injection E as <- _.
  rewrite (IH _ _ _ E2). eapply agg_u_keys; eauto.
Qed.
Lemma keys_to : forall g : ustream, keys_u g = map key_of confs -> map (fun x => fst (fst x)) (g_keys (to_stream g)) = map key_of confs.
Proof. intros g E. unfold to_stream. cbn [g_keys]. rewrite map_map. exact E. Qed.
Lemma keys_of : keys_u (of_stream start) = map key_of confs.
Proof. unfold keys_u, of_stream, new_stream. cbn [u_keys g_keys]. rewrite !map_map. reflexivity. Qed.
Lemma sorted_calls : forall cs before, calls_grow idx before cs -> sorted (map idx before) -> sorted (map idx (seed_of_calls before cs)).
Proof.
  induction cs as [|c cs IH]; intros before H Hs; cbn [calls_grow seed_of_calls] in *; auto. destruct (u_seed c) as [|ch l]; [apply IH; auto|]. destruct H as (_ & H1 & _ & H2). apply IH; auto.
Qed.

Lemma reuse : forall Sf cs g os, harmless pre -> filters_are fs gs -> calls_grow idx [] cs -> sorted (map idx Sf) -> grows idx (seed_of_calls [] cs) Sf -> stream_ok N val dtypes idx enc gs confs m ms Sf ->
  (forall c, In c confs -> type_of c = BOTH -> c_nirgs c = None) ->
  calls_u idx truthy usage pre fs (of_stream start) cs = (g, os) -> Forall written_or_not os -> last (map Some os) None = Some Returned ->
  (exists c, last (map Some cs) None = Some c /\ u_final c = true) ->
  final idx truthy key_of confs kT kTS kInv m ms keep Sf (seed_of_calls [] cs) g.
Proof.
  intros Sf cs g os Hp Hf Hg Hs Hst Hok Hc E Ho Hl (c & Hlc & Hfin). destruct (tab_hyps N val dtypes idx enc fs gs confs m ms _ Hf Hok) as (T0 & T1 & T2 & T3 & T4 & T5).
  assert (Hc' : forall x, In x confs -> k_type (key_of x) = BOTH -> max_nirgs (k_write (key_of x)) = None) by (intros x Hin Hb; apply (Hc x Hin Hb)).
  eapply (calls_alive idx truthy usage fs gs Hf pre Hp segbuf_empty key_of confs kT kTS kInv m ms keep (no_tie idx) T0 T1 T2 T3 T4 Hc' Sf Hs T5 cs [] (of_stream start) g os); eauto.
  - eapply start_alive; eauto.
  - constructor.
Qed.
End Main.

(** ** C71: results of a failed final write are not lost by the AggStream instance *)

(** Calls are made to the same AggStream instance, of a new aggregation: with seed data, which grows at its end, or without;
    with a final write of results, or not. Writes of results of keys fail in final writes of some calls, before any
    modification of the store or once bins are written and snapshots are not, or jobs of some keys are not started. Once a call
    with a final write returns, each key holds the results of a single aggregation of all rows given, before the
    last index: data can be given anew, or the call be made again without seed data. *)
Theorem C71_final_write_again : forall {D V P PB} (N : dtype -> num V) val dtypes (idx : D -> Z) enc truthy usage
    (pre : option (list D -> P -> list D * P * bool)) fs gs pre0 post0 (confs : list (bconf PB)) m ms cs g os,
  harmless pre -> filters_are fs gs -> calls_grow idx [] cs -> stream_ok N val dtypes idx enc gs confs m ms (seed_of_calls [] cs) ->
  (forall c, In c confs -> type_of c = BOTH -> c_nirgs c = None) ->
  calls_u idx truthy usage pre fs (of_stream (new_stream pre0 segbuf_empty post0 (map (key_of N val dtypes idx enc) confs))) cs = (g, os) ->
  Forall written_or_not os -> last (map Some os) None = Some Returned -> (exists c, last (map Some cs) None = Some c /\ u_final c = true) ->
  all_batch N val dtypes idx enc gs confs m ms (seed_of_calls [] cs) (to_stream g).
Proof.
  intros D V P PB N val dtypes idx enc truthy usage pre fs gs pre0 post0 confs m ms cs g os Hp Hf Hg Hok Hc E Ho Hl Hcl.
  assert (Hs : sorted (map idx (seed_of_calls [] cs))) by (apply sorted_calls; auto; constructor).
  pose proof (reuse N val dtypes idx enc truthy usage pre fs gs pre0 post0 confs m ms (seed_of_calls [] cs) cs g os Hp Hf Hg Hs (grows_refl idx _ Hs) Hok Hc E Ho Hl Hcl) as F.
  apply to_batch with (fs := fs); auto.
  - apply keys_to. rewrite (calls_u_keys idx truthy usage pre fs _ _ _ _ E). apply keys_of.
  - eapply final_holds; eauto.
Qed.
Print Assumptions C71_final_write_again.

Notation ex_calls := (calls_u ex_idx ex_truthy (fun f => Z.of_nat (length (rows f))) (None : option (list ex_row -> unit -> list ex_row * unit * bool)) ex_fs).
Notation ex_ustream := (@ustream ex_row unit (@segbuf Z) nat).
Definition ex_works (_ : nat) : fault := Works.
Definition ex_faults (l : list fault) (i : nat) : fault := nth i l Works.
(** First call: writes of the first two keys fail, the second one between bins and snapshots, the job of the last key is not
    started. Then calls with more data, without final write; without data, failing too; with more data. *)
Definition ex_cs : list (@call ex_row) := [mkCall ex_seed1 true (fun _ => ex_works) (ex_faults [Fails 0; Fails 1; Works; NotRun]); mkCall ex_seed2 false (fun _ => ex_works) ex_works;
  mkCall [] true (fun _ => ex_works) (ex_faults [Works; Fails 0]); mkCall ex_seed3 true (fun _ => ex_works) ex_works].
Definition ex_result (x : ex_ustream * list outcome) := (ex_data (to_stream (fst x)), map snd (u_keys (fst x)), u_restart (fst x), snd x).
Example ex_calls_grow : calls_grow ex_idx [] ex_cs.
Proof.
  repeat split; try (apply IterProofs.sortedb_iff; reflexivity); try (apply ex_chunks; reflexivity).
  - extended.
  - extended.
  - extended.
Qed.
Definition ex_C50_data : list (list row * list row) := [([[0; 30; 5]; [5; 42; 8]; [10; 66; 12]; [15; -2; -1]; [20; 88; 16]], []);
    ([[0; 6; 4]; [5; 14; 8]; [10; 22; 12]; [15; -1; -1]; [20; 16; 16]],
     [[2; 6; 4]; [4; 6; 6]; [6; 6; 6]; [8; 14; 8]; [10; 10; 10]; [12; 22; 12]; [14; -1; -1]; [16; -1; -1]; [18; -1; -1]; [20; 16; 16]]);
    ([[1; 6; 3]; [3; 15; 6]; [8; 25; 10]; [12; 36; 13]; [21; 31; 16]], []);
    ([[0; 1; 1]; [2; 10; 4]; [4; 6; 6]; [6; 6; 6]; [8; 21; 8]; [10; 10; 10]; [12; 33; 12]; [14; -1; -1]; [16; -1; -1]; [18; -1; -1]; [20; 44; 16]], [])].
Example ex_C71_calls : ex_result (ex_calls (of_stream (ex_start ex_confs)) ex_cs) =
  (ex_C50_data, [@None Z; None; None; None], Some 22, [RaisedAtEnd OSError; Returned; RaisedAtEnd OSError; Returned]).
Proof. vm_cast_no_check (eq_refl (ex_C50_data, [@None Z; None; None; None], Some 22, [RaisedAtEnd OSError; Returned; RaisedAtEnd OSError; Returned])). Qed.
Lemma ex_resulted : forall (x : ex_ustream * list outcome) d p r os, ex_result x = (d, p, r, os) ->
  exists g, x = (g, os) /\ ex_data (to_stream g) = d /\ map snd (u_keys g) = p /\ u_restart g = r.
Proof. intros [g os'] d p r os E. unfold ex_result in E. cbn [fst snd] in E. injection E as <- <- <- <-. eauto. Qed.
Lemma ex_written : Forall written_or_not [RaisedAtEnd OSError; Returned; RaisedAtEnd OSError; Returned].
Proof. repeat constructor. Qed.
Example ex_C71 : exists g, ex_calls (of_stream (ex_start ex_confs)) ex_cs = (g, [RaisedAtEnd OSError; Returned; RaisedAtEnd OSError; Returned]) /\
  all_batch (fun _ => Znum) ex_val ex_dtypes ex_idx ex_enc ex_gs ex_confs ex_map ex_map (concat ex_seed3) (to_stream g) /\ ex_data (to_stream g) = ex_C50_data.
Proof.
  destruct (ex_resulted _ _ _ _ _ ex_C71_calls) as (g & E & Ed & _). exists g. split; [exact E|]. split; [|exact Ed].
  change (concat ex_seed3) with (seed_of_calls [] ex_cs).
  refine (C71_final_write_again (fun _ => Znum) ex_val ex_dtypes ex_idx ex_enc ex_truthy _ _ ex_fs ex_gs tt 0%nat ex_confs ex_map ex_map ex_cs g _ _ ex_filters_are ex_calls_grow ex_stream_ok _ E _ _ _).
  - exact I.
  - intros c [<-|[<-|[<-|[<-|[]]]]] _; reflexivity.
  - apply ex_written.
  - reflexivity.
  - eexists. split; reflexivity.
Qed.

(** When the restart index is 'true' (a time stamp), nothing is pending any more, and what is recorded in store is up to date:
    runs made afterwards, with this instance or with new ones, give the results of a single aggregation. *)
Theorem C71_then_runs : forall {D V P PB} (N : dtype -> num V) val dtypes (idx : D -> Z) enc truthy usage
    (pre : option (list D -> P -> list D * P * bool)) fs gs pre0 post0 (confs : list (bconf PB)) m ms cs g os r rs,
  harmless pre -> filters_are fs gs -> calls_grow idx [] cs -> growing idx (seed_of_calls [] cs) rs ->
  stream_ok N val dtypes idx enc gs confs m ms (whole_seed (seed_of_calls [] cs) rs) ->
  (forall c, In c confs -> type_of c = BOTH -> c_nirgs c = None) ->
  calls_u idx truthy usage pre fs (of_stream (new_stream pre0 segbuf_empty post0 (map (key_of N val dtypes idx enc) confs))) cs = (g, os) ->
  Forall written_or_not os -> last (map Some os) None = Some Returned -> (exists c, last (map Some cs) None = Some c /\ u_final c = true) ->
  u_restart g = Some r -> truthy r = true ->
  (forall k b s pend, In (k, b, s, pend) (u_keys g) -> pend = None) /\
  forall g', ((forall c, In c confs -> c_nirgs c = None) \/ ((forall i, truthy i = true) /\ all_written true rs)) ->
    run_all idx truthy usage pre fs pre0 segbuf_empty post0 (to_stream g) rs = Ok g' -> rs <> [] -> r_final (last rs (mkRun false false [])) = true ->
    all_batch N val dtypes idx enc gs confs m ms (whole_seed (seed_of_calls [] cs) rs) g'.
Proof.
  intros D V P PB N val dtypes idx enc truthy usage pre fs gs pre0 post0 confs m ms cs g os r rs Hp Hf Hg Hg' Hok Hc E Ho Hl Hcl Hr Ht.
  assert (Hs0 : sorted (map idx (seed_of_calls [] cs))) by (apply sorted_calls; auto; constructor).
  assert (Hs : sorted (map idx (whole_seed (seed_of_calls [] cs) rs))) by (apply sorted_whole; auto).
  pose proof (reuse N val dtypes idx enc truthy usage pre fs gs pre0 post0 confs m ms (whole_seed (seed_of_calls [] cs) rs) cs g os Hp Hf Hg Hs (growing_starts idx _ _ Hg' Hs0) Hok Hc E Ho Hl Hcl) as F.
  split.
  - intros k b s pend Hin. apply In_nth_error in Hin as [i Hin]. destruct F as (g0 & _ & _ & F). destruct (F i k b s pend Hin) as [_ F1]. apply (F1 r Hr Ht).
  - intros g' Hw Er Hne Hlast. destruct (tab_hyps N val dtypes idx enc fs gs confs m ms _ Hf Hok) as (T0 & T1 & T2 & T3 & T4 & T5).
    apply to_batch with (fs := fs); auto.
    + rewrite (run_all_keys idx truthy usage _ _ _ _ _ _ _ _ Er). apply keys_to. rewrite (calls_u_keys idx truthy usage pre fs _ _ _ _ E). apply keys_of.
    + destruct (final_mem idx truthy _ _ _ _ _ _ _ _ _ _ g r F Hr Ht) as [M W].
      apply (run_all_batch idx truthy usage fs gs Hf pre Hp pre0 segbuf_empty post0 _ _ _ _ _ m ms _ (no_tie idx) T0 T1 T2 T3 T4 (whole_seed (seed_of_calls [] cs) rs) Hs T5 rs (seed_of_calls [] cs) (to_stream g) g' true M Hs0 Hg' eq_refl); auto.
      destruct Hw as [Hw|[Tq Hw]]; [left|right; auto]. intros c Hin. unfold no_coalescing. cbn. split; intros; apply Hw; auto.
Qed.
Print Assumptions C71_then_runs.

(** The instance is used up to the second write, which succeeds; then a new one is. *)
Definition ex_cs2 : list (@call ex_row) := [mkCall ex_seed1 true (fun _ => ex_works) (ex_faults [Fails 0; Fails 1; Works; NotRun]); mkCall [] true (fun _ => ex_works) ex_works].
Definition ex_rs2 := [mkRun true true ex_seed2; mkRun true true ex_seed3].
Definition ex_data2 : list (list row * list row) := [([[0; 30; 5]; [5; 12; 6]], []); ([[0; 6; 4]; [5; 6; 6]], [[2; 6; 4]; [4; 6; 6]]); ([[1; 6; 3]; [3; 15; 6]], []); ([[0; 1; 1]; [2; 10; 4]; [4; 6; 6]], [])].
Example ex_C71_calls2 : ex_result (ex_calls (of_stream (ex_start ex_confs)) ex_cs2) = (ex_data2, [@None Z; None; None; None], Some 8, [RaisedAtEnd OSError; Returned]).
Proof. vm_cast_no_check (eq_refl (ex_data2, [@None Z; None; None; None], Some 8, [RaisedAtEnd OSError; Returned])). Qed.
Lemma ex_after2 : shown ex_data (ex_run (to_stream (fst (ex_calls (of_stream (ex_start ex_confs)) ex_cs2))) ex_rs2) = Some ex_C50_data.
Proof. vm_cast_no_check (eq_refl (Some ex_C50_data)). Qed.
Example ex_C71_then : exists g g', ex_calls (of_stream (ex_start ex_confs)) ex_cs2 = (g, [RaisedAtEnd OSError; Returned]) /\ ex_run (to_stream g) ex_rs2 = Ok g' /\
  all_batch (fun _ => Znum) ex_val ex_dtypes ex_idx ex_enc ex_gs ex_confs ex_map ex_map (concat ex_seed3) g' /\ ex_data g' = ex_C50_data.
Proof.
  destruct (ex_resulted _ _ _ _ _ ex_C71_calls2) as (g & E & _ & _ & Er). pose proof ex_after2 as Q. rewrite E in Q. cbn [fst] in Q. destruct (shown_ok _ _ _ _ _ Q) as (g' & E' & Ed).
  exists g, g'. split; [exact E|]. split; [exact E'|]. split; [|exact Ed].
  change (concat ex_seed3) with (whole_seed (seed_of_calls [] ex_cs2) ex_rs2).
  refine (proj2 (C71_then_runs (fun _ => Znum) ex_val ex_dtypes ex_idx ex_enc ex_truthy _ _ ex_fs ex_gs tt 0%nat ex_confs ex_map ex_map ex_cs2 g _ 8 ex_rs2 _ ex_filters_are _ _ ex_stream_ok _ E _ _ _ Er _) g' _ E' _ _).
  - exact I.
  - repeat split; try (apply IterProofs.sortedb_iff; reflexivity); try (apply ex_chunks; reflexivity). extended.
  - repeat split; try (apply IterProofs.sortedb_iff; reflexivity); try (apply ex_chunks; reflexivity); extended.
  - intros c [<-|[<-|[<-|[<-|[]]]]] _; reflexivity.
  - repeat constructor.
  - reflexivity.
  - eexists. split; reflexivity.
  - reflexivity.
  - left. intros c [<-|[<-|[<-|[<-|[]]]]]; reflexivity.
  - discriminate.
  - reflexivity.
Qed.

(** A final write fails; the same instance is then given more data, without final write, and there is an intermediate write: what
    is then recorded in store is the restart index of the first call, with the state of the aggregation of the second
    one. If the process stops there, the next one gives rows to the aggregation again: row of value 7 is counted twice (value 56
    instead of 42, the column being multiplied by 2). *)
Definition ex_A3 : bconf nat := mkBconf 0 ex_agg (ByTime ex_tg) None false (Some ex_post) 3 (Some 2) None None.
Definition ex_seed6 : list (list ex_row) := [[(1,1);(2,2);(2,3);(3,4);(4,5);(5,6);(8,7)]; [(9,8)]; [(11,10);(12,11)]; [(13,12);(14,13)]; [(20,13)]; [(21,15)]].
Definition ex_seed7 : list (list ex_row) := [concat ex_seed6 ++ [(22,16)]].
Definition ex_cs3 : list (@call ex_row) := [mkCall ex_seed1 true (fun _ => ex_works) (fun _ => Fails 0); mkCall ex_seed6 false (fun _ => ex_works) ex_works].
Theorem C71_record_refuted : exists g, ex_calls (of_stream (ex_start [ex_A3])) ex_cs3 = (g, [RaisedAtEnd OSError; Returned]) /\ calls_grow ex_idx [] ex_cs3 /\
  shown ex_data (ex_run (to_stream g) [mkRun true true ex_seed7]) = Some [([[0; 30; 5]; [5; 56; 8]; [10; 92; 13]; [15; -2; -1]; [20; 56; 15]], [])] /\
  shown ex_data (ex_run (ex_start [ex_A3]) [mkRun true true ex_seed7]) = Some [([[0; 30; 5]; [5; 42; 8]; [10; 92; 13]; [15; -2; -1]; [20; 56; 15]], [])].
Proof.
  assert (Q : snd (ex_calls (of_stream (ex_start [ex_A3])) ex_cs3) = [RaisedAtEnd OSError; Returned]) by vm_cast_no_check (eq_refl [RaisedAtEnd OSError; Returned]).
  assert (R : shown ex_data (ex_run (to_stream (fst (ex_calls (of_stream (ex_start [ex_A3])) ex_cs3))) [mkRun true true ex_seed7]) = Some [([[0; 30; 5]; [5; 56; 8]; [10; 92; 13]; [15; -2; -1]; [20; 56; 15]], @nil row)])
    by vm_cast_no_check (eq_refl (Some [([[0; 30; 5]; [5; 56; 8]; [10; 92; 13]; [15; -2; -1]; [20; 56; 15]], @nil row)])).
  destruct (ex_calls (of_stream (ex_start [ex_A3])) ex_cs3) as [g os]. cbn [fst snd] in Q, R. subst os. exists g. split; [reflexivity|]. split; [|split; [exact R|]].
  - repeat split; try (apply IterProofs.sortedb_iff; reflexivity); try (apply ex_chunks; reflexivity).
    + extended.
    + extended.
  - vm_cast_no_check (eq_refl (Some [([[0; 30; 5]; [5; 42; 8]; [10; 92; 13]; [15; -2; -1]; [20; 56; 15]], @nil row)])).
Qed.
Print Assumptions C71_record_refuted.

(** A write fails while iterating over seed data. If data is given anew to the same instance, rows are aggregated twice by keys
    whose jobs had succeeded, as buffers of these keys have been updated and the restart index has not: here, rows of the first key are shifted,
    and those of the second key are written twice, whereas no exception is raised by the second call. *)
Definition ex_cs4 : list (@call ex_row) := [mkCall ex_seed2 true (fun _ => ex_faults [Works; Fails 0]) ex_works; mkCall ex_seed3 true (fun _ => ex_works) ex_works].
Definition ex_data4 : list (list row * list row) := [([[1; 6; 3]; [3; 15; 6]; [8; 25; 10]; [12; 36; 13]; [13; 40; 15]; [21; 16; 16]], []); ([[0; 30; 5]; [5; 42; 8]; [5; 42; 8]; [10; 66; 12]; [15; -2; -1]; [20; 88; 16]], [])].
Definition ex_data5 : list (list row * list row) := [([[1; 6; 3]; [3; 15; 6]; [8; 25; 10]; [12; 36; 13]; [21; 31; 16]], []); ([[0; 30; 5]; [5; 42; 8]; [10; 66; 12]; [15; -2; -1]; [20; 88; 16]], [])].
Theorem C71_loop_refuted : exists g, ex_calls (of_stream (ex_start [ex_C; ex_A])) ex_cs4 = (g, [RaisedInLoop OSError; Returned]) /\ calls_grow ex_idx [] ex_cs4 /\
  ex_data (to_stream g) = ex_data4 /\ shown ex_data (ex_run (ex_start [ex_C; ex_A]) [mkRun true true ex_seed3]) = Some ex_data5.
Proof.
  assert (Q : ex_result (ex_calls (of_stream (ex_start [ex_C; ex_A])) ex_cs4) = (ex_data4, [@None Z; None], Some 22, [RaisedInLoop OSError; Returned]))
    by vm_cast_no_check (eq_refl (ex_data4, [@None Z; None], Some 22, [RaisedInLoop OSError; Returned])).
  destruct (ex_resulted _ _ _ _ _ Q) as (g & E & Ed & _). exists g. split; [exact E|]. split; [|split; [exact Ed|]].
  - repeat split; try (apply IterProofs.sortedb_iff; reflexivity); try (apply ex_chunks; reflexivity).
    + extended.
    + extended.
  - vm_cast_no_check (eq_refl (Some ex_data5)).
Qed.
Print Assumptions C71_loop_refuted.
