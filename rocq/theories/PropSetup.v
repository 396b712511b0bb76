(** Properties of the setup of aggregations by the first chunk of data. *)
Require Import List Arith ZArith Bool Lia Sorting.Sorted.
Require Import Verif.Common Verif.AggModel Verif.AggSpec Verif.SegModel Verif.SegSpec Verif.CsaModel Verif.CsaSpec Verif.WrModel Verif.StreamModel Verif.RaiseModel Verif.StreamSpec
  Verif.KeyModel Verif.BatchSpec Verif.PropBatch Verif.SetupModel Verif.SetupSpec Verif.SetupProofs.
Require Verif.CsaProofs Verif.IterProofs Verif.PropStream.
Import ListNotations.
Local Open Scope Z_scope.

(** The case of PropBatch.v: three calls on growing data, with iterators, a list of chunks, and two instances. *)
Definition ex_typed (l : list (list ex_row)) := map (fun c => (ex_dtypes, c)) l.
Definition ex_calls : list (@icall ex_row) := [mkCall true true (Iter (ex_typed ex_seed1)); mkCall false false (Chunks (ex_typed ex_seed2)); mkCall true true (Iter (ex_typed ex_seed3))].
Notation ex_call_all := (call_all (fun _ => Znum) ex_val ex_idx ex_enc ex_truthy (fun f => Z.of_nat (length (rows f))) (None : option (list ex_row -> unit -> list ex_row * unit * bool)) ex_fs tt 0%nat).
Notation ex_agg_inst := (agg_inst (fun _ => Znum) ex_val ex_idx ex_enc ex_truthy (fun f => Z.of_nat (length (rows f))) (None : option (list ex_row -> unit -> list ex_row * unit * bool)) ex_fs).
Definition ex_inst cs : @inst Z unit nat := empty_inst tt 0%nat cs.
Definition ex_stored (x : @inst Z unit nat) := map (fun k : @ikey Z unit nat => (all_rows (data_of (s_main (snd k))), all_rows (data_of (s_snap (snd k))))) (i_keys x).
Lemma ex_types : forall y, In y ex_calls -> types_ok ex_dtypes (ic_seed y).
Proof. intros y Hy c Hc. repeat (destruct Hy as [<-|Hy]; [cbn in Hc; repeat (destruct Hc as [<-|Hc]; [reflexivity|]); destruct Hc|]). destruct Hy. Qed.
Lemma ex_not_empty : no_empty_first false ex_calls.
Proof. repeat split; cbn; discriminate. Qed.

(** ** C70: aggregations are set by the first chunk of data *)

(** Keys are given without data types; these are taken from the first chunk given to each instance. If chunks all have the same
    data types, accepted by all keys, calls have the outcome they have when these data types are known from the start, be it an
    exception. The only exception to this is an iterator without any chunk, as first seed data. *)
Theorem C70_same_as_set_before : forall {D V P PB} (N : dtype -> num V) val dtypes (idx : D -> Z) enc truthy usage pre fs (pre0 : P) (post0 : PB) confs ys,
  confs <> [] -> (forall c, In c confs -> agg_valid (c_agg c) dtypes /\ NoDup (map fst (c_agg c))) ->
  (forall y, In y ys -> types_ok dtypes (ic_seed y)) -> no_empty_first false ys ->
  match call_all N val idx enc truthy usage pre fs pre0 post0 (empty_inst pre0 post0 confs) ys,
        run_all idx truthy usage pre fs pre0 segbuf_empty post0 (new_stream pre0 segbuf_empty post0 (map (key_of N val dtypes idx enc) confs)) (map run_of_call ys) with
  | Ok x, Ok g => as_stream N val idx enc dtypes x = g
  | Err e, Err e' => e = e'
  | _, _ => False
  end.
Proof.
  intros D V P PB N val dtypes idx enc truthy usage pre fs pre0 post0 confs ys Hne Hv Ht Hn.
  assert (U : unset (empty_inst (V:=V) pre0 post0 confs) = true) by (unfold unset, empty_inst; cbn; clear; induction confs; cbn; auto).
  assert (C : confs_of (empty_inst (V:=V) pre0 post0 confs) = confs) by (unfold confs_of, empty_inst; cbn; rewrite map_map; cbn; apply map_id).
  pose proof (history_same N val idx enc truthy usage dtypes pre fs pre0 post0 ys (empty_inst pre0 post0 confs) false) as Q.
  assert (E : as_stream N val idx enc dtypes (empty_inst pre0 post0 confs) = new_stream pre0 segbuf_empty post0 (map (key_of N val dtypes idx enc) confs)) by (unfold as_stream, empty_inst, new_stream; cbn; rewrite !map_map; auto).
  rewrite E in Q. clear E. specialize (Q (or_introl U) ltac:(discriminate) ltac:(auto)).
  assert (A : accepted_by dtypes (empty_inst (V:=V) pre0 post0 confs)) by (intros c; rewrite C; intros Hc; destruct (Hv c Hc) as [A B]; destruct (CsaProofs.setup_cumsegagg_ok _ _ A B) as (cfg & E & _); eauto).
  specialize (Q A ltac:(rewrite C; auto) Ht Hn).
  destruct (call_all _ _ _ _ _ _ _ _ _ _ _ ys) as [x|], (run_all _ _ _ _ _ _ _ _ _ _) as [g|]; auto. apply Q.
Qed.
Print Assumptions C70_same_as_set_before.
(** With an empty list and a call without data before, and with a chunk which is not ordered, at the end. *)
Example ex_C70_same : let ys := mkCall true true NoSeed :: mkCall false true (Chunks []) :: ex_calls in
  no_empty_first false ys /\ (forall y, In y ys -> types_ok ex_dtypes (ic_seed y)) /\
  (exists x, ex_call_all (ex_inst ex_confs) ys = Ok x /\ set_keys x = [true; true; true; true] /\ map fst (ex_stored x) =
    [[[0; 30; 5]; [5; 42; 8]; [10; 66; 12]; [15; -2; -1]; [20; 88; 16]]; [[0; 6; 4]; [5; 14; 8]; [10; 22; 12]; [15; -1; -1]; [20; 16; 16]];
     [[1; 6; 3]; [3; 15; 6]; [8; 25; 10]; [12; 36; 13]; [21; 31; 16]];
     [[0; 1; 1]; [2; 10; 4]; [4; 6; 6]; [6; 6; 6]; [8; 21; 8]; [10; 10; 10]; [12; 33; 12]; [14; -1; -1]; [16; -1; -1]; [18; -1; -1]; [20; 44; 16]]]) /\
  ex_call_all (ex_inst ex_confs) (ys ++ [mkCall false true (Frame (ex_dtypes, [(40, 1); (30, 2)]))]) = Err SeedPre.
Proof.
  cbv zeta. split; [repeat split; cbn; discriminate|]. split; [intros y [<-|[<-|Hy]]; [intros c []|intros c []|apply ex_types; auto]|]. split.
  - destruct (shown_ok _ _ (fun x => (set_keys x, map fst (ex_stored x))) (ex_call_all (ex_inst ex_confs) (mkCall true true NoSeed :: mkCall false true (Chunks []) :: ex_calls)) ([true; true; true; true],
      [[[0; 30; 5]; [5; 42; 8]; [10; 66; 12]; [15; -2; -1]; [20; 88; 16]]; [[0; 6; 4]; [5; 14; 8]; [10; 22; 12]; [15; -1; -1]; [20; 16; 16]];
       [[1; 6; 3]; [3; 15; 6]; [8; 25; 10]; [12; 36; 13]; [21; 31; 16]];
       [[0; 1; 1]; [2; 10; 4]; [4; 6; 6]; [6; 6; 6]; [8; 21; 8]; [10; 10; 10]; [12; 33; 12]; [14; -1; -1]; [16; -1; -1]; [18; -1; -1]; [20; 44; 16]]])
      ltac:(vm_compute; reflexivity)) as (x & E & Ed). exists x. split; [exact E|]. injection Ed as E1 E2. auto.
  - vm_compute. reflexivity.
Qed.

(** So that results are those of an aggregation made at once (C50). *)
Theorem C70_is_batch : forall {D V P PB} (N : dtype -> num V) val dtypes (idx : D -> Z) enc truthy usage pre fs gs (pre0 : P) (post0 : PB) confs m ms ys x,
  confs <> [] -> harmless pre -> filters_are fs gs -> (forall y, In y ys -> types_ok dtypes (ic_seed y)) -> no_empty_first false ys ->
  let rs := map run_of_call ys in
  growing idx [] rs -> stream_ok N val dtypes idx enc gs confs m ms (whole_seed [] rs) ->
  ((forall c, In c confs -> c_nirgs c = None) \/ ((forall i, truthy i = true) /\ all_written true rs)) ->
  call_all N val idx enc truthy usage pre fs pre0 post0 (empty_inst pre0 post0 confs) ys = Ok x ->
  ys <> [] -> r_final (last rs (mkRun false false [])) = true ->
  all_batch N val dtypes idx enc gs confs m ms (whole_seed [] rs) (as_stream N val idx enc dtypes x).
Proof.
  intros D V P PB N val dtypes idx enc truthy usage pre fs gs pre0 post0 confs m ms ys x Hne Hp Hf Ht Hn rs Hg Hs Hc H Hy Hl.
  pose proof (C70_same_as_set_before N val dtypes idx enc truthy usage pre fs pre0 post0 confs ys Hne) as Q. rewrite H in Q.
  specialize (Q ltac:(intros c Hin; destruct (Hs c Hin) as ((A & B & _) & _); auto) Ht Hn).
  destruct (run_all idx truthy usage pre fs pre0 segbuf_empty post0 (new_stream pre0 segbuf_empty post0 (map (key_of N val dtypes idx enc) confs)) (map run_of_call ys)) as [g|] eqn:E; [|contradiction].
  rewrite Q. eapply C50_streamed_is_batch; eauto. unfold rs. destruct ys; [congruence|discriminate].
Qed.
Print Assumptions C70_is_batch.
Example ex_C70_is_batch : map run_of_call ex_calls = ex_runs /\ exists x, ex_call_all (ex_inst ex_confs) ex_calls = Ok x /\
  all_batch (fun _ => Znum) ex_val ex_dtypes ex_idx ex_enc ex_gs ex_confs ex_map ex_map (concat ex_seed3) (as_stream (fun _ => Znum) ex_val ex_idx ex_enc ex_dtypes x).
Proof.
  split; [reflexivity|]. destruct (shown_ok _ _ set_keys (ex_call_all (ex_inst ex_confs) ex_calls) [true; true; true; true] ltac:(vm_compute; reflexivity)) as (x & E & _). exists x. split; [exact E|].
  change (concat ex_seed3) with (whole_seed [] (map run_of_call ex_calls)). eapply (C70_is_batch _ _ _ _ _ _ _ None ex_fs ex_gs tt 0%nat ex_confs ex_map ex_map ex_calls x); try exact E.
  - discriminate.
  - exact I.
  - apply ex_filters_are.
  - apply ex_types.
  - apply ex_not_empty.
  - apply ex_growing.
  - apply ex_stream_ok.
  - left. intros c [<-|[<-|[<-|[<-|[]]]]]; reflexivity.
  - discriminate.
  - reflexivity.
Qed.

(** Data types refused by a key, at the first call with data: 'ValueError', and nothing else changes in the instance but
    aggregations already set; not even these when the key is the first one, so that the instance can then be used. *)
Theorem C70_refused : forall {D V P PB} (N : dtype -> num V) val (idx : D -> Z) enc truthy usage pre fs (x : @inst V P PB) s trim discard final t rows l,
  unset x = true -> chunks s = (t, rows) :: l -> (exists c, In c (confs_of x) /\ ~ agg_valid (c_agg c) t) ->
  exists x', agg_inst N val idx enc truthy usage pre fs x s trim discard final = (x', Err ValueError) /\ others x' = others x /\
    (match confs_of x with c :: _ => ~ agg_valid (c_agg c) t | [] => False end -> x' = x).
Proof.
  intros D V P PB N val idx enc truthy usage pre fs x s trim discard final t rows l Hu Hs Hc. unfold agg_inst.
  assert (given_seed s = true) as -> by (destruct s as [| |[|]|]; cbn in *; auto; discriminate). rewrite Hu, Hs. cbn [andb].
  destruct (set_refused t (i_keys x)) as (ks & -> & O & F); [exact Hc|]. exists (with_keys x ks). split; [reflexivity|]. split.
  - unfold others. cbn. f_equal. exact O.
  - intro Q. rewrite (F Q). destruct x. reflexivity.
Qed.
Print Assumptions C70_refused.
(** The second key is on a column which is missing in the first chunk, but not in the next one. *)
Definition ex_E : bconf nat := mkBconf 0 [(10%nat, (2%nat, Some Sum))] (ByTime ex_tg) None false None 1 (Some 2) None None.
Definition ex_both := [(1%nat, DInt64); (2%nat, DInt64)].
Definition ex_frame t : @seed ex_row := Frame (t, [(1, 1); (2, 2); (3, 3)]).
Example ex_C70_refused : let x' := fst (ex_agg_inst (ex_inst [ex_A; ex_E]) (ex_frame ex_dtypes) true true true) in
  unset (ex_inst [ex_A; ex_E]) = true /\ ~ agg_valid (c_agg ex_E) ex_dtypes /\ snd (ex_agg_inst (ex_inst [ex_A; ex_E]) (ex_frame ex_dtypes) true true true) = Err ValueError /\
  set_keys x' = [true; false] /\ (* The other way round, the instance is left as it was. *) ex_agg_inst (ex_inst [ex_E; ex_A]) (ex_frame ex_dtypes) true true true = (ex_inst [ex_E; ex_A], Err ValueError).
Proof.
  cbv zeta. split; [reflexivity|]. split; [|split; [|split]; vm_compute; reflexivity].
  intro H. destruct (H 10%nat 2%nat (Some Sum)) as [Q _]; [left; reflexivity|]. destruct Q as [d Q]. discriminate.
Qed.

(** An iterator without any chunk, as first seed data of an instance: 'StopIteration', and nothing is written, even with
    'final_write'. For an instance which has been given data, it is as an empty list. *)
Theorem C70_empty_iterator : forall {D V P PB} (N : dtype -> num V) val (idx : D -> Z) enc truthy usage pre fs (x : @inst V P PB) trim discard final,
  agg_inst N val idx enc truthy usage pre fs x (Iter []) trim discard final =
    if unset x then (x, Err StopIteration) else agg_inst N val idx enc truthy usage pre fs x (Chunks []) trim discard final.
Proof. intros. unfold agg_inst. cbn. destruct (unset x); reflexivity. Qed.
Print Assumptions C70_empty_iterator.

(** Once a key has been set and another not, it remains so, whatever the calls, and any call with rows for the latter raises. *)
Theorem C70_stuck : forall {D V P PB} (N : dtype -> num V) val (idx : D -> Z) enc truthy usage (pre : option (list D -> P -> list D * P * bool)) fs gs (x : @inst V P PB) c b st before s trim discard final keep row,
  harmless pre -> filters_are fs gs -> unset x = false -> In (c, None, b, st) (i_keys x) -> In (c_filter c, keep) gs ->
  let x' := after_calls N val idx enc truthy usage pre fs x before in
  let seed := map snd (chunks s) in
  (forall rows, In rows seed -> rows <> []) -> sorted (map idx (concat seed)) ->
  In row (concat seed) -> keep row = true -> (trim = true -> match i_restart x' with Some v => v <= idx row | None => True end) -> (discard = true -> idx row < last_index idx (concat seed)) ->
  exists e, snd (agg_inst N val idx enc truthy usage pre fs x' s trim discard final) = Err e.
Proof.
  intros D V P PB N val idx enc truthy usage pre fs gs x c b st before s trim discard final keep row Hp Hf Hu Hin Hk x' seed Hne Hs Hr Hkr Ht Hd.
  assert (K : unset x' = false /\ exists b st, In (c, None, b, st) (i_keys x')).
  { unfold x', after_calls. clear - Hu Hin. revert x b st Hu Hin. induction before as [|[s [[tr dl] fi]] before IH]; intros x b st Hu Hin; cbn [fold_left]; [eauto|].
    assert (E : agg_inst N val idx enc truthy usage pre fs x s tr dl fi = run_inst N val idx enc truthy usage pre fs x (chunks s) tr dl fi) by (unfold agg_inst; rewrite Hu, andb_false_r; auto). rewrite E.
    destruct (run_sets N val idx enc truthy usage pre fs x (chunks s) tr dl fi) as [S C]. set (x1 := fst (run_inst _ _ _ _ _ _ _ _ _ _ _ _ _)) in *.
    assert (exists b1 st1, In (c, None, b1, st1) (i_keys x1)) as (b1 & st1 & H1).
    { unfold set_keys, confs_of in S, C. revert S C Hin. clear. generalize (i_keys x). induction (i_keys x1) as [|[[[c1 cs1] b1] s1] l IH]; intros [|[[[c2 cs2] b2] s2] l'] S C; try discriminate; [intros []|]. cbn in S, C.
      injection S as S1 S2. injection C as -> C2. intros [Q|Q]; [injection Q as -> -> -> ->; destruct cs1; [discriminate|]; exists b1, s1; left; auto|]. destruct (IH _ S2 C2 Q) as (b3 & s3 & H); exists b3, s3; right; auto. }
    apply (IH x1 b1 st1); auto. rewrite <- Hu. unfold unset. revert S. unfold set_keys. clear. generalize (i_keys x). induction (i_keys x1) as [|[[[c1 cs1] b1] s1] l IH]; intros [|[[[c2 cs2] b2] s2] l'] S; try discriminate; auto. cbn in *. injection S as S1 S2. rewrite (IH _ S2). destruct cs1, cs2; auto; discriminate. }
  clearbody x'. destruct K as (Hu' & b' & st' & Hin'). unfold agg_inst. rewrite Hu', andb_false_r. unfold run_inst, agg_t. fold seed.
  destruct (PropStream.C46_one_run idx pre fs gs (i_pre x') (i_restart x') trim discard seed Hp Hf Hne Hs) as [_ Dl]. specialize (Dl _ _ Hk).
  pose proof (iter_chunks_ends (P:=P) idx seed) as En. destruct seed as [|c0 seed]; [destruct Hr|]. cbn [to_stream g_restart g_pre].
  assert (En' : ends_at_error (fst (iter_data idx (i_restart x') pre fs trim discard (i_pre x') (c0 :: seed)))) by (unfold iter_data; destruct (i_restart x'); apply En). clear En.
  destruct (iter_data idx (i_restart x') pre fs trim discard (i_pre x') (c0 :: seed)) as [ys p]. cbn [fst] in *.
  assert (Hd' : In row (delivered (c_filter c) ys)).
  { rewrite Dl. apply filter_In. split; auto. rewrite Hkr. cbn [andb]. apply andb_true_iff. split; [destruct (i_restart x'); auto; destruct trim; cbn; auto; apply Z.leb_le; apply Ht; auto|destruct discard; cbn; auto; apply Z.ltb_lt; auto]. }
  unfold delivered in Hd'. apply in_flat_map in Hd' as ([[[li id] rows]|e] & Hy & Hrow); [|destruct Hrow]. destruct (Nat.eqb_spec id (c_filter c)) as [->|]; [|destruct Hrow].
  destruct (consume_stuck truthy usage (c_filter c) li rows ys (to_stream N val idx enc x') En' Hy) as [e Q].
  - exists (key_cs N val idx enc c None), b', st'. split; [cbn; apply in_map_iff; exists (c, None, b', st'); auto|]. split; [auto|]. intros l0 b0. cbn. eauto.
  - destruct (consume_t truthy usage _ ys) as [g1 r1]. cbn [snd] in Q. subst r1. cbn. eauto.
Qed.
Print Assumptions C70_stuck.
(** The key of the example above which has not been set. *)
Example ex_C70_stuck : let x := fst (ex_agg_inst (ex_inst [ex_A; ex_E]) (ex_frame ex_dtypes) true true true) in
  unset x = false /\ (exists b st, In (ex_E, None, b, st) (i_keys x)) /\
  forall before, i_restart (after_calls (fun _ => Znum) ex_val ex_idx ex_enc ex_truthy (fun f => Z.of_nat (length (rows f))) (None : option (list ex_row -> unit -> list ex_row * unit * bool)) ex_fs x before) = None ->
  exists e, snd (ex_agg_inst (after_calls (fun _ => Znum) ex_val ex_idx ex_enc ex_truthy (fun f => Z.of_nat (length (rows f))) (None : option (list ex_row -> unit -> list ex_row * unit * bool)) ex_fs x before) (ex_frame ex_both) true true true) = Err e.
Proof.
  cbv zeta. split; [vm_compute; reflexivity|]. assert (K : exists b st, In (ex_E, None, b, st) (i_keys (fst (ex_agg_inst (ex_inst [ex_A; ex_E]) (ex_frame ex_dtypes) true true true)))) by (do 2 eexists; cbn; right; left; reflexivity).
  split; [exact K|]. destruct K as (b & st & K). intros before Hr. eapply (C70_stuck _ _ _ _ _ _ None ex_fs ex_gs _ ex_E b st before (ex_frame ex_both) true true true (fun _ => true) (1, 1)); auto; try exact I.
  - apply ex_filters_are.
  - left. reflexivity.
  - intros r [<-|[]]; discriminate.
  - apply IterProofs.sortedb_iff. reflexivity.
  - left. reflexivity.
  - rewrite Hr. auto.
  - intros _. vm_compute. reflexivity.
Qed.

(** After refused data, an instance cannot be used as a new one: data which a new instance accepts raises 'KeyError'. *)
Theorem C70_used_after_refused_refuted : exists (x x' : @inst Z unit nat), ex_agg_inst x (ex_frame ex_dtypes) true true true = (x', Err ValueError) /\
  snd (ex_agg_inst x (ex_frame ex_both) true true true) = Ok None /\ snd (ex_agg_inst x' (ex_frame ex_both) true true true) = Err KeyError.
Proof.
  exists (ex_inst [ex_A; ex_E]), (fst (ex_agg_inst (ex_inst [ex_A; ex_E]) (ex_frame ex_dtypes) true true true)). split; [|split; vm_compute; reflexivity].
  assert (Q : snd (ex_agg_inst (ex_inst [ex_A; ex_E]) (ex_frame ex_dtypes) true true true) = Err ValueError) by (vm_compute; reflexivity). rewrite <- Q. apply surjective_pairing.
Qed.
Print Assumptions C70_used_after_refused_refuted.

(** And nothing is written with 'final_write' when the first seed data is an empty iterator, while an empty list leads to a write. *)
Example ex_C70_empty_iterator : snd (ex_agg_inst (ex_inst [ex_A]) (Iter []) true true true) = Err StopIteration /\ snd (ex_agg_inst (ex_inst [ex_A]) (Chunks []) true true true) = Ok None /\
  snd (ex_agg_inst (fst (ex_agg_inst (ex_inst [ex_A]) (ex_frame ex_dtypes) true true true)) (Iter []) true true true) = Ok None.
Proof. split; [|split]; vm_compute; reflexivity. Qed.
