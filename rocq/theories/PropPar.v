(** Properties of parallel jobs. *)
Require Import List Arith ZArith Bool Lia.
Require Import Verif.Common Verif.WrModel Verif.StreamModel Verif.ParModel Verif.ParSpec Verif.ParProofs Verif.ParJobProofs.
Import ListNotations.
Local Open Scope Z_scope.

(** ** C54: parallel aggregation does not depend on the schedule *)

Section C54.
Context {D P SB PB : Type}.
Variable truthy : Z -> bool.
Variable usage : frame -> Z.
Notation kconf := (kconf D SB PB).
Notation memory := (@memory loc (@val P SB PB)).
Notation stream := (stream D P SB PB).

Lemma iter_within : forall id (pre : P) chunk (k : kconf) w, within (uses w) (if (k_filter k =? id)%nat then agg_iter_job truthy usage k w pre chunk else Ret).
Proof. intros. destruct (_ =? _)%nat; [apply within_iter|exact I]. Qed.
Lemma final_within : forall i (pre : P) (k : kconf) w, within (uses w) (post_n_write_job truthy k w true i pre Ret).
Proof. intros. apply within_post. exact I. Qed.

(** Keys which do not share buffers, datasets or dictionaries: whatever the interleaving of the jobs for a chunk, buffers, datasets and metadata
    at the end, and the exceptions which are raised, are the same. *)
Theorem C54_chunk_schedules : forall id (pre_buffer : P) chunk (ks : list (kconf * place)) (m : memory) sched sched' m1 m2 ps1 ps2,
  apart (map snd ks) ->
  run_sched loc_eqb sched (m, iter_jobs truthy usage id pre_buffer chunk ks) = (m1, ps1) -> complete ps1 ->
  run_sched loc_eqb sched' (m, iter_jobs truthy usage id pre_buffer chunk ks) = (m2, ps2) -> complete ps2 ->
  (forall l, m1 l = m2 l) /\ map outcome ps1 = map outcome ps2.
Proof. intros id pre chunk ks m sched sched' m1 m2 ps1 ps2 Ha E1 H1 E2 H2. exact (jobs_two _ (iter_within id pre chunk) ks sched sched' m m1 m2 ps1 ps2 Ha E1 H1 E2 H2). Qed.
(** Same for the jobs of the final write. *)
Theorem C54_final_schedules : forall i (pre_buffer : P) (ks : list (kconf * place)) (m : memory) sched sched' m1 m2 ps1 ps2,
  apart (map snd ks) ->
  run_sched loc_eqb sched (m, final_jobs truthy i pre_buffer ks) = (m1, ps1) -> complete ps1 ->
  run_sched loc_eqb sched' (m, final_jobs truthy i pre_buffer ks) = (m2, ps2) -> complete ps2 ->
  (forall l, m1 l = m2 l) /\ map outcome ps1 = map outcome ps2.
Proof. intros i pre ks m sched sched' m1 m2 ps1 ps2 Ha E1 H1 E2 H2. exact (jobs_two _ (final_within i pre) ks sched sched' m m1 m2 ps1 ps2 Ha E1 H1 E2 H2). Qed.

(** Interleaved jobs raise no exception exactly when jobs run one after the other raise none, and the memory is then the same. *)
Theorem C54_chunk_sequential : forall id (pre_buffer : P) chunk (ks : list (kconf * place)) (m : memory) sched m' ps',
  apart (map snd ks) ->
  run_sched loc_eqb sched (m, iter_jobs truthy usage id pre_buffer chunk ks) = (m', ps') -> complete ps' ->
  let '(ms, e) := sequential loc_eqb m (iter_jobs truthy usage id pre_buffer chunk ks) in
  (e = None <-> forall p, In p ps' -> outcome p = None) /\ (e = None -> forall l, m' l = ms l).
Proof.
  intros id pre chunk ks m sched m' ps' Ha E Hc. destruct (sequential loc_eqb m (iter_jobs truthy usage id pre chunk ks)) as [ms e] eqn:Es.
  destruct (jobs_run _ (iter_within id pre chunk) ks sched m m' ps' Ha E Hc) as (L & C & _).
  assert (X : e = None -> forall p, In p ps' -> outcome p = None).
  { intros -> p Hp. apply In_nth_error in Hp as [i Hi]. destruct (nth_error ks i) as [[k w]|] eqn:Q; [|apply nth_error_None in Q; assert (nth_error ps' i <> None) by congruence; apply nth_error_Some in H; lia].
    destruct (C i k w p Q Hi) as [O _]. rewrite O. apply (jobs_sequential_raises _ (iter_within id pre chunk) ks m ms Ha Es). eapply nth_error_In; eauto. }
  assert (Y : (forall p, In p ps' -> outcome p = None) -> e = None /\ forall l, m' l = ms l).
  { intro Ho. destruct (jobs_sequential _ (iter_within id pre chunk) ks sched m m' ps' Ha E Hc Ho) as (ms' & Es' & Em). change (jobs_of _ ks) with (iter_jobs truthy usage id pre chunk ks) in Es'. rewrite Es in Es'. injection Es' as <- <-. auto. }
  split; [split; [auto|apply Y]|]. intros He. apply Y. auto.
Qed.
(** Same for final write. *)
Theorem C54_final_sequential : forall i (pre_buffer : P) (ks : list (kconf * place)) (m : memory) sched m' ps',
  apart (map snd ks) ->
  run_sched loc_eqb sched (m, final_jobs truthy i pre_buffer ks) = (m', ps') -> complete ps' ->
  let '(ms, e) := sequential loc_eqb m (final_jobs truthy i pre_buffer ks) in
  (e = None <-> forall p, In p ps' -> outcome p = None) /\ (e = None -> forall l, m' l = ms l).
Proof.
  intros i0 pre ks m sched m' ps' Ha E Hc. destruct (sequential loc_eqb m (final_jobs truthy i0 pre ks)) as [ms e] eqn:Es.
  destruct (jobs_run _ (final_within i0 pre) ks sched m m' ps' Ha E Hc) as (L & C & _).
  assert (X : e = None -> forall p, In p ps' -> outcome p = None).
  { intros -> p Hp. apply In_nth_error in Hp as [i Hi]. destruct (nth_error ks i) as [[k w]|] eqn:Q; [|apply nth_error_None in Q; assert (nth_error ps' i <> None) by congruence; apply nth_error_Some in H; lia].
    destruct (C i k w p Q Hi) as [O _]. rewrite O. apply (jobs_sequential_raises _ (final_within i0 pre) ks m ms Ha Es). eapply nth_error_In; eauto. }
  assert (Y : (forall p, In p ps' -> outcome p = None) -> e = None /\ forall l, m' l = ms l).
  { intro Ho. destruct (jobs_sequential _ (final_within i0 pre) ks sched m m' ps' Ha E Hc Ho) as (ms' & Es' & Em). change (jobs_of _ ks) with (final_jobs truthy i0 pre ks) in Es'. rewrite Es in Es'. injection Es' as <- <-. auto. }
  split; [split; [auto|apply Y]|]. intros He. apply Y. auto.
Qed.

(** Whatever was done so far, jobs can be brought to their end: no job waits for another one. *)
Theorem C54_no_deadlock : forall (ps : list (prog loc (@val P SB PB))) (m : memory) sched, exists more, complete (snd (run_sched loc_eqb (sched ++ more) (m, ps))).
Proof. intros ps m sched. exact (can_complete loc_eqb sched (m, ps)). Qed.

(** A whole run with interleaved jobs, chunks and final write, is the run of the model, in which all the other properties are proved. *)
Theorem C54_parallel_run : forall (g : stream) (ws : list place) (m : memory) ys m1 sched m2 ps (pre_buffer : P),
  let ks := combine (map (fun x => fst (fst x)) (g_keys g)) ws in
  apart ws -> (forall w, In w ws -> p_dict w = None /\ p_main w <> p_snap w) -> all_in_memory m ws (g_keys g) ->
  parallel_chunks truthy usage ks (g_pre g) m ys m1 ->
  exists g1, consume truthy usage g (map Ok ys) = Ok (g1, None) /\ all_in_memory m1 ws (g_keys g1) /\
  (run_sched loc_eqb sched (m1, final_jobs truthy (g_restart g1) pre_buffer ks) = (m2, ps) -> complete ps ->
   match final_write truthy (mkStream (g_restart g1) pre_buffer (g_keys g1) (g_log g1)) with
   | Ok g2 => (forall p, In p ps -> outcome p = None) /\ all_in_memory m2 ws (g_keys g2)
   | Err e => exists p, In p ps /\ outcome p = Some e
   end).
Proof.
  intros g ws m ys m1 sched m2 ps pre ks Ha Hw Hm H. subst ks. remember (combine (map (fun x => fst (fst x)) (g_keys g)) ws) as ks eqn:Ek. remember (g_pre g) as pre0 eqn:Ep.
  revert g Ek Ep Hm. induction H as [m|m li id chunk ys sc m' ps1 m'' Er Hc Ho Hr IH]; intros g Ek Ep Hm.
  - exists g. split; [reflexivity|]. split; auto. intros Er Hc. rewrite Ek in Er.
    pose proof (jobs_model _ (fun k b s => post_n_write truthy k b s true (g_restart g) pre) (final_within (g_restart g) pre)) as J. specialize (J (fun k w m b s Hd Hne Hi => solo_post truthy k w true (g_restart g) pre Ret m b s Hd Hne Hi)).
    specialize (J 0%nat ws (g_keys g) m sched m2 ps Ha Hw Hm Er Hc). unfold final_write. cbn [g_restart g_pre g_keys g_log].
    destruct (run_jobs _ 0 (g_keys g)) as [[l' log]|e]; cbn [bind].
    + destruct J as (J1 & J2 & _). cbn [g_keys]. split; auto. intros p Hp. apply (in_map outcome) in Hp. rewrite J1 in Hp. apply in_map_iff in Hp as (_ & Hp & _). auto.
    + apply in_map_iff in J as (p & J1 & J2). exists p. auto.
  - assert (Er' := Er). rewrite Ek in Er'.
    pose proof (jobs_model _ (fun k b s => if (k_filter k =? id)%nat then agg_iter truthy usage k b s pre0 chunk else Ok (b, [])) (iter_within id pre0 chunk)) as J.
    assert (Hj : forall (k : kconf) w (m : memory) b s, p_dict w = None -> p_main w <> p_snap w -> in_memory m w b s ->
      match (if (k_filter k =? id)%nat then agg_iter truthy usage k b s pre0 chunk else Ok (b, [])) with
      | Err x => snd (solo loc_eqb m (if (k_filter k =? id)%nat then agg_iter_job truthy usage k w pre0 chunk else Ret)) = Some x
      | Ok (b', acts) => exists m', solo loc_eqb m (if (k_filter k =? id)%nat then agg_iter_job truthy usage k w pre0 chunk else Ret) = (m', None) /\ in_memory m' w b' (apply_acts s acts)
      end).
    { intros k w m0 b s Hd Hne Hi. destruct (_ =? _)%nat; [apply solo_iter; auto|]. exists m0. auto. }
    specialize (J Hj 0%nat ws (g_keys g) m sc m' ps1 Ha Hw Hm Er' Hc). cbn [map consume]. unfold consume1. rewrite <- Ep.
    destruct (run_jobs _ 0 (g_keys g)) as [[l' log]|e]; cbn [bind].
    + destruct J as (J1 & J2 & J3). specialize (IH (mkStream (Some li) pre0 l' (g_log g ++ log))). cbn [g_keys g_pre] in IH. rewrite J3 in IH. apply IH; auto.
    + exfalso. apply in_map_iff in J as (p & J1 & J2). rewrite (Ho p J2) in J1. discriminate.
Qed.
(** When a job of a chunk raises in the model, it raises in any interleaving. *)
Theorem C54_parallel_failure : forall (g : stream) (ws : list place) (m : memory) last_index id chunk sched m' ps e,
  apart ws -> (forall w, In w ws -> p_dict w = None /\ p_main w <> p_snap w) -> all_in_memory m ws (g_keys g) ->
  run_sched loc_eqb sched (m, iter_jobs truthy usage id (g_pre g) chunk (combine (map (fun x => fst (fst x)) (g_keys g)) ws)) = (m', ps) -> complete ps ->
  consume1 truthy usage g (last_index, id, chunk) = Err e -> exists p, In p ps /\ outcome p = Some e.
Proof.
  intros g ws m li id chunk sched m' ps e Ha Hw Hm Er Hc He.
  pose proof (jobs_model _ (fun k b s => if (k_filter k =? id)%nat then agg_iter truthy usage k b s (g_pre g) chunk else Ok (b, [])) (iter_within id (g_pre g) chunk)) as J.
  assert (Hj : forall (k : kconf) w (m : memory) b s, p_dict w = None -> p_main w <> p_snap w -> in_memory m w b s ->
    match (if (k_filter k =? id)%nat then agg_iter truthy usage k b s (g_pre g) chunk else Ok (b, [])) with
    | Err x => snd (solo loc_eqb m (if (k_filter k =? id)%nat then agg_iter_job truthy usage k w (g_pre g) chunk else Ret)) = Some x
    | Ok (b', acts) => exists m', solo loc_eqb m (if (k_filter k =? id)%nat then agg_iter_job truthy usage k w (g_pre g) chunk else Ret) = (m', None) /\ in_memory m' w b' (apply_acts s acts)
    end).
  { intros k w m0 b s Hd Hne Hi. destruct (_ =? _)%nat; [apply solo_iter; auto|]. exists m0. auto. }
  specialize (J Hj 0%nat ws (g_keys g) m sched m' ps Ha Hw Hm Er Hc). unfold consume1 in He.
  destruct (run_jobs _ 0 (g_keys g)) as [[l' log]|x]; cbn [bind] in He; [discriminate|]. injection He as ->.
  apply in_map_iff in J as (p & J1 & J2). exists p. auto.
Qed.
End C54.
Print Assumptions C54_chunk_schedules.
Print Assumptions C54_final_schedules.
Print Assumptions C54_chunk_sequential.
Print Assumptions C54_final_sequential.
Print Assumptions C54_no_deadlock.
Print Assumptions C54_parallel_run.
Print Assumptions C54_parallel_failure.

(** *** Concrete cases *)
(** Two keys: results are a number of rows, since the start for the first key, in the chunk for the second one. *)
Definition ex_par_key (n : Z) : kconf (Z * Z) Z unit :=
  mkConf 0 (fun rows b => Ok (Some (mkFrame 2 (map (fun r => [fst r; n * b]) rows), None), b + n * Z.of_nat (length rows))) BINS None 1 (mkParams (Some 10) (OrderedOn 0) None None) (mkParams None Unordered None None).
Definition ex_par_buf : kbuf Z unit := mkBuf 0 None None [] [] 0 tt.
Definition ex_par_keys (d1 d2 : option nat) : list (kconf (Z * Z) Z unit * place) := [(ex_par_key 1, mkPlace 0 0 1 d1); (ex_par_key 2, mkPlace 1 2 3 d2)].
Definition ex_par_mem : @memory loc (@val unit Z unit) :=
  fun l => match l with LBuf _ => VBuf ex_par_buf | LData _ => VData None | LMeta _ => VMeta None | LDict _ => VMeta None end.
Definition ex_par_g : stream (Z * Z) unit Z unit := mkStream None tt [(ex_par_key 1, ex_par_buf, mkStore None None); (ex_par_key 2, ex_par_buf, mkStore None None)] [].
Definition ex_in_turn : list nat := concat (repeat [0%nat; 1%nat] 30).
Definition ex_in_turn' : list nat := concat (repeat [1%nat; 0%nat; 1%nat] 30).
Definition ex_in_order : list nat := repeat 0%nat 30 ++ repeat 1%nat 30.
Definition ex_chunk1 : list (Z * Z) := [(1, 0); (2, 0)].
Definition ex_chunk2 : list (Z * Z) := [(3, 0); (4, 0)].
Definition ex_chunk3 : list (Z * Z) := [(4, 0); (6, 0)].

Example ex_C54_apart : apart [mkPlace 0 0 1 None; mkPlace 1 2 3 None] /\ apart [mkPlace 0 0 1 (Some 0%nat); mkPlace 1 2 3 (Some 1%nat)] /\
  all_in_memory ex_par_mem [mkPlace 0 0 1 None; mkPlace 1 2 3 None] (g_keys ex_par_g).
Proof.
  split; [|split].
  - intros [|[|[]]] [|[|[]]] w w' H H' Hne [] U U'; cbn in *; try discriminate; try (apply Hne; reflexivity); injection H as <-; injection H' as <-; cbn in *; try lia; congruence.
  - intros [|[|[]]] [|[|[]]] w w' H H' Hne [] U U'; cbn in *; try discriminate; try (apply Hne; reflexivity); injection H as <-; injection H' as <-; cbn in *; try lia; congruence.
  - constructor; [cbn; repeat split|constructor; [cbn; repeat split|constructor]].
Qed.
(** What is seen of a state: outcomes of jobs, whether all are over, some of the locations. *)
Definition view (r : @memory loc (@val unit Z unit) * list (prog loc (@val unit Z unit))) (ls : list loc) : list (option exn) * bool * list (@val unit Z unit) :=
  (map outcome (snd r), forallb over (snd r), map (fst r) ls).
Definition ex_truthy (z : Z) : bool := negb (z =? 0).
(** Three chunks, then final write. *)
Definition ex_par_run (d1 d2 : option nat) (sched : list nat) : @memory loc (@val unit Z unit) * list (prog loc (@val unit Z unit)) :=
  let step m id chunk := fst (run_sched loc_eqb sched (m, iter_jobs ex_truthy (fun _ => 1) id tt chunk (ex_par_keys d1 d2))) in
  let m := step (step (step ex_par_mem 0%nat ex_chunk1) 0%nat ex_chunk2) 0%nat ex_chunk3 in
  run_sched loc_eqb sched (m, final_jobs ex_truthy (Some 6) tt (ex_par_keys d1 d2)).
Definition ex_par_res1 : entry unit Z unit := mkEntry [mkRg 0 [[1; 0]; [3; 2]; [4; 4]; [6; 4]]] (Some (mkMd 6 tt 6 tt)).
Definition ex_par_res2 : entry unit Z unit := mkEntry [mkRg 0 [[1; 0]; [3; 8]; [4; 16]; [6; 16]]] (Some (mkMd 6 tt 12 tt)).

(** Jobs in turn, or in another order: same results, those of the model. *)
Example ex_C54 :
  view (ex_par_run None None ex_in_turn) [LData 0; LData 2; LMeta 0] = ([None; None], true, [VData (Some ex_par_res1); VData (Some ex_par_res2); VMeta None]) /\
  view (ex_par_run None None ex_in_turn') [LData 0; LData 2; LMeta 0] = ([None; None], true, [VData (Some ex_par_res1); VData (Some ex_par_res2); VMeta None]).
Proof. split; vm_compute; reflexivity. Qed.
Example ex_C54_model :
  (let* '(g1, _) := consume ex_truthy (fun _ => 1) ex_par_g (map Ok [(2, 0%nat, ex_chunk1); (4, 0%nat, ex_chunk2); (6, 0%nat, ex_chunk3)]) in
   let* g2 := final_write ex_truthy g1 in Ok (map (fun x => s_main (snd x)) (g_keys g2))) = Ok [Some ex_par_res1; Some ex_par_res2].
Proof. vm_compute. reflexivity. Qed.
(** Jobs for one chunk, one of them failing: the exception and the work of the other job are the same in any order. *)
Example ex_C54_failure :
  let ks := [(mkConf 0 (fun _ _ => Err UserExn) BINS None 1 (mkParams None Unordered None None) (mkParams None Unordered None None), mkPlace 0 0 1 None); (ex_par_key 2, mkPlace 1 2 3 None)] in
  view (run_sched loc_eqb ex_in_turn (ex_par_mem, iter_jobs ex_truthy (fun _ => 1) 0 tt ex_chunk1 ks)) [LBuf 1] =
    ([Some UserExn; None], true, [VBuf (mkBuf 0 (Some (mkFrame 2 [[1; 0]; [2; 0]])) None [] [] 4 tt)]).
Proof. vm_compute. reflexivity. Qed.

(** The dictionary 'metadata' given to AggStream is common to all keys: a key may be written with the metadata of another one, depending on
    the schedule, without exception. A restart then goes on with the buffers of the other key. Final writes are always made with threads. *)
Definition ex_par_mem2 : @memory loc (@val unit Z unit) :=
  fun l => match l with
           | LBuf i => VBuf (mkBuf 0 (Some (mkFrame 2 [[1; 5]])) None [] [] (if (i =? 0)%nat then 6 else 12) tt)
           | LData _ => VData None | LMeta _ => VMeta None | LDict _ => VMeta None end.
Theorem C54_shared_metadata_refuted : exists (sched sched' : list nat),
  let ks := ex_par_keys (Some 0%nat) (Some 0%nat) in
  let entry_with seg := VData (Some (mkEntry [mkRg 0 [[1; 5]]] (Some (mkMd 6 tt seg tt)))) in
  apart (map (fun x => mkPlace (p_buf (snd x)) (p_main (snd x)) (p_snap (snd x)) None) ks) /\
  view (run_sched loc_eqb sched (ex_par_mem2, final_jobs ex_truthy (Some 6) tt ks)) [LData 0; LData 2] = ([None; None], true, [entry_with 6; entry_with 12]) /\
  view (run_sched loc_eqb sched' (ex_par_mem2, final_jobs ex_truthy (Some 6) tt ks)) [LData 0; LData 2] = ([None; None], true, [entry_with 12; entry_with 12]).
Proof. exists ex_in_order, ex_in_turn. split; [exact (proj1 ex_C54_apart)|]. split; vm_compute; reflexivity. Qed.
Print Assumptions C54_shared_metadata_refuted.
(** The dataset of snapshots of a key can be the dataset of another key, which is not detected: rows of one of the jobs may be lost, depending on the schedule. *)
Theorem C54_shared_dataset_refuted : exists (sched sched' : list nat),
  let ks := [(ex_par_key 1, mkPlace 0 0 1 None); (ex_par_key 2, mkPlace 1 0 1 None)] in
  view (run_sched loc_eqb sched (ex_par_mem2, final_jobs ex_truthy None tt ks)) [LData 0] = ([None; None], true, [VData (Some (mkEntry [mkRg 0 [[1; 5]; [1; 5]]] None))]) /\
  view (run_sched loc_eqb sched' (ex_par_mem2, final_jobs ex_truthy None tt ks)) [LData 0] = ([None; None], true, [VData (Some (mkEntry [mkRg 0 [[1; 5]]] None))]).
Proof. exists ex_in_order, ex_in_turn. split; vm_compute; reflexivity. Qed.
Print Assumptions C54_shared_dataset_refuted.
(** A final write without results does not put metadata in the dictionary of the caller, and a later write puts back the metadata of an earlier run: the restart
    index which is stored goes backwards (from 9 to 6). *)
Theorem C54_stale_metadata_refuted :
  let k := ex_par_key 1 in let w := mkPlace 0 0 1 (Some 0%nat) in
  let step (m : @memory loc (@val unit Z unit)) p := fst (solo loc_eqb m p) in
  let restart m := match m (LData 0) with VData (Some e) => option_map (fun md => m_restart md) (e_md e) | _ => None end in
  let m1 := step ex_par_mem2 (post_n_write_job ex_truthy k w true (Some 6) tt Ret) in
  let m2 := step m1 (post_n_write_job ex_truthy k w true (Some 9) tt Ret) in
  let m3 := step m2 (Put (LBuf 0) (VBuf (mkBuf 0 (Some (mkFrame 2 [[9; 5]])) None [mkFrame 2 [[8; 5]]] [] 7 tt)) Ret) in
  let m4 := step m3 (post_n_write_job ex_truthy k w false None tt Ret) in
  (restart m1, restart m2, restart m4) = (Some 6, Some 9, Some 6).
Proof. vm_compute. reflexivity. Qed.
Print Assumptions C54_stale_metadata_refuted.
