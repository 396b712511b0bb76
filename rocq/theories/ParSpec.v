(** Vocabulary for parallel jobs. *)
Require Import List Arith ZArith Bool.
Require Import Verif.Common Verif.WrModel Verif.StreamModel Verif.ParModel.
Import ListNotations.

(** Locations of the data of a key. *)
Definition uses (w : place) (l : loc) : Prop :=
  match l with
  | LBuf i => i = p_buf w
  | LData a | LMeta a => a = p_main w \/ a = p_snap w
  | LDict v => p_dict w = Some v
  end.
(** Keys do not share buffers, datasets, or dictionaries of metadata. *)
Definition apart (ws : list place) : Prop :=
  forall i j w w', nth_error ws i = Some w -> nth_error ws j = Some w' -> i <> j -> forall l, uses w l -> uses w' l -> False.
Definition complete {loc val} (ps : list (prog loc val)) : Prop := forallb over ps = true.

Section Holds.
Context {D P SB PB : Type}.
(** What is in memory for a key: [b] in its buffers, [s] in its datasets, no pending metadata. *)
Definition in_memory (m : @memory loc (@val P SB PB)) (w : place) (b : kbuf SB PB) (s : kstore P SB PB) : Prop :=
  m (LBuf (p_buf w)) = VBuf b /\ m (LData (p_main w)) = VData (s_main s) /\ m (LData (p_snap w)) = VData (s_snap s) /\
  m (LMeta (p_main w)) = VMeta None /\ m (LMeta (p_snap w)) = VMeta None.
Definition all_in_memory (m : @memory loc (@val P SB PB)) (ws : list place) (ks : list (kconf D SB PB * kbuf SB PB * kstore P SB PB)) : Prop :=
  Forall2 (fun w x => let '(k, b, s) := x in in_memory m w b s) ws ks.
End Holds.

(** ** A run with parallel jobs *)
Section Runs.
Context {D P SB PB : Type}.
Variable truthy : Z -> bool.
Variable usage : frame -> Z.
(** Chunks are processed in turn, jobs of the keys for a chunk being interleaved in any manner, all being over, without exception, before
    next chunk (joblib waits for its jobs, and raises the exception of any of them). *)
Inductive parallel_chunks (ks : list (kconf D SB PB * place)) (pre_buffer : P) : @memory loc (@val P SB PB) -> list (@yielded D) -> @memory loc (@val P SB PB) -> Prop :=
| no_chunk : forall m, parallel_chunks ks pre_buffer m [] m
| next_chunk : forall m last_index id chunk ys sched m1 ps m',
    run_sched loc_eqb sched (m, iter_jobs truthy usage id pre_buffer chunk ks) = (m1, ps) -> complete ps -> (forall p, In p ps -> outcome p = None) ->
    parallel_chunks ks pre_buffer m1 ys m' -> parallel_chunks ks pre_buffer m ((last_index, id, chunk) :: ys) m'.
End Runs.
