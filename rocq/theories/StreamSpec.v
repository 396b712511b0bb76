(** Vocabulary for the properties of streamed aggregation, independent of the code. *)
Require Import List Arith ZArith Bool.
Require Import Verif.Common Verif.SegSpec Verif.WrModel Verif.FilterModel Verif.StreamModel.
Import ListNotations.
Local Open Scope Z_scope.

Section Spec.
Context {D P : Type}.
Variable idx : D -> Z.

(** Value of the last row in the column data is ordered on. *)
Definition last_index (l : list D) : Z := last (map idx l) 0.

(** A function 'pre' which does not change data, nor raises. *)
Definition harmless (pre : option (list D -> P -> list D * P * bool)) : Prop :=
  match pre with
  | None => True
  | Some f => forall rows p, exists p', f rows p = (rows, p', true)
  end.

(** A filter keeps the rows for which [g] is true; there is no filter for NO_FILTER_ID. *)
Definition filters_by (f : option (list D -> res (list bool))) (g : D -> bool) : Prop :=
  match f with
  | None => forall r, g r = true
  | Some f => forall rows, f rows = Ok (map g rows)
  end.
(** Filters, given by the rows they keep. *)
Definition filters_are (fs : list (nat * option (list D -> res (list bool)))) (gs : list (nat * (D -> bool))) : Prop :=
  NoDup (map fst gs) /\ Forall2 (fun f g => fst f = fst g /\ filters_by (snd f) (snd g)) fs gs.

(** Rows delivered for a filter, by an iteration over seed data. *)
Definition delivered (id : nat) (ys : list (res (Z * nat * list D))) : list D :=
  flat_map (fun y => match y with Ok (_, i, rows) => if (i =? id)%nat then rows else [] | Err _ => [] end) ys.
(** Index from which to restart after an iteration over seed data. *)
Definition restart_after (r : option Z) (ys : list (res (Z * nat * list D))) : option Z :=
  fold_left (fun r y => match y with Ok (i, _, _) => Some i | Err _ => r end) ys r.
(** Nothing has been raised. *)
Definition no_error (ys : list (res (Z * nat * list D))) : Prop := forall e, ~ In (Err e) ys.
End Spec.

(** ** Runs of a stream *)
Section Runs.
Context {D P SB PB : Type}.
Variable idx : D -> Z.
Variable truthy : Z -> bool.
Variable usage : frame -> Z.
Notation last_index := (last_index idx).

(** A run: with a new AggStream instance on the store left by previous runs, or with the same one; with or
    without a final write; over some seed data. Anything raised ends the history. *)
Record run := mkRun { r_fresh : bool; r_final : bool; r_seed : list (list D) }.

Definition run_once (pre : option (list D -> P -> list D * P * bool)) (fs : filters) (pre0 : P) (seg0 : SB) (post0 : PB)
    (g : stream D P SB PB) (r : run) : res (stream D P SB PB) :=
  let* g := if r_fresh r then init pre0 seg0 post0 (map (fun x => let '(k, b, s) := x in (k, s)) (g_keys g)) else Ok g in
  let* '(g, ex) := agg idx truthy usage pre fs g (r_seed r) true true (r_final r) in
  match ex with Some e => Err e | None => Ok g end.
Fixpoint run_all (pre : option (list D -> P -> list D * P * bool)) (fs : filters) (pre0 : P) (seg0 : SB) (post0 : PB)
    (g : stream D P SB PB) (rs : list run) : res (stream D P SB PB) :=
  match rs with
  | [] => Ok g
  | r :: rs' => let* g := run_once pre fs pre0 seg0 post0 g r in run_all pre fs pre0 seg0 post0 g rs'
  end.

(** Rows of [before] are in [seed], except those which have its last index. These ones are provisional: they may be modified, or
    there may be other rows instead, from this index on. *)
Definition extends (before seed : list D) : Prop :=
  exists new : list D, seed = filter (fun r => idx r <? last_index before) before ++ new /\
    (before <> [] -> new <> [] /\ forall r, In r new -> last_index before <= idx r).

(** Seed data grows at its end from a run to the next, rows at its last index being provisional, whatever the chunks. It is ordered,
    and chunks have rows. *)
Fixpoint growing (before : list D) (rs : list run) : Prop :=
  match rs with
  | [] => True
  | r :: rs' => extends before (concat (r_seed r)) /\ sorted (map idx (concat (r_seed r))) /\
                (forall c, In c (r_seed r) -> c <> []) /\ growing (concat (r_seed r)) rs'
  end.
Definition whole_seed (before : list D) (rs : list run) : list D := concat (r_seed (last rs (mkRun false false [before]))).
End Runs.

(** A key whose aggregation only records the rows it is given. *)
Definition records {D PB} (k : kconf D (list D) PB) : Prop := forall rows b, k_agg k rows b = Ok (None, b ++ rows).
(** A stream with keys which are not in store. *)
Definition new_stream {D P SB PB} (pre0 : P) (seg0 : SB) (post0 : PB) (keys : list (kconf D SB PB)) : stream D P SB PB :=
  mkStream None pre0 (map (fun k => (k, mkBuf 0 None None [] [] seg0 post0, mkStore None None)) keys) [].

(** A chunk on which 'pre' is not called as data is not ordered, or on which 'pre' raises, [p] and [p'] being
    its buffer before and after. *)
Definition chunk_fails {D P} (idx : D -> Z) (pre : option (list D -> P -> list D * P * bool)) (p p' : P) (bad : list D) : Prop :=
  (~ sorted (map idx bad) /\ p' = p) \/
  (sorted (map idx bad) /\ exists f c, pre = Some f /\ f bad p = (c, p', false)).

(** Same content of a stream, but for the buffer of 'pre'. *)
Section Same.
Context {D P SB PB : Type}.
Definition same_md (m m' : aggmd P SB PB) : Prop := m_restart m = m_restart m' /\ m_seg m = m_seg m' /\ m_post m = m_post m'.
Definition same_opt {A} (R : A -> A -> Prop) (x y : option A) : Prop :=
  match x, y with Some a, Some b => R a b | None, None => True | _, _ => False end.
Definition same_entry (e e' : entry P SB PB) : Prop := e_data e = e_data e' /\ same_opt same_md (e_md e) (e_md e').
Definition same_store (s s' : kstore P SB PB) : Prop := same_opt same_entry (s_main s) (s_main s') /\ same_opt same_entry (s_snap s) (s_snap s').
Definition same_state (x y : kconf D SB PB * kbuf SB PB * kstore P SB PB) : Prop :=
  fst x = fst y /\ same_store (snd x) (snd y).
Definition same_but_pre (g g' : stream D P SB PB) : Prop :=
  g_restart g = g_restart g' /\ Forall2 same_state (g_keys g) (g_keys g').
End Same.

(** Size of results kept in memory for a key: buffers hold results but their last row, the recorded size is that
    of these results, and without the newest one it is not above the limit. *)
Definition total {A} (u : A -> Z) (l : list A) : Z := fold_right (fun x z => u x + z) 0 l.
Definition bounded {D SB PB} (usage : frame -> Z) (k : kconf D SB PB) (b : kbuf SB PB) : Prop :=
  exists rs : list (frame * option frame),
    let size := fun r : frame * option frame => usage (fst r) + match snd r with Some s => usage s | None => 0 end in
    b_bins b = map (fun r => chop (fst r)) rs /\
    b_snaps b = flat_map (fun r => match snd r with Some s => [chop s] | None => [] end) rs /\
    b_size b = total size rs /\ total size (removelast rs) <= k_max k.
