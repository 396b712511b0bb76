(** Specification of chained aggregations: results of a stream are seed data of another one. *)
Require Import List Arith ZArith Bool Sorting.Sorted.
Require Import Verif.Common Verif.WrModel Verif.StreamModel Verif.StreamSpec.
Import ListNotations.
Local Open Scope Z_scope.

(** A step of the chain: calls to 'agg' of the 1st stream; then 'agg' of the 2nd stream is given all row groups of the results of a key of the 1st one, with
    a new AggStream instance or not, with final write or not. *)
Record link {D : Type} := mkLink { l_runs : list (@run D); l_fresh : bool; l_final : bool }.
Arguments link D : clear implicits.
Arguments mkLink {D}.

(** Results of the [i]-th key: those of its main key, or those of its key of snapshots. *)
Definition results_of {D P SB PB} (i : nat) (snap : bool) (g : stream D P SB PB) : res dataset :=
  match nth_error (g_keys g) i with
  | Some (_, _, s) => Ok (data_of (if snap then s_snap s else s_main s))
  | None => Err KeyError
  end.

Section Links.
Context {D P SB PB P' SB' PB' : Type}.
Variables (idx : D -> Z) (truthy : Z -> bool) (usage usage' : frame -> Z).
Variables (pre : option (list D -> P -> list D * P * bool)) (fs : @filters D) (pre0 : P) (seg0 : SB) (post0 : PB).
Variables (pre' : option (list row -> P' -> list row * P' * bool)) (fs' : @filters row) (pre0' : P') (seg0' : SB') (post0' : PB').
Variables (i : nat) (snap : bool).

(** Results of both streams are in the state left by previous steps. Anything raised ends the history. Labels of results, which are
    the index for the 2nd stream, are in the first column. *)
Definition link_once (x : stream D P SB PB * stream row P' SB' PB') (l : link D) : res (stream D P SB PB * stream row P' SB' PB') :=
  let '(g, g') := x in
  let* g := run_all idx truthy usage pre fs pre0 seg0 post0 g (l_runs l) in
  let* ds := results_of i snap g in
  let* g' := run_once (col 0) truthy usage' pre' fs' pre0' seg0' post0' g' (mkRun (l_fresh l) (l_final l) (map content ds)) in
  Ok (g, g').
Fixpoint link_all (x : stream D P SB PB * stream row P' SB' PB') (ls : list (link D)) : res (stream D P SB PB * stream row P' SB' PB') :=
  match ls with
  | [] => Ok x
  | l :: ls' => let* x := link_once x l in link_all x ls'
  end.
End Links.

(** All calls to 'agg' of the 1st stream. *)
Definition runs_of {D} (ls : list (link D)) : list (@run D) := concat (map l_runs ls).
(** Results of the 1st stream are written before they are read. *)
Definition link_ok {D} (l : link D) : Prop := l_runs l <> [] /\ r_final (last (l_runs l) (mkRun false false [])) = true.
(** A new instance for the 2nd stream is used once its results have been written only. *)
Fixpoint links_written {D} (done : bool) (ls : list (link D)) : Prop :=
  match ls with
  | [] => True
  | l :: ls' => (l_fresh l = true -> done = true) /\ links_written (l_final l) ls'
  end.
