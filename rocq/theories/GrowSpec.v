(** Specification of the aggregation of a dataset of the store, which grows. *)
Require Import List Arith ZArith Bool Sorting.Sorted.
Require Import Verif.Common Verif.WrModel Verif.WrSpec Verif.StreamModel Verif.StreamSpec.
Import ListNotations.
Local Open Scope Z_scope.

(** A step: data is written in a dataset, with some parameters, as a vaex or a pandas data frame; then 'agg' is given all row groups
    of this dataset, with a new AggStream instance or not, with final write or not. *)
Record gstep := mkStep { w_params : params; w_vaex : bool; w_data : frame; w_fresh : bool; w_final : bool }.

Section Steps.
Context {P SB PB : Type}.
Variable c : nat.
Variable truthy : Z -> bool.
Variable usage : frame -> Z.

(** Both dataset and results are in the state left by previous steps. Anything raised ends the history. *)
Definition grow_once (pre : option (list row -> P -> list row * P * bool)) (fs : filters) (pre0 : P) (seg0 : SB) (post0 : PB)
    (x : dataset * stream row P SB PB) (s : gstep) : res (dataset * stream row P SB PB) :=
  let '(ds, g) := x in
  let* ds := write (w_params s) (w_vaex s) ds (w_data s) in
  let* g := run_once (col c) truthy usage pre fs pre0 seg0 post0 g (mkRun (w_fresh s) (w_final s) (map content ds)) in
  Ok (ds, g).
Fixpoint grow_all (pre : option (list row -> P -> list row * P * bool)) (fs : filters) (pre0 : P) (seg0 : SB) (post0 : PB)
    (x : dataset * stream row P SB PB) (ss : list gstep) : res (dataset * stream row P SB PB) :=
  match ss with
  | [] => Ok x
  | s :: ss' => let* x := grow_once pre fs pre0 seg0 post0 x s in grow_all pre fs pre0 seg0 post0 x ss'
  end.
End Steps.

(** All rows which are written, in order. *)
Definition written (ss : list gstep) : list row := concat (map (fun s => rows (w_data s)) ss).
(** A new instance is used once results have been written only. *)
Fixpoint results_first (done : bool) (ss : list gstep) : Prop :=
  match ss with
  | [] => True
  | s :: ss' => (w_fresh s = true -> done = true) /\ results_first (w_final s) ss'
  end.

(** No two rows have the same key. *)
Definition distinct (cols : list nat) (l : list row) : Prop := StronglySorted (fun r s => ~ same_key cols r s) l.
(** Data is ordered on column [c]; there are the same columns, and the same duplicates to be dropped, in all steps. If there are,
    data has no duplicate by itself; and incomplete row groups are not coalesced, or there is a single row for a value of [c]. *)
Definition step_ok (c n : nat) (dup : option (list nat)) (s : gstep) : Prop :=
  ordered_on (w_params s) = OrderedOn c /\ duplicates_on (w_params s) = dup /\ ncols (w_data s) = n /\
  match dup with
  | None => True
  | Some cols => distinct (duplicate_columns n c cols) (rows (w_data s)) /\ (max_nirgs (w_params s) = None \/ cols = [c])
  end.
(** Rows left when dropping duplicates, the latest ones being kept. *)
Definition kept (c n : nat) (dup : option (list nat)) (l out : list row) : Prop :=
  match dup with
  | None => out = l
  | Some cols => keep_last (duplicate_columns n c cols) l out
  end.
(** A step whose write raises nothing: there are rows, columns exist, row groups have rows, and incomplete ones are not coalesced. *)
Definition write_ok (c n : nat) (dup : option (list nat)) (s : gstep) : Prop :=
  rows (w_data s) <> [] /\ match max_row_group_size (w_params s) with Some z => 0 < z | None => True end /\ max_nirgs (w_params s) = None /\ (c < n)%nat
  /\ match dup with None => True | Some cols => Forall (fun x => (x < n)%nat) cols end.
