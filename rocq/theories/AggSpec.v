(** Specification of cumulative segmented aggregation, independent of the code.

    Data is a timeline of tokens: a row, the end of a bin, or a snapshot. Nothing here mentions
    positions, chunks, flags or arrays. *)
Require Import List ZArith.
Require Import Verif.AggModel.
Import ListNotations.

Section Spec.
Context {V : Type} (N : num V).

(** Mathematical meaning of the five aggregations over the successive values of a column.
    An aggregation over no value has no result. *)
Definition spec_agg (f : afun) (l : list V) : option V :=
  match l with
  | [] => None
  | x :: t =>
      Some (match f with
            | First => x
            | Last => last t x
            | Min => fold_left (fun m v => if nlt N v m then v else m) t x
            | Max => fold_left (fun m v => if nlt N m v then v else m) t x
            | Sum => fold_left (add N) t x
            end)
  end.

Inductive token (R : Type) := TRow (r : R) | TBin | TSnap.

(** What a bin end or a snapshot has to aggregate: the rows met since the last bin end. *)
Inductive sev (R : Type) := EBin (rows : list R) | ESnap (rows : list R).

Fixpoint spec_events {R} (since_bin : list R) (ts : list (token R)) : list (sev R) :=
  match ts with
  | [] => []
  | TRow _ r :: ts' => spec_events (since_bin ++ [r]) ts'
  | TBin _ :: ts' => EBin _ since_bin :: spec_events [] ts'
  | TSnap _ :: ts' => ESnap _ since_bin :: spec_events since_bin ts'
  end.

(** Rows since the last bin end once all tokens are read. *)
Fixpoint spec_rest {R} (since_bin : list R) (ts : list (token R)) : list R :=
  match ts with
  | [] => since_bin
  | TRow _ r :: ts' => spec_rest (since_bin ++ [r]) ts'
  | TBin _ :: ts' => spec_rest [] ts'
  | TSnap _ :: ts' => spec_rest since_bin ts'
  end.

Definition ebins {R} (l : list (sev R)) : list (list R) :=
  flat_map (fun e => match e with EBin _ r => [r] | ESnap _ _ => [] end) l.
Definition esnaps {R} (l : list (sev R)) : list (list R) :=
  flat_map (fun e => match e with ESnap _ r => [r] | EBin _ _ => [] end) l.

(** Column [i] of rows. *)
Definition col (i : nat) (rows : list (list V)) : list V := map (fun r => nth i r (zero N)) rows.

(** An output cell: function, input column, output column. *)
Definition cell := (afun * nat * nat)%type.

(** [r] is the result of aggregating [rows] for the output cells [cells]. *)
Definition aggregates (cells : list cell) (rows : list (list V)) (r : list V) : Prop :=
  forall f i j, In (f, i, j) cells -> spec_agg f (col i rows) = Some (nth j r (zero N)).

(** Expected outcome for a chunk: no row, no result; else the aggregation. *)
Definition result_ok (cells : list cell) (rows : list (list V)) (o : option (list V)) : Prop :=
  match o with
  | None => rows = []
  | Some r => rows <> [] /\ aggregates cells rows r
  end.

Definition event_ok (cells : list cell) (e : sev (list V)) (j : jev) : Prop :=
  match e, j with
  | EBin _ rows, JBin o => result_ok cells rows o
  | ESnap _ rows, JSnap o => result_ok cells rows o
  | _, _ => False
  end.

End Spec.

Arguments TRow {R} _.
Arguments TBin {R}.
Arguments TSnap {R}.
Arguments EBin {R} _.
Arguments ESnap {R} _.

(** Row positions and kinds of chunks seen as a timeline: rows of [data] up to a position,
    then the bin end or snapshot at this position ([true] is a bin). *)
Fixpoint timeline {R} (data : list R) (from : nat) (evs : list (nat * bool)) : list (token R) :=
  match evs with
  | [] => []
  | (p, isbin) :: evs' =>
      map TRow (firstn (p - from) (skipn from data))
        ++ (if isbin then TBin else TSnap) :: timeline data p evs'
  end.

(** Output cells of a set of aggregations. *)
Definition cells_of (aggs : list agg1) : list cell :=
  flat_map (fun a => map (fun ij => (a_fun a, fst ij, snd ij))
                       (combine (a_cols_data a) (a_cols_res a))) aggs.

(** Each output column is written by one aggregation, from one input column. *)
Definition wf_aggs (ncols : nat) (aggs : list agg1) : Prop :=
  NoDup (flat_map a_cols_res aggs)
  /\ (forall a, In a aggs -> length (a_cols_data a) = length (a_cols_res a))
  /\ (forall j, In j (flat_map a_cols_res aggs) -> j < ncols).

(** Integers as numbers. *)
Definition Znum : num Z := mkNum Z 0%Z Z.add Z.ltb (Z.eqb 0%Z).
