(** Specification of writes of the same rows given in another way: ordered on another column which orders
    them the same, or with other values (other unit, other origin) in the column they are ordered on. *)
Require Import List Arith ZArith Bool.
Require Import Verif.Common Verif.WrModel Verif.WrSpec.
Import ListNotations.
Local Open Scope Z_scope.

(** Each row is changed by [g]; row groups, their files, and order of rows are kept. *)
Definition change_dataset (g : row -> row) (ds : dataset) : dataset := map (fun x => mkRg (part x) (map g (content x))) ds.
Definition change_result (g : row -> row) (r : res dataset) : res dataset :=
  match r with Ok ds => Ok (change_dataset g ds) | Err e => Err e end.

(** Rows are ordered by column [c] as changed rows are by column [c']. *)
Definition ordered_alike (c c' : nat) (g : row -> row) (l : list row) : Prop :=
  forall r s, In r l -> In s l -> (col c r <= col c s <-> col c' (g r) <= col c' (g s)).

(** Columns by which duplicates are identified: those given and the one data is ordered on, or all. *)
Definition identity_columns (n c : nat) (dup : list nat) : list nat :=
  match dup with [] => seq 0 n | _ => c :: dup end.
Definition identified_alike (cols cols' : list nat) (g : row -> row) (l : list row) : Prop :=
  forall r s, In r l -> In s l -> (same_key cols r s <-> same_key cols' (g r) (g s)).

(** Values of column [c] are changed by [f]. *)
Definition change_column (c : nat) (f : Z -> Z) (r : row) : row :=
  firstn c r ++ match skipn c r with [] => [] | v :: l => f v :: l end.

(** Calls to 'write' one after the other on a dataset, each with its own parameters but ordered on the same
    column; a call which raises changes nothing. Dataset at the end, and what each call raised. *)
Record call := mkCall { c_size : option Z; c_dup : option (list nat); c_nirgs : option Z; c_vaex : bool; c_rows : list row }.
Definition change_call (g : row -> row) (k : call) : call := mkCall (c_size k) (c_dup k) (c_nirgs k) (c_vaex k) (map g (c_rows k)).
Fixpoint run_writes (n c : nat) (ds : dataset) (h : list call) : dataset * list (option exn) :=
  match h with
  | [] => (ds, [])
  | k :: h' =>
      match write (mkParams (c_size k) (OrderedOn c) (c_dup k) (c_nirgs k)) (c_vaex k) ds (mkFrame n (c_rows k)) with
      | Ok ds' => let '(r, l) := run_writes n c ds' h' in (r, None :: l)
      | Err e => let '(r, l) := run_writes n c ds h' in (r, Some e :: l)
      end
  end.
(** Columns given to identify duplicates exist. *)
Definition dup_in (n : nat) (k : call) : Prop := match c_dup k with Some D => Forall (fun x => (x < n)%nat) D | None => True end.
