(** Model of the list 'duplicates_on' given by the caller to several writes: oups/store/writer.py modifies it in place. *)
Require Import List Arith ZArith Bool.
Require Import Verif.Common Verif.WrModel.
Import ListNotations.

(** writer.py:444-483: list of the caller after a write, being given as [cols]. It is modified before anything which can
    fail later on. In 'iter_dataframe' (writer.py:106-119), it is given with the column already in it. *)
Definition list_after (p : params) (ds : dataset) (data : frame) (cols : list nat) : list nat :=
  match check_ordered_on (ordered_on p) (ncols data), ds with
  | Ok (Some c), _ :: _ => with_column c cols
  | _, _ => cols
  end.

(** [duplicates_on] is a variable of the caller. *)
Definition with_list (p : params) (cols : list nat) : params := mkParams (max_row_group_size p) (ordered_on p) (Some cols) (max_nirgs p).

(** A write: dataset, parameters ('duplicates_on' left out), type of data, data, and variable given as 'duplicates_on'. *)
Record write_op := mkOp { op_key : nat; op_params : params; op_vaex : bool; op_data : frame; op_list : nat }.
Record lstate := mkL { datasets : nat -> dataset; lists : nat -> list nat }.
Definition upd {V} (f : nat -> V) (k : nat) (v : V) : nat -> V := fun x => if Nat.eqb x k then v else f x.

(** collection.py:200 ('store[key] = params, data'). A write which fails leaves the dataset as it is (what fails is before
    any change of files: see C27). *)
Definition write_one (ds : nat -> dataset) (o : write_op) (cols : list nat) : nat -> dataset :=
  match write (with_list (op_params o) cols) (op_vaex o) (ds (op_key o)) (op_data o) with
  | Ok ds' => upd ds (op_key o) ds'
  | Err _ => ds
  end.
Definition step (s : lstate) (o : write_op) : lstate :=
  let cols := lists s (op_list o) in
  mkL (write_one (datasets s) o cols)
      (upd (lists s) (op_list o) (list_after (op_params o) (datasets s (op_key o)) (op_data o) cols)).
Definition run (s : lstate) (h : list write_op) : lstate := fold_left step h s.
