(** Model of oups/store/writer.py: splitting of data into row groups ('iter_dataframe') and writing of a
    dataset ('write').

    Values are integers (numbers, timestamps): there is no null value, no NaN, no categorical or nested
    type. A data frame has columns numbered from 0, a row is the list of its values. All data frames
    written in a dataset are assumed to have the same columns with the same types. Sizes are in Z, as
    the default row group size is a large number.

    Libraries, as they are used by the modelled code: fastparquet keeps the list of row groups in the
    order they are written, one per file 'part.N.parquet', with exact 'min' and 'max' statistics of each
    column, and writes no file for an empty data frame; vaex reads the rows of files in the order they
    are given, concatenates, and its sort is stable. *)
Require Import List Arith ZArith Bool.
Require Import Verif.Common.
Import ListNotations.
Local Open Scope Z_scope.

Definition row := list Z.
Record frame := mkFrame { ncols : nat; rows : list row }.
Definition col (c : nat) (r : row) : Z := nth c r 0.

(** ** Library functions *)

(** Sorting with a key, stable: 'sorted' of Python, 'sort' of vaex. *)
Fixpoint insert_by {A} (key : A -> Z) (x : A) (l : list A) : list A :=
  match l with
  | [] => [x]
  | y :: l' => if key x <=? key y then x :: l else y :: insert_by key x l'
  end.
Definition sort_by {A} (key : A -> Z) (l : list A) : list A := fold_right (insert_by key) [] l.

(** 'numpy.searchsorted' of a sorted array, on left side. *)
Fixpoint searchsorted (a : list Z) (v : Z) : nat :=
  match a with
  | [] => 0%nat
  | x :: a' => if x <? v then S (searchsorted a' v) else 0%nat
  end.

(** 'numpy.unique': sorted, without repetition. *)
Fixpoint insert_unique (n : nat) (l : list nat) : list nat :=
  match l with
  | [] => [n]
  | m :: l' => if (n <? m)%nat then n :: l else if (n =? m)%nat then l else m :: insert_unique n l'
  end.
Definition unique (l : list nat) : list nat := fold_right insert_unique [] l.

(** 'range(start, stop, step)' for a positive step; [fuel] is a bound for the number of items. *)
Fixpoint range (fuel start stop step : nat) : list nat :=
  match fuel with
  | O => []
  | S fuel' => if (start <? stop)%nat then start :: range fuel' (start + step) stop step else []
  end.

(** 'drop_duplicates(columns, keep="last")' of pandas. *)
Definition same_on (cols : list nat) (r s : row) : bool := forallb (fun c => col c r =? col c s) cols.
Fixpoint drop_duplicates (cols : list nat) (l : list row) : list row :=
  match l with
  | [] => []
  | r :: l' => if existsb (same_on cols r) l' then drop_duplicates cols l' else r :: drop_duplicates cols l'
  end.

(** ** iter_dataframe *)

(** writer.py:31 *)
Definition MAX_ROW_GROUP_SIZE : Z := 6345000.

(** writer.py:120-129. A maximum of 0 raises 'ZeroDivisionError'. Negative ones are not modelled (same
    error here). *)
Definition row_group_size (n_rows max : Z) : Z :=
  let n_parts := (n_rows - 1) / max + 1 in Z.min ((n_rows - 1) / n_parts + 1) n_rows.
Definition starts_of (n : nat) (max : Z) : res (list nat) :=
  match n with
  | O => Ok [0%nat]
  | _ => if max <=? 0 then Err ZeroDivisionError
         else Ok (range n 0 n (Z.to_nat (row_group_size (Z.of_nat n) max)))
  end.

(** writer.py:130-142: starts moved to the first row having the same value in [sharp_on]. *)
Definition sharp_starts (values : list Z) (starts : list nat) : res (list nat) :=
  match values with
  | [] => Err IndexError
  | _ => Ok (unique (map (fun idx => searchsorted values (nth idx values 0)) starts))
  end.

(** writer.py:143, 158, 161 and 164: slices between consecutive starts, the last one being open. *)
Fixpoint slices {A} (starts : list nat) (l : list A) : list (list A) :=
  match starts with
  | [] => []
  | s :: starts' => match starts' with [] => [skipn s l] | e :: _ => slice s e l :: slices starts' l end
  end.

(** writer.py:106-119: columns on which duplicates are looked for. A single column name is modelled as a
    list with this name. An empty list stands for all columns (142-144). The list given by the caller is
    modified in place by the code: see ArgModel.v. *)
Definition with_column (c : nat) (cols : list nat) : list nat :=
  match cols with
  | [] => []
  | _ => if existsb (Nat.eqb c) cols then cols else cols ++ [c]
  end.
Definition dup_columns (n : nat) (cols : list nat) : list nat := match cols with [] => seq 0 n | _ => cols end.

(** writer.py:49-164. [dup_list] tells if [duplicates_on] is given as a list rather than as a column
    name. *)
Definition iter_dataframe (is_vaex : bool) (data : frame) (max_row_group_size : option Z)
    (sharp_on : option nat) (duplicates_on : option (list nat)) (dup_list : bool) : res (list (list row)) :=
  let max := match max_row_group_size with Some m => m | None => MAX_ROW_GROUP_SIZE end in
  if negb is_vaex && (match sharp_on with Some _ => true | None => false end
                      || match duplicates_on with Some _ => dup_list | None => false end)
  then Err TypeError
  else
    match duplicates_on, sharp_on with
    | Some _, None => Err ValueError
    | _, _ =>
        let* starts := starts_of (length (rows data)) max in
        let* starts := match sharp_on with
                       | Some c => sharp_starts (map (col c) (rows data)) starts
                       | None => Ok starts
                       end in
        let chunks := slices starts (rows data) in
        match duplicates_on, sharp_on with
        | Some cols, Some c =>
            if existsb (fun c' => (ncols data <=? c')%nat) (with_column c cols) then Err KeyError
            else Ok (map (drop_duplicates (dup_columns (ncols data) (with_column c cols))) chunks)
        | _, _ => Ok chunks
        end
    end.

(** ** write *)

(** A row group: number of the file 'part.N.parquet', and rows. *)
Record rg := mkRg { part : nat; content : list row }.
(** Row groups of a dataset. An empty list stands for no dataset, or for one without any file. *)
Definition dataset := list rg.
Definition all_rows (ds : dataset) : list row := flat_map content ds.

Inductive order_arg := Unordered | OrderedOn (c : nat) | OrderedOnTuple.
Record params := mkParams {
  max_row_group_size : option Z;
  ordered_on : order_arg;
  duplicates_on : option (list nat);
  max_nirgs : option Z }.

(** Statistics of a row group. *)
Definition list_min (l : list Z) : Z := match l with [] => 0 | x :: l' => fold_left Z.min l' x end.
Definition list_max (l : list Z) : Z := match l with [] => 0 | x :: l' => fold_left Z.max l' x end.
Definition rg_min (c : nat) (g : rg) : Z := list_min (map (col c) (content g)).
Definition rg_max (c : nat) (g : rg) : Z := list_max (map (col c) (content g)).

(** 'fastparquet.api.filter_row_groups' with filters 'c >= start' and 'c <= end': a row group is left out
    if empty, or if its statistics exclude one of these conditions. *)
Definition overlaps (c : nat) (first last : Z) (g : rg) : bool :=
  match content g with
  | [] => false
  | _ => negb (rg_max c g <? first) && negb (last <? rg_min c g)
  end.

(** writer.py:484-507: indexes of first and last row groups overlapping with data (last one excluded,
    [None] for the end of the dataset or if there is a single one). *)
Definition overlap (c : nat) (ds : dataset) (data : list row) : res (option nat * option nat) :=
  match data with
  | [] => Err IndexError
  | r :: _ =>
      let first := col c r in
      let last_ := col c (last data []) in
      Ok (match nonzero_from 0 (overlaps c first last_) ds with
          | [] => (None, None)
          | [i] => (Some i, None)
          | i :: l => (Some i, let e := S (last l 0%nat) in if (e =? length ds)%nat then None else Some e)
          end)
  end.

(** writer.py:511-519: number of row groups at the end of the dataset which are incomplete, and number of
    rows in them. *)
Definition rg_count (g : rg) : Z := Z.of_nat (length (content g)).
Fixpoint incomplete (min_size : Z) (rev_ds : list rg) : nat * Z :=
  match rev_ds with
  | [] => (0%nat, 0)
  | g :: l => if rg_count g <=? min_size then let '(n, t) := incomplete min_size l in (S n, rg_count g + t)
              else (0%nat, 0)
  end.

(** Truth value of an index which may be [None]. *)
Definition truthy_idx (i : option nat) : bool := match i with None | Some O => false | Some _ => true end.

(** writer.py:508-532. 'int(max_row_group_size * 0.9)' is [9 * max / 10] (for sizes below 10^15). *)
Definition coalesce (max_size : option Z) (nirgs : option Z) (n_data : Z) (ds : dataset)
    (start_idx end_idx : option nat) : res (option nat) :=
  match nirgs with
  | None => Ok start_idx
  | Some max_n =>
      match max_size with
      | None => Err TypeError
      | Some max =>
          let '(n_irgs, rows_in_irgs) := incomplete (9 * max / 10) (rev ds) in
          let tmp := (length ds - n_irgs)%nat in
          let total := n_data + rows_in_irgs in
          Ok (if (max <=? total) || (max_n <=? Z.of_nat n_irgs) then
                match start_idx with
                | Some (S _ as s) =>
                    match end_idx with
                    | None => Some (Nat.min tmp s)
                    | Some e => if (tmp <? e)%nat then Some (Nat.min tmp s) else start_idx
                    end
                | _ => if truthy_idx end_idx then start_idx else Some tmp
                end
              else start_idx)
      end
  end.

(** Files of new row groups, numbered from [n]. Nothing is written for an empty data frame. *)
Fixpoint number_parts (n : nat) (chunks : list (list row)) : list rg :=
  match chunks with
  | [] => []
  | [] :: l => number_parts n l
  | c :: l => mkRg n c :: number_parts (S n) l
  end.
(** First number available. *)
Definition next_part (ds : dataset) : nat := fold_left (fun m g => Nat.max m (S (part g))) ds 0%nat.
(** 'ParquetFile._sort_part_names': files are renamed according to the position of row groups. *)
Fixpoint renumber (n : nat) (ds : dataset) : dataset :=
  match ds with
  | [] => []
  | g :: l => mkRg n (content g) :: renumber (S n) l
  end.

(** writer.py:444-455 *)
Definition check_ordered_on (o : order_arg) (n : nat) : res (option nat) :=
  match o with
  | Unordered => Ok None
  | OrderedOnTuple => Err TypeError
  | OrderedOn c => if (c <? n)%nat then Ok (Some c) else Err ValueError
  end.
(** writer.py:463-483 *)
Definition check_duplicates_on (dup : option (list nat)) (ordered : option nat) : res (option (list nat)) :=
  match dup, ordered with
  | None, _ => Ok None
  | Some _, None => Err ValueError
  | Some cols, Some c => Ok (Some (with_column c cols))
  end.

(** writer.py:546-584: row groups from [s] to [e] are read, merged with new data, written again. *)
Definition update_rgs (max_size : option Z) (ordered : option nat) (dup : option (list nat)) (ds : dataset)
    (s : nat) (e : option nat) (data : frame) : res dataset :=
  let overlapping := match e with Some e => slice s e ds | None => skipn s ds end in
  match overlapping with
  | [] => Err ValueError
  | _ =>
      let merged := all_rows overlapping ++ rows data in
      let merged := match ordered with Some c => sort_by (col c) merged | None => merged end in
      let* chunks := iter_dataframe true (mkFrame (ncols data) merged) max_size ordered dup true in
      let new := number_parts (next_part ds) chunks in
      let kept := firstn s ds ++ match e with Some e => skipn e ds | None => [] end in
      Ok (renumber 0 (match e, ordered with
                      | Some _, Some c => sort_by (rg_max c) (kept ++ new)
                      | _, _ => kept ++ new
                      end))
  end.

(** writer.py:326-615, without column multi-index (see ColumnsModel.v), compression and metadata (see
    MetaModel.v). *)
Definition write (p : params) (is_vaex : bool) (ds : dataset) (data : frame) : res dataset :=
  let* ordered := check_ordered_on (ordered_on p) (ncols data) in
  match ds with
  | [] =>
      (* Case initiating a new dataset. *)
      let* chunks := iter_dataframe is_vaex data (max_row_group_size p) None None false in
      Ok (number_parts 0 chunks)
  | _ =>
      let* dup := check_duplicates_on (duplicates_on p) ordered in
      let* '(start_idx, end_idx) := match ordered with
                                    | None => Ok (None, None)
                                    | Some c => overlap c ds (rows data)
                                    end in
      let* start_idx := coalesce (max_row_group_size p) (max_nirgs p) (Z.of_nat (length (rows data))) ds start_idx end_idx in
      match start_idx with
      | None =>
          (* Case 'appending'. *)
          let* chunks := iter_dataframe is_vaex data (max_row_group_size p) None None false in
          Ok (ds ++ number_parts (next_part ds) chunks)
      | Some s => update_rgs (max_row_group_size p) ordered dup ds s end_idx data
      end
  end.
