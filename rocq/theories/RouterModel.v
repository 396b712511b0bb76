(** Model of oups/store/router.py: reading of a dataset. *)
Require Import String List Arith ZArith Bool.
Require Import Verif.Common Verif.IdxModel Verif.WrModel.
Import ListNotations.
Local Open Scope list_scope.

(** Name of the file of a row group, as set by fastparquet. *)
Definition file_part (n : nat) : str := lit "part." ++ int_str (Z.of_nat n) ++ lit ".parquet".

(** router.py:81: [file.name[-7:] == "parquet"]. *)
Definition is_parquet (x : str) : bool := str_eqb (skipn (length x - 7) x) (lit "parquet").
(** router.py:82: [int(x[5:-8])]. *)
Definition part_number (x : str) : option Z := parse_int (skipn 5 (firstn (length x - 8) x)).

Fixpoint numbered (l : list str) : res (list (Z * str)) :=
  match l with
  | [] => Ok []
  | x :: l' => match part_number x with
               | None => Err ValueError
               | Some z => let* r := numbered l' in Ok ((z, x) :: r)
               end
  end.
(** router.py:74-84: files opened, from the names listed in the directory (in any order). *)
Definition vdf_files (listing : list str) : res (list str) :=
  let* l := numbered (filter is_parquet listing) in Ok (map snd (sort_by fst l)).
(** A directory: names and rows of files. *)
Definition directory := list (str * list row).
Fixpoint read_file (x : str) (dir : directory) : list row :=
  match dir with [] => [] | (y, r) :: dir' => if str_eqb x y then r else read_file x dir' end.
(** 'vaex.open_many': rows of files, in the order they are given. *)
Definition vdf (dir : directory) : res (list row) :=
  let* files := vdf_files (map fst dir) in Ok (flat_map (fun x => read_file x dir) files).
(** router.py:67-72: rows in the order of row groups. *)
Definition pdf (ds : dataset) : list row := all_rows ds.

(** router.py:86-102, 'ParquetFile.statistics' being those of row groups. *)
Definition min_max (c : nat) (ds : dataset) : res (Z * Z) :=
  match ds with
  | [] => Err ValueError
  | _ => Ok (list_min (map (rg_min c) ds), list_max (map (rg_max c) ds))
  end.
