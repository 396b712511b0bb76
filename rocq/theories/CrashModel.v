(** Model of the files of a dataset, and of the sequence of actions on them performed by 'write'
    (oups/store/writer.py), a process being possibly interrupted between any two actions.

    Row groups are those of WrModel.v. Writing of a file is made of two actions, so that it can be
    interrupted when only a part of the file is written. Files '_metadata' and '_common_metadata' are
    modelled as a single one. Buffers of the operating system are not modelled: an action is on disk when
    the next one starts. *)
Require Import List Arith ZArith Bool.
Require Import Verif.Common Verif.WrModel.
Import ListNotations.

(** 'part.N.parquet', and 'part.N.parquet.tmp' used by fastparquet when renaming. *)
Inductive name := Part (n : nat) | Tmp (n : nat).
Inductive file := Torn | Complete (rows : list row).
(** File '_metadata': the list of row groups, with the name of their file and the description of what is
    in it. *)
Inductive meta_file := NoMeta | TornMeta | Meta (ds : dataset).
Record disk := mkDisk { files : name -> option file; meta : meta_file }.

Definition name_eqb (x y : name) : bool :=
  match x, y with Part n, Part m | Tmp n, Tmp m => Nat.eqb n m | _, _ => false end.
Definition put (x : name) (f : option file) (fs : name -> option file) : name -> option file :=
  fun y => if name_eqb y x then f else fs y.

Inductive action := WriteFile (x : name) (f : file) | RemoveFile (x : name) | RenameFile (x y : name) | WriteMeta (m : meta_file).
(** Removing or renaming a missing file fails. Renaming replaces an existing file. *)
Definition act (d : disk) (a : action) : option disk :=
  match a with
  | WriteFile x f => Some (mkDisk (put x (Some f) (files d)) (meta d))
  | RemoveFile x => match files d x with Some _ => Some (mkDisk (put x None (files d)) (meta d)) | None => None end
  | RenameFile x y => match files d x with
                      | Some f => Some (mkDisk (put y (Some f) (put x None (files d))) (meta d))
                      | None => None
                      end
  | WriteMeta m => Some (mkDisk (files d) m)
  end.
Fixpoint exec (d : disk) (l : list action) : option disk :=
  match l with [] => Some d | a :: l' => match act d a with Some d' => exec d' l' | None => None end end.

(** ** Actions of 'write' *)
(** 'ParquetFile.write_row_groups', with 'write_fmd=False' *)
Definition write_rgs (l : list rg) : list action :=
  flat_map (fun g => [WriteFile (Part (part g)) Torn; WriteFile (Part (part g)) (Complete (content g))]) l.
(** 'ParquetFile._write_common_metadata' *)
Definition write_meta (ds : dataset) : list action := [WriteMeta TornMeta; WriteMeta (Meta ds)].
(** 'ParquetFile.remove_row_groups', with 'write_fmd=False' *)
Definition remove_rgs (l : list rg) : list action := map (fun g => RemoveFile (Part (part g))) l.
(** 'ParquetFile._sort_part_names', with 'write_fmd=False': position and number of row groups for which
    they are different; files are renamed to a temporary name, and then to the final one. *)
Definition moved (l : dataset) : list (nat * nat) :=
  filter (fun ip => negb (fst ip =? snd ip)%nat) (combine (seq 0 (length l)) (map part l)).
Definition rename_rgs (l : dataset) : list action :=
  map (fun ip => RenameFile (Part (snd ip)) (Tmp (fst ip))) (moved l) ++
  map (fun ip => RenameFile (Tmp (fst ip)) (Part (fst ip))) (moved l).

(** writer.py:533-613 *)
Definition update_trace (max_size : option Z) (ordered : option nat) (dup : option (list nat)) (ds : dataset)
    (s : nat) (e : option nat) (data : frame) : res (list action) :=
  let overlapping := match e with Some e => slice s e ds | None => skipn s ds end in
  match overlapping with
  | [] => Err ValueError
  | _ =>
      let merged := all_rows overlapping ++ rows data in
      let merged := match ordered with Some c => sort_by (col c) merged | None => merged end in
      let* chunks := iter_dataframe true (mkFrame (ncols data) merged) max_size ordered dup true in
      let new := number_parts (next_part ds) chunks in
      let kept := firstn s ds ++ match e with Some e => skipn e ds | None => [] end in
      let l := match e, ordered with Some _, Some c => sort_by (rg_max c) (kept ++ new) | _, _ => kept ++ new end in
      Ok (write_rgs new ++ remove_rgs overlapping ++ rename_rgs l ++ write_meta (renumber 0 l))
  end.

(** writer.py:326-615. An error is raised before any action: data is split when the first row group is
    to be written. *)
Definition write_trace (p : params) (is_vaex : bool) (ds : dataset) (data : frame) : res (list action) :=
  let* ordered := check_ordered_on (ordered_on p) (ncols data) in
  match ds with
  | [] =>
      (* Case initiating a new dataset: a dataset with the first chunk, then remaining ones (596-613). *)
      let* chunks := iter_dataframe is_vaex data (max_row_group_size p) None None false in
      let all := number_parts 0 chunks in
      let first := number_parts 0 (firstn 1 chunks) in
      Ok (write_rgs first ++ write_meta first ++ write_rgs (skipn (length first) all) ++ write_meta all)
  | _ =>
      let* dup := check_duplicates_on (duplicates_on p) ordered in
      let* '(start_idx, end_idx) := match ordered with
                                    | None => Ok (None, None)
                                    | Some c => overlap c ds (rows data)
                                    end in
      let* start_idx := coalesce (max_row_group_size p) (max_nirgs p) (Z.of_nat (length (rows data))) ds start_idx end_idx in
      match start_idx with
      | None =>
          let* chunks := iter_dataframe is_vaex data (max_row_group_size p) None None false in
          let new := number_parts (next_part ds) chunks in
          Ok (write_rgs new ++ write_meta (ds ++ new))
      | Some s => update_trace (max_row_group_size p) ordered dup ds s end_idx data
      end
  end.
