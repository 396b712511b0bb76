(** Model of 'ParquetHandle' (oups/store/router.py) kept while the dataset is changed on disk. The disk is that of
    CrashModel.v; metadata, in file '_metadata' too, is that of MetaModel.v. *)
Require Import String List Arith ZArith Bool.
Require Import Verif.Common Verif.WrModel Verif.CrashModel Verif.MetaModel Verif.RouterModel.
Import ListNotations.
Local Open Scope list_scope.

Record store := mkStore { s_disk : disk; s_kv : dict stored }.
(** A 'ParquetFile' of fastparquet: what file '_metadata' holds when it is opened. Without this file, or with a torn one, an
    error is raised (fastparquet also accepts a directory of files without '_metadata': not modelled). *)
Record parquet_file := mkPf { pf_groups : dataset; pf_kv : dict stored }.
Definition open_file (s : store) : res parquet_file :=
  match meta (s_disk s) with
  | Meta ds => Ok (mkPf ds (s_kv s))
  | NoMeta => Err FileNotFound
  | TornMeta => Err ValueError
  end.
(** 'ParquetFile.to_pandas': files of row groups are read when it is called. A file which is not the one described when the
    'ParquetFile' has been opened is not read (an error is raised; in fact, if its layout is the same, its rows are given). *)
Fixpoint same_rows (a b : list row) : bool :=
  match a, b with
  | [], [] => true
  | r :: a', s :: b' => (if list_eq_dec Z.eq_dec r s then true else false) && same_rows a' b'
  | _, _ => false
  end.
Fixpoint read_groups (d : disk) (ds : dataset) : res (list row) :=
  match ds with
  | [] => Ok []
  | g :: ds' =>
      match files d (Part (part g)) with
      | None => Err FileNotFound
      | Some Torn => Err OSError
      | Some (Complete l) =>
          if same_rows l (content g) then let* r := read_groups d ds' in Ok (content g ++ r) else Err OSError
      end
  end.

(** router.py:60-65, 'pf', a cached property: [None] before its first use (and when it has raised an error). *)
Definition handle := option parquet_file.
Definition pf (s : store) (h : handle) : res parquet_file * handle :=
  match h with
  | Some f => (Ok f, h)
  | None => match open_file s with Ok f => (Ok f, Some f) | Err e => (Err e, None) end
  end.

(** Uses of a handle: rows through [pf], rows through [pdf] (router.py:67-72), [min_max] (86-102), [metadata] (104-109),
    [_oups_metadata] (111-118). *)
Inductive use := UsePf | UsePdf | UseMinMax (c : nat) | UseMetadata | UseOups.
Inductive answer := ARows (l : list row) | AMinMax (m : Z * Z) | AMetadata (d : dict stored) | AOups (d : option (dict json)).
Definition rows_of (s : store) (f : parquet_file) : res answer := let* l := read_groups (s_disk s) (pf_groups f) in Ok (ARows l).
Definition ask (s : store) (h : handle) (u : use) : res answer * handle :=
  match u with
  | UsePf => let '(f, h') := pf s h in ((let* f := f in rows_of s f), h')
  | UsePdf => ((let* f := open_file s in rows_of s f), h)
  | UseMinMax c => ((let* f := open_file s in let* m := min_max c (pf_groups f) in Ok (AMinMax m)), h)
  | UseMetadata => let '(f, h') := pf s h in ((let* f := f in Ok (AMetadata (pf_kv f))), h')
  | UseOups => let '(f, h') := pf s h in
      ((let* f := f in match get OUPS_METADATA_KEY (pf_kv f) with
                       | Some (Oups d) => Ok (AOups (Some d))
                       | Some (Text _) => Err ValueError
                       | None => Ok (AOups None)
                       end), h')
  end.
(** What happens to a store and to a handle: the dataset is changed, by any process, or the handle is used. *)
Inductive event := Change (s : store) | Use (u : use).
Fixpoint after (s : store) (h : handle) (l : list event) : store * handle :=
  match l with
  | [] => (s, h)
  | Change s' :: l => after s' h l
  | Use u :: l => after s (snd (ask s h u)) l
  end.
(** collection.py:229-241: 'store[key]' makes a new handle. *)
Definition new_handle : handle := None.
