(** Model of oups/store/collection.py and of the directory functions of oups/store/utils.py, on a
    file system made of directories and files.

    Not modelled: symbolic links, permissions, the root directory as a base path, '.' and '..' in
    paths, concurrent changes. Relative paths are taken from the root directory. *)
Require Import String List Arith ZArith Bool.
Require Import Verif.Common Verif.IdxModel.
Import ListNotations.
Local Open Scope list_scope.

(** * File system *)

Inductive kind := KDir | KFile (content : list nat).

(** Names from the root. *)
Definition path := list str.
Definition path_eqb (a b : path) : bool := if list_eq_dec (list_eq_dec Nat.eq_dec) a b then true else false.

(** All files and directories but the root. *)
Definition fs := list (path * kind).

Definition lookup (f : fs) (p : path) : option kind :=
  match p with [] => Some KDir | _ => dict_get path_eqb p f end.

(** Names and kinds of what is in directory [p]. *)
Definition children (f : fs) (p : path) : list (str * kind) :=
  flat_map (fun e => match fst e with
                     | [] => []
                     | q => if path_eqb (removelast q) p then [(last q [], snd e)] else []
                     end) f.

Definition is_dir (k : kind) : bool := match k with KDir => true | KFile _ => false end.

(** [prefix p q]: q is p, or is below p. *)
Fixpoint prefixb (p q : path) : bool :=
  match p, q with
  | [], _ => true
  | n :: p', m :: q' => str_eqb n m && prefixb p' q'
  | _ :: _, [] => false
  end.

(** 'os.scandir' and 'os.listdir'. *)
Definition scandir (f : fs) (s : str) : res (list (str * kind)) :=
  match s with
  | [] => Err FileNotFound
  | _ => match lookup f (dir_names s) with
         | None => Err FileNotFound
         | Some (KFile _) => Err OSError
         | Some KDir => Ok (children f (dir_names s))
         end
  end.

(** 'shutil.rmtree' *)
Definition rmtree (f : fs) (s : str) : res fs :=
  match lookup f (dir_names s) with
  | None => Err FileNotFound
  | Some (KFile _) => Err OSError
  | Some KDir => Ok (filter (fun e => negb (prefixb (dir_names s) (fst e))) f)
  end.

(** 'os.rmdir', of an empty directory. *)
Definition rmdir (f : fs) (s : str) : res fs :=
  match lookup f (dir_names s) with
  | None => Err FileNotFound
  | Some (KFile _) => Err OSError
  | Some KDir =>
      match children f (dir_names s) with
      | [] => Ok (filter (fun e => negb (path_eqb (dir_names s) (fst e))) f)
      | _ => Err OSError
      end
  end.

(** * utils.py *)

(** What is yielded by generators one after the other. *)
Fixpoint chain {A} (l : list (res (list A))) : res (list A) :=
  match l with
  | [] => Ok []
  | r :: l' => let* a := r in let* b := chain l' in Ok (a ++ b)
  end.

(** store/utils.py:16-58, 'files_at_depth': the list of what is yielded. *)
Fixpoint files_at_depth (f : fs) (basepath : str) (depth : nat) : res (list (str * list str)) :=
  match depth with
  | O =>
      let* entries := scandir f basepath in
      let files := map fst (filter (fun e => negb (is_dir (snd e))) entries) in
      Ok (match files with [] => [] | _ => [(basepath, files)] end)
  | S depth' =>
      match scandir f basepath with
      | Err FileNotFound => Ok []
      | Err e => Err e
      | Ok entries =>
          let dirs := map (fun e => path_join basepath (fst e)) (filter (fun e => is_dir (snd e)) entries) in
          chain (map (fun d => files_at_depth f d depth') dirs)
      end
  end.

(** store/utils.py:61-77, 'strip_path_tail'. *)
Definition strip_path_tail (s : str) : option str :=
  if has_char slash s then Some (join [slash] (removelast (split (Nat.eqb slash) s))) else None.

(** * Keys *)

(** Comparison of tuples of fields ('@dataclass(order=True)'). Python raises TypeError when values of
    different types are compared: this does not happen with values of the declared types. *)
Fixpoint lex {A} (cmp : A -> A -> comparison) (l m : list A) : comparison :=
  match l, m with
  | [], [] => Eq
  | [], _ => Lt
  | _, [] => Gt
  | x :: l', y :: m' => match cmp x y with Eq => lex cmp l' m' | r => r end
  end.
Fixpoint vcompare (a b : value) {struct a} : comparison :=
  match a, b with
  | VInt x, VInt y => Z.compare x y
  | VInt _, _ => Lt
  | VStr _, VInt _ => Gt
  | VStr x, VStr y => lex Nat.compare x y
  | VStr _, _ => Lt
  | VOther _, (VInt _ | VStr _) => Gt
  | VOther x, VOther y => lex Nat.compare x y
  | VOther _, VDC _ => Lt
  | VDC l, VDC m =>
      (fix go (l m : list value) {struct l} : comparison :=
         match l, m with
         | [], [] => Eq
         | [], _ => Lt
         | _, [] => Gt
         | x :: l', y :: m' => match vcompare x y with Eq => go l' m' | r => r end
         end) l m
  | VDC _, _ => Gt
  end.

(** 'SortedSet': sorted list without repetition. *)
Fixpoint set_add (k : value) (l : list value) : list value :=
  match l with
  | [] => [k]
  | x :: l' => match vcompare k x with Lt => k :: l | Eq => l | Gt => x :: set_add k l' end
  end.
Definition set_mem (k : value) (l : list value) : bool :=
  existsb (fun x => match vcompare k x with Eq => true | _ => false end) l.
Definition set_remove (k : value) (l : list value) : list value :=
  filter (fun x => match vcompare k x with Eq => false | _ => true end) l.
Definition sorted_set (l : list value) : list value := fold_left (fun s k => set_add k s) l [].

(** * collection.py *)

Definition ends_with (suffix s : str) : bool := str_eqb (skipn (length s - length suffix) s) suffix.

(** collection.py:27-44, 'is_parquet_file'. *)
Definition is_parquet_file (file : str) : bool :=
  ends_with (lit ".parquet") file || ends_with (lit ".parq") file
  || str_eqb file (lit "_metadata") || str_eqb file (lit "_common_metadata").

(** [DIR_SEP.join(path.rsplit(DIR_SEP, depth)[1:])]. *)
Definition path_tail (depth : nat) (s : str) : str :=
  let parts := split (Nat.eqb slash) s in
  join [slash] (skipn (length parts - min depth (length parts - 1)) parts).

(** collection.py:47-88, 'get_keys'. *)
Definition get_keys (f : fs) (basepath : str) (c : cls) : res (list value) :=
  let* paths_files := files_at_depth f basepath (depth c) in
  Ok (sorted_set (flat_map (fun pf =>
        if existsb is_parquet_file (snd pf)
        then match from_str c (path_tail (depth c) (fst pf)) with Some k => [k] | None => [] end
        else []) paths_files)).

(** Base path, and whether it is a 'pathlib.Path' instead of a str: it is then different from any str
    in a comparison. *)
Record base := mkBase { b_path : str; b_pathlib : bool }.

(** The disk, and the key collection of a 'ParquetSet'. *)
Record store := mkStore { disk : fs; keys : list value }.

(** collection.py:111-130, 'ParquetSet.__init__' with a '@toplevel' class. *)
Definition open_store (c : cls) (b : base) (f : fs) : res store :=
  let* ks := get_keys f (b_path b) c in Ok (mkStore f ks).

(** Arguments of 'set': a key which is an instance of the class or not, data which is a dataframe or
    not. With a dataframe and keyword arguments, [write] tells what 'writer.write' does of the
    directory: new disk, and exception raised if any. *)
Definition writer := fs -> str -> fs * option exn.
Inductive key_arg := Instance (k : value) | NotInstance.
Inductive data_arg := DataFrame (write : writer) | NotDataFrame.

(** collection.py:177-204, 'ParquetSet.set'. *)
Definition ps_set (c : cls) (b : base) (st : store) (key : key_arg) (data : data_arg) : store * option exn :=
  match key with
  | NotInstance => (st, Some TypeError)
  | Instance k =>
      match data with
      | NotDataFrame => (st, Some TypeError)
      | DataFrame write =>
          match to_path c k with
          | Err e => (st, Some e)
          | Ok p =>
              match write (disk st) (path_join (b_path b) p) with
              | (f, Some e) => (mkStore f (keys st), Some e)
              | (f, None) => (mkStore f (if set_mem k (keys st) then keys st else set_add k (keys st)), None)
              end
          end
      end
  end.

(** collection.py:206-235, 'ParquetSet.__setitem__': [Tuple] when data is a tuple, its first item
    being a dict or not. *)
Inductive item_arg := Plain (data : data_arg) | Tuple (is_dict : bool) (data : data_arg).
Definition ps_setitem (c : cls) (b : base) (st : store) (key : key_arg) (item : item_arg) : store * option exn :=
  match item with
  | Tuple false _ => (st, Some TypeError)
  | Tuple true data | Plain data => ps_set c b st key data
  end.

(** collection.py:276-279: removal of empty directories, at most [fuel] iterations.
    'listdir(None)' lists the current directory, 'rmdir(None)' raises TypeError. *)
Fixpoint prune (fuel : nat) (b : base) (f : fs) (upper_dir : option str) : fs * option exn :=
  match fuel with
  | O => (f, None)
  | S fuel' =>
      match upper_dir with
      | None => match children f [] with [] => (f, Some TypeError) | _ => (f, None) end
      | Some u =>
          if negb (b_pathlib b) && str_eqb u (b_path b) then (f, None)
          else match scandir f u with
               | Err e => (f, Some e)
               | Ok (_ :: _) => (f, None)
               | Ok [] => match rmdir f u with
                          | Err e => (f, Some e)
                          | Ok f' => prune fuel' b f' (strip_path_tail u)
                          end
               end
      end
  end.

(** collection.py:257-279, 'ParquetSet.__delitem__'. An iteration of the loop makes the path shorter:
    the number of iterations is at most the number of characters, plus one for [None]. *)
Definition ps_delitem (c : cls) (b : base) (st : store) (k : value) : store * option exn :=
  if set_mem k (keys st) then
    match to_path c k with
    | Err e => (st, Some e)
    | Ok p =>
        let dirpath := path_join (b_path b) p in
        match rmtree (disk st) dirpath with
        | Err e => (st, Some e)
        | Ok f =>
            let '(f', e) := prune (S (length dirpath)) b f (strip_path_tail dirpath) in
            (mkStore f' (set_remove k (keys st)), e)
        end
    end
  else (st, None).

(** collection.py:165-169, '__contains__', and 153-157, '__len__'. *)
Definition ps_contains (st : store) (k : value) : bool := set_mem k (keys st).
Definition ps_len (st : store) : nat := length (keys st).
(** collection.py:171-175, '__iter__'. *)
Definition ps_iter (st : store) : list value := keys st.
