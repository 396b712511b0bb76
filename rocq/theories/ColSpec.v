(** Specification of the key collection and of what is on disk, independent of the code. *)
Require Import List Arith ZArith Bool.
Require Import Verif.Common Verif.IdxModel Verif.IdxSpec Verif.ColModel.
Import ListNotations.

(** [q] is [p], or is below [p]. *)
Definition prefix (p q : path) : Prop := exists r, q = p ++ r.
(** [q] is below [p]. *)
Definition below (p q : path) : Prop := exists n r, q = p ++ n :: r.

Definition good_name (n : str) : Prop := n <> [] /\ ~ In slash n.

(** A file system: no path twice, names of files and directories are not empty and have no '/', what
    contains a file or a directory is a directory. *)
Definition wf (f : fs) : Prop :=
  NoDup (map fst f) /\
  forall p k, In (p, k) f -> p <> [] /\ Forall good_name p /\ lookup f (removelast p) = Some KDir.

(** Directory [dir] directly holds a parquet file. *)
Definition dataset (f : fs) (dir : path) : Prop :=
  exists n content, is_parquet_file n = true /\ lookup f (dir ++ [n]) = Some (KFile content).

(** Only what is in directory [dir] has changed, besides creation of [dir] and of the directories above. *)
Definition confined (dir : path) (f f' : fs) : Prop :=
  wf f' /\
  forall p, ~ prefix dir p ->
    lookup f' p = lookup f p \/ (prefix p dir /\ lookup f p = None /\ lookup f' p = Some KDir).

(** What a writer is assumed to do with a directory: if it succeeds, there is a parquet file in this
    directory; if it fails, it has done nothing. *)
Definition good_writer (w : writer) : Prop :=
  forall f s, wf f ->
    match w f s with
    | (f', None) => confined (dir_names s) f f' /\ dataset f' (dir_names s)
    | (f', Some _) => f' = f
    end.
(** Same, but for what it has done in the directory if it fails. *)
Definition confined_writer (w : writer) : Prop :=
  forall f s, wf f -> confined (dir_names s) f (fst (w f s)).

(** Keys whose path designates them: valid, of the declared types, not of the degenerate form of C01,
    without empty, '.' or '..' directory name. *)
Definition good_key (c : cls) (k : value) : Prop :=
  exists args, k = VDC args /\ key_of (c_fields c) args /\ make_key c args true = Ok k
    /\ ~ empty_then_one args /\ no_empty_level args
    /\ forall p, to_path c k = Ok p -> forall n, In n (dir_names p) -> n <> [dot] /\ n <> [dot; dot].

(** Every directory with a parquet file, [depth] levels below the base path, is that of such a key. *)
Definition clean_disk (c : cls) (b : base) (f : fs) : Prop :=
  forall names, length names = depth c -> dataset f (dir_names (b_path b) ++ names) ->
    exists k p, good_key c k /\ to_path c k = Ok p /\ dir_names p = names.

(** Operations of a 'ParquetSet'. *)
Inductive op := OSet (key : key_arg) (data : data_arg) | ODel (k : value) | OReopen.

Definition step (c : cls) (b : base) (st : store) (o : op) : store * option exn :=
  match o with
  | OSet key data => ps_set c b st key data
  | ODel k => ps_delitem c b st k
  | OReopen => match open_store c b (disk st) with Ok st' => (st', None) | Err e => (st, Some e) end
  end.

(** A history: operations, with the exception raised by each if any. *)
Inductive history (c : cls) (b : base) : store -> list (op * option exn) -> store -> Prop :=
| HNil st : history c b st [] st
| HCons st o st' e evs st'' : step c b st o = (st', e) -> history c b st' evs st'' ->
    history c b st ((o, e) :: evs) st''.

(** Operations considered: good keys, good writers. *)
Definition good_op (c : cls) (o : op) : Prop :=
  match o with
  | OSet (Instance k) (DataFrame w) => good_key c k /\ good_writer w
  | _ => True
  end.

(** Is [k] stored after these events? [m] tells if it was before. *)
Fixpoint stored (k : value) (m : Prop) (evs : list (op * option exn)) : Prop :=
  match evs with
  | [] => m
  | (OSet (Instance k') (DataFrame _), None) :: evs' => stored k (k = k' \/ m) evs'
  | (ODel k', None) :: evs' => stored k (k <> k' /\ m) evs'
  | _ :: evs' => stored k m evs'
  end.

(** Strictly increasing. *)
Inductive increasing : list value -> Prop :=
| INil : increasing []
| ICons x l : increasing l -> (forall y, In y l -> vcompare x y = Lt) -> increasing (x :: l).

(** Path of a directory below [basepath]. *)
Definition path_of (basepath : str) (names : list str) : str := fold_left path_join names basepath.

(** Files of a directory. *)
Definition file_names (f : fs) (p : path) : list str := map fst (filter (fun e => negb (is_dir (snd e))) (children f p)).

(** [q] is strictly between [base] and [dir]. *)
Definition strictly_between (base q dir : path) : Prop := below base q /\ below q dir.
(** Everything below [q] is in [dir], or is on the way to [dir]. *)
Definition only_leads_to (f : fs) (q dir : path) : Prop :=
  forall r, below q r -> lookup f r <> None -> prefix r dir \/ prefix dir r.

(** Directory of a key. *)
Definition key_dir (c : cls) (b : base) (k : value) (dir : path) : Prop :=
  exists p, to_path c k = Ok p /\ dir = dir_names (path_join (b_path b) p).
