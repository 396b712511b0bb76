(** Model of metadata of datasets: oups/store/writer.py, 'write_metadata', and 'OUPS_METADATA'.

    Dictionaries are association lists, in order of insertion. A value of oups metadata is a JSON value,
    of which only the distinctions made by the code are kept: 'None', other values which are false
    ('0', '""', '{}', ...), and values which are true. The JSON encoding of oups metadata
    ('dumps' and 'loads') is an identity. *)
Require Import String List ZArith Bool.
Require Import Verif.Common.
Import ListNotations.
Local Open Scope list_scope.

Definition dict (V : Type) := list (string * V).
Fixpoint get {V} (k : string) (d : dict V) : option V :=
  match d with [] => None | (k', v) :: d' => if String.eqb k k' then Some v else get k d' end.
Fixpoint set {V} (k : string) (v : V) (d : dict V) : dict V :=
  match d with
  | [] => [(k, v)]
  | (k', v') :: d' => if String.eqb k k' then (k, v) :: d' else (k', v') :: set k v d'
  end.
Fixpoint del {V} (k : string) (d : dict V) : dict V :=
  match d with [] => [] | (k', v) :: d' => if String.eqb k k' then d' else (k', v) :: del k d' end.

Inductive json := JNone | JFalse (v : Z) | JTrue (v : Z).
(** Values in the metadata of a dataset: user defined ones, oups metadata. *)
Inductive stored := Text (v : Z) | Oups (d : dict json).
Definition OUPS_METADATA_KEY : string := "oups".

(** writer.py:301-311 *)
Definition merge_item (existing : dict json) (item : string * json) : dict json :=
  let '(key, value) := item in
  match get key existing with
  | Some _ => match value with JNone => del key existing | _ => set key value existing end
  | None => match value with JTrue _ => set key value existing | _ => existing end
  end.
Definition merge_oups (existing new : dict json) : dict json := fold_left merge_item new existing.

(** 'fastparquet.writer.update_custom_metadata' *)
Definition update_item (existing : dict stored) (item : string * option stored) : dict stored :=
  let '(key, value) := item in
  match value with
  | None => del key existing
  | Some v => set key v existing
  end.
Definition update_custom_metadata (existing : dict stored) (md : dict (option stored)) : dict stored :=
  fold_left update_item md existing.

(** 'if metadata': neither [None] nor an empty dictionary. *)
Definition is_given {V} (md : option (dict V)) : bool := match md with None | Some [] => false | Some _ => true end.

(** writer.py:250-323. [kv] is the metadata of the dataset, [pending] is 'OUPS_METADATA' for the key
    [md_key] ([None] if there is no such item, or no key). Results are the metadata of the dataset, the
    item of 'OUPS_METADATA', and the dictionary [metadata] of the caller, which is modified in place. *)
Definition write_metadata (kv : dict stored) (pending : option (dict json)) (metadata : option (dict (option stored)))
    : res (dict stored * option (dict json) * option (dict (option stored))) :=
  match pending with
  | Some new =>
      let* merged := match get OUPS_METADATA_KEY kv with
                     | Some (Oups existing) => Ok (merge_oups existing new)
                     | Some (Text _) => Err ValueError
                     | None => Ok new
                     end in
      let item := Some (Oups merged) in
      match metadata with
      | Some ((_ :: _) as md) =>
          let md := set OUPS_METADATA_KEY item md in
          Ok (update_custom_metadata kv md, None, Some md)
      | _ => Ok (update_custom_metadata kv [(OUPS_METADATA_KEY, item)], None, metadata)
      end
  | None =>
      Ok (match metadata with Some md => update_custom_metadata kv md | None => kv end, None, metadata)
  end.

(** ** Histories *)
(** Metadata given to a write: none, a dictionary which is not used elsewhere, or a variable. *)
Inductive md_arg := MdNone | MdFresh (d : dict (option stored)) | MdVar (x : nat).
(** Oups metadata set in 'OUPS_METADATA' for a key; write of the dataset of a key; its removal. *)
Inductive op := Register (k : nat) (d : dict json) | Write (k : nat) (md : md_arg) | Delete (k : nat).
Record state := mkState {
  kvs : nat -> dict stored;              (* metadata of the dataset of each key *)
  pendings : nat -> option (dict json);  (* 'OUPS_METADATA' *)
  vars : nat -> dict (option stored) }.  (* dictionaries of the caller *)
Definition upd {V} (f : nat -> V) (k : nat) (v : V) : nat -> V := fun x => if Nat.eqb x k then v else f x.

(** A write which fails leaves metadata as it is. *)
Definition step (s : state) (o : op) : state :=
  match o with
  | Register k d => mkState (kvs s) (upd (pendings s) k (Some d)) (vars s)
  | Delete k => mkState (upd (kvs s) k []) (pendings s) (vars s)
  | Write k md =>
      let arg := match md with MdNone => None | MdFresh d => Some d | MdVar x => Some (vars s x) end in
      match write_metadata (kvs s k) (pendings s k) arg with
      | Err _ => s
      | Ok (kv, pending, arg') =>
          mkState (upd (kvs s) k kv) (upd (pendings s) k pending)
            (match md, arg' with MdVar x, Some d => upd (vars s) x d | _, _ => vars s end)
      end
  end.
Definition run (s : state) (h : list op) : state := fold_left step h s.
Definition start (v : nat -> dict (option stored)) : state := mkState (fun _ => []) (fun _ => None) v.
