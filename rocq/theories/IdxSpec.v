(** Specification of indexer classes and keys, independent of the code. *)
Require Import List Arith ZArith Bool.
Require Import Verif.Common Verif.IdxModel.
Import ListNotations.

(** An int or str value of the declared type. *)
Inductive leaf_typed : ftype -> value -> Prop :=
| LInt z : leaf_typed TInt (VInt z)
| LStr s : leaf_typed TStr (VStr s).

Definition is_leaf_type (t : ftype) : Prop := t = TInt \/ t = TStr.

(** Field types of a class: int and str fields, then possibly a nested class, at any depth. *)
Inductive schema : list ftype -> Prop :=
| SLeaf fs : fs <> [] -> Forall is_leaf_type fs -> schema fs
| SNest fs sub : fs <> [] -> Forall is_leaf_type fs -> schema sub -> schema (fs ++ [TDC sub]).

(** Field values of an instance of such a class, of the declared types. *)
Inductive key_of : list ftype -> list value -> Prop :=
| KLeaf fs vs : fs <> [] -> Forall2 leaf_typed fs vs -> key_of fs vs
| KNest fs vs sub subvs : fs <> [] -> Forall2 leaf_typed fs vs -> key_of sub subvs ->
    key_of (fs ++ [TDC sub]) (vs ++ [VDC subvs]).

(** Value accepted by validation: an int or str, without any of the separator, '/' and '.' in its text. *)
Definition leaf_ok (c : cls) (v : value) : Prop :=
  match v with VInt _ | VStr _ => True | _ => False end /\
  forall x, In x (value_str v) -> x <> c_sep c /\ x <> slash /\ x <> dot.

(** Field values accepted by validation. *)
Inductive valid_fields (c : cls) : list value -> Prop :=
| VLeaf vs : Forall (leaf_ok c) vs -> valid_fields c vs
| VNest vs sub : vs <> [] -> Forall (leaf_ok c) vs -> valid_fields c sub -> valid_fields c (vs ++ [VDC sub]).

(** The last level of nesting has two fields, and the first one is an empty string. *)
Inductive empty_then_one : list value -> Prop :=
| ELeaf x : is_dc x = false -> empty_then_one [VStr []; x]
| ENest vs sub : empty_then_one sub -> empty_then_one (vs ++ [VDC sub]).

(** No level of nesting gives an empty directory name: an empty string as single field (besides the
    nested instance), or in last level. *)
Inductive no_empty_level : list value -> Prop :=
| NLeaf vs : vs <> [VStr []] -> vs <> [VStr []; VStr []] -> Forall (fun v => is_dc v = false) vs -> no_empty_level vs
| NNest vs sub : vs <> [VStr []] -> Forall (fun v => is_dc v = false) vs -> no_empty_level sub -> no_empty_level (vs ++ [VDC sub]).

(** Text of a field as written by 'str()': any text for str, canonical decimal form for int. *)
Definition canonical (t : ftype) (s : str) : Prop :=
  match t with TInt => exists z, s = int_str z | TStr => True | TDC _ => False end.

(** Directory names which have exactly the fields of a class, each in canonical form. *)
Inductive dir_of (sep : nat) : list ftype -> str -> Prop :=
| DLeaf fs ss : fs <> [] -> Forall2 canonical fs ss -> (forall s x, In s ss -> In x s -> x <> sep /\ x <> slash) ->
    (forall x, ss <> [[]; x]) ->
    dir_of sep fs (join [sep] ss)
| DNest fs sub ss p : fs <> [] -> Forall2 canonical fs ss -> (forall s x, In s ss -> In x s -> x <> sep /\ x <> slash) ->
    dir_of sep sub p ->
    dir_of sep (fs ++ [TDC sub]) (join [sep] ss ++ [slash] ++ p).

(** A property of all str values of an instance. *)
Inductive all_str (P : str -> Prop) : value -> Prop :=
| AInt z : all_str P (VInt z)
| AStr s : P s -> all_str P (VStr s)
| ADC vs : Forall (all_str P) vs -> all_str P (VDC vs).
