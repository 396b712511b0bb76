(** Specification of keys with values which are not of the declared types. *)
Require Import List Arith ZArith Bool.
Require Import Verif.Common Verif.IdxModel Verif.IdxSpec.
Import ListNotations.

(** An int or str value. *)
Definition leaf_value (v : value) : Prop := match v with VInt _ | VStr _ => True | _ => False end.

(** Values with as many fields and levels as the class, of any type among int and str. *)
Inductive shaped : list ftype -> list value -> Prop :=
| ShLeaf fs vs : fs <> [] -> Forall is_leaf_type fs -> Forall leaf_value vs -> length vs = length fs -> shaped fs vs
| ShNest fs vs sub subvs : fs <> [] -> Forall is_leaf_type fs -> Forall leaf_value vs -> length vs = length fs ->
    shaped sub subvs -> shaped (fs ++ [TDC sub]) (vs ++ [VDC subvs]).

(** A value once written as text and read as the declared type: int are read as str with their decimal
    form, str are read as int if it is possible. *)
Inductive read_as : ftype -> value -> value -> Prop :=
| RInt z : read_as TInt (VInt z) (VInt z)
| RStrAsInt s z : parse_int s = Some z -> read_as TInt (VStr s) (VInt z)
| RStr s : read_as TStr (VStr s) (VStr s)
| RIntAsStr z : read_as TStr (VInt z) (VStr (int_str z)).

Inductive reads_fields : list ftype -> list value -> list value -> Prop :=
| RNil : reads_fields [] [] []
| RCons t v w fs vs ws : read_as t v w -> reads_fields fs vs ws -> reads_fields (t :: fs) (v :: vs) (w :: ws).

Inductive reads : list ftype -> list value -> list value -> Prop :=
| RdLeaf fs vs ws : fs <> [] -> reads_fields fs vs ws -> reads fs vs ws
| RdNest fs vs ws sub subvs subws : fs <> [] -> reads_fields fs vs ws -> reads sub subvs subws ->
    reads (fs ++ [TDC sub]) (vs ++ [VDC subvs]) (ws ++ [VDC subws]).
