(** Specification of separators of fields. *)
Require Import List Arith ZArith Bool.
Require Import Verif.Common Verif.IdxModel Verif.IdxSpec Verif.SepModel.
Import ListNotations.

(** A string is found in another one. *)
Definition occurs (sep s : str) : Prop := exists a b, s = a ++ sep ++ b.

(** A string ends as it starts: the end of one occurrence can be the start of another one. *)
Definition bordered (sep : str) : Prop := exists a b c, a <> [] /\ b <> [] /\ sep = a ++ b /\ sep = b ++ c.

(** Each character of the separator stands for itself in a regular expression, once the first one is
    escaped. *)
Definition literal (sep : str) : Prop :=
  match sep with
  | [] => False
  | c :: rest => plain_sep c = true /\ forall x, In x rest -> x <> dot /\ ~ In x special
  end.

(** Value accepted by validation: an int or str, without any of the separator, '/' and '.' in its text. *)
Definition leaf_ok_s (sep : str) (v : value) : Prop :=
  match v with VInt _ | VStr _ => True | _ => False end /\
  ~ occurs sep (value_str v) /\ forall x, In x (value_str v) -> x <> slash /\ x <> dot.

(** Field values accepted by validation. *)
Inductive valid_fields_s (sep : str) : list value -> Prop :=
| SVLeaf vs : Forall (leaf_ok_s sep) vs -> valid_fields_s sep vs
| SVNest vs sub : vs <> [] -> Forall (leaf_ok_s sep) vs -> valid_fields_s sep sub ->
    valid_fields_s sep (vs ++ [VDC sub]).
