(** Model of oups/aggstream/utils.py: row filters.

    Rows are of some type [D]. A column holds integers or booleans; other types of columns are not
    modelled. In comparisons and in 'isin', a boolean is the number 0 or 1. *)
Require Import String.
Require Import List Arith ZArith Bool.
Require Import Verif.Common.
Import ListNotations.
Local Open Scope Z_scope.
Local Open Scope list_scope.

Inductive column (D : Type) := IntCol (f : D -> Z) | BoolCol (f : D -> bool).
Arguments IntCol {D} _.
Arguments BoolCol {D} _.

(** Value of a condition: a number, or a list of them. *)
Inductive fvalue := One (z : Z) | Many (l : list Z).
Definition cond := (string * string * fvalue)%type.
(** An item of the list of filters: a list of conditions, or a tuple, which is then not enclosed in a
    list. *)
Inductive or_part := Conds (l : list cond) | ATuple.

Definition truth (b : bool) : Z := if b then 1 else 0.
(** 'df[name].values' *)
Definition numbers {D} (c : column D) (rows : list D) : list Z :=
  match c with IntCol f => map f rows | BoolCol f => map (fun r => truth (f r)) rows end.

(** aggstream/utils.py:16-24 *)
Definition ops (op : string) : option (Z -> Z -> bool) :=
  if String.eqb op "==" then Some Z.eqb
  else if String.eqb op "=" then Some Z.eqb
  else if String.eqb op "!=" then Some (fun a b => negb (a =? b))
  else if String.eqb op ">" then Some Z.gtb
  else if String.eqb op ">=" then Some Z.geb
  else if String.eqb op "<" then Some Z.ltb
  else if String.eqb op "<=" then Some Z.leb
  else None.

(** Comparison of a numpy array with a number, or with a list: then elementwise when lengths are the
    same, with its only item when there is one, and refused otherwise (numpy from 1.25). *)
Definition compare (f : Z -> Z -> bool) (l : list Z) (v : fvalue) : res (list bool) :=
  match v with
  | One z => Ok (map (fun x => f x z) l)
  | Many m =>
      if (length m =? length l)%nat then Ok (map2 f l m)
      else match m with [z] => Ok (map (fun x => f x z) l) | _ => Err ValueError end
  end.

(** 'isin' *)
Definition isin (l : list Z) (v : fvalue) : res (list bool) :=
  match v with One _ => Err TypeError | Many m => Ok (map (fun x => memb Z.eqb x m) l) end.

Section Filter.
Context {D : Type}.
Variable columns : string -> option (column D).

Definition get_col (name : string) : res (column D) :=
  match columns name with Some c => Ok c | None => Err KeyError end.

(** aggstream/utils.py:58-69, array of one condition. '~' of an array of integers is an array of integers, which
    cannot be cast to booleans in place. *)
Definition cond_mask (rows : list D) (c : cond) : res (list bool) :=
  let '(name, op, v) := c in
  if String.eqb op "in" then let* c := get_col name in isin (numbers c rows) v
  else if String.eqb op "not in" then
    let* c := get_col name in let* m := isin (numbers c rows) v in Ok (map negb m)
  else match ops op with
       | Some f => let* c := get_col name in compare f (numbers c rows) v
       | None =>
           if String.eqb op "~" then
             let* c := get_col name in
             match c with
             | IntCol _ => Err TypeError
             | BoolCol f => Ok (map (fun r => negb (f r)) rows)
             end
           else Err ValueError
       end.

(** aggstream/utils.py:57-69 *)
Fixpoint and_masks (rows : list D) (l : list cond) (and_part : list bool) : res (list bool) :=
  match l with
  | [] => Ok and_part
  | c :: l' => let* m := cond_mask rows c in and_masks rows l' (map2 andb and_part m)
  end.

(** aggstream/utils.py:56-70. Iterating over a tuple gives its first item, the name of the column, which is then
    unpacked in 3 parts: this is refused, except when it is made of 3 characters with an operator in
    the middle (not modelled). *)
Fixpoint or_masks (rows : list D) (filters : list or_part) (out : list bool) : res (list bool) :=
  match filters with
  | [] => Ok out
  | ATuple :: _ => Err ValueError
  | Conds l :: filters' =>
      let* m := and_masks rows l (repeat true (length rows)) in
      or_masks rows filters' (map2 orb out m)
  end.

(** aggstream/utils.py:27-71 *)
Definition dataframe_filter (rows : list D) (filters : list or_part) : res (list bool) :=
  match filters with
  | [] => Err IndexError
  | ATuple :: _ => Err ValueError
  | _ => or_masks rows filters (repeat false (length rows))
  end.

End Filter.

(** 'df.loc[mask]' *)
Fixpoint compress {A} (mask : list bool) (l : list A) : list A :=
  match mask, l with
  | b :: mask', x :: l' => if b then x :: compress mask' l' else compress mask' l'
  | _, _ => []
  end.
