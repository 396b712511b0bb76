(** Model of column multi-indexes: 'conform_cmidx' (oups/store/utils.py), 'to_midx' and 'check_cmidx'
    (oups/store/writer.py). *)
Require Import String List Arith ZArith Bool.
Require Import Verif.Common Verif.IdxModel.
Import ListNotations.
Local Open Scope list_scope.

(** A label: a string, or any other object with its 'str()'. *)
Inductive label := LStr (s : str) | LObj (id : Z) (text : str).
Definition text (l : label) : str := match l with LStr s => s | LObj _ s => s end.
Definition is_str (l : label) : bool := match l with LStr _ => true | LObj _ _ => false end.

(** pandas 'MultiIndex': names of levels, labels of each level (each one once), and for each column the
    position of its label in each level. Missing labels (code -1) are not modelled. *)
Record midx := mkMidx { names : list (option str); levels : list (list label); codes : list (list nat) }.
(** Columns as tuples of labels. *)
Definition columns (m : midx) : list (list label) :=
  map (fun code => map2 (fun level c => nth c level (LStr [])) (levels m) code) (codes m).

(** 'Index.is_unique' for strings. *)
Fixpoint all_distinct (l : list str) : bool :=
  match l with [] => true | s :: l' => negb (existsb (str_eqb s) l') && all_distinct l' end.

(** store/utils.py:80-120. 'MultiIndex.set_levels' verifies that labels of a level set are different. *)
Definition conform_level (level : list label) : res (list label) :=
  if forallb is_str level then Ok level
  else let str_level := map text level in
       if all_distinct str_level then Ok (map LStr str_level) else Err ValueError.
Fixpoint conform_levels (l : list (list label)) : res (list (list label)) :=
  match l with
  | [] => Ok []
  | level :: l' => let* a := conform_level level in let* b := conform_levels l' in Ok (a :: b)
  end.
Definition conform_cmidx (m : midx) : res midx :=
  let names' := map (fun n => match n with None => Some [] | Some s => Some s end) (names m) in
  let* levels' := conform_levels (levels m) in
  Ok (mkMidx names' levels' (codes m)).

(** writer.py:226-247 *)
Definition check_cmidx (m : midx) : res unit :=
  if existsb (fun n => match n with None => true | Some _ => false end) (names m) then Err ValueError
  else if forallb (forallb is_str) (levels m) then Ok tt else Err TypeError.

(** ** to_midx *)
(** Result of 'ast.literal_eval' on a string: a sequence (tuple, list), another literal which has no
    length, or an error, 'ValueError' for a name or an expression, 'SyntaxError' otherwise. *)
Inductive literal := LitSeq (l : list label) | LitScalar | LitValueError | LitSyntaxError.
(** Label of a multi-index: a given one, or a missing one set by 'MultiIndex.from_tuples' in tuples which
    are too short. *)
Definition cell := option label.
(** 'tuple(val)' of a string: its characters. *)
Definition characters (s : str) : list label := map (fun c => LStr [c]) s.

Section Expand.
  Variable literal_eval : str -> literal.

  (** writer.py:201-211: tuples, and maximum number of levels. *)
  Fixpoint read_names (idx : list str) (max_levels : nat) : res (list (list label) * nat) :=
    match idx with
    | [] => Ok ([], max_levels)
    | val :: idx' =>
        match literal_eval val with
        | LitSeq tup => let* '(l, m) := read_names idx' (Nat.max (length tup) max_levels) in Ok (tup :: l, m)
        | LitScalar => Err TypeError
        | LitValueError => let* '(l, m) := read_names idx' max_levels in Ok (characters val :: l, m)
        | LitSyntaxError => Err SyntaxError
        end
    end.
  (** writer.py:212-221 *)
  Definition level_names (given : option (list str)) (max_levels : nat) : list str :=
    let lev := match given with None => [] | Some l => l end in
    lev ++ map (fun i => lit "l" ++ int_str (Z.of_nat i)) (seq (length lev) (max_levels - length lev)).
  Definition pad {A} (n : nat) (x : A) (l : list A) : list A := l ++ repeat x (n - length l).
  (** writer.py:222-223. 'MultiIndex.from_tuples' raises 'ValueError' if the number of names is not the
      number of levels, which is the length of the longest tuple. *)
  Definition width {A} (l : list (list A)) : nat := fold_left Nat.max (map (@length A) l) 0.
  Definition from_tuples (tuples : list (list label)) (names : list str) : res (list (list cell) * list str) :=
    match tuples with
    | [] => Ok ([], names)
    | _ => if width tuples =? length names then Ok (map (fun t => pad (width tuples) None (map Some t)) tuples, names)
           else Err ValueError
    end.
  Definition to_midx (idx : list str) (given : option (list str)) : res (list (list cell) * list str) :=
    let* '(l, max_levels) := read_names idx 0 in
    from_tuples (map (pad max_levels (LStr [])) l) (level_names given max_levels).
End Expand.
