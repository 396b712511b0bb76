(** Model of oups/store/indexer.py for a separator of fields which is any string: 'IdxModel.v' has a
    single character. What does not depend on the separator is shared with it. *)
Require Import List Arith ZArith Bool.
Require Import Verif.Common Verif.IdxModel.
Import ListNotations.

(** Class decorated with '@toplevel(fields_sep=...)', indexer.py:277-385. *)
Record scls := mkSCls { s_sep : str; s_fields : list ftype }.

(** * Keys to strings *)

(** indexer.py:113-146, '_dataclass_instance_to_str'. *)
Definition to_str_s (c : scls) (obj : value) (as_path : bool) : res str :=
  let levels_sep := if as_path then [slash] else s_sep c in
  let lists := value_lists obj in
  let strs := map (fun fields => join (s_sep c) (map value_str (removelast fields))) lists in
  match lists with
  | [] => Err IndexError
  | _ =>
      let last_field := value_str (last (last lists []) (VStr [])) in
      let tail := match last strs [] with
                  | [] => last_field
                  | tail => tail ++ s_sep c ++ last_field
                  end in
      Ok (join levels_sep (removelast strs ++ [tail]))
  end.
Definition to_path_s (c : scls) (obj : value) : res str := to_str_s c obj true.
Definition key_str_s (c : scls) (obj : value) : res str := to_str_s c obj false.

(** * Validation *)

(** [s.startswith(sep)], and [sep in s]. *)
Fixpoint starts_with (sep s : str) : bool :=
  match sep, s with
  | [], _ => true
  | c :: sep', x :: s' => (c =? x) && starts_with sep' s'
  | _ :: _, [] => false
  end.
Fixpoint contains (sep s : str) : bool :=
  starts_with sep s || match s with [] => false | _ :: s' => contains sep s' end.

(** indexer.py:79-110, for one field: [counter] is its number, [n] the number of fields. *)
Definition validate_field_s (c : scls) (n counter : nat) (field : value) : res unit :=
  match field with
  | VDC _ =>
      if counter =? 0 then Err TypeError
      else if negb (counter + 1 =? n) then Err TypeError
      else Ok tt
  | _ =>
      let s := value_str field in
      if contains (s_sep c) s || contains [slash] s || contains [dot] s then Err ValueError
      else match field with VOther _ => Err TypeError | _ => Ok tt end
  end.

Fixpoint validate_fields_s (c : scls) (n counter : nat) (fields : list value) : res unit :=
  match fields with
  | [] => Ok tt
  | f :: fields' => let* _ := validate_field_s c n counter f in validate_fields_s c n (S counter) fields'
  end.

(** indexer.py:65-110, '_validate_toplevel_instance'. *)
Fixpoint validate_lists_s (c : scls) (lists : list (list value)) : res unit :=
  match lists with
  | [] => Ok tt
  | fields :: lists' =>
      let* _ := validate_fields_s c (length fields) 0 fields in validate_lists_s c lists'
  end.

(** The constructor 'cls( *args, check=check)', indexer.py:338-345. *)
Definition make_key_s (c : scls) (args : list value) (check : bool) : res value :=
  let* obj := construct (s_fields c) args in
  if check then let* _ := validate_lists_s c (value_lists obj) in Ok obj else Ok obj.

(** * Strings to keys *)

(** Characters with a meaning of their own in a regular expression, '.' left aside. *)
Definition special : list nat := [94; 36; 42; 43; 63; 123; 91; 92; 124; 40; 41].

(** What the regular expression made of "\" and the separator matches at the start of a string
    (indexer.py:197): its first character, which is escaped, then the other ones, which are not. '.'
    among these matches any character, except end of line. Simplification: not modelled when the first
    character is an ASCII letter or digit, when another one is in [special], and for an empty separator
    ('re.error' is then raised). *)
Fixpoint match_rest (sep s : str) : bool :=
  match sep, s with
  | [], _ => true
  | c :: sep', x :: s' => (if c =? dot then negb (x =? 10) else c =? x) && match_rest sep' s'
  | _ :: _, [] => false
  end.
Definition match_sep (sep s : str) : bool :=
  match sep, s with
  | c :: sep', x :: s' => (c =? x) && match_rest sep' s'
  | _, _ => false
  end.

(** [re.split] with this regular expression, or '/': [skip] is the number of characters left in the
    present match. *)
Fixpoint split_sep (sep : str) (skip : nat) (s : str) : list str :=
  match s with
  | [] => [[]]
  | c :: s' =>
      match skip with
      | S k => split_sep sep k s'
      | O =>
          if c =? slash then [] :: split_sep sep 0 s'
          else if match_sep sep s then [] :: split_sep sep (length sep - 1) s'
          else match split_sep sep 0 s' with x :: l => (c :: x) :: l | [] => [[c]] end
      end
  end.

(** indexer.py:173-226, '_dataclass_instance_from_str' ('from_path' and 'from_str'). *)
Definition from_str_s (c : scls) (s : str) : option value :=
  let strings := split_sep (s_sep c) 0 s in
  match rev (sub_lists (TDC (s_fields c))) with
  | [] => None
  | level_types :: types =>
      match (let level_length := length level_types in
             let* level := convert_zip level_types (last_n level_length strings) in
             let* level := from_loop types strings level_length level in
             make_key_s c level false) with
      | Ok k => Some k
      | Err _ => None
      end
  end.

(** indexer.py:243-254: pickling a key is [from_str(str(key))]. *)
Definition unpickle_s (c : scls) (obj : value) : option value :=
  match key_str_s c obj with Ok s => from_str_s c s | Err _ => None end.
