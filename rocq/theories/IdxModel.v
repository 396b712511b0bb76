(** Model of oups/store/indexer.py: indexer classes, keys, and their string forms.

    A string is the list of the code points of its characters. *)
Require Import String Ascii List Arith ZArith Bool DecimalZ.
Require Import Verif.Common.
Import ListNotations.

Definition str := list nat.

(** String literals. *)
Definition lit (s : string) : str := map nat_of_ascii (list_ascii_of_string s).

Definition str_eqb (a b : str) : bool := if list_eq_dec Nat.eq_dec a b then true else false.

(** defines.py:12, 'DIR_SEP' (on POSIX). *)
Definition slash : nat := 47.
Definition dot : nat := 46.
Definition minus : nat := 45.

(** Value of a field: int, str, value of any other type with its 'str()', or dataclass instance. *)
Inductive value :=
| VInt (z : Z)
| VStr (s : str)
| VOther (repr : str)
| VDC (fields : list value).

(** Declared type of a field. Other types than int, str and dataclasses are not modelled. Default
    values of fields are not modelled either. *)
Inductive ftype := TInt | TStr | TDC (fields : list ftype).

(** Class decorated with '@toplevel'. Simplification: 'fields_sep' is a single character. *)
Record cls := mkCls { c_sep : nat; c_fields : list ftype }.

(** * str() and int() of Python *)

Fixpoint uint_str (u : Decimal.uint) : str :=
  match u with
  | Decimal.Nil => []
  | Decimal.D0 u => 48 :: uint_str u
  | Decimal.D1 u => 49 :: uint_str u
  | Decimal.D2 u => 50 :: uint_str u
  | Decimal.D3 u => 51 :: uint_str u
  | Decimal.D4 u => 52 :: uint_str u
  | Decimal.D5 u => 53 :: uint_str u
  | Decimal.D6 u => 54 :: uint_str u
  | Decimal.D7 u => 55 :: uint_str u
  | Decimal.D8 u => 56 :: uint_str u
  | Decimal.D9 u => 57 :: uint_str u
  end.

(** [str(z)]. The limit of 4300 digits is not modelled. *)
Definition int_str (z : Z) : str :=
  match Z.to_int z with
  | Decimal.Pos u => uint_str u
  | Decimal.Neg u => minus :: uint_str u
  end.

Definition digit (c : nat) : option (Decimal.uint -> Decimal.uint) :=
  match c with
  | 48 => Some Decimal.D0 | 49 => Some Decimal.D1 | 50 => Some Decimal.D2 | 51 => Some Decimal.D3
  | 52 => Some Decimal.D4 | 53 => Some Decimal.D5 | 54 => Some Decimal.D6 | 55 => Some Decimal.D7
  | 56 => Some Decimal.D8 | 57 => Some Decimal.D9 | _ => None
  end.

(** Digits, with single underscores between them. [prev] tells if the last character is a digit. *)
Fixpoint parse_digits (prev : bool) (s : str) : option Decimal.uint :=
  match s with
  | [] => if prev then Some Decimal.Nil else None
  | c :: s' =>
      match digit c with
      | Some d => option_map d (parse_digits true s')
      | None => if (c =? 95) && prev then parse_digits false s' else None
      end
  end.

Definition is_space (c : nat) : bool := ((9 <=? c) && (c <=? 13)) || ((28 <=? c) && (c <=? 32)).
Fixpoint lstrip (s : str) : str := match s with c :: s' => if is_space c then lstrip s' else s | [] => [] end.
Definition strip (s : str) : str := rev (lstrip (rev (lstrip s))).

(** [int(s)]; [None] is ValueError. Digits and white spaces out of ASCII are not modelled. *)
Definition parse_int (s : str) : option Z :=
  match strip s with
  | [] => None
  | c :: s' =>
      if c =? minus then option_map (fun u => Z.of_int (Decimal.Neg u)) (parse_digits false s')
      else if c =? 43 then option_map (fun u => Z.of_int (Decimal.Pos u)) (parse_digits false s')
      else option_map (fun u => Z.of_int (Decimal.Pos u)) (parse_digits false (c :: s'))
  end.

(** 'str()' of a field value. That of a nested dataclass instance is not modelled: it is not used for
    an instance accepted by '_validate_toplevel_instance'. *)
Definition value_str (v : value) : str :=
  match v with VInt z => int_str z | VStr s => s | VOther r => r | VDC _ => [] end.

(** * Keys to strings *)

(** indexer.py:27-31. *)
Definition is_dc (v : value) : bool := match v with VDC _ => true | _ => false end.

(** indexer.py:40-62, '_dataclass_instance_to_lists'. *)
Fixpoint value_lists (v : value) : list (list value) :=
  match v with
  | VDC [] => []
  | VDC fs =>
      fs :: (fix of_last (l : list value) : list (list value) :=
               match l with
               | [] => []
               | [x] => if is_dc x then value_lists x else []
               | _ :: l' => of_last l'
               end) fs
  | _ => []
  end.

(** [sep.join(l)]. *)
Fixpoint join (sep : str) (l : list str) : str :=
  match l with
  | [] => []
  | [x] => x
  | x :: l' => x ++ sep ++ join sep l'
  end.

(** indexer.py:113-146, '_dataclass_instance_to_str'. *)
Definition to_str (c : cls) (obj : value) (as_path : bool) : res str :=
  let levels_sep := if as_path then slash else c_sep c in
  let lists := value_lists obj in
  let strs := map (fun fields => join [c_sep c] (map value_str (removelast fields))) lists in
  match lists with
  | [] => Err IndexError
  | _ =>
      let last_field := value_str (last (last lists []) (VStr [])) in
      let tail := match last strs [] with
                  | [] => last_field
                  | tail => tail ++ [c_sep c] ++ last_field
                  end in
      Ok (join [levels_sep] (removelast strs ++ [tail]))
  end.
(** indexer.py:346 and 353-354: the property 'to_path', and '__str__'. *)
Definition to_path (c : cls) (obj : value) : res str := to_str c obj true.
Definition key_str (c : cls) (obj : value) : res str := to_str c obj false.

(** * Validation *)

Definition has_char (c : nat) (s : str) : bool := existsb (Nat.eqb c) s.

(** indexer.py:79-110, for one field: [counter] is its number, [n] the number of fields. *)
Definition validate_field (c : cls) (n counter : nat) (field : value) : res unit :=
  match field with
  | VDC _ =>
      if counter =? 0 then Err TypeError
      else if negb (counter + 1 =? n) then Err TypeError
      else Ok tt
  | _ =>
      let s := value_str field in
      if has_char (c_sep c) s || has_char slash s || has_char dot s then Err ValueError
      else match field with VOther _ => Err TypeError | _ => Ok tt end
  end.

Fixpoint validate_fields (c : cls) (n counter : nat) (fields : list value) : res unit :=
  match fields with
  | [] => Ok tt
  | f :: fields' => let* _ := validate_field c n counter f in validate_fields c n (S counter) fields'
  end.

Fixpoint validate_lists (c : cls) (lists : list (list value)) : res unit :=
  match lists with
  | [] => Ok tt
  | fields :: lists' =>
      let* _ := validate_fields c (length fields) 0 fields in validate_lists c lists'
  end.

(** indexer.py:65-110, '_validate_toplevel_instance'. *)
Definition validate (c : cls) (obj : value) : res unit := validate_lists c (value_lists obj).

(** The constructor 'cls( *args, check=check)', indexer.py:338-345. *)
Definition construct (fields : list ftype) (args : list value) : res value :=
  if length args =? length fields then Ok (VDC args) else Err TypeError.
Definition make_key (c : cls) (args : list value) (check : bool) : res value :=
  let* obj := construct (c_fields c) args in
  if check then let* _ := validate c obj in Ok obj else Ok obj.

(** * Strings to keys *)

(** indexer.py:149-170, '_dataclass_fields_types_to_lists'. *)
Fixpoint sub_lists (t : ftype) : list (list ftype) :=
  match t with
  | TDC fs =>
      fs :: (fix of_last (l : list ftype) : list (list ftype) :=
               match l with
               | [] => []
               | [x] => sub_lists x
               | _ :: l' => of_last l'
               end) fs
  | _ => []
  end.
Definition type_lists (c : cls) : list (list ftype) := sub_lists (TDC (c_fields c)).

(** indexer.py:229-240, '_get_depth'. *)
Definition depth (c : cls) : nat := length (type_lists c).

(** [re.split] on single characters. *)
Fixpoint split (p : nat -> bool) (s : str) : list str :=
  match s with
  | [] => [[]]
  | c :: s' =>
      if p c then [] :: split p s'
      else match split p s' with x :: l => (c :: x) :: l | [] => [[c]] end
  end.

(** What the regular expression "\c" matches, for a separator [c]: itself, if it is not an ASCII
    letter or digit; a digit for "\d". The other ones are not modelled (they are character classes,
    positions, control characters or errors). *)
Definition is_digit (c : nat) : bool := (48 <=? c) && (c <=? 57).
Definition is_letter (c : nat) : bool := ((65 <=? c) && (c <=? 90)) || ((97 <=? c) && (c <=? 122)).
Definition plain_sep (c : nat) : bool := negb (is_digit c || is_letter c).
Definition matches (sep : nat) (c : nat) : bool :=
  if sep =? 100 then is_digit c else sep =? c.

(** [l[-n:]] and [l[:-n]]. *)
Definition last_n {A} (n : nat) (l : list A) : list A := if n =? 0 then l else skipn (length l - n) l.
Definition but_last_n {A} (n : nat) (l : list A) : list A := if n =? 0 then [] else firstn (length l - n) l.

(** 'field_type(field_as_string)'. *)
Definition convert (t : ftype) (s : str) : res value :=
  match t with
  | TInt => match parse_int s with Some z => Ok (VInt z) | None => Err ValueError end
  | TStr => Ok (VStr s)
  | TDC fs => construct fs [VStr s]
  end.

Fixpoint convert_zip (ts : list ftype) (ss : list str) : res (list value) :=
  match ts, ss with
  | t :: ts', s :: ss' => let* v := convert t s in let* vs := convert_zip ts' ss' in Ok (v :: vs)
  | _, _ => Ok []
  end.

(** 'level_types[-1]( *level)'. *)
Definition instantiate (t : ftype) (args : list value) : res value :=
  match t with TDC fs => construct fs args | _ => Err TypeError end.

(** indexer.py:206-219: the loop, [types] being what is left of it, last one first. *)
Fixpoint from_loop (types : list (list ftype)) (strings : list str) (level_length : nat) (level : list value)
  : res (list value) :=
  match types with
  | [] => Ok level
  | level_types :: types' =>
      let strings := but_last_n level_length strings in
      let level_length := length level_types - 1 in
      let* first := convert_zip (removelast level_types) (last_n level_length strings) in
      let* sub := instantiate (last level_types TInt) level in
      from_loop types' strings level_length (first ++ [sub])
  end.

(** indexer.py:173-226, '_dataclass_instance_from_str' ('from_path' and 'from_str'); [None] is
    returned when TypeError or ValueError is raised, and these are the only ones here. *)
Definition from_str (c : cls) (s : str) : option value :=
  let strings := split (fun x => (x =? slash) || matches (c_sep c) x) s in
  match rev (type_lists c) with
  | [] => None
  | level_types :: types =>
      match (let level_length := length level_types in
             let* level := convert_zip level_types (last_n level_length strings) in
             let* level := from_loop types strings level_length level in
             make_key c level false) with
      | Ok k => Some k
      | Err _ => None
      end
  end.

(** indexer.py:243-254: pickling a key is [from_str(str(key))]. *)
Definition unpickle (c : cls) (obj : value) : option value :=
  match key_str c obj with Ok s => from_str c s | Err _ => None end.

(** * Paths of the operating system *)

(** Directory designated by a path: names between slashes; repeated slashes count for one. *)
Definition dir_names (p : str) : list str := filter (fun n => match n with [] => false | _ => true end) (split (Nat.eqb slash) p).

(** 'os.path.join(base, p)' of POSIX. *)
Definition path_join (base p : str) : str :=
  match p with
  | c :: _ => if c =? slash then p
              else match rev base with
                   | [] => p
                   | b :: _ => if b =? slash then base ++ p else base ++ [slash] ++ p
                   end
  | [] => match rev base with
          | [] => []
          | b :: _ => if b =? slash then base else base ++ [slash]
          end
  end.

Definition absolute (p : str) : bool := match p with c :: _ => c =? slash | [] => false end.
