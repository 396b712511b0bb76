(** Shared vocabulary of the model: Python exceptions as values and list helpers.
    No definition in this file models a particular line of /repo; each is a Python or numpy
    primitive used by the modelled functions. *)
Require Import List Arith ZArith Bool Lia.
Import ListNotations.

(** Kinds of Python exceptions raised by the modelled code.
    [OutOfBounds] stands for the undefined behaviour of numba compiled code when it writes
    outside of an array (numba does not check bounds by default). *)
Inductive exn :=
| ValueError | TypeError | KeyError | IndexError | AttributeError | StopIteration
| OutOfBounds | OSError | FileNotFound | UserExn | ZeroDivisionError | SyntaxError
| SeedPre.

(** A computation either returns a value or raises. *)
Inductive res (A : Type) :=
| Ok (a : A)
| Err (e : exn).
Arguments Ok {A} _.
Arguments Err {A} _.

Definition bind {A B} (r : res A) (f : A -> res B) : res B :=
  match r with Ok a => f a | Err e => Err e end.

Notation "'let*' x ':=' r 'in' k" := (bind r (fun x => k))
  (at level 200, x pattern, right associativity, only parsing).
Notation "'let*' ' p ':=' r 'in' k" := (bind r (fun p => k))
  (at level 200, p pattern, right associativity, only parsing).

Definition is_ok {A} (r : res A) : bool := match r with Ok _ => true | Err _ => false end.

(** [l[a:b]] for non-negative indices. *)
Definition slice {A} (a b : nat) (l : list A) : list A := firstn (b - a) (skipn a l).

(** [l[k] = x] on an array (no effect when out of range). *)
Fixpoint update {A} (l : list A) (k : nat) (x : A) : list A :=
  match l, k with
  | [], _ => []
  | _ :: t, O => x :: t
  | h :: t, S k' => h :: update t k' x
  end.

(** Elementwise binary operation of numpy on two arrays of the same length. *)
Fixpoint map2 {A B C} (f : A -> B -> C) (l : list A) (m : list B) : list C :=
  match l, m with
  | a :: l', b :: m' => f a b :: map2 f l' m'
  | _, _ => []
  end.

(** Indices (from [k]) of the elements satisfying [p] ("numpy.nonzero"). *)
Fixpoint nonzero_from {A} (k : nat) (p : A -> bool) (l : list A) : list nat :=
  match l with
  | [] => []
  | x :: t => if p x then k :: nonzero_from (S k) p t else nonzero_from (S k) p t
  end.

Fixpoint index_of {A} (eqb : A -> A -> bool) (x : A) (l : list A) : option nat :=
  match l with
  | [] => None
  | y :: t => if eqb x y then Some O
              else match index_of eqb x t with Some k => Some (S k) | None => None end
  end.

Definition memb {A} (eqb : A -> A -> bool) (x : A) (l : list A) : bool := existsb (eqb x) l.

(** Python dictionaries keep insertion order; assigning an existing key keeps its place. *)
Fixpoint dict_get {K A} (eqb : K -> K -> bool) (k : K) (d : list (K * A)) : option A :=
  match d with
  | [] => None
  | (k', a) :: t => if eqb k k' then Some a else dict_get eqb k t
  end.

Fixpoint dict_set {K A} (eqb : K -> K -> bool) (k : K) (a : A) (d : list (K * A)) : list (K * A) :=
  match d with
  | [] => [(k, a)]
  | (k', a') :: t => if eqb k k' then (k', a) :: t else (k', a') :: dict_set eqb k a t
  end.

Fixpoint dict_del {K A} (eqb : K -> K -> bool) (k : K) (d : list (K * A)) : list (K * A) :=
  match d with
  | [] => []
  | (k', a') :: t => if eqb k k' then t else (k', a') :: dict_del eqb k t
  end.
