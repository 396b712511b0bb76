(** Specification of what writing does to the rows of a dataset, independent of the code. *)
Require Import List Arith ZArith Bool Sorting.Sorted Sorting.Permutation.
Require Import Verif.Common Verif.WrModel.
Import ListNotations.
Local Open Scope Z_scope.

(** Rows in ascending order of column [c]; in strictly ascending order. *)
Definition sorted_on (c : nat) (l : list row) : Prop := StronglySorted (fun r s => col c r <= col c s) l.
Definition strictly_sorted_on (c : nat) (l : list row) : Prop := StronglySorted (fun r s => col c r < col c s) l.

(** Values of column [c] in a list of rows are all less than those in following lists. *)
Definition separated (c : nat) (l : list (list row)) : Prop :=
  StronglySorted (fun a b => forall r s, In r a -> In s b -> col c r < col c s) l.

(** Rows with the same values in some columns. *)
Definition same_key (cols : list nat) (r s : row) : Prop := forall c, In c cols -> col c r = col c s.

(** [r] is in [l], and no row after it has the same key. *)
Definition last_of_key (cols : list nat) (r : row) (l : list row) : Prop :=
  exists before after, l = before ++ r :: after /\ forall s, In s after -> ~ same_key cols r s.

(** [r] is in [l], and is the only row with this key. *)
Definition only_row (cols : list nat) (r : row) (l : list row) : Prop :=
  exists before after, l = before ++ r :: after /\ forall s, In s (before ++ after) -> ~ same_key cols r s.

(** [out] is what is left of [l] when keeping, for each key, the last row only, in the same order. *)
Inductive keep_last (cols : list nat) : list row -> list row -> Prop :=
| KNil : keep_last cols [] []
| KDrop r l out s : In s l -> same_key cols r s -> keep_last cols l out -> keep_last cols (r :: l) out
| KKeep r l out : (forall s, In s l -> ~ same_key cols r s) -> keep_last cols l out -> keep_last cols (r :: l) (r :: out).

(** [out] is a sub-list of [l], in the same order. *)
Inductive sublist {A} : list A -> list A -> Prop :=
| SLNil : sublist [] []
| SLSkip x out l : sublist out l -> sublist out (x :: l)
| SLKeep x out l : sublist out l -> sublist (x :: out) (x :: l).

(** Row groups are not empty. *)
Definition filled (ds : dataset) : Prop := Forall (fun g => content g <> []) ds.
(** Range of values of the data meets the range of values of the row group. *)
Definition meets (c : nat) (data : list row) (g : rg) : Prop :=
  exists r s d d', In r (content g) /\ In s (content g) /\ In d data /\ In d' data /\ col c r <= col c d /\ col c d' <= col c s.
(** All values of the data are greater than those of the dataset. *)
Definition after_end (c : nat) (data : list row) (ds : dataset) : Prop :=
  forall r d, In r (all_rows ds) -> In d data -> col c r < col c d.
(** The first row group meets the data. *)
Definition meets_first (c : nat) (data : list row) (ds : dataset) : Prop :=
  exists g ds', ds = g :: ds' /\ meets c data g.

(** Columns on which rows are duplicates: columns given and the one of 'ordered_on', or all columns if
    none is given. *)
Definition duplicate_columns (n c : nat) (cols : list nat) : list nat :=
  match cols with [] => seq 0 n | _ => if existsb (Nat.eqb c) cols then cols else cols ++ [c] end.

(** A row group is incomplete when it has at most 90% of the maximum number of rows. *)
Definition is_incomplete (max : Z) (g : rg) : Prop := 10 * Z.of_nat (length (content g)) <= 9 * max.
(** The last [n] row groups are those, at the end of the dataset, which are incomplete. *)
Definition trailing_incomplete (max : Z) (ds : dataset) (n : nat) : Prop :=
  exists ds1 ds2, ds = ds1 ++ ds2 /\ length ds2 = n /\ Forall (is_incomplete max) ds2
    /\ (forall ds1' g, ds1 = ds1' ++ [g] -> ~ is_incomplete max g).

(** Where data can be written: new dataset, data meeting a row group, data after all. *)
Definition placed (c : nat) (data : list row) (ds : dataset) : Prop := ds = [] \/ (exists g, In g ds /\ meets c data g) \/ after_end c data ds.
(** Rows are not merged in the middle of a dataset when values are in several row groups. *)
Definition splittable (c : nat) (data : list row) (ds : dataset) : Prop :=
  separated c (map content ds) \/ after_end c data ds \/ exists ds0 g, ds = ds0 ++ [g] /\ meets c data g.

(** Rows which are the latest ones with their value in column [c], in a list of written data, newest first. *)
Fixpoint latest (c : nat) (h : list (list row)) (r : row) : Prop :=
  match h with
  | [] => False
  | d :: older => In r d \/ ((forall x, In x d -> col c x <> col c r) /\ latest c older r)
  end.

(** Datasets obtained by writing data in strictly ascending order of [c], without duplicate in [c], with
    any other parameter. *)
Inductive keyed_history (c : nat) : list (list row) -> dataset -> Prop :=
| HEmpty : keyed_history c [] []
| HWrite h ds p v data ds' : keyed_history c h ds ->
    ordered_on p = OrderedOn c -> duplicates_on p = Some [c] -> strictly_sorted_on c (rows data) ->
    placed c (rows data) ds -> (max_nirgs p = None \/ ~ meets_first c (rows data) ds) ->
    write p v ds data = Ok ds' -> keyed_history c (rows data :: h) ds'.
