(** Keys of AggStream whose results are ordered on another column than the one with labels of bins
    (oups/aggstream/aggstream.py). *)
Require Import List Arith ZArith Bool.
Require Import Verif.Common Verif.AggModel Verif.SegModel Verif.CsaModel Verif.CsaSpec Verif.KeyModel.
Require Verif.WrModel Verif.StreamModel.
Import ListNotations.
Local Open Scope Z_scope.

(** Configuration of a key, and position, in its results, of the column given in 'ordered_on'; the column with labels of
    bins, which is the first one, has another name then: 'bin_on' is a tuple with this name ('bin_on_out'), or 'bin_on' is
    another column than the one seed data is ordered on (aggstream.py:186-211). With position 0, this is a key of
    KeyModel.v. Then positions of columns of 'duplicates_on': the user gives them, or this is the column with labels
    (aggstream.py:232-246). *)
Record oconf (PB : Type) := mkOconf { o_conf : bconf PB; o_on : nat; o_dup : list nat }.
Arguments mkOconf {PB}. Arguments o_conf {PB}. Arguments o_on {PB}. Arguments o_dup {PB}.

(** aggstream.py:232-246: 'ordered_on' and 'duplicates_on' are in parameters for writing. *)
Definition write_on (on : nat) (dup : list nat) (size nirgs : option Z) : WrModel.params := WrModel.mkParams size (WrModel.OrderedOn on) (Some dup) nirgs.

Section Key.
Context {D V PB : Type}.
Variable N : dtype -> num V.
Variable val : D -> cname -> V.
Variable dtypes : list (cname * dtype).
Variable idx : D -> Z.
Variable enc : option V -> Z.

(** aggstream.py:167-275, as [key_of] for other parameters; bins are on column [idx], be its name changed in results. *)
Definition order_key (o : oconf PB) : StreamModel.kconf D (@segbuf V) PB :=
  let c := o_conf o in
  StreamModel.mkConf (c_filter c) (segagg N val dtypes idx enc (c_agg c) (c_by c) (c_snap c)) (type_of c) (c_post c) (c_max c)
    (write_on (o_on o) (o_dup o) (c_size c) (c_nirgs c)) (write_on (o_on o) (o_dup o) (c_size_snap c) (c_nirgs c)).
End Key.
