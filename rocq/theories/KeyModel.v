(** Keys of AggStream: segmentation and aggregation of a key, from its configuration (oups/aggstream/aggstream.py).

    Seed rows are of type [D], [idx] is the value of a row in the column seed data is ordered on, [val] its values in other
    columns. Bins are on column [idx]. Results of aggregation are data frames of CsaModel.v; they are put in the data frames
    of WrModel.v, whose values are integers, with some encoding [enc] of values and null values. *)
Require Import List Arith ZArith Bool.
Require Import Verif.Common Verif.AggModel Verif.SegModel Verif.CsaModel Verif.CsaSpec.
Require Verif.WrModel Verif.StreamModel.
Import ListNotations.
Local Open Scope Z_scope.

(** Parameter 'bin_by': a TimeGrouper, or a number of rows (by_x_rows, with side on which bins are closed). *)
Inductive bspec := ByTime (tg : tgrouper) | ByRows (x : nat) (c : side).

(** Configuration of a key: filter id, 'agg', 'bin_by', 'snap_by', if a tuple of 2 keys is given, 'post',
    'max_in_memory_size_b', and parameters for writing: 'max_row_group_size' for bins and snapshots, 'max_nirgs'. *)
Record bconf (PB : Type) := mkBconf {
  c_filter : nat;
  c_agg : aggspec;
  c_by : bspec;
  c_snap : option tgrouper;
  c_two : bool;
  c_post : option (PB -> WrModel.frame -> option WrModel.frame -> res (StreamModel.post_res * PB));
  c_max : Z;
  c_size : option Z;
  c_size_snap : option Z;
  c_nirgs : option Z }.
Arguments mkBconf {PB}.
Arguments c_filter {PB}. Arguments c_agg {PB}. Arguments c_by {PB}. Arguments c_snap {PB}. Arguments c_two {PB}.
Arguments c_post {PB}. Arguments c_max {PB}. Arguments c_size {PB}. Arguments c_size_snap {PB}. Arguments c_nirgs {PB}.

Section Key.
Context {D V PB : Type}.
Variable N : dtype -> num V.
Variable val : D -> cname -> V.
Variable dtypes : list (cname * dtype).
Variable idx : D -> Z.
Variable enc : option V -> Z.

(** Buffer of segmentation and aggregation: a key uses the part for its kind of bins. *)
Definition segbuf := (option (csabuf sbuf V) * option (csabuf (option xbuf) V))%type.
(** aggstream.py:330: '{}' *)
Definition segbuf_empty : segbuf := (Some csabuf_empty, Some csabuf_empty).

(** Rows of a data frame with results of aggregation: label, then columns in order of 'agg' (the order of columns of
    'cumsegagg' is that of data types, columns being identified by their names). *)
Definition table (agg : aggspec) (fr : frame V) : WrModel.frame :=
  WrModel.mkFrame (S (length agg))
    (map (fun i => nth i (f_labels fr) 0 :: map (fun o => enc (nth i (fcol (fst o) fr) None)) agg) (seq 0 (length (f_labels fr)))).
Definition tables (agg : aggspec) (r : option (frame V * option (frame V))) : option (WrModel.frame * option WrModel.frame) :=
  option_map (fun r => (table agg (fst r), option_map (table agg) (snd r))) r.

(** aggstream.py:916-921, 'cumsegagg' (cumsegagg.py:176-582), 'error_on_0' being true by default, on a key of time bins or
    on a key of bins made of a number of rows. *)
Definition segagg (agg : aggspec) (by_ : bspec) (snap : option tgrouper) (data : list D) (b : segbuf) : res (option (WrModel.frame * option WrModel.frame) * segbuf) :=
  match by_ with
  | ByTime tg =>
      let* '(r, b') := cumsegagg N val agg dtypes (time_bins idx tg) sbuf_empty (Some idx) (option_map ByTG snap) true data (fst b) in
      Ok (tables agg r, (b', snd b))
  | ByRows x c =>
      let* '(r, b') := cumsegagg N val agg dtypes (row_bins idx x c) None (Some idx) (option_map ByTG snap) true data (snd b) in
      Ok (tables agg r, (fst b, b'))
  end.

(** aggstream.py:241-246: default 'duplicates_on', which is the column with labels, by which results are ordered. *)
Definition write_conf (size nirgs : option Z) : WrModel.params := WrModel.mkParams size (WrModel.OrderedOn 0) (Some [0%nat]) nirgs.
(** aggstream.py:247-258 *)
Definition type_of (c : bconf PB) : StreamModel.res_type :=
  match c_snap c with
  | None => StreamModel.BINS
  | Some _ => if c_two c then StreamModel.BOTH else StreamModel.SNAPS
  end.
(** aggstream.py:167-275, for parameters above. *)
Definition key_of (c : bconf PB) : StreamModel.kconf D segbuf PB :=
  StreamModel.mkConf (c_filter c) (segagg (c_agg c) (c_by c) (c_snap c)) (type_of c) (c_post c) (c_max c)
    (write_conf (c_size c) (c_nirgs c)) (write_conf (c_size_snap c) (c_nirgs c)).

(** A single aggregation of rows: 'cumsegagg' without buffer, and without the check of zeros. *)
Definition batch (c : bconf PB) (rows : list D) : res (option (frame V * option (frame V))) :=
  match c_by c with
  | ByTime tg =>
      let* '(r, _) := cumsegagg N val (c_agg c) dtypes (time_bins idx tg) sbuf_empty (Some idx) (option_map ByTG (c_snap c)) false rows None in Ok r
  | ByRows x cl =>
      let* '(r, _) := cumsegagg N val (c_agg c) dtypes (row_bins idx x cl) None (Some idx) (option_map ByTG (c_snap c)) false rows None in Ok r
  end.
End Key.
