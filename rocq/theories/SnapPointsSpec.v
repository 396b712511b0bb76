(** Points of snapshots: periods of a fixed length, periods of a calendar, given values; ends of bins. *)
Require Import List Arith ZArith Bool.
Require Import Verif.Common Verif.SegModel Verif.SegSpec Verif.CalModel Verif.CalSpec.
Import ListNotations.
Local Open Scope Z_scope.

Definition with_closed (cg : cgrouper) (c : side) : cgrouper := mkCG (cg_cal cg) (cg_n cg) c (cg_label cg).

(** Periods of a calendar: from that of the first value, to that of the last one. *)
Definition cal_points (c : side) (cg : cgrouper) (on : list Z) : list (Z * Z) :=
  match on with
  | [] => []
  | v :: _ =>
      let cg' := with_closed cg c in let s := first_point cg' v in
      map (fun i => (bin_label cg' s i, bin_end cg' s i)) (zrange 0 (bin_of cg' s (last on 0)))
  end.

Definition cal_points_after (c : side) (cg : cgrouper) (on : list Z) (b : sbuf) : Prop := cal_after (fun v => v) (with_closed cg c) on b.

(** Ends of bins of a calendar. *)
Definition cal_ends {D} (t : D -> Z) (cg : cgrouper) (rows : list D) : list Z := map snd (cal_points (cg_closed cg) cg (map t rows)).

(** Periods: from that of the first value, to that of the last one. *)
Definition time_points (c : side) (tg : tgrouper) (on : list Z) : list (Z * Z) :=
  match on with
  | [] => []
  | v :: _ =>
      let a := anchor tg in let f := tg_freq tg in
      map (fun k => (period_label (tg_label tg) a f k, period_end a f k)) (zrange (kappa c a f v) (kappa c a f (last on 0)))
  end.

(** Bins of periods of a fixed length. *)
Definition time_groups_of {D} (t : D -> Z) (tg : tgrouper) (rows : list D) : list (Z * list D) :=
  let c := tg_closed tg in let a := anchor tg in let f := tg_freq tg in
  match map t rows with
  | [] => []
  | v :: _ => time_groups t (tg_label tg) c a f (kappa c a f v) (kappa c a f (last (map t rows) 0)) rows
  end.

Definition time_ends {D} (t : D -> Z) (tg : tgrouper) (rows : list D) : list Z := map snd (time_points (tg_closed tg) tg (map t rows)).

(** * Given values, in one call *)
Definition vals_points (c : side) (labels ends : list Z) (on : list Z) : list (Z * Z) :=
  take_until (fun le => forallb (before c (snd le)) on) (combine labels ends).

(** Bins of [x] rows. *)
Definition row_groups_of {D} (t : D -> Z) (x : nat) (rows : list D) : list (Z * list D) := row_groups t x 0 (ceil_div (length rows) x) rows.
(** End of the bin number [b], once it is known: left closed, the value of the first row of the next bin; right closed, that of
    its own last row. *)
Definition row_ends {D} (t : D -> Z) (x : nat) (c : side) (rows : list D) : list Z :=
  match c with
  | SLeft => map (fun b => nth ((b + 1) * x) (map t rows) 0) (seq 0 ((length rows - 1) / x))
  | SRight => map (fun b => nth ((b + 1) * x - 1) (map t rows) 0) (seq 0 (length rows / x))
  end.
(** Rows for which ends tell bins apart: ordered; first rows of bins have different values; with bins closed on the right, these
    are not that of the row before. *)
Definition rows_apart {D} (t : D -> Z) (x : nat) (c : side) (rows : list D) : Prop :=
  sorted (map t rows) /\
  forall b, (0 < b)%nat -> (b * x < length rows)%nat ->
    match c with SLeft => nth ((b - 1) * x) (map t rows) 0 | SRight => nth (b * x - 1) (map t rows) 0 end < nth (b * x) (map t rows) 0.

(** Rows of the snapshot at a point: those before this point, and not before the end of a bin which is before this point. *)
Definition direct_shots {D} (t : D -> Z) (c : side) (ends : list D -> list Z) (points : list Z -> list (Z * Z)) (rows : list D) : list (Z * list D) :=
  map (fun p => (fst p, filter (fun r => before c (snd p) (t r) && forallb (fun k => negb ((k <? snd p) && before c k (t r))) (ends rows)) rows)) (points (map t rows)).
