(** Vocabulary for calendar frequencies. *)
Require Import List Arith ZArith Bool.
Require Import Verif.Common Verif.SegModel Verif.SegSpec Verif.CalModel.
Import ListNotations.
Local Open Scope Z_scope.

(** A calendar: points are in order, at midnight, and a time stamp lies between the point of its number and the next one. *)
Record calendar_ok (cal : calendar) : Prop := {
  cal_order : forall i j, i < j -> point cal i < point cal j;
  cal_number : forall t, point cal (number cal t) <= t < point cal (number cal t + 1);
  cal_midnight : forall k, point cal k mod day = 0 }.

(** Number of the point with which the first bin starts. Left closed: the last point at or before the first row. Right closed:
    the first bin ends with the first point at or after the day of the first row. *)
Definition first_point (cg : cgrouper) (first : Z) : Z :=
  match cg_closed cg with
  | SLeft => number (cg_cal cg) first
  | SRight => number (cg_cal cg) (normalize first - 1) + 1 - cg_n cg
  end.
(** Points with which bin [i] starts and ends, [s] being the number of the point with which the first bin starts. *)
Definition bin_start (cg : cgrouper) (s i : Z) : Z := point (cg_cal cg) (s + i * cg_n cg).
Definition bin_end (cg : cgrouper) (s i : Z) : Z := point (cg_cal cg) (s + (i + 1) * cg_n cg).
Definition bin_label (cg : cgrouper) (s i : Z) : Z := match cg_label cg with SLeft => bin_start cg s i | SRight => bin_end cg s i end.
(** A time stamp lies in bin [i]. *)
Definition in_bin (cg : cgrouper) (s i t : Z) : bool :=
  match cg_closed cg with
  | SLeft => (bin_start cg s i <=? t) && (t <? bin_end cg s i)
  | SRight => (bin_start cg s i <? t) && (t <=? bin_end cg s i)
  end.
(** The bin of a time stamp. *)
Definition bin_of (cg : cgrouper) (s t : Z) : Z :=
  (number (cg_cal cg) (match cg_closed cg with SLeft => t | SRight => t - 1 end) - s) / cg_n cg.
(** Bins of rows: from the first one, to the one of the last row. *)
Definition cal_bins {D} (t : D -> Z) (cg : cgrouper) (rows : list D) : list (Z * list D) :=
  match rows with
  | [] => []
  | r0 :: _ =>
      let s := first_point cg (t r0) in
      map (fun i => (bin_label cg s i, filter (fun r => in_bin cg s i (t r)) rows)) (zrange 0 (bin_of cg s (t (last rows r0))))
  end.

(** Binning by a TimeGrouper with a calendar frequency, on the time stamps of rows. *)
Definition cal_by {D} (t : D -> Z) (cg : cgrouper) (rows : list D) (buffer : option sbuf) : res (seg * option sbuf) :=
  by_scale (map t rows) (ByCal cg) None buffer.
(** Content of its buffer after rows: a time stamp from which bins are made again from the last one. *)
Definition cal_after {D} (t : D -> Z) (cg : cgrouper) (rows : list D) (b : sbuf) : Prop :=
  match rows with
  | [] => b = sbuf_empty
  | r0 :: _ =>
      let s := first_point cg (t r0) in
      sb_last_on b = None /\ exists r, sb_restart b = Some r /\ first_point cg r = s + bin_of cg s (t (last rows r0)) * cg_n cg
  end.
(** Bins can be made on successive pieces: single steps, or bins closed on the right. *)
Definition restartable (cg : cgrouper) : Prop := calendar_ok (cg_cal cg) /\ 0 < cg_n cg /\ (cg_n cg = 1 \/ cg_closed cg = SRight).

(** * The Gregorian calendar: years are leap if they are multiples of 4, but for multiples of 100 which are not multiples of 400. *)
Definition days_in_month (y m : Z) : Z :=
  if m =? 1 then (if ((y mod 4 =? 0) && negb (y mod 100 =? 0)) || (y mod 400 =? 0) then 29 else 28)
  else if (m =? 3) || (m =? 5) || (m =? 8) || (m =? 10) then 30 else 31.
