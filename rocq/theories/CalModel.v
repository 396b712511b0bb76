(** Model of calendars, for calendar frequencies of TimeGrouper (oups/aggstream/segmentby.py): months, weeks, quarters
    and years. 'by_scale' on such a TimeGrouper is in SegModel.v. *)
Require Import List Arith ZArith Bool.
Require Import Verif.Common Verif.SegModel.
Import ListNotations.
Local Open Scope Z_scope.

(** * Calendars *)
(** Days from the first of January of year 0 to the first of January of year [y]. *)
Definition leap (y : Z) : bool := ((y mod 4 =? 0) && negb (y mod 100 =? 0)) || (y mod 400 =? 0).
Definition days_before_year (y : Z) : Z := 365 * y + (y + 3) / 4 - (y + 99) / 100 + (y + 399) / 400.
(** Days from the first of January to the first day of a month (0 for January, to 12 for the next January). *)
Definition days_before_month (y m : Z) : Z :=
  nth (Z.to_nat m) [0; 31; 59; 90; 120; 151; 181; 212; 243; 273; 304; 334; 365] 0 + (if (2 <=? m) && leap y then 1 else 0).
(** Days from year 0 to the epoch, the first of January 1970. *)
Definition epoch_days : Z := 719528.
Definition year_of (d : Z) : Z :=
  let y := (400 * d) / 146097 in
  if d <? days_before_year y then y - 1 else if days_before_year (y + 1) <=? d then y + 1 else y.
Definition month_of (y d : Z) : Z :=
  Z.of_nat (length (filter (fun m => days_before_month y (Z.of_nat m) <=? d) (seq 1 11))).

(** pandas 'MS': month [12 * y + m], [m] being 0 for January. *)
Definition month_start (k : Z) : Z := day * (days_before_year (k / 12) + days_before_month (k / 12) (k mod 12) - epoch_days).
Definition month_number (t : Z) : Z :=
  let d := t / day + epoch_days in
  let y := year_of d in
  12 * y + month_of y (d - days_before_year y).
Definition month_starts : calendar := mkCal month_start month_number.
(** pandas 'M': last days of months, at midnight. *)
Definition month_ends : calendar := mkCal (fun k => month_start (k + 1) - day) (fun t => month_number (t + day) - 1).
(** pandas 'W-...': [wd] is the day of the week, 0 for Thursday (the epoch is a Thursday), 3 for Sunday. *)
Definition weeks (wd : Z) : calendar := mkCal (fun k => day * (7 * k + wd)) (fun t => (t / day - wd) / 7).
(** pandas 'QS' and 'YS' (months [m], [m + 3]... and month [m] of each year): every [q]th month start. *)
Definition month_groups (q m : Z) : calendar := mkCal (fun k => month_start (q * k + m)) (fun t => (month_number t - m) / q).
