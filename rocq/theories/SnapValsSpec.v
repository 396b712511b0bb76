(** Specification of snapshots at given times, in successive calls. *)
Require Import List Arith ZArith Bool Sorted.
Require Import Verif.Common Verif.AggModel Verif.AggSpec Verif.SegModel Verif.SegSpec Verif.CsaModel Verif.CsaSpec.
Import ListNotations.

(** Rows (label, content) of successive results put together: if the first label of a result is the last
    label so far, the row so far was provisional and is replaced. *)
Definition join_rows {A} (so_far result : list (Z * A)) : list (Z * A) :=
  match result with
  | [] => so_far
  | (l, _) :: _ =>
      match rev so_far with
      | (l', _) :: _ => if (l =? l')%Z then removelast so_far ++ result else so_far ++ result
      | [] => result
      end
  end.
Definition join_results {A} (results : list (list (Z * A))) : list (Z * A) := fold_left join_rows results [].

(** A column of a frame of results, with its labels. *)
Definition column_of {V} (out : cname) (fr : frame V) : list (Z * option V) := combine (f_labels fr) (fcol out fr).

(** Points of observation are (label, time) pairs. A call is given the first [m] ones with rows [p].
    [points_in_time]: there are rows, the list of points is not empty, may get longer from call to call, is complete at
    the last one, and points come with the call which has the first row after them, or before. *)
Fixpoint points_in_time {D} (t : D -> Z) (c : side) (points : list (Z * Z)) (seen : list D) (m0 : nat)
  (calls : list (list D * nat)) : Prop :=
  match calls with
  | [] => m0 = length points
  | (p, m) :: calls' =>
      p <> [] /\ 0 < m /\ m0 <= m <= length points /\
      (forall le r, In le (skipn m points) -> In r (seen ++ p) -> before c (snd le) (t r) = true) /\
      points_in_time t c points (seen ++ p) m calls'
  end.
