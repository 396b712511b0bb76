(** Specification of segmentation, independent of the code. *)
Require Import List Arith ZArith Bool Sorted.
Require Import Verif.SegModel.
Import ListNotations.
Local Open Scope Z_scope.

(** Ordered data, ties allowed. *)
Definition sorted (l : list Z) : Prop := StronglySorted Z.le l.

(** A value lies before an edge: strictly for left-closed chunks (the edge belongs to the next
    chunk), possibly equal for right-closed chunks. *)
Definition before (c : side) (edge v : Z) : bool :=
  match c with SLeft => v <? edge | SRight => v <=? edge end.

(** Number of values before an edge. *)
Definition n_before (c : side) (data : list Z) (edge : Z) : nat :=
  length (filter (before c edge) data).

(** Rows cut at successive positions: rows up to the 1st position, then up to the 2nd... *)
Fixpoint cut {A} (from : nat) (positions : list nat) (rows : list A) : list (list A) :=
  match positions with
  | [] => []
  | p :: ps => firstn (p - from) (skipn from rows) :: cut p ps rows
  end.

(** Number of empty chunks among chunks ending at the given positions, the first one starting at
    [from]. *)
Fixpoint n_empty (from : nat) (ps : list nat) : nat :=
  match ps with
  | [] => 0%nat
  | p :: ps' => (if from =? p then S (n_empty p ps') else n_empty p ps')%nat
  end.

Definition is_nil {A} (l : list A) : bool := match l with [] => true | _ => false end.

(** Period [k] of length [f] anchored at [a]: [a+k*f, a+(k+1)*f) or (a+k*f, a+(k+1)*f]. *)
Definition in_period (c : side) (a f k t : Z) : bool :=
  match c with
  | SLeft => (a + k * f <=? t) && (t <? a + (k + 1) * f)
  | SRight => (a + k * f <? t) && (t <=? a + (k + 1) * f)
  end.

(** Number of the period which contains [t] (see [in_period_kappa]). *)
Definition kappa (c : side) (a f t : Z) : Z :=
  match c with SLeft => (t - a) / f | SRight => (t - a - 1) / f end.

(** Consecutive integers k0, ..., k1 (empty if k1 < k0). *)
Definition zrange (k0 k1 : Z) : list Z :=
  map (fun i => k0 + Z.of_nat i) (seq 0 (Z.to_nat (k1 - k0 + 1))).

(** Label and end of period [k]. *)
Definition period_label (side_ : side) (a f k : Z) : Z :=
  match side_ with SLeft => a + k * f | SRight => a + (k + 1) * f end.
Definition period_end (a f k : Z) : Z := a + (k + 1) * f.

(** Period limits do not depend on the data: fixed origin, or start of day with a period that
    divides a day. *)
Definition fixed_periods (tg : tgrouper) : Prop :=
  match tg_origin tg with
  | OEpoch => True
  | OFixed _ => True
  | OStartDay => (tg_freq tg | day)
  | OStart => False
  end.

(** The anchor of the periods in this case. *)
Definition anchor (tg : tgrouper) : Z :=
  match tg_origin tg with OFixed t => t | _ => 0 end + tg_offset tg.

(** Successive calls of a function that keeps its state in a buffer. *)
Fixpoint run_pieces {P S B} (f : P -> B -> Verif.Common.res (S * B)) (b : B) (pieces : list P)
  : Verif.Common.res (list S * B) :=
  match pieces with
  | [] => Verif.Common.Ok ([], b)
  | p :: ps =>
      match f p b with
      | Verif.Common.Ok (s, b') =>
          match run_pieces f b' ps with
          | Verif.Common.Ok (ss, b'') => Verif.Common.Ok (s :: ss, b'')
          | Verif.Common.Err e => Verif.Common.Err e
          end
      | Verif.Common.Err e => Verif.Common.Err e
      end
  end.

(** Rows numbered from [from]. *)
Definition numbered {A} (from : nat) (rows : list A) : list (nat * A) :=
  combine (seq from (length rows)) rows.

(** Merge of snapshots and bin ends. Events are (key, (row position, is a bin)). *)
Notation event := (Z * (nat * bool))%type (only parsing).
Definition ev_is_bin (e : event) : bool := snd (snd e).
Definition ev_pos (e : event) : nat := fst (snd e).

(** Processing order: smaller keys first; at equal keys snapshots come before bin ends. *)
Definition ev_le (x y : event) : Prop :=
  fst x < fst y \/ (fst x = fst y /\ (ev_is_bin x = false \/ ev_is_bin y = true)).

Definition bin_ev (kp : Z * nat) : event := (fst kp, (snd kp, true)).
Definition snap_ev (kp : Z * nat) : event := (fst kp, (snd kp, false)).

(** [m] is the merge of [snaps] and [bins], each a list of (key, position): each family is kept
    complete and in order, and the whole follows the processing order. When [force] is set the last
    bin comes last whatever its key. *)
Definition is_merge (snaps bins : list (Z * nat)) (force : bool) (m : list event) : Prop :=
  filter (fun e => negb (ev_is_bin e)) m = map snap_ev snaps /\
  filter ev_is_bin m = map bin_ev bins /\
  if force then exists m' b, m = m' ++ [b] /\ ev_is_bin b = true /\ StronglySorted ev_le m'
  else StronglySorted ev_le m.

(** Indices at which a property holds. *)
Definition indices {A} (p : A -> bool) (l : list A) : list nat :=
  filter (fun i => match nth_error l i with Some x => p x | None => false end) (seq 0 (length l)).

(** Rows of the bins of time from period [k0] to period [k1], with their labels: all rows of the
    period, for every period. *)
Definition time_groups {D} (t : D -> Z) (lab c : side) (a f k0 k1 : Z) (rows : list D) : list (Z * list D) :=
  map (fun k => (period_label lab a f k, filter (fun r => in_period c a f k (t r)) rows)) (zrange k0 k1).

(** Rows of a snapshot taken at [e], over bins of time: the bin in progress is the period which
    contains [e], or ends at [e]; rows are those of this bin before [e]. *)
Definition snap_period {D} (t : D -> Z) (c : side) (a f e : Z) (rows : list D) : list D :=
  filter (fun r => in_period c a f (kappa SRight a f e) (t r) && before c e (t r)) rows.

(** Snapshots taken at the end of periods [j0] to [j1] of length [f'] anchored at [a'], over bins of
    time of length [f] anchored at [a]. *)
Definition time_snaps {D} (t : D -> Z) (c : side) (a f : Z) (lab' : side) (a' f' j0 j1 : Z) (rows : list D)
  : list (Z * list D) :=
  map (fun j => (period_label lab' a' f' j, snap_period t c a f (period_end a' f' j) rows)) (zrange j0 j1).

(** Elements up to the first one which satisfies [P], included. *)
Fixpoint take_until {A} (P : A -> bool) (l : list A) : list A :=
  match l with
  | [] => []
  | x :: l' => if P x then [x] else x :: take_until P l'
  end.

(** Bin number [b] of [x] rows: rows number b*x to b*x + x - 1. *)
Definition row_bin {D} (x b : nat) (rows : list D) : list D := firstn x (skipn (b * x) rows).

(** [n] bins of [x] rows from bin number [b0], labelled with the time stamp of their first row. *)
Definition row_groups {D} (t : D -> Z) (x b0 n : nat) (rows : list D) : list (Z * list D) :=
  map (fun b => (nth (b * x) (map t rows) 0, row_bin x b rows)) (seq b0 n).

(** Rows of a snapshot taken at [e] over bins of [x] rows. Only rows before [e] count. The bin is that
    of the last row before [e] if bins are left-closed. If they are right-closed, it is that of the
    first row not strictly before [e], as a bin is over at the time stamp of its last row. *)
Definition snap_of_rows {D} (t : D -> Z) (x : nat) (c : side) (e : Z) (rows : list D) : list D :=
  let r := filter (fun d => before c e (t d)) rows in
  let b := match c with
           | SLeft => ((length r - 1) / x)%nat
           | SRight => (length (filter (fun d => (t d <? e)%Z) rows) / x)%nat
           end in
  row_bin x b r.

(** No two rows on each side of the end of a bin of [x] rows have the same time stamp. *)
Definition no_straddle {D} (t : D -> Z) (x : nat) (rows : list D) : Prop :=
  forall b, (0 < b)%nat -> (b * x < length rows)%nat -> nth (b * x - 1) (map t rows) 0 < nth (b * x) (map t rows) 0.

(** Rows of the bins met over successive pieces, from the row chunks of each piece: the first chunk of
    a piece continues the last bin of the previous piece. *)
Definition join_chunks {D} (acc : list (list D)) (pieces : list (list (list D))) : list (list D) :=
  fold_left (fun acc g => removelast acc ++ (last acc [] ++ hd [] g) :: tl g) pieces acc.
