(** Specification for results ordered on another column than labels. *)
Require Import List Arith ZArith Bool.
Require Import Verif.Common Verif.AggModel Verif.SegModel Verif.SegSpec Verif.CsaModel Verif.CsaSpec Verif.WrModel Verif.StreamModel Verif.StreamSpec Verif.KeyModel Verif.BatchSpec Verif.OrderModel.
Import ListNotations.
Local Open Scope Z_scope.

Section Spec.
Context {D V PB : Type}.
Variable N : dtype -> num V.
Variable val : D -> cname -> V.
Variable dtypes : list (cname * dtype).
Variable idx : D -> Z.
Variable enc : option V -> Z.

(** A row of bins (of snapshots if [snap]) in results, after post-processing [m], of an aggregation of the first rows of
    [data], however many: results a bin in progress has had are some of them. *)
Definition result_ever (snap : bool) (c : bconf PB) (m : row -> row) (data : list D) (r : row) : Prop :=
  exists first more bins snaps r0, data = first ++ more /\ batch N val dtypes idx c first = Ok (Some (bins, snaps)) /\
    In r0 (match (if snap then snaps else Some bins) with Some f => rows (table enc (c_agg c) f) | None => [] end) /\ r = m r0.

(** Column [j] has the same order as labels in these rows. *)
Definition same_order (j : nat) (U : row -> Prop) : Prop := forall r s, U r -> U s -> (col 0 r <= col 0 s <-> col j r <= col j s).

(** The column results are ordered on has the same order as labels, in all results of the first rows of [data]. *)
Definition order_kept (o : oconf PB) (m ms : row -> row) (data : list D) : Prop :=
  let c := o_conf o in
  match type_of c with
  | BINS => same_order (o_on o) (result_ever false c m data)
  | SNAPS => same_order (o_on o) (result_ever true c m data)
  | BOTH => same_order (o_on o) (result_ever false c m data) /\ same_order (o_on o) (result_ever true c ms data)
  end.

(** Duplicates are rows with the same label, or with the same value in the column results are ordered on. *)
Definition dup_ok (o : oconf PB) : Prop := o_dup o <> [] /\ incl (o_dup o) [0%nat; o_on o].

Definition order_stream_ok (gs : list (nat * (D -> bool))) (confs : list (oconf PB)) (m ms : oconf PB -> row -> row) (seed : list D) : Prop :=
  forall o, In o confs -> conf_ok dtypes (o_conf o) /\ dup_ok o /\ post_does (c_post (o_conf o)) (type_of (o_conf o)) (m o) (ms o) /\
    exists keep, In (c_filter (o_conf o), keep) gs /\ no_tie idx (o_conf o) (given idx keep seed) /\ order_kept o (m o) (ms o) (given idx keep seed).

(** Each key holds the results of a single aggregation of the rows of its filter, before the last index. *)
Definition order_batch {P} (gs : list (nat * (D -> bool))) (confs : list (oconf PB)) (m ms : oconf PB -> row -> row) (seed : list D) (g : stream D P (@segbuf V) PB) : Prop :=
  forall i o, nth_error confs i = Some o -> exists b s, nth_error (g_keys g) i = Some (order_key N val dtypes idx enc o, b, s) /\
    forall keep, In (c_filter (o_conf o), keep) gs -> holds_batch N val dtypes idx enc (o_conf o) (m o) (ms o) (given idx keep seed) s.

(** The same for calls which are given new data only: all rows of the filter of a key are in its results. *)
Definition order_fed_ok (gs : list (nat * (D -> bool))) (confs : list (oconf PB)) (m ms : oconf PB -> row -> row) (data : list D) : Prop :=
  forall o, In o confs -> conf_ok dtypes (o_conf o) /\ dup_ok o /\ post_does (c_post (o_conf o)) (type_of (o_conf o)) (m o) (ms o) /\
    exists keep, In (c_filter (o_conf o), keep) gs /\ no_tie idx (o_conf o) (filter keep data) /\ order_kept o (m o) (ms o) (filter keep data).
Definition order_fed_batch {P} (gs : list (nat * (D -> bool))) (confs : list (oconf PB)) (m ms : oconf PB -> row -> row) (data : list D) (g : stream D P (@segbuf V) PB) : Prop :=
  forall i o, nth_error confs i = Some o -> exists b s, nth_error (g_keys g) i = Some (order_key N val dtypes idx enc o, b, s) /\
    forall keep, In (c_filter (o_conf o), keep) gs -> holds_batch N val dtypes idx enc (o_conf o) (m o) (ms o) (filter keep data) s.

(** A configuration with which nothing is raised when aggregating [rows], as for results ordered on labels; the column results are ordered
    on is one of them, also after post-processing. *)
Definition order_accepted_conf (o : oconf PB) (w : Z) (n : nat) (rows : list D) : Prop :=
  let c := o_conf o in
  (o_on o <= length (c_agg c))%nat /\
  c_nirgs c = None /\ (forall z, c_size c = Some z -> 0 < z) /\ (forall z, c_size_snap c = Some z -> 0 < z) /\ post_keeps (c_post c) (fold_right Nat.max 0%nat (o_on o :: o_dup o)) /\
  never_zero N val dtypes c rows /\ enough_memory N val dtypes idx c w n rows.

(** No period of time without row: of two rows which follow each other, the second one is in the period of the first one, or in
    the next period. *)
Definition no_empty_bin (c : bconf PB) (data : list D) : Prop :=
  match c_by c with
  | ByRows _ _ => True
  | ByTime tg => forall l1 a b l2, data = l1 ++ a :: b :: l2 ->
      kappa (tg_closed tg) (anchor tg) (tg_freq tg) (idx b) <= kappa (tg_closed tg) (anchor tg) (tg_freq tg) (idx a) + 1
  end.
(** Results are bins, ordered on the first value of a column [i], in order of which rows are. *)
Definition on_first (o : oconf PB) (data : list D) : Prop :=
  c_snap (o_conf o) = None /\ exists j out i, o_on o = S j /\ nth_error (c_agg (o_conf o)) j = Some (out, (i, Some First)) /\
    forall a b, In a data -> In b data -> (idx a <= idx b <-> enc (Some (val a i)) <= enc (Some (val b i))).
End Spec.
