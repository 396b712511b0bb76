(** Specification for results ordered on another column than labels, bins being made by a function of the user. *)
Require Import List Arith ZArith Bool.
Require Import Verif.Common Verif.AggModel Verif.SegModel Verif.SegSpec Verif.CsaModel Verif.CsaSpec Verif.WrModel Verif.StreamModel Verif.StreamSpec Verif.KeyModel Verif.BatchSpec
  Verif.UserKeyModel Verif.UserKeySpec Verif.OrderModel Verif.OrderSpec Verif.OrderUserModel.
Import ListNotations.
Local Open Scope Z_scope.

Section Spec.
Context {D V B PB : Type}.
Variable N : dtype -> num V.
Variable val : D -> cname -> V.
Variable dtypes : list (cname * dtype).
Variable idx : D -> Z.
Variable enc : option V -> Z.

(** A row of bins (of snapshots if [snap]) in results, after post-processing [m], of an aggregation of the first rows of
    [data], however many. *)
Definition user_result_ever (snap : bool) (u : uconf D B PB) (m : row -> row) (data : list D) (r : row) : Prop :=
  exists first more bins snaps r0, data = first ++ more /\ user_batch N val dtypes idx u first = Ok (Some (bins, snaps)) /\
    In r0 (match (if snap then snaps else Some bins) with Some f => rows (table enc (u_agg u) f) | None => [] end) /\ r = m r0.

(** The column results are ordered on has the same order as labels, in all results of the first rows of [data]: those of bins
    if there is no snapshot, those of snapshots, or both if both are kept. *)
Definition user_order_kept (o : uoconf D B PB) (m ms : row -> row) (data : list D) : Prop :=
  let u := uo_conf o in
  match u_snap u, u_two u with
  | None, _ => same_order (uo_on o) (user_result_ever false u m data)
  | Some _, false => same_order (uo_on o) (user_result_ever true u m data)
  | Some _, true => same_order (uo_on o) (user_result_ever false u m data) /\ same_order (uo_on o) (user_result_ever true u ms data)
  end.

(** Duplicates are rows with the same label, or with the same value in the column results are ordered on. *)
Definition user_dup_ok (o : uoconf D B PB) : Prop := uo_dup o <> [] /\ incl (uo_dup o) [0%nat; uo_on o].

Definition user_order_ok (gs : list (nat * (D -> bool))) (confs : list (uoconf D B PB)) (sp : uconf D B PB -> uspec D B) (m ms : uoconf D B PB -> row -> row) (seed : list D) : Prop :=
  forall o, In o confs -> user_ok dtypes idx (uo_conf o) (sp (uo_conf o)) /\ user_dup_ok o /\ post_does (u_post (uo_conf o)) (user_type (uo_conf o)) (m o) (ms o) /\
    exists keep, In (u_filter (uo_conf o), keep) gs /\ us_good (sp (uo_conf o)) (given idx keep seed) /\ user_order_kept o (m o) (ms o) (given idx keep seed).

(** Each key holds the results of a single aggregation of the rows of its filter, before the last index. *)
Definition user_order_batch {P} (gs : list (nat * (D -> bool))) (confs : list (uoconf D B PB)) (m ms : uoconf D B PB -> row -> row) (seed : list D)
    (g : stream D P (option (csabuf B V)) PB) : Prop :=
  forall i o, nth_error confs i = Some o -> exists b s, nth_error (g_keys g) i = Some (order_user_key N val dtypes idx enc o, b, s) /\
    forall keep, In (u_filter (uo_conf o), keep) gs -> holds_user N val dtypes idx enc (uo_conf o) (m o) (ms o) (given idx keep seed) s.

(** The same for calls which are given new data only: all rows of the filter of a key are in its results. *)
Definition user_order_fed_ok (gs : list (nat * (D -> bool))) (confs : list (uoconf D B PB)) (sp : uconf D B PB -> uspec D B) (m ms : uoconf D B PB -> row -> row) (data : list D) : Prop :=
  forall o, In o confs -> user_ok dtypes idx (uo_conf o) (sp (uo_conf o)) /\ user_dup_ok o /\ post_does (u_post (uo_conf o)) (user_type (uo_conf o)) (m o) (ms o) /\
    exists keep, In (u_filter (uo_conf o), keep) gs /\ us_good (sp (uo_conf o)) (filter keep data) /\ user_order_kept o (m o) (ms o) (filter keep data).
Definition user_order_fed_batch {P} (gs : list (nat * (D -> bool))) (confs : list (uoconf D B PB)) (m ms : uoconf D B PB -> row -> row) (data : list D)
    (g : stream D P (option (csabuf B V)) PB) : Prop :=
  forall i o, nth_error confs i = Some o -> exists b s, nth_error (g_keys g) i = Some (order_user_key N val dtypes idx enc o, b, s) /\
    forall keep, In (u_filter (uo_conf o), keep) gs -> holds_user N val dtypes idx enc (uo_conf o) (m o) (ms o) (filter keep data) s.

(** A configuration with which nothing is raised when aggregating [rows], as for results ordered on labels; the column results are ordered
    on is one of them, also after post-processing. *)
Definition user_order_accepted (o : uoconf D B PB) (w : Z) (n : nat) (rows : list D) : Prop :=
  (uo_on o <= length (u_agg (uo_conf o)))%nat /\ post_keeps (u_post (uo_conf o)) (fold_right Nat.max 0%nat (uo_on o :: uo_dup o)) /\
  user_accepted N val dtypes idx (uo_conf o) w n rows.

(** Results are bins, ordered on the first value of a column [i]; bins meant for [data] all have rows, and their labels are in the order of
    the values of their first rows. *)
Definition user_on_first (sp : uspec D B) (o : uoconf D B PB) (data : list D) : Prop :=
  u_snap (uo_conf o) = None /\ exists j out i, uo_on o = S j /\ nth_error (u_agg (uo_conf o)) j = Some (out, (i, Some First)) /\
    (forall b, In b (us_bins sp data) -> snd b <> []) /\
    forall l1 d1 g1 l2 d2 g2, In (l1, d1 :: g1) (us_bins sp data) -> In (l2, d2 :: g2) (us_bins sp data) -> (l1 <= l2 <-> enc (Some (val d1 i)) <= enc (Some (val d2 i))).
End Spec.
