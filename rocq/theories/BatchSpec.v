(** Vocabulary for the equality between results of streamed aggregation and results of aggregation made at once. *)
Require Import List Arith ZArith Bool Sorting.Sorted.
Require Import Verif.Common Verif.AggModel Verif.SegModel Verif.SegSpec Verif.CsaModel Verif.CsaSpec Verif.WrModel Verif.StreamModel Verif.RaiseModel Verif.StreamSpec Verif.KeyModel Verif.TableProofs.
Import ListNotations.
Local Open Scope Z_scope.

(** Labels are in the first column. *)
Notation labels := (map (col 0)).

(** Post-processing [post], if any, transforms each row, but not labels: [m] for rows of main key, [ms] for those of the key of
    snapshots. It may also raise an exception. *)
Definition post_does {PB} (post : option (PB -> frame -> option frame -> res (post_res * PB))) (t : res_type) (m ms : row -> row) : Prop :=
  (forall r, col 0 (m r) = col 0 r) /\ (forall r, col 0 (ms r) = col 0 r) /\
  match post with
  | None => (forall r, m r = r) /\ (forall r, ms r = r)
  | Some post => forall pb f sn r pb', post pb f sn = Ok (r, pb') -> exists n n',
      match t, sn with
      | BINS, None => r = POne (Some (mkFrame n (map m (rows f))))
      | SNAPS, Some s => r = POne (Some (mkFrame n (map m (rows s))))
      | BOTH, Some s => r = PTwo (Some (mkFrame n (map m (rows f)))) (Some (mkFrame n' (map ms (rows s))))
      | _, _ => True
      end
  end.
(** It does not raise, and data frames it makes have more than [n] columns. *)
Definition post_keeps {PB} (post : option (PB -> frame -> option frame -> res (post_res * PB))) (n : nat) : Prop :=
  match post with
  | None => True
  | Some post => forall pb f sn, exists r pb', post pb f sn = Ok (r, pb') /\
      match r with
      | POne (Some g) => (n < ncols g)%nat
      | PTwo (Some g) (Some h) => (n < ncols g)%nat /\ (n < ncols h)%nat
      | _ => True
      end
  end.

Section Spec.
Context {D SB PB : Type}.
Notation kconf := (kconf D SB PB).

(** Successive results of the aggregation of a key make up tables: [T l] is the table of bins of rows [l], [TS l] the one
    of snapshots. The last row of a table is provisional, it is replaced by rows of the next result; others are final,
    as well as labels. [Inv l b] tells that the buffer of segmentation and aggregation is the one left by rows [l]. *)
Record tabular (k : kconf) (seg0 : SB) (ok : list D -> Prop) (T TS : list D -> list row) (Inv : list D -> SB -> Prop) : Prop := mkTabular {
  tab_start : Inv [] seg0;
  tab_nil : T [] = [];
  tab_nil_snap : TS [] = [];
  tab_step : forall H p b r b', p <> [] -> ok (H ++ p) -> Inv H b -> k_agg k p b = Ok (r, b') ->
    exists f sn, r = Some (f, sn) /\ Inv (H ++ p) b' /\ T (H ++ p) = removelast (T H) ++ rows f /\ rows f <> [] /\
      match k_type k, sn with
      | BINS, None => True
      | BINS, Some _ | _, None => False
      | _, Some s => TS (H ++ p) = removelast (TS H) ++ rows s /\ rows s <> []
      end;
  tab_strict : forall H, ok H -> StronglySorted Z.lt (labels (T H));
  tab_labels : forall H p, ok (H ++ p) -> starts (labels (T H)) (labels (T (H ++ p)));
  tab_keep : forall H p, ok (H ++ p) -> starts (removelast (T H)) (T (H ++ p));
  tab_strict_snap : forall H, ok H -> StronglySorted Z.lt (labels (TS H));
  tab_labels_snap : forall H p, ok (H ++ p) -> starts (labels (TS H)) (labels (TS (H ++ p)));
  tab_keep_snap : forall H p, ok (H ++ p) -> starts (removelast (TS H)) (TS (H ++ p)) }.

(** Post-processing of a key. *)
Definition post_is (k : kconf) (m ms : row -> row) : Prop := post_does (k_post k) (k_type k) m ms.

(** Results are written in order of their labels, a row replacing the one with the same label (aggstream.py:232-252). *)
Definition by_label (p : params) : Prop := ordered_on p = OrderedOn 0 /\ duplicates_on p = Some [0%nat].
Definition writes_by_label (k : kconf) : Prop := by_label (k_write k) /\ (k_type k = BOTH -> by_label (k_write_snap k)).

(** Results are ordered on a column, which has the same order as labels in rows [U]. A row replaces the one with the same label (or the
    same value in this column, which is the same). *)
Definition as_by_label (U : row -> Prop) (p : params) : Prop := exists j dup, ordered_on p = OrderedOn j /\ duplicates_on p = Some dup /\
  dup <> [] /\ incl dup [0%nat; j] /\ forall r s, U r -> U s -> (col 0 r <= col 0 s <-> col j r <= col j s).
(** Rows of results of the first rows of [Hf]: those of bins which are complete, and all those a bin in progress has had. *)
Definition ever (T : list D -> list row) (m : row -> row) (Hf : list D) (r : row) : Prop := exists H r0, starts H Hf /\ In r0 (T H) /\ r = m r0.
Definition writes_as_labels (k : kconf) (ok : list D -> Prop) (T TS : list D -> list row) (m ms : row -> row) : Prop := forall Hf, ok Hf ->
  match k_type k with
  | BINS => as_by_label (ever T m Hf) (k_write k)
  | SNAPS => as_by_label (ever TS m Hf) (k_write k)
  | BOTH => as_by_label (ever T m Hf) (k_write k) /\ as_by_label (ever TS ms Hf) (k_write_snap k)
  end.
End Spec.

(** ** Histories with interruptions *)
Section Steps.
Context {D P SB PB : Type}.
Variable idx : D -> Z.
Variable truthy : Z -> bool.
Variable usage : frame -> Z.
Notation stream := (stream D P SB PB).

(** Modifications of store made for the key at position [j]. *)
Definition acts_of (j : nat) (log : list (nat * @act P SB PB)) : list (@act P SB PB) := map snd (filter (fun x => (fst x =? j)%nat) log).
(** Keys once some modifications of store have been made. *)
Fixpoint after_acts (n : nat) (ks : list (kconf D SB PB * kbuf SB PB * kstore P SB PB)) (done : list (nat * @act P SB PB)) :=
  match ks with
  | [] => []
  | (k, b, s) :: ks' => (k, b, apply_acts s (acts_of n done)) :: after_acts (S n) ks' done
  end.

(** First modifications of each key: [n i] of them for the key at position [i]. *)
Fixpoint made (n : nat -> nat) (log : list (nat * @act P SB PB)) : list (nat * @act P SB PB) :=
  match log with
  | [] => []
  | (i, a) :: log' => match n i with O => made n log' | S m => (i, a) :: made (fun j => if (j =? i)%nat then m else n j) log' end
  end.
(** A step of a history is a run which completes, or a run interrupted once, for each key, some modifications of store have been made
    (their number is in [n], by key), what is in memory being lost. Jobs of keys being run in threads, these numbers may be
    any. With large numbers, the run ends by itself, in particular with an exception raised when aggregating, post-processing
    or writing. *)
Inductive step := Complete (r : @run D) | Interrupted (r : @run D) (n : list nat).
Definition run_of (x : step) : @run D := match x with Complete r | Interrupted r _ => r end.
Definition step_once (pre : option (list D -> P -> list D * P * bool)) (fs : filters) (pre0 : P) (seg0 : SB) (post0 : PB) (g : stream) (x : step) : res stream :=
  match x with
  | Complete r => run_once idx truthy usage pre fs pre0 seg0 post0 g r
  | Interrupted r n =>
      let* g := if r_fresh r then init pre0 seg0 post0 (map (fun x => let '(k, b, s) := x in (k, s)) (g_keys g)) else Ok g in
      let '(g', _) := agg_t idx truthy usage pre fs g (r_seed r) true true (r_final r) in
      Ok (mkStream None pre0 (after_acts 0 (g_keys g) (made (fun i => nth i n O) (skipn (length (g_log g)) (g_log g')))) [])
  end.
Fixpoint step_all (pre : option (list D -> P -> list D * P * bool)) (fs : filters) (pre0 : P) (seg0 : SB) (post0 : PB) (g : stream) (xs : list step) : res stream :=
  match xs with
  | [] => Ok g
  | x :: xs' => let* g := step_once pre fs pre0 seg0 post0 g x in step_all pre fs pre0 seg0 post0 g xs'
  end.
(** A new AggStream instance is used after an interruption. *)
Fixpoint restarted (lost : bool) (xs : list step) : Prop :=
  match xs with
  | [] => True
  | x :: xs' => (lost = true -> r_fresh (run_of x) = true) /\ restarted (match x with Interrupted _ _ => true | _ => false end) xs'
  end.
End Steps.

(** Results are written before the use of a new AggStream instance. *)
Fixpoint all_written {D} (written : bool) (rs : list (@run D)) : Prop :=
  match rs with
  | [] => True
  | r :: rs' => (r_fresh r = true -> written = true) /\ all_written (r_final r) rs'
  end.
(** No limit on the number of incomplete row groups. *)
Definition no_coalescing {D SB PB} (k : kconf D SB PB) : Prop := max_nirgs (k_write k) = None /\ (k_type k = BOTH -> max_nirgs (k_write_snap k) = None).

(** ** Keys *)
(** A configuration: columns exist, functions are known, periods of time are not empty, and do not depend on data; bins of
    rows are not empty. *)
Definition conf_ok {PB} (dtypes : list (cname * dtype)) (c : bconf PB) : Prop :=
  agg_valid (c_agg c) dtypes /\ NoDup (map fst (c_agg c)) /\ c_agg c <> [] /\
  (forall s, c_snap c = Some s -> 0 < tg_freq s /\ fixed_periods s) /\
  match c_by c with ByTime tg => 0 < tg_freq tg /\ fixed_periods tg | ByRows x _ => (0 < x)%nat end.

(** In bins made of a number of rows, no two rows on each side of the end of a bin have the same time stamp. *)
Definition no_tie {D PB} (idx : D -> Z) (c : bconf PB) (rows : list D) : Prop :=
  match c_by c with ByTime _ => True | ByRows x _ => no_straddle idx x rows end.

(** Rows of seed data given to a key: those of its filter, before the last index of seed data. *)
Definition given {D} (idx : D -> Z) (keep : D -> bool) (seed : list D) : list D :=
  filter (fun r => keep r && (idx r <? last_index idx seed)) seed.

(** Datasets of a key hold the results of a single aggregation of [rows], up to post-processing [m], and [ms] for snapshots
    when they have their own dataset. *)
Definition holds_batch {D V P SB PB} (N : dtype -> num V) (val : D -> cname -> V) (dtypes : list (cname * dtype)) (idx : D -> Z) (enc : option V -> Z)
    (c : bconf PB) (m ms : row -> row) (rows_ : list D) (s : kstore P SB PB) : Prop :=
  match rows_ with
  | [] => all_rows (data_of (s_main s)) = [] /\ (c_snap c <> None -> c_two c = true -> all_rows (data_of (s_snap s)) = [])
  | _ => exists bins snaps, batch N val dtypes idx c rows_ = Ok (Some (bins, snaps)) /\
      (c_snap c <> None <-> snaps <> None) /\
      match snaps with
      | None => all_rows (data_of (s_main s)) = map m (rows (table enc (c_agg c) bins))
      | Some sn =>
          if c_two c
          then all_rows (data_of (s_main s)) = map m (rows (table enc (c_agg c) bins)) /\ all_rows (data_of (s_snap s)) = map ms (rows (table enc (c_agg c) sn))
          else all_rows (data_of (s_main s)) = map m (rows (table enc (c_agg c) sn))
      end
  end.

(** ** Runs which are accepted *)
(** Last position of a column named in parameters of a write; largest one for the datasets of a key. *)
Definition last_named (p : params) : nat :=
  Nat.max (match ordered_on p with OrderedOn c => c | _ => 0%nat end) (match duplicates_on p with Some cols => fold_right Nat.max 0%nat cols | None => 0%nat end).
Definition reach {D SB PB} (k : kconf D SB PB) : nat := Nat.max (last_named (k_write k)) (last_named (k_write_snap k)).
(** Data frames made by post-processing have the columns named in parameters of writes. *)
Definition post_wide {D SB PB} (k : kconf D SB PB) : Prop := post_keeps (k_post k) (reach k).

(** Largest number of chunks given between two writings of results, [n] having already been given. *)
Fixpoint chunks_between {D} (n : nat) (rs : list (@run D)) : nat :=
  match rs with
  | [] => n
  | r :: rs' => let n' := (n + length (r_seed r))%nat in Nat.max n' (chunks_between (if r_final r then 0%nat else n') rs')
  end.

(** No aggregated value of rows taken from [rows] is 0. *)
Definition never_zero {D V PB} (N : dtype -> num V) (val : D -> cname -> V) (dtypes : list (cname * dtype)) (c : bconf PB) (rows : list D) : Prop :=
  forall out i f d l v, In (out, (i, Some f)) (c_agg c) -> dict_get Nat.eqb i dtypes = Some d -> incl l rows -> agg_of N val d f i l = Some v -> is0 (N d) v = false.

(** Memory enough for [n] chunks, [w] being the size in memory of a row. Without snapshots, intermediate writes are possible, once
    there is a complete bin. With snapshots, all results fit in memory. *)
Definition enough_memory {D V PB} (N : dtype -> num V) val dtypes (idx : D -> Z) (c : bconf PB) (w : Z) (n : nat) (rows : list D) : Prop :=
  match type_of c with
  | BINS => 4 * w * Z.of_nat n <= c_max c
  | _ =>
      let results := match batch N val dtypes idx c rows with
                     | Ok (Some (bins, Some snaps)) => (length (f_labels bins) + length (f_labels snaps))%nat
                     | _ => 0%nat
                     end in
      2 * w * Z.of_nat (4 * n + results) <= c_max c
  end.

(** A configuration with which nothing is raised when aggregating [rows], of which [n] chunks are given between two writings of
    results. *)
Definition accepted_conf {D V PB} (N : dtype -> num V) (val : D -> cname -> V) dtypes (idx : D -> Z) (enc : option V -> Z) (c : bconf PB) (w : Z) (n : nat) (rows : list D) : Prop :=
  c_nirgs c = None /\ (forall z, c_size c = Some z -> 0 < z) /\ (forall z, c_size_snap c = Some z -> 0 < z) /\ post_keeps (c_post c) 0 /\
  never_zero N val dtypes c rows /\ enough_memory N val dtypes idx c w n rows.
