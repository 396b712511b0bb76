(** Properties of segmentation: C32, C34 to C38. *)
Require Import List Arith ZArith Bool Lia Sorted.
Require Import Verif.Common Verif.AggModel Verif.AggSpec.
Require Import Verif.SegModel Verif.SegSpec Verif.SegProofs Verif.SegRowsProofs Verif.MergeProofs Verif.EventProofs.
Require Import Verif.CsaModel Verif.CsaSpec Verif.CsaLoopProofs Verif.CsaSegProofs Verif.CsaTimeProofs Verif.CsaPiecesProofs Verif.CsaRowsProofs Verif.SegOutProofs.
Import ListNotations.

(** * C32: '_next_chunk_starts' *)
Lemma next_chunk_starts_exact : forall c data edges, data <> [] -> sorted data -> sorted edges ->
  exists starts n_null traversed k,
    next_chunk_starts data edges (match c with SLeft => false | SRight => true end) = (starts, n_null, traversed)
    /\ k <= length edges /\ starts = map (n_before c data) (firstn k edges)
    /\ (forall i, S i < k -> nth i starts 0 < length data)
    /\ (traversed = true <-> exists e, In e edges /\ n_before c data e = length data)
    /\ (if traversed then 0 < k /\ last starts 0 = length data else k = length edges)
    /\ n_null = length (filter is_nil (cut 0 starts data)).
Proof.
  intros c data edges Hne Hs He.
  replace (match c with SLeft => false | SRight => true end) with (side_eqb c SRight) by (destruct c; auto).
  rewrite next_chunk_starts_spec by auto. cbv zeta.
  set (n := length data). set (ps := map (n_before c data) edges).
  exists (until n ps), (n_empty 0 (until n ps)), (existsb (Nat.eqb n) ps), (length (until n ps)).
  assert (Hpre : forall l, until n l = firstn (length (until n l)) l).
  { induction l as [|p l IH]; auto. simpl. destruct (p =? n); simpl; auto. f_equal. auto. }
  assert (Hlen : forall l, length (until n l) <= length l).
  { intro l. rewrite Hpre, firstn_length. lia. }
  assert (Hstarts : until n ps = map (n_before c data) (firstn (length (until n ps)) edges)).
  { rewrite <- firstn_map. apply Hpre. }
  split; [reflexivity|]. split; [etransitivity; [apply Hlen|]; unfold ps; rewrite map_length; auto|]. split; [exact Hstarts|].
  assert (Hle : forall p, In p (until n ps) -> p <= n).
  { intros p Hp. rewrite Hstarts in Hp. apply in_map_iff in Hp as (e & <- & _). apply n_before_le. }
  split; [|split; [|split]].
  - intros i Hi. assert (Hn : forall l i, S i < length (until n l) -> nth i (until n l) 0 <> n).
    { induction l as [|p l IH]; intros j Hj; simpl in *; [lia|]. destruct (p =? n) eqn:E; simpl in *; [lia|].
      apply Nat.eqb_neq in E. destruct j as [|j]; auto. apply IH. lia. }
    specialize (Hn ps i Hi). assert (In (nth i (until n ps) 0) (until n ps)) by (apply nth_In; lia).
    specialize (Hle _ H). lia.
  - rewrite existsb_exists. split.
    + intros (p & Hp & E). apply Nat.eqb_eq in E. unfold ps in Hp. apply in_map_iff in Hp as (e & Q & Hin). exists e. split; auto. congruence.
    + intros (e & Hin & E). exists n. split; [|apply Nat.eqb_refl]. unfold ps. apply in_map_iff. exists e. auto.
  - destruct (existsb (Nat.eqb n) ps) eqn:E.
    + clear -E. induction ps as [|p l IH]; simpl in *; [discriminate|]. rewrite Nat.eqb_sym in E.
      destruct (p =? n) eqn:E1; [apply Nat.eqb_eq in E1; simpl; split; auto|]. simpl in E. specialize (IH E). destruct IH as [I1 I2].
      simpl. split; [lia|]. destruct (until n l); auto. simpl in I1. lia.
    + transitivity (length ps); [|unfold ps; apply map_length]. f_equal. clear -E. induction ps as [|p l IH]; simpl in *; auto.
      apply orb_false_iff in E as [E1 E2]. rewrite Nat.eqb_sym, E1. f_equal. auto.
  - apply n_empty_cut; auto. rewrite Hstarts. constructor.
    + apply (sorted_firstn (length (until n ps))) in He. revert He. generalize (firstn (length (until n ps)) edges). clear.
      induction l as [|e l IH]; intros He; simpl; constructor; inversion He; subst; auto.
      apply Forall_forall. intros q Hq. apply in_map_iff in Hq as (e' & <- & He'). apply n_before_mono.
      rewrite Forall_forall in H2. auto.
    + apply Forall_forall. intros; lia.
Qed.

Theorem C32_chunk_starts_exact : forall c data edges, data <> [] -> sorted data -> sorted edges ->
  exists starts n_null traversed k,
    next_chunk_starts data edges (match c with SLeft => false | SRight => true end) = (starts, n_null, traversed)
    /\ k <= length edges /\ starts = map (n_before c data) (firstn k edges)
    /\ (forall i, S i < k -> nth i starts 0 < length data)
    /\ (traversed = true <-> exists e, In e edges /\ n_before c data e = length data)
    /\ (if traversed then 0 < k /\ last starts 0 = length data else k = length edges)
    /\ n_null = length (filter is_nil (cut 0 starts data)).
Proof. exact next_chunk_starts_exact. Qed.
Print Assumptions C32_chunk_starts_exact.

Ltac srt := repeat constructor; lia.
Example C32_case : let data := [1; 2; 2; 5; 9]%Z in let edges := [0; 2; 4; 4; 7]%Z in
  data <> [] /\ sorted data /\ sorted edges /\
  next_chunk_starts data edges true = ([0; 3; 3; 3; 4], 3, false) /\
  next_chunk_starts data (edges ++ [9; 12]%Z) true = ([0; 3; 3; 3; 4; 5], 3, true).
Proof. cbv zeta. split; [discriminate|]. split; [srt|]. split; [srt|]. split; reflexivity. Qed.

(** * C34: bins of a number of rows *)
Theorem C34_row_bins_are_global : forall {D} (t : D -> Z) x c pieces, 0 < x -> pieces <> [] -> (forall p, In p pieces -> p <> []) ->
  let rows := concat pieces in let n_bins := S ((length rows - 1) / x) in
  exists segs b, run_pieces (row_bins t x c) (Some None) pieces = Ok (segs, b) /\
    join_chunks [] (map (fun sp => cut 0 (s_starts (fst sp)) (snd sp)) (combine segs pieces))
      = map (fun b => row_bin x b rows) (seq 0 n_bins) /\
    stitch (map s_labels segs) = map (fun b => nth (b * x) (map t rows) 0%Z) (seq 0 n_bins).
Proof.
  intros D t x c pieces Hx Hne Hp rows n_bins.
  destruct (row_seg_pieces t x Hx c pieces Hne Hp) as (segs & b & E & J & L). exists segs, b. split; auto.
  unfold rgb, row_groups in J, L. rewrite map_map in J, L. cbn [fst snd] in J, L.
  change (length (@nil D)) with 0 in J, L. unfold xb0, xb1 in J, L. rewrite (Nat.div_small (0 - 1)) in J, L by lia.
  rewrite Nat.sub_0_r in J, L. auto.
Qed.
Print Assumptions C34_row_bins_are_global.

(** Row number [i] is in bin number [i / x]. *)
Theorem C34_row_number : forall {D} x (rows : list D) i, 0 < x ->
  nth_error (row_bin x (i / x) rows) (i mod x) = nth_error rows i.
Proof.
  intros D x rows i Hx. unfold row_bin. pose proof (Nat.mod_upper_bound i x ltac:(lia)) as Hm.
  assert (F : forall (l : list D) k j, j < k -> nth_error (firstn k l) j = nth_error l j).
  { induction l as [|a l IH]; intros [|k] [|j] Hj; simpl; auto; try lia. apply IH. lia. }
  assert (S : forall (l : list D) k j, nth_error (skipn k l) j = nth_error l (k + j)).
  { intros l k. revert l. induction k as [|k IH]; intros l j; simpl; auto. destruct l; auto. destruct j; auto. }
  rewrite F, S by auto. f_equal. rewrite (Nat.div_mod i x) at 3 by lia. lia.
Qed.
Print Assumptions C34_row_number.

Example C34_case : let pieces := [[1; 2; 3]; [4]; [5; 6; 7]; [8; 9]]%Z in
  (forall p, In p pieces -> p <> []) /\
  map (fun b => row_bin 3 b (concat pieces)) (seq 0 3) = [[1; 2; 3]; [4; 5; 6]; [7; 8; 9]]%Z /\
  match run_pieces (row_bins (fun z => z) 3 SRight) (Some None) pieces with
  | Ok (segs, _) => map s_starts segs = [[3]; [0; 1]; [2; 3]; [2]] /\ stitch (map s_labels segs) = [1; 4; 7]%Z
  | Err _ => False
  end.
Proof.
  cbv zeta. split; [|split; [reflexivity|vm_compute; auto]].
  intros p [<-|[<-|[<-|[<-|[]]]]]; discriminate.
Qed.

(** * C35: bins of time *)
Theorem C35_time_bins_are_floor_bins : forall {D} (t : D -> Z) tg rows, (0 < tg_freq tg)%Z -> rows <> [] -> sorted (map t rows) ->
  let c := tg_closed tg in let f := tg_freq tg in
  let a := origin_ts (tg_origin tg) (tg_offset tg) (hd 0%Z (map t rows)) in
  exists k0 k1 sg,
    in_period c a f k0 (hd 0%Z (map t rows)) = true /\ in_period c a f k1 (last (map t rows) 0%Z) = true /\
    time_bins t tg rows None = Ok (sg, None) /\
    s_labels sg = map (period_label (tg_label tg) a f) (zrange k0 k1) /\
    cut 0 (s_starts sg) rows = map (fun k => filter (fun r => in_period c a f k (t r)) rows) (zrange k0 k1) /\
    s_nnull sg = length (filter is_nil (cut 0 (s_starts sg) rows)).
Proof.
  intros D t tg rows Hf Hne Hs c f a.
  destruct (time_seg_once t tg None rows Hf Hne Hs) as [Hk E]. cbv zeta in Hk, E. cbv iota in Hk, E. fold c f a in Hk, E.
  exists (kappa c a f (hd 0%Z (map t rows))), (kappa c a f (last (map t rows) 0%Z)).
  eexists. split; [apply in_period_kappa; auto|]. split; [apply in_period_kappa; auto|]. split; [exact E|].
  cbn [s_labels s_starts s_nnull]. split; auto. split.
  - pose proof (period_groups t c a f [] rows (kappa c a f (hd 0%Z (map t rows))) Hf Hs Hne (Z.le_refl _)
      (fun h (H : In h []) => match H with end)) as PG. cbv zeta in PG. simpl filter at 1 in PG. simpl app in PG. rewrite <- PG.
    assert (Hn : pstarts c a f (map t rows) (kappa c a f (hd 0%Z (map t rows))) (kappa c a f (last (map t rows) 0%Z)) <> []).
    { unfold pstarts. rewrite zrange_cons by auto. discriminate. }
    rewrite bin_groups_join by auto. simpl app.
    destruct (pstarts c a f (map t rows) _ _); [congruence|reflexivity].
  - apply n_empty_cut.
    + apply pstarts_sorted; auto.
    + intros p Hp. apply pstarts_le in Hp. rewrite map_length in Hp. auto.
Qed.
Print Assumptions C35_time_bins_are_floor_bins.

(** Each time stamp is in exactly one period. *)
Theorem C35_one_period : forall c a f t, (0 < f)%Z -> exists k, in_period c a f k t = true /\ forall k', in_period c a f k' t = true -> k' = k.
Proof.
  intros c a f t Hf. exists (kappa c a f t). split; [apply in_period_kappa; auto|]. intros k' H. apply in_period_kappa in H; auto.
Qed.
Print Assumptions C35_one_period.

Example C35_case : let tg := mkTG 10 SRight SLeft OEpoch 3 in let rows := [13; 14; 23; 47]%Z in
  (0 < tg_freq tg)%Z /\ sorted rows /\
  match time_bins (fun z => z) tg rows None with
  | Ok (sg, _) => s_labels sg = [3; 13; 23; 33; 43]%Z /\ cut 0 (s_starts sg) rows = [[13]; [14; 23]; []; []; [47]]%Z
  | Err _ => False
  end.
Proof. cbv zeta. split; [reflexivity|]. split; [srt|]. vm_compute. auto. Qed.

(** * C36: bins of time in pieces *)
Theorem C36_time_bins_restart : forall {D} (t : D -> Z) tg pieces, (0 < tg_freq tg)%Z -> fixed_periods tg ->
  pieces <> [] -> (forall p, In p pieces -> p <> []) -> sorted (map t (concat pieces)) ->
  let rows := concat pieces in let c := tg_closed tg in let f := tg_freq tg in let a := anchor tg in
  exists k0 k1 segs b,
    in_period c a f k0 (hd 0%Z (map t rows)) = true /\ in_period c a f k1 (last (map t rows) 0%Z) = true /\
    run_pieces (time_bins t tg) (Some sbuf_empty) pieces = Ok (segs, b) /\
    join_chunks [] (map (fun sp => cut 0 (s_starts (fst sp)) (snd sp)) (combine segs pieces))
      = map (fun k => filter (fun r => in_period c a f k (t r)) rows) (zrange k0 k1) /\
    stitch (map s_labels segs) = map (period_label (tg_label tg) a f) (zrange k0 k1).
Proof.
  intros D t tg pieces Hf Hfix Hne Hp Hs rows c f a.
  destruct (time_seg_pieces t tg Hf Hfix pieces Hne Hp Hs) as (segs & b & E & J & L).
  exists (kappa c a f (hd 0%Z (map t rows))), (kappa c a f (last (map t rows) 0%Z)), segs, b.
  split; [apply in_period_kappa; auto|]. split; [apply in_period_kappa; auto|]. split; auto.
  unfold tgb, time_groups in J, L. rewrite map_map in J, L. auto.
Qed.
Print Assumptions C36_time_bins_restart.

Example C36_case : let tg := mkTG 10 SLeft SLeft OEpoch 0 in let pieces := [[3; 7]; [8]; [25; 31]; [31; 40]]%Z in
  fixed_periods tg /\ sorted (concat pieces) /\
  match run_pieces (time_bins (fun z => z) tg) (Some sbuf_empty) pieces with
  | Ok (segs, _) => map s_labels segs = [[0]; [0]; [0; 10; 20; 30]; [30; 40]]%Z
  | Err _ => False
  end.
Proof. cbv zeta. split; [exact I|]. split; [srt|]. vm_compute. auto. Qed.

(** With the default origin (start of the day) and periods of 2 days, or with origin "start", the
    periods depend on the data given: the first label of the last piece is not the last label of the
    piece before, and 'segmentby' refuses to restart. *)
Definition first_error {A B} (r : res (A * B)) : option exn := match r with Ok _ => None | Err e => Some e end.

Theorem C36_start_day_refuted : let tg := mkTG (2 * day) SLeft SLeft OStartDay 0 in
  let pieces := [[0]; [day + 10]; [day + 20]]%Z in
  sorted (concat pieces) /\
  first_error (run_pieces (fun p b => segmentby (time_bins (fun z => z) tg) sbuf_empty (Some (fun z => z)) None p b)
    (Some main_empty) pieces) = Some ValueError.
Proof. cbv zeta. split; [unfold day; srt|]. vm_compute. reflexivity. Qed.
Print Assumptions C36_start_day_refuted.

Theorem C36_start_refuted : let tg := mkTG 10 SLeft SLeft OStart 0 in
  let pieces := [[0]; [3]; [7]]%Z in
  sorted (concat pieces) /\
  first_error (run_pieces (fun p b => segmentby (time_bins (fun z => z) tg) sbuf_empty (Some (fun z => z)) None p b)
    (Some main_empty) pieces) = Some ValueError.
Proof. cbv zeta. split; [srt|]. vm_compute. reflexivity. Qed.
Print Assumptions C36_start_refuted.

(** * C37: merge *)
Theorem C37_merge : forall snaps bins force, sorted (map fst snaps) -> sorted (map fst bins) -> (force = true -> bins <> []) ->
  exists m,
    mergesort (map snd snaps) (map snd bins) (map fst snaps) (map fst bins) force = Ok (map ev_pos m, indices ev_is_bin m) /\
    is_merge snaps bins force m.
Proof.
  intros snaps bins force H1 H2 H3. apply mergesort_spec; auto.
  - rewrite <- (combine_split_eq snaps). apply combine_fst_sorted. auto.
  - rewrite <- (combine_split_eq bins). apply combine_fst_sorted. auto.
Qed.
Print Assumptions C37_merge.

Example C37_case : mergesort [1; 3] [2; 3; 5] [10; 20]%Z [12; 20; 25]%Z false = Ok ([1; 2; 3; 3; 5], [1; 3; 4]) /\
  mergesort [1; 5] [2; 3; 5] [10; 29]%Z [12; 20; 25]%Z true = Ok ([1; 2; 3; 5; 5], [1; 2; 4]).
Proof. split; reflexivity. Qed.

(** * C38: positions are in row order *)
(** Snapshots given as values, as (label, end) pairs: those up to the first one after the data. *)
Definition kept_snaps {D} (t : D -> Z) (c : side) (labels ends : list Z) (rows : list D) : list (Z * Z) :=
  take_until (fun le => forallb (fun r => before c (snd le) (t r)) rows) (combine labels ends).

Theorem C38_time_bins_row_order : forall {D} (t : D -> Z) tg k labels ends rows,
  (0 < tg_freq tg)%Z -> rows <> [] -> sorted (map t rows) ->
  length labels = length ends -> ends <> [] -> sorted ends -> NoDup labels ->
  exists so, segmentby (time_bins t tg) sbuf_empty (Some t) (Some (ByVals k labels ends)) rows None = Ok (so, None) /\
    StronglySorted le (g_starts so) /\ last (g_starts so) 0 = length rows /\
    option_map fst (g_snap_labels so) = Some (map fst (kept_snaps t (tg_closed tg) labels ends rows)).
Proof.
  intros D t tg k labels ends rows Hf Hne Hs Hlen Hene Hes Hnd.
  destruct (time_seg_once t tg None rows Hf Hne Hs) as [Hk E]. cbv zeta in Hk, E. cbv iota in Hk, E.
  destruct (vals_once t k labels ends (tg_closed tg) rows Hne Hs Hlen Hene Hes Hnd) as (ss & E' & S1 & S2 & S3 & S4).
  match type of E with _ = Ok (?x, _) => set (sg := x) in * end.
  destruct (segout_once (time_bins t tg) sbuf_empty t (ByVals k labels ends) rows sg ss None None)
    as (so & m & A1 & A2 & A3 & A4 & A5 & A6 & A7 & A8 & A9); auto.
  - apply period_seg_ok; auto.
  - simpl. apply sorted_ends; auto.
  - unfold done_bins, seg_bins. simpl s_unknown_last_end. cbv iota. rewrite S2. simpl s_ends. simpl s_starts.
    unfold pstarts. set (a := origin_ts _ _ _). rewrite <- (map_map (period_end a (tg_freq tg)) (n_before (tg_closed tg) (map t rows))). apply compat_n_before.
  - exists so. split; auto. split; auto. split; auto. rewrite A5. unfold kept_snaps. rewrite <- S4.
    rewrite map_fst_combine_; auto. destruct S1. congruence.
Qed.
Print Assumptions C38_time_bins_row_order.

(** Bins of rows: if they are right-closed, equal time stamps must not straddle the end of a bin. *)
Theorem C38_row_bins_row_order : forall {D} (t : D -> Z) x c k labels ends rows,
  0 < x -> rows <> [] -> sorted (map t rows) -> (c = SRight -> no_straddle t x rows) ->
  length labels = length ends -> ends <> [] -> sorted ends -> NoDup labels ->
  exists so, segmentby (row_bins t x c) None (Some t) (Some (ByVals k labels ends)) rows None = Ok (so, None) /\
    StronglySorted le (g_starts so) /\ last (g_starts so) 0 = length rows /\
    option_map fst (g_snap_labels so) = Some (map fst (kept_snaps t c labels ends rows)).
Proof.
  intros D t x c k labels ends rows Hx Hne Hs Hstr Hlen Hene Hes Hnd.
  assert (HL : 0 < length rows) by (destruct rows; [congruence|simpl; lia]). assert (Hmn := map_ne t rows Hne).
  destruct (by_x_rows_spec x c [] (map t rows) None Hx Hmn eq_refl) as (b' & E & _). cbv zeta in E. simpl length in E.
  rewrite map_length in E. apply by_x_rows_nobuf in E.
  destruct (vals_once t k labels ends c rows Hne Hs Hlen Hene Hes Hnd) as (ss & E' & S1 & S2 & S3 & S4).
  change (by_x_rows x c (map t rows) None = Ok (row_seg t x c [] rows 0, None)) in E.
  destruct (segout_once (row_bins t x c) None t (ByVals k labels ends) rows (row_seg t x c [] rows 0) ss None None)
    as (so & m & A1 & A2 & A3 & A4 & A5 & A6 & A7 & A8 & A9); auto.
  - apply row_seg_ok; auto.
  - unfold row_seg. cbn [s_ends]. apply row_ends_sorted; auto.
  - intros s b H1 H2. unfold seg_bins in H1. rewrite S2 in H1.
    replace (combine (s_ends ss) (map (n_before c (map t rows)) (s_ends ss)))
      with (map (fun e => (e, n_before c (map t rows) e)) (s_ends ss)) in H1
      by (rewrite <- (map_id (s_ends ss)) at 2; rewrite combine_map2; auto).
    apply in_map_iff in H1 as (e & <- & He). cbn [fst snd].
    apply (row_compat1 t x Hx c [] rows HL Hs Hstr e) with (nn := 0); auto.
  - exists so. split; auto. split; auto. split; auto. rewrite A5. unfold kept_snaps. rewrite <- S4.
    rewrite map_fst_combine_; auto. destruct S1. congruence.
Qed.
Print Assumptions C38_row_bins_row_order.

Example C38_case : let rows := [1; 2; 2; 5; 9]%Z in
  no_straddle (fun z => z) 3 rows /\
  match segmentby (row_bins (fun z => z) 3 SRight) None (Some (fun z => z)) (Some (ByVals PIndex [1; 2; 7]%Z [1; 2; 7]%Z)) rows None with
  | Ok (so, _) => g_starts so = [1; 3; 3; 4; 5]
  | Err _ => False
  end.
Proof.
  cbv zeta. split; [|vm_compute; auto]. intros b Hb Hl. simpl in Hl. assert (b = 1) by lia. subst b. vm_compute. auto.
Qed.

(** Without this condition, positions go backwards. *)
Theorem C38_right_closed_ties_refuted : exists rows labels,
  sorted rows /\ sorted labels /\ rows <> [] /\ labels <> [] /\
  exists so, segmentby (row_bins (fun z => z) 1 SRight) None (Some (fun z => z)) (Some (ByVals PIndex labels labels)) rows None = Ok (so, None)
    /\ ~ StronglySorted le (g_starts so).
Proof.
  exists [1; 1]%Z, [1]%Z. split; [srt|]. split; [srt|]. split; [discriminate|]. split; [discriminate|].
  eexists. split; [vm_compute; reflexivity|]. simpl. intro H. inversion H; subst. inversion H3; subst. lia.
Qed.
Print Assumptions C38_right_closed_ties_refuted.
