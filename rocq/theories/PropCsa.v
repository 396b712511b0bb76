(** Properties of cumulative segmented aggregation: C33, C39 to C44. *)
Require Import List Arith ZArith Bool Lia Sorted Permutation.
Require Import Verif.Common Verif.AggModel Verif.AggSpec Verif.AggProofs.
Require Import Verif.SegModel Verif.SegSpec Verif.SegProofs Verif.SegRowsProofs Verif.MergeProofs Verif.EventProofs.
Require Import Verif.CsaModel Verif.CsaSpec Verif.CsaProofs Verif.CsaLoopProofs Verif.CsaSegProofs Verif.CsaTimeProofs.
Require Import Verif.CsaPiecesProofs Verif.CsaRowsProofs Verif.SegOutProofs Verif.PropSeg.
Import ListNotations.

(** * C39: elementary aggregations *)

(** They are the aggregations of the specification, column by column. *)
Theorem C39_meaning : forall {V} (N : num V) f n ar init j,
  ar <> [] -> (forall r, In r ar -> length r = n) -> length init = n -> j < n ->
  Some (nth j (agg_func N f n ar init false) (zero N)) = spec_agg N f (col N j ar) /\
  (forall before, spec_agg N f before = Some (nth j init (zero N)) ->
     Some (nth j (agg_func N f n ar init true) (zero N)) = spec_agg N f (before ++ col N j ar)).
Proof.
  intros V N f n ar init j Hne Hl Hi Hj.
  assert (E : map (take_cols N (seq 0 n)) ar = ar).
  { rewrite <- (map_id ar) at 2. apply map_ext_in. intros r Hr. specialize (Hl r Hr). subst n. clear.
    unfold take_cols. apply nth_ext with (d := zero N) (d' := zero N); [rewrite map_length, seq_length; auto|].
    intros k Hk. rewrite map_length, seq_length in Hk. rewrite nth_indep with (d' := nth 0 r (zero N)) by (rewrite map_length, seq_length; auto).
    rewrite map_nth with (f := fun i => nth i r (zero N)), seq_nth by auto. auto. }
  assert (Hs : length (seq 0 n) = n) by apply seq_length.
  split.
  - pose proof (agg_func_nth N f (seq 0 n) ar init false j Hne) as A. cbv zeta in A. rewrite Hs, E in A.
    rewrite A by auto. rewrite seq_nth by auto. auto.
  - intros before Hb.
    pose proof (agg_func_nth N f (seq 0 n) ar init true j Hne) as A. cbv zeta in A. rewrite Hs, E in A.
    rewrite A by auto. rewrite seq_nth by auto. symmetry. apply spec_agg_app. auto.
Qed.
Print Assumptions C39_meaning.

(** Aggregating a second piece from the result of the first one is aggregating the whole; exactly so,
    including for numbers the addition of which is rounded. *)
Theorem C39_compose : forall {V} (N : num V) f n ar1 ar2 init use_init,
  (ar1 <> [] \/ use_init = true) ->
  agg_func N f n (ar1 ++ ar2) init use_init = agg_func N f n ar2 (agg_func N f n ar1 init use_init) true.
Proof.
  intros V N f n ar1 ar2 init ui H.
  assert (G : forall upd, jloop N upd n (ar1 ++ ar2) init ui = jloop N upd n ar2 (jloop N upd n ar1 init ui) true).
  { intro upd. unfold jloop. destruct ar1 as [|r ar1].
    - destruct H as [H|H]; [congruence|]. rewrite H. destruct ar2; auto.
    - simpl app. cbv iota. destruct ui.
      + change (r :: ar1 ++ ar2) with ((r :: ar1) ++ ar2). rewrite fold_left_app. destruct ar2; auto.
      + rewrite fold_left_app. destruct ar2; auto. }
  destruct f; try apply G.
  - simpl. unfold jfirst. destruct ui; auto. destruct ar1; auto. destruct H; congruence.
  - simpl. unfold jlast. destruct ar2 as [|r2 ar2].
    + rewrite app_nil_r. auto.
    + destruct (ar1 ++ r2 :: ar2) as [|y l] eqn:E; [destruct ar1; discriminate|]. rewrite <- E.
      rewrite (last_app_ne ar1 (r2 :: ar2)) by discriminate. auto.
Qed.
Print Assumptions C39_compose.

(** On integers they are the mathematical first, last, minimum, maximum and sum. *)
Definition is_agg (f : afun) (l : list Z) (v : Z) : Prop :=
  match f with
  | First => exists t, l = v :: t
  | Last => exists t, l = t ++ [v]
  | Min => In v l /\ forall x, In x l -> (v <= x)%Z
  | Max => In v l /\ forall x, In x l -> (x <= v)%Z
  | Sum => v = fold_right Z.add 0%Z l
  end.

Theorem C39_integers : forall f l v, spec_agg Znum f l = Some v -> is_agg f l v.
Proof.
  intros f [|x t] v H; [discriminate|]. simpl in H. injection H as <-. destruct f; simpl.
  - eauto.
  - exists (removelast (x :: t)). rewrite <- (last_cons _ t 0%Z x). apply app_removelast_last. discriminate.
  - assert (G : forall t x, let m := fold_left (fun m v => if (v <? m)%Z then v else m) t x in
       (m = x \/ In m t) /\ (m <= x)%Z /\ forall y, In y t -> (m <= y)%Z).
    { clear. induction t as [|y t IH]; intros x; cbv zeta; simpl; [split; auto; split; [lia|tauto]|].
      specialize (IH (if (y <? x)%Z then y else x)). cbv zeta in IH. destruct IH as (A & B & C).
      destruct (y <? x)%Z eqn:E; [apply Z.ltb_lt in E|apply Z.ltb_ge in E].
      - split; [destruct A; auto|]. split; [lia|]. intros z [<-|Hz]; auto.
      - split; [destruct A; auto|]. split; [lia|]. intros z [<-|Hz]; auto. lia. }
    destruct (G t x) as (A & B & C). split; [destruct A; auto|]. intros y [<-|Hy]; auto.
  - assert (G : forall t x, let m := fold_left (fun m v => if (m <? v)%Z then v else m) t x in
       (m = x \/ In m t) /\ (x <= m)%Z /\ forall y, In y t -> (y <= m)%Z).
    { clear. induction t as [|y t IH]; intros x; cbv zeta; simpl; [split; auto; split; [lia|tauto]|].
      specialize (IH (if (x <? y)%Z then y else x)). cbv zeta in IH. destruct IH as (A & B & C).
      destruct (x <? y)%Z eqn:E; [apply Z.ltb_lt in E|apply Z.ltb_ge in E].
      - split; [destruct A; auto|]. split; [lia|]. intros z [<-|Hz]; auto.
      - split; [destruct A; auto|]. split; [lia|]. intros z [<-|Hz]; auto. lia. }
    destruct (G t x) as (A & B & C). split; [destruct A; auto|]. intros y [<-|Hy]; auto.
  - revert x. induction t as [|y t IH]; intros x; simpl; [lia|]. rewrite IH. lia.
Qed.
Print Assumptions C39_integers.

Example C39_case : let ar := [[3; 1]; [2; 7]; [5; 4]]%Z in
  map (fun f => agg_func Znum f 2 ar [0; 0]%Z false) [First; Last; Min; Max; Sum]
  = [[3; 1]; [5; 4]; [2; 1]; [5; 7]; [10; 12]]%Z /\
  map (fun f => agg_func Znum f 2 ar [4; 4]%Z true) [First; Last; Min; Max; Sum]
  = [[4; 4]; [5; 4]; [2; 1]; [5; 7]; [14; 16]]%Z.
Proof. split; reflexivity. Qed.

(** * C40: 'jcsagg' *)
(** [evs] is the list of (row position, is a bin end); [acc] the rows of the bin in progress which
    come from previous calls. *)
Theorem C40_jcsagg_exact : forall {V} (N : num V) data aggs ncols (evs : list (nat * bool)) (preserve : bool) chunk0 acc nb ns,
  wf_aggs ncols aggs -> length chunk0 = ncols ->
  (if preserve then acc <> [] /\ aggregates N (cells_of aggs) acc chunk0 else acc = []) ->
  StronglySorted le (map fst evs) -> (forall p, In p (map fst evs) -> p <= length data) ->
  let sevs := spec_events acc (timeline data 0 evs) in
  length (filter is_nil (ebins sevs)) <= nb -> length (filter is_nil (esnaps sevs)) <= ns ->
  exists o,
    jcsagg N data aggs (map fst evs) (indices snd evs) preserve chunk0 ncols
      (length (filter snd evs)) (length (filter (fun e => negb (snd e)) evs)) nb ns = Ok o
    /\ Forall2 (fun r x => r <> [] -> aggregates N (cells_of aggs) r x) (ebins sevs) (o_bin_res o)
    /\ Forall2 (fun r x => r <> [] -> aggregates N (cells_of aggs) r x) (esnaps sevs) (o_snap_res o)
    /\ o_null_bins o = indices is_nil (ebins sevs)
    /\ o_null_snaps o = indices is_nil (esnaps sevs).
Proof.
  intros V N data aggs ncols evs preserve chunk0 acc nb ns Hwf Hl Hp Hs Hle sevs Hnb Hns.
  assert (Hnd : forall l k, StronglySorted le l -> Forall (le k) l -> nondecr k l).
  { clear. induction l as [|x l IH]; intros k Hs Hk; simpl; auto. inversion Hs; inversion Hk; subst. split; auto. }
  assert (Hn0 : nondecr 0 (map fst evs)) by (apply Hnd; auto; apply Forall_forall; intros; lia).
  assert (E : ev_rows data acc 0 evs = sevs) by (unfold sevs; now rewrite spec_events_ev_rows0).
  assert (LB : forall (evs : list (nat * bool)) acc bs, length (filter snd evs) = length (ebins (ev_rows data acc bs evs))).
  { clear. induction evs as [|[p b] evs IH]; intros; simpl; auto. destruct b; simpl; auto. }
  assert (LS : forall (evs : list (nat * bool)) acc bs, length (filter (fun e => negb (snd e)) evs) = length (esnaps (ev_rows data acc bs evs))).
  { clear. induction evs as [|[p b] evs IH]; intros; simpl; auto. destruct b; simpl; auto. }
  assert (K : kinds 0 (if length (filter (fun e => negb (snd e)) evs) =? 0 then SnapsOff
      else SnapsOn (indices snd evs) (last (indices snd evs) 0)) (map fst evs) = evs).
  { destruct (_ =? 0) eqn:E0.
    - rewrite kinds_off, map_map. apply Nat.eqb_eq in E0. clear -E0.
      induction evs as [|[p b] evs IH]; simpl in *; auto. destruct b; simpl in *; [|discriminate]. f_equal. auto.
    - set (m := map (fun e : nat * bool => (0%Z, e)) evs).
      assert (M1 : map ev_pos m = map fst evs) by (unfold m; rewrite map_map; auto).
      assert (M2 : map snd m = evs) by (unfold m; rewrite map_map; simpl; apply map_id).
      assert (M3 : forall k, nonzero_from k ev_is_bin m = nonzero_from k snd evs).
      { intro k. unfold m. clear. revert k. induction evs as [|[p b] evs IH]; intro k; simpl; auto.
        unfold ev_is_bin at 1. simpl. rewrite IH. auto. }
      rewrite <- nonzero_from_0, <- M3, <- M1. rewrite kinds_on; auto.
      destruct (nonzero_from 0 ev_is_bin m) as [|y l]; auto. rewrite !last_cons. auto. }
  destruct (jcsagg_spec N data aggs (map fst evs) (indices snd evs) preserve chunk0 ncols
     (length (filter snd evs)) (length (filter (fun e => negb (snd e)) evs)) nb ns acc evs) as (o & A1 & A2 & A3 & A4 & A5 & A6 & A7); auto.
  - intro Hpr. rewrite Hpr in Hp. auto.
  - intro Hpr. rewrite Hpr in Hp. auto.
  - rewrite E. auto.
  - rewrite E. auto.
  - rewrite E in A3, A4, A5, A6. exists o. rewrite <- !nonzero_from_0. rewrite <- nonzero_from_0 in A1. repeat (split; auto).
Qed.
Print Assumptions C40_jcsagg_exact.

Example C40_case : let data := [[1]; [2]; [3]; [4]]%Z in let aggs := [mkAgg1 Sum [0] [0]; mkAgg1 First [0] [1]] in
  let evs := [(1, false); (2, true); (2, false); (2, true); (3, false); (4, true)] in
  wf_aggs 2 aggs /\
  ebins (spec_events [[10]%Z] (timeline data 0 evs)) = [[[10]; [1]; [2]]; []; [[3]; [4]]]%Z /\
  esnaps (spec_events [[10]%Z] (timeline data 0 evs)) = [[[10]; [1]]; []; [[3]]]%Z /\
  aggregates Znum (cells_of aggs) [[10]%Z] [10; 10]%Z /\
  jcsagg Znum data aggs (map fst evs) (indices snd evs) true [10; 10]%Z 2 3 3 1 1
  = Ok (mkJout [7; 3]%Z [[13; 10]; [0; 0]; [7; 3]]%Z [[11; 10]; [0; 0]; [3; 3]]%Z [1] [1]).
Proof.
  cbv zeta. split; [|repeat split; try reflexivity].
  - split; [repeat constructor; simpl; intuition lia|]. split; [intros a [<-|[<-|[]]]; auto|]. simpl. intros j [<-|[<-|[]]]; lia.
  - intros f i j [H|[H|[]]]; injection H as <- <- <-; reflexivity.
Qed.

(** * C41: mapping of the aggregation specification to columns *)
Theorem C41_mapping : forall agg dtypes, agg_valid agg dtypes -> NoDup (map fst agg) ->
  exists cfg, setup_cumsegagg agg dtypes = Ok cfg /\ NoDup (map fst cfg) /\
    (forall d c, In (d, c) cfg -> wf_aggs (ac_ncols c) (ac_aggs c) /\ ac_ncols c = length (ac_out c)) /\
    (forall out i f d, In (out, (i, Some f)) agg -> dict_get Nat.eqb i dtypes = Some d ->
       exists c k j, In (d, c) cfg /\ nth_error (ac_in c) k = Some i /\ nth_error (ac_out c) j = Some out
         /\ In (f, k, j) (cells_of (ac_aggs c))) /\
    (forall d c f k j, In (d, c) cfg -> In (f, k, j) (cells_of (ac_aggs c)) ->
       exists out i, nth_error (ac_in c) k = Some i /\ nth_error (ac_out c) j = Some out
         /\ In (out, (i, Some f)) agg /\ dict_get Nat.eqb i dtypes = Some d).
Proof.
  intros agg dtypes Hv Hn. destruct (setup_cumsegagg_ok agg dtypes Hv Hn) as (cfg & E & H). exists cfg. split; auto.
  destruct H as [H1 H2 H3 H4 H5 H6]. split; auto. split; [intros; eapply H2; eauto|].
  assert (IN : forall d o i f, In (o, (i, f)) (items_of agg dtypes d) <-> In (o, (i, Some f)) agg /\ dict_get Nat.eqb i dtypes = Some d).
  { intros d o i f. unfold items_of. rewrite in_flat_map. split.
    - intros ([o' [i' [f'|]]] & A & B); [|destruct B]. destruct (dict_get Nat.eqb i' dtypes) as [d'|] eqn:G; [|destruct B].
      destruct (dtype_eqb d d') eqn:Ed; [|destruct B]. destruct B as [B|[]]. injection B as <- <- <-. split; auto.
      destruct d, d'; simpl in Ed; congruence.
    - intros [A B]. exists (o, (i, Some f)). split; auto. rewrite B. destruct d; simpl; auto. }
  assert (NTH : forall d c j, In (d, c) cfg -> nth_error (ac_out c) j = option_map fst (nth_error (items_of agg dtypes d) j)).
  { intros d c j Hc. destruct (H3 d c Hc) as [-> _]. apply nth_error_map. }
  split.
  - intros out i f d Ha Hd. assert (Hi : In (out, (i, f)) (items_of agg dtypes d)) by (apply IN; auto).
    destruct (H4 d) as [c Hc]; [intro Q; rewrite Q in Hi; destruct Hi|].
    destruct (In_nth_error _ _ Hi) as [j Hj].
    assert (Ho : nth_error (ac_out c) j = Some out) by (rewrite (NTH d c j Hc), Hj; auto).
    destruct (H6 d c j out Hc Ho) as (f' & k & Hcell). destruct (H5 d c f' k j Hc Hcell) as (n & o & A & B).
    rewrite Hj in B. injection B as <- <- <-. exists c, k, j. auto.
  - intros d c f k j Hc Hcell. destruct (H5 d c f k j Hc Hcell) as (n & o & A & B). exists o, n. split; auto.
    split; [rewrite (NTH d c j Hc), B; auto|]. apply IN. eapply nth_error_In; eauto.
Qed.
Print Assumptions C41_mapping.

Theorem C41_refused : forall agg dtypes, ~ agg_valid agg dtypes -> setup_cumsegagg agg dtypes = Err ValueError.
Proof. exact setup_cumsegagg_refused. Qed.
Print Assumptions C41_refused.

Definition ex_agg : aggspec := [(10, (1, Some Sum)); (11, (2, Some Max)); (12, (1, Some First)); (13, (3, Some Sum))].
Definition ex_dtypes := [(1, DInt64); (2, DFloat64); (3, DInt64)].
Lemma ex_valid : agg_valid ex_agg ex_dtypes.
Proof. intros o i f [H|[H|[H|[H|[]]]]]; injection H as <- <- <-; split; try discriminate; eexists; reflexivity. Qed.
Lemma ex_nodup : NoDup (map fst ex_agg).
Proof. simpl. repeat constructor; simpl; intuition lia. Qed.
Example C41_case : agg_valid ex_agg ex_dtypes /\ NoDup (map fst ex_agg) /\
  setup_cumsegagg ex_agg ex_dtypes =
  Ok [(DInt64, mkAcfg [1; 3] [10; 12; 13] [mkAgg1 Sum [0; 1] [0; 2]; mkAgg1 First [0] [1]] 3);
      (DFloat64, mkAcfg [2] [11] [mkAgg1 Max [0] [0]] 1)].
Proof. split; [exact ex_valid|]. split; [exact ex_nodup|reflexivity]. Qed.
Example C41_case_refused : ~ agg_valid [(10, (1, Some Sum)); (11, (7, Some Max))] ex_dtypes /\ ~ agg_valid [(10, (1, None))] ex_dtypes.
Proof. split; intro H; [destruct (H 11 7 (Some Max)) as [[d E] _]; simpl; auto; discriminate|destruct (H 10 1 None) as [_ E]; simpl; auto]. Qed.

(** * C42: 'cumsegagg' in one call *)
Section C42.
Context {D V : Type}.
Variable N : dtype -> num V.
Variable val : D -> cname -> V.
Variables (agg : aggspec) (dtypes : list (cname * dtype)).
Hypothesis Hvalid : agg_valid agg dtypes.
Hypothesis Hnodup : NoDup (map fst agg).
Hypothesis Hagg : agg <> [].
Variable t : D -> Z.

Notation csa := (cumsegagg N val agg dtypes).
Notation is_first c a f k data := (in_period c a f k (hd 0%Z (map t data)) = true).
Notation is_last c a f k data := (in_period c a f k (last (map t data) 0%Z) = true).
Notation anchor_of tg data := (origin_ts (tg_origin tg) (tg_offset tg) (hd 0%Z (map t data))).

Theorem C42_time_bins : forall tg eo data k0 k1, (0 < tg_freq tg)%Z -> data <> [] -> sorted (map t data) ->
  let c := tg_closed tg in let f := tg_freq tg in let a := anchor_of tg data in
  is_first c a f k0 data -> is_last c a f k1 data ->
  outcome N val agg dtypes eo (time_groups t (tg_label tg) c a f k0 k1 data) None (fun b => b = None)
    (csa (time_bins t tg) sbuf_empty (Some t) None eo data None).
Proof.
  intros tg eo data k0 k1 Hf Hne Hs c f a H0 H1. apply in_period_kappa in H0; auto. apply in_period_kappa in H1; auto. subst k0 k1.
  apply (time_once N val agg dtypes Hvalid Hnodup Hagg t tg eo data); auto.
Qed.

(** With snapshots at the end of periods of another frequency. *)
Theorem C42_time_bins_periodic_snaps : forall tg stg eo data k0 k1 j0 j1,
  (0 < tg_freq tg)%Z -> (0 < tg_freq stg)%Z -> data <> [] -> sorted (map t data) ->
  let c := tg_closed tg in let f := tg_freq tg in let a := anchor_of tg data in
  let f' := tg_freq stg in let a' := anchor_of stg data in
  is_first c a f k0 data -> is_last c a f k1 data -> is_first c a' f' j0 data -> is_last c a' f' j1 data ->
  outcome N val agg dtypes eo (time_groups t (tg_label tg) c a f k0 k1 data)
    (Some (time_snaps t c a f (tg_label stg) a' f' j0 j1 data)) (fun b => b = None)
    (csa (time_bins t tg) sbuf_empty (Some t) (Some (ByTG stg)) eo data None).
Proof.
  intros tg stg eo data k0 k1 j0 j1 Hf Hf' Hne Hs c f a f' a' H0 H1 H2 H3.
  apply in_period_kappa in H0; auto. apply in_period_kappa in H1; auto.
  apply in_period_kappa in H2; auto. apply in_period_kappa in H3; auto. subst k0 k1 j0 j1.
  apply (time_once_tgsnap N val agg dtypes Hvalid Hnodup Hagg t tg stg eo data); auto.
Qed.

(** With snapshots at given time stamps. *)
Theorem C42_time_bins_snaps_at : forall tg k labels ends eo data k0 k1,
  (0 < tg_freq tg)%Z -> data <> [] -> sorted (map t data) ->
  length labels = length ends -> ends <> [] -> sorted ends -> NoDup labels ->
  let c := tg_closed tg in let f := tg_freq tg in let a := anchor_of tg data in
  is_first c a f k0 data -> is_last c a f k1 data ->
  outcome N val agg dtypes eo (time_groups t (tg_label tg) c a f k0 k1 data)
    (Some (map (fun le => (fst le, snap_period t c a f (snd le) data)) (kept_snaps t c labels ends data)))
    (fun b => b = None)
    (csa (time_bins t tg) sbuf_empty (Some t) (Some (ByVals k labels ends)) eo data None).
Proof.
  intros tg k labels ends eo data k0 k1 Hf Hne Hs Hl He Hes Hn c f a H0 H1.
  apply in_period_kappa in H0; auto. apply in_period_kappa in H1; auto. subst k0 k1.
  apply (time_once_vals N val agg dtypes Hvalid Hnodup Hagg t tg k labels ends eo data); auto.
Qed.

(** Bins of a number of rows. Data does not need to be ordered. *)
Theorem C42_row_bins : forall x c ordered eo data, 0 < x -> data <> [] ->
  match ordered with Some o => sorted (map o data) | None => True end ->
  outcome N val agg dtypes eo (row_groups t x 0 (S ((length data - 1) / x)) data) None (fun b => b = None)
    (csa (row_bins t x c) None ordered None eo data None).
Proof. intros. apply row_once; auto. Qed.

Theorem C42_row_bins_periodic_snaps : forall x c s eo data j0 j1, 0 < x -> (0 < tg_freq s)%Z -> data <> [] ->
  sorted (map t data) -> (c = SRight -> no_straddle t x data) ->
  let f := tg_freq s in let a := anchor_of s data in
  is_first c a f j0 data -> is_last c a f j1 data ->
  outcome N val agg dtypes eo (row_groups t x 0 (S ((length data - 1) / x)) data)
    (Some (map (fun j => (period_label (tg_label s) a f j, snap_of_rows t x c (period_end a f j) data)) (zrange j0 j1)))
    (fun b => b = None)
    (csa (row_bins t x c) None (Some t) (Some (ByTG s)) eo data None).
Proof.
  intros x c s eo data j0 j1 Hx Hf Hne Hs Hstr f a H0 H1.
  apply in_period_kappa in H0; auto. apply in_period_kappa in H1; auto. subst j0 j1.
  apply (row_once_tgsnap N val agg dtypes Hvalid Hnodup Hagg t x Hx c s eo data); auto.
Qed.

Theorem C42_row_bins_snaps_at : forall x c k labels ends eo data, 0 < x -> data <> [] ->
  sorted (map t data) -> (c = SRight -> no_straddle t x data) ->
  length labels = length ends -> ends <> [] -> sorted ends -> NoDup labels ->
  outcome N val agg dtypes eo (row_groups t x 0 (S ((length data - 1) / x)) data)
    (Some (map (fun le => (fst le, snap_of_rows t x c (snd le) data)) (kept_snaps t c labels ends data)))
    (fun b => b = None)
    (csa (row_bins t x c) None (Some t) (Some (ByVals k labels ends)) eo data None).
Proof. intros. apply (row_once_vals N val agg dtypes Hvalid Hnodup Hagg t x H c k labels ends eo data); auto. Qed.

Theorem C42_empty : forall {B} bin_by (empty : B) ordered snap eo b,
  csa bin_by empty ordered snap eo [] b = Ok (None, b).
Proof. auto. Qed.

End C42.
Print Assumptions C42_time_bins.
Print Assumptions C42_time_bins_periodic_snaps.
Print Assumptions C42_time_bins_snaps_at.
Print Assumptions C42_row_bins.
Print Assumptions C42_row_bins_periodic_snaps.
Print Assumptions C42_row_bins_snaps_at.
Print Assumptions C42_empty.

(** Rows of (time stamp, value). *)
Definition ex_val (r : Z * Z) (_ : cname) : Z := snd r.
Definition ex_rows : list (Z * Z) := [(1, 5); (4, 3); (5, 4); (19, 2)]%Z.
Definition ex_tg := mkTG 5 SLeft SLeft OEpoch 0.
Definition ex_snap := mkTG 2 SLeft SLeft OEpoch 0.
Definition ex_agg1 : aggspec := [(10, (1, Some Sum)); (11, (2, Some Max))].
Definition ex_csa {B} := @cumsegagg (Z * Z) Z B (fun _ => Znum) ex_val ex_agg1 ex_dtypes.
Lemma ex_valid1 : agg_valid ex_agg1 ex_dtypes.
Proof. intros o i f [H|[H|[]]]; injection H as <- <- <-; split; try discriminate; eexists; reflexivity. Qed.
Lemma ex_nodup1 : NoDup (map fst ex_agg1).
Proof. simpl. repeat constructor; simpl; intuition lia. Qed.

Example C42_case_time :
  agg_valid ex_agg1 ex_dtypes /\ NoDup (map fst ex_agg1) /\ sorted (map fst ex_rows) /\
  time_groups fst SLeft SLeft 0 5 0 3 ex_rows = [(0, [(1, 5); (4, 3)]); (5, [(5, 4)]); (10, []); (15, [(19, 2)])]%Z /\
  ex_csa (time_bins fst ex_tg) sbuf_empty (Some fst) None true ex_rows None
  = Ok (Some (mkFrame [0; 5; 10; 15]%Z
       [(10, [Some 8; Some 4; None; Some 2]%Z); (11, [Some 5; Some 4; None; Some 2]%Z)], None), None).
Proof.
  split; [exact ex_valid1|]. split; [exact ex_nodup1|]. split; [unfold ex_rows; simpl; srt|]. split; reflexivity.
Qed.
Example C42_case_snaps :
  time_snaps fst SLeft 0 5 SLeft 0 2 0 2 (firstn 3 ex_rows)
   = [(0, [(1, 5)]); (2, [(1, 5)]); (4, [(5, 4)])]%Z /\
  ex_csa (time_bins fst ex_tg) sbuf_empty (Some fst) (Some (ByTG ex_snap)) true (firstn 3 ex_rows) None
  = Ok (Some (mkFrame [0; 5]%Z [(10, [Some 8; Some 4]%Z); (11, [Some 5; Some 4]%Z)],
              Some (mkFrame [0; 2; 4]%Z [(10, [Some 5; Some 5; Some 4]%Z); (11, [Some 5; Some 5; Some 4]%Z)])), None).
Proof. split; vm_compute; reflexivity. Qed.
Example C42_case_rows :
  row_groups fst 3 0 2 ex_rows = [(1, [(1, 5); (4, 3); (5, 4)]); (19, [(19, 2)])]%Z /\
  no_straddle fst 3 ex_rows /\
  map (fun e => snap_of_rows fst 3 SRight e ex_rows) [1; 5; 7]%Z = [[(1, 5)]; [(1, 5); (4, 3); (5, 4)]; []]%Z /\
  ex_csa (row_bins fst 3 SRight) None (Some fst) (Some (ByVals PIndex [1; 5; 7]%Z [1; 5; 7]%Z)) true ex_rows None
  = Ok (Some (mkFrame [1; 19]%Z [(10, [Some 12; Some 2]%Z); (11, [Some 5; Some 2]%Z)],
              Some (mkFrame [1; 5; 7]%Z [(10, [Some 5; Some 12; None]%Z); (11, [Some 5; Some 5; None]%Z)])), None).
Proof.
  split; [reflexivity|]. split; [|split; vm_compute; reflexivity].
  intros b Hb Hl. simpl in Hl. assert (b = 1) by lia. subst b. vm_compute. auto.
Qed.

(** * C33: arrays of null chunks are not overrun *)
(** Writing past the end of one of the arrays given to 'jcsagg' is [Err OutOfBounds]. *)
Lemma outcome_errors : forall {D V B} N val agg dtypes eo gb gs P (r : res (option (frame V * option (frame V)) * option (csabuf B V))) e,
  @outcome D V B N val agg dtypes eo gb gs P r -> r = Err e -> e <> ValueError -> False.
Proof.
  intros D V B N val agg dtypes eo gb gs P r e [H1 H2] E Hne.
  assert (HN : ~ zero_refused N val agg dtypes eo gb gs) by (intro Z; rewrite (H1 Z) in E; congruence).
  destruct (H2 HN) as (fb & fs & b' & Q & _). congruence.
Qed.

Definition snap_given {D} (t : D -> Z) (x : byspec) : Prop :=
  match x with
  | ByTG s => (0 < tg_freq s)%Z
  | ByCal _ => False
  | ByVals _ labels ends => length labels = length ends /\ ends <> [] /\ sorted ends /\ NoDup labels
  end.

Theorem C33_time_bins : forall {D V} (N : dtype -> num V) (val : D -> cname -> V) agg dtypes t tg snap eo data,
  agg_valid agg dtypes -> NoDup (map fst agg) -> agg <> [] ->
  (0 < tg_freq tg)%Z -> sorted (map t data) -> match snap with Some s => snap_given t s | None => True end ->
  cumsegagg N val agg dtypes (time_bins t tg) sbuf_empty (Some t) snap eo data None <> Err OutOfBounds.
Proof.
  intros D V N val agg dtypes t tg snap eo data Hv Hn Ha Hf Hs Hsn.
  destruct data as [|r data]; [discriminate|]. set (rows := r :: data) in *. assert (Hne : rows <> []) by discriminate.
  intro E. destruct snap as [[s|cg|k labels ends]|]; [|destruct Hsn| |].
  - eapply outcome_errors; [exact (time_once_tgsnap N val agg dtypes Hv Hn Ha t tg s eo rows Hf Hsn Hne Hs)|exact E|discriminate].
  - destruct Hsn as (H1 & H2 & H3 & H4).
    eapply outcome_errors; [exact (time_once_vals N val agg dtypes Hv Hn Ha t tg k labels ends eo rows Hf Hne Hs H1 H2 H3 H4)|exact E|discriminate].
  - eapply outcome_errors; [exact (time_once N val agg dtypes Hv Hn Ha t tg eo rows Hf Hne Hs)|exact E|discriminate].
Qed.
Print Assumptions C33_time_bins.

Theorem C33_row_bins : forall {D V} (N : dtype -> num V) (val : D -> cname -> V) agg dtypes t x c snap eo data,
  agg_valid agg dtypes -> NoDup (map fst agg) -> agg <> [] ->
  0 < x -> sorted (map t data) -> (c = SRight -> no_straddle t x data) ->
  match snap with Some s => snap_given t s | None => True end ->
  cumsegagg N val agg dtypes (row_bins t x c) None (Some t) snap eo data None <> Err OutOfBounds.
Proof.
  intros D V N val agg dtypes t x c snap eo data Hv Hn Ha Hx Hs Hstr Hsn.
  destruct data as [|r data]; [discriminate|]. set (rows := r :: data) in *. assert (Hne : rows <> []) by discriminate.
  intro E. destruct snap as [[s|cg|k labels ends]|]; [|destruct Hsn| |].
  - eapply outcome_errors; [exact (row_once_tgsnap N val agg dtypes Hv Hn Ha t x Hx c s eo rows Hsn Hne Hs Hstr)|exact E|discriminate].
  - destruct Hsn as (H1 & H2 & H3 & H4).
    eapply outcome_errors; [exact (row_once_vals N val agg dtypes Hv Hn Ha t x Hx c k labels ends eo rows Hne Hs Hstr H1 H2 H3 H4)|exact E|discriminate].
  - eapply outcome_errors; [exact (row_once N val agg dtypes Hv Hn Ha t x Hx c (Some t) eo rows Hne Hs)|exact E|discriminate].
Qed.
Print Assumptions C33_row_bins.

(** In successive calls with a buffer. *)
Lemma eo_errors : forall {D V B} (N : dtype -> num V) (val : D -> cname -> V) agg dtypes bin_by (empty : B) o snap eo data b e,
  cumsegagg N val agg dtypes bin_by empty o snap eo data b = Err e -> e <> ValueError ->
  cumsegagg N val agg dtypes bin_by empty o snap false data b = Err e.
Proof.
  intros D V B N val agg dtypes bin_by empty o snap eo data b e. unfold cumsegagg, cumsegagg_cfg.
  destruct data as [|r data]; auto. destruct agg as [|a agg]; auto. destruct (setup_cumsegagg _ _) as [cfg|]; auto. cbn [bind].
  destruct (segmentby _ _ _ _ _ _) as [[so main']|]; auto. cbn [bind].
  destruct (csa_loop _ _ _ _ _ _ _ _ _ _) as [a'|]; auto. cbn [bind].
  destruct (match g_snap_labels so with Some _ => _ | None => _ end) as [s|]; auto. cbn [bind].
  match goal with |- context [if ?b then _ else _] => destruct b end; intros H1 H2; [congruence|discriminate].
Qed.

Lemma eo_ok : forall {D V B} (N : dtype -> num V) (val : D -> cname -> V) agg dtypes bin_by (empty : B) o snap eo data b r,
  cumsegagg N val agg dtypes bin_by empty o snap eo data b = Ok r ->
  cumsegagg N val agg dtypes bin_by empty o snap false data b = Ok r.
Proof.
  intros D V B N val agg dtypes bin_by empty o snap eo data b e. unfold cumsegagg, cumsegagg_cfg.
  destruct data as [|r data]; auto. destruct agg as [|a agg]; auto. destruct (setup_cumsegagg _ _) as [cfg|]; auto. cbn [bind].
  destruct (segmentby _ _ _ _ _ _) as [[so main']|]; auto. cbn [bind].
  destruct (csa_loop _ _ _ _ _ _ _ _ _ _) as [a'|]; auto. cbn [bind].
  destruct (match g_snap_labels so with Some _ => _ | None => _ end) as [s|]; auto. cbn [bind].
  match goal with |- context [if ?b then _ else _] => destruct b end; intros H1; [discriminate|exact H1].
Qed.

Lemma eo_run : forall {D V B} (N : dtype -> num V) (val : D -> cname -> V) agg dtypes bin_by (empty : B) o snap eo pieces b e,
  run_pieces (fun p b => cumsegagg N val agg dtypes bin_by empty o snap eo p b) b pieces = Err e -> e <> ValueError ->
  run_pieces (fun p b => cumsegagg N val agg dtypes bin_by empty o snap false p b) b pieces = Err e.
Proof.
  intros D V B N val agg dtypes bin_by empty o snap eo. induction pieces as [|p ps IH]; intros b e; simpl; [discriminate|].
  destruct (cumsegagg N val agg dtypes bin_by empty o snap eo p b) as [[r b']|e'] eqn:E.
  - apply eo_ok in E. rewrite E.
    destruct (run_pieces _ b' ps) as [[rs b'']|e''] eqn:E'; [discriminate|]. intros Q Hne. injection Q as <-.
    rewrite (IH _ _ E' Hne). auto.
  - intros Q Hne. injection Q as <-. apply eo_errors in E; auto. rewrite E. auto.
Qed.

Theorem C33_pieces : forall {D V} (N : dtype -> num V) (val : D -> cname -> V) agg dtypes t snap eo pieces,
  agg_valid agg dtypes -> NoDup (map fst agg) -> agg <> [] ->
  concat pieces <> [] -> sorted (map t (concat pieces)) ->
  (forall s, snap = Some s -> (0 < tg_freq s)%Z /\ fixed_periods s) ->
  (forall tg, (0 < tg_freq tg)%Z -> fixed_periods tg ->
   run_pieces (fun p b => cumsegagg N val agg dtypes (time_bins t tg) sbuf_empty (Some t) (option_map ByTG snap) eo p b)
     (Some csabuf_empty) pieces <> Err OutOfBounds) /\
  (forall x c, 0 < x -> (c = SRight -> no_straddle t x (concat pieces)) ->
   run_pieces (fun p b => cumsegagg N val agg dtypes (row_bins t x c) None (Some t) (option_map ByTG snap) eo p b)
     (Some csabuf_empty) pieces <> Err OutOfBounds).
Proof.
  intros D V N val agg dtypes t snap eo pieces Hv Hn Ha Hne Hs Hsn. split.
  - intros tg Hf Hfix E. apply eo_run in E; [|discriminate].
    destruct (time_pieces N val agg dtypes Hv Hn Ha t tg snap Hf Hfix Hsn false pieces Hne Hs) as [H _].
    destruct (H eq_refl) as (rs & b' & Q). congruence.
  - intros x c Hx Hstr E. apply eo_run in E; [|discriminate].
    destruct (row_pieces N val agg dtypes Hv Hn Ha t x Hx c snap Hsn true false pieces Hne) as [H _]; [split; auto|].
    destruct (H eq_refl) as (rs & b' & Q). cbv zeta iota in Q. congruence.
Qed.
Print Assumptions C33_pieces.

Example C33_case : sorted (map fst ex_rows) /\ snap_given (D := Z * Z) fst (ByTG ex_snap) /\
  match segmentby (time_bins fst ex_tg) sbuf_empty (Some fst) (Some (ByTG ex_snap)) ex_rows None with
  | Ok (so, _) => (g_n_null_bins so, g_n_max_null_snaps so)
  | Err _ => (0, 0)
  end = (1, 9).
Proof. split; [unfold ex_rows; simpl; srt|]. split; [reflexivity|]. vm_compute. auto. Qed.

(** Right-closed bins of rows, with snapshots and a time stamp which straddles the end of a bin: the
    rows of the second bin are aggregated in the first one too. *)
Theorem C42_right_closed_ties_refuted :
  exists data snap, (0 < tg_freq snap)%Z /\ fixed_periods snap /\ sorted (map fst data) /\
    map (fun g => agg_of (fun _ => Znum) ex_val DInt64 Sum 1 (snd g)) (row_groups fst 1 0 2 data) = [Some 5; Some 3]%Z /\
    exists fb fs, ex_csa (row_bins fst 1 SRight) None (Some fst) (Some (ByTG snap)) true data None = Ok (Some (fb, fs), None)
      /\ fcol 10 fb = [Some 8; Some 3]%Z.
Proof.
  exists [(1, 5); (1, 3)]%Z, (mkTG 1 SLeft SRight OEpoch 0). split; [reflexivity|]. split; [exact I|]. split; [simpl; srt|].
  split; [reflexivity|]. do 2 eexists. split; vm_compute; reflexivity.
Qed.
Print Assumptions C42_right_closed_ties_refuted.

(** * C43: 'cumsegagg' in pieces *)
(** [frames_make]: the rows of each result, its last one being replaced by the next result, make the
    result of the single call. *)
Theorem C43_time_bins : forall {D V} (N : dtype -> num V) (val : D -> cname -> V) agg dtypes t tg snap eo pieces,
  agg_valid agg dtypes -> NoDup (map fst agg) -> agg <> [] ->
  (0 < tg_freq tg)%Z -> fixed_periods tg -> (forall s, snap = Some s -> (0 < tg_freq s)%Z /\ fixed_periods s) ->
  concat pieces <> [] -> sorted (map t (concat pieces)) ->
  let csa := cumsegagg N val agg dtypes (time_bins t tg) sbuf_empty (Some t) (option_map ByTG snap) in
  (eo = false -> exists rs b', run_pieces (csa eo) (Some csabuf_empty) pieces = Ok (rs, b')) /\
  (forall rs b', run_pieces (csa eo) (Some csabuf_empty) pieces = Ok (rs, b') ->
   exists fw sw, csa false (concat pieces) None = Ok (Some (fw, sw), None)
     /\ frames_make agg (bin_frames rs) fw
     /\ match sw with Some w => frames_make agg (snap_frames rs) w | None => snap_frames rs = [] end).
Proof. intros. apply (time_pieces N val agg dtypes H H0 H1 t tg snap H2 H3 H4 eo pieces H5 H6). Qed.
Print Assumptions C43_time_bins.

Theorem C43_row_bins : forall {D V} (N : dtype -> num V) (val : D -> cname -> V) agg dtypes t x c (ordered : bool) snap eo pieces,
  agg_valid agg dtypes -> NoDup (map fst agg) -> agg <> [] -> 0 < x ->
  (forall s, snap = Some s -> (0 < tg_freq s)%Z /\ fixed_periods s) ->
  concat pieces <> [] ->
  (ordered = true \/ snap <> None -> sorted (map t (concat pieces))) ->
  (snap <> None -> c = SRight -> no_straddle t x (concat pieces)) ->
  let csa := cumsegagg N val agg dtypes (row_bins t x c) None
    (if ordered then Some t else option_map (fun _ => t) snap) (option_map ByTG snap) in
  (eo = false -> exists rs b', run_pieces (csa eo) (Some csabuf_empty) pieces = Ok (rs, b')) /\
  (forall rs b', run_pieces (csa eo) (Some csabuf_empty) pieces = Ok (rs, b') ->
   exists fw sw, csa false (concat pieces) None = Ok (Some (fw, sw), None)
     /\ frames_make agg (bin_frames rs) fw
     /\ match sw with Some w => frames_make agg (snap_frames rs) w | None => snap_frames rs = [] end).
Proof.
  intros D V N val agg dtypes t x c ordered snap eo pieces H H0 H1 H2 H3 H4 H5 H6.
  assert (R : rok t x c snap ordered (concat pieces)) by (split; auto).
  pose proof (row_pieces N val agg dtypes H H0 H1 t x H2 c snap H3 ordered eo pieces H4 R) as G. cbv zeta in G |- *.
  destruct ordered, snap; exact G.
Qed.
Print Assumptions C43_row_bins.

Example C43_case : let pieces := [firstn 1 ex_rows; []; skipn 1 ex_rows] in
  fixed_periods ex_tg /\ fixed_periods ex_snap /\ concat pieces = ex_rows /\
  match run_pieces (ex_csa (time_bins fst ex_tg) sbuf_empty (Some fst) (Some (ByTG ex_snap)) true) (Some csabuf_empty) pieces with
  | Ok (rs, _) =>
      map f_labels (bin_frames rs) = [[0]; [0; 5; 10; 15]]%Z /\
      map (fcol 10) (bin_frames rs) = [[Some 5]; [Some 8; Some 4; None; Some 2]]%Z /\
      map f_labels (snap_frames rs) = [[0]; [0; 2; 4; 6; 8; 10; 12; 14; 16; 18]]%Z
  | Err _ => False
  end /\
  match run_pieces (ex_csa (row_bins fst 3 SLeft) None None None true) (Some csabuf_empty) pieces with
  | Ok (rs, _) => map (fcol 10) (bin_frames rs) = [[Some 5]; [Some 12; Some 2]]%Z
  | Err _ => False
  end.
Proof. cbv zeta. split; [exact I|]. split; [exact I|]. split; [reflexivity|]. split; vm_compute; auto. Qed.

(** * C44: refused zeros *)
(** [some_zero] can be decided. *)
Lemma some_zero_dec : forall {D V} (N : dtype -> num V) (val : D -> cname -> V) agg dtypes groups,
  some_zero N val agg dtypes groups \/ ~ some_zero N val agg dtypes groups.
Proof.
  intros D V N val agg dtypes groups.
  set (chk := existsb (fun a => match a with
    | (_, (i, Some f)) => match dict_get Nat.eqb i dtypes with
        | Some d => existsb (fun g => match agg_of N val d f i (snd g) with Some v => is0 (N d) v | None => false end) groups
        | None => false end
    | _ => false end) agg).
  assert (H : chk = true <-> some_zero N val agg dtypes groups).
  { unfold chk. rewrite existsb_exists. split.
    - intros ([o [i [f|]]] & A & B); [|discriminate]. destruct (dict_get Nat.eqb i dtypes) as [d|] eqn:E; [|discriminate].
      apply existsb_exists in B as (g & G & Z). destruct (agg_of N val d f i (snd g)) as [v|] eqn:Ev; [|discriminate].
      exists o, i, f, d, g, v. auto.
    - intros (o & i & f & d & g & v & A & B & C & E & F). exists (o, (i, Some f)). split; auto. rewrite B.
      apply existsb_exists. exists g. split; auto. rewrite E. auto. }
  destruct chk; [left; tauto|right; intro Q; apply H in Q; discriminate].
Qed.

Lemma outcome_zero : forall {D V B} (N : dtype -> num V) (val : D -> cname -> V) agg dtypes gb gs P P' (r : bool -> res (option (frame V * option (frame V)) * option (csabuf B V))),
  outcome N val agg dtypes true gb gs P (r true) -> outcome N val agg dtypes false gb gs P' (r false) ->
  (r true = Err ValueError <-> some_zero N val agg dtypes gb \/ exists g, gs = Some g /\ some_zero N val agg dtypes g) /\
  is_ok (r false) = true.
Proof.
  intros D V B N val agg dtypes gb gs P P' r [A1 A2] [B1 B2]. split; [split|].
  - intro E. destruct (some_zero_dec N val agg dtypes gb) as [Z|NZ]; auto. right.
    destruct gs as [g|].
    + destruct (some_zero_dec N val agg dtypes g) as [Z|NZ']; [eauto|]. exfalso.
      destruct A2 as (? & ? & ? & Q & _); [|congruence]. intros [_ [Z|(g' & Eg & Z)]]; [auto|]. injection Eg as <-. auto.
    + exfalso. destruct A2 as (? & ? & ? & Q & _); [|congruence]. intros [_ [Z|(g' & Eg & Z)]]; [auto|discriminate].
  - intro Z. apply A1. split; auto.
  - destruct B2 as (? & ? & ? & Q & _); [|rewrite Q; auto]. intros [Q _]. discriminate.
Qed.

(** With 'error_on_0', ValueError is raised exactly when an aggregated value of a bin or snapshot
    which has rows is 0; without it nothing is raised. *)
Theorem C44_time_bins : forall {D V} (N : dtype -> num V) (val : D -> cname -> V) agg dtypes t tg stg data k0 k1 j0 j1,
  agg_valid agg dtypes -> NoDup (map fst agg) -> agg <> [] ->
  (0 < tg_freq tg)%Z -> (0 < tg_freq stg)%Z -> data <> [] -> sorted (map t data) ->
  let c := tg_closed tg in let f := tg_freq tg in let f' := tg_freq stg in
  let t0 := hd 0%Z (map t data) in let t1 := last (map t data) 0%Z in
  let a := origin_ts (tg_origin tg) (tg_offset tg) t0 in let a' := origin_ts (tg_origin stg) (tg_offset stg) t0 in
  in_period c a f k0 t0 = true -> in_period c a f k1 t1 = true ->
  in_period c a' f' j0 t0 = true -> in_period c a' f' j1 t1 = true ->
  let bins := time_groups t (tg_label tg) c a f k0 k1 data in
  let snaps := time_snaps t c a f (tg_label stg) a' f' j0 j1 data in
  let csa snap eo := cumsegagg N val agg dtypes (time_bins t tg) sbuf_empty (Some t) snap eo data None in
  (csa None true = Err ValueError <-> some_zero N val agg dtypes bins) /\
  (csa (Some (ByTG stg)) true = Err ValueError <-> some_zero N val agg dtypes bins \/ some_zero N val agg dtypes snaps) /\
  is_ok (csa None false) = true /\ is_ok (csa (Some (ByTG stg)) false) = true.
Proof.
  intros D V N val agg dtypes t tg stg data k0 k1 j0 j1 Hv Hn Ha Hf Hf' Hne Hs c f f' t0 t1 a a' H0 H1 H2 H3 bins snaps csa.
  destruct (outcome_zero N val agg dtypes bins None _ _ (csa None)
    (C42_time_bins N val agg dtypes Hv Hn Ha t tg true data k0 k1 Hf Hne Hs H0 H1)
    (C42_time_bins N val agg dtypes Hv Hn Ha t tg false data k0 k1 Hf Hne Hs H0 H1)) as [A1 A2].
  destruct (outcome_zero N val agg dtypes bins (Some snaps) _ _ (csa (Some (ByTG stg)))
    (C42_time_bins_periodic_snaps N val agg dtypes Hv Hn Ha t tg stg true data k0 k1 j0 j1 Hf Hf' Hne Hs H0 H1 H2 H3)
    (C42_time_bins_periodic_snaps N val agg dtypes Hv Hn Ha t tg stg false data k0 k1 j0 j1 Hf Hf' Hne Hs H0 H1 H2 H3)) as [B1 B2].
  split; [|split; [|auto]].
  - rewrite A1. split; [intros [Z|(g & E & _)]; [auto|discriminate]|auto].
  - rewrite B1. split; [intros [Z|(g & E & Z)]; [auto|injection E as <-; auto]|intros [Z|Z]; eauto].
Qed.
Print Assumptions C44_time_bins.

Theorem C44_row_bins : forall {D V} (N : dtype -> num V) (val : D -> cname -> V) agg dtypes t x c ordered data,
  agg_valid agg dtypes -> NoDup (map fst agg) -> agg <> [] -> 0 < x -> data <> [] ->
  match ordered with Some o => sorted (map o data) | None => True end ->
  let bins := row_groups t x 0 (S ((length data - 1) / x)) data in
  let csa eo := cumsegagg N val agg dtypes (row_bins t x c) None ordered None eo data None in
  (csa true = Err ValueError <-> some_zero N val agg dtypes bins) /\ is_ok (csa false) = true.
Proof.
  intros D V N val agg dtypes t x c ordered data Hv Hn Ha Hx Hne Hs bins csa.
  destruct (outcome_zero N val agg dtypes bins None _ _ csa
    (C42_row_bins N val agg dtypes Hv Hn Ha t x c ordered true data Hx Hne Hs)
    (C42_row_bins N val agg dtypes Hv Hn Ha t x c ordered false data Hx Hne Hs)) as [A1 A2].
  split; auto. rewrite A1. split; [intros [Z|(g & E & _)]; [auto|discriminate]|auto].
Qed.
Print Assumptions C44_row_bins.

(** A sum which is legitimately 0 is refused by default. *)
Theorem C44_legitimate_zero_refuted : let data := [(1, 5); (4, -5); (7, 2)]%Z in
  sorted (map fst data) /\
  agg_of (fun _ => Znum) ex_val DInt64 Sum 1 (filter (fun r => in_period SLeft 0 5 0 (fst r)) data) = Some 0%Z /\
  ex_csa (time_bins fst ex_tg) sbuf_empty (Some fst) None true data None = Err ValueError /\
  is_ok (ex_csa (time_bins fst ex_tg) sbuf_empty (Some fst) None false data None) = true.
Proof. cbv zeta. split; [simpl; srt|]. repeat split; vm_compute; reflexivity. Qed.
Print Assumptions C44_legitimate_zero_refuted.

(** Also when the bin is in progress only, at the end of a piece: the zero would not have been in the
    final result. *)
Theorem C44_provisional_zero_refuted : let data := [(1, 5); (2, -5); (3, 2)]%Z in
  is_ok (ex_csa (time_bins fst ex_tg) sbuf_empty (Some fst) None true data None) = true /\
  first_error (run_pieces (ex_csa (time_bins fst ex_tg) sbuf_empty (Some fst) None true) (Some csabuf_empty)
     [firstn 2 data; skipn 2 data]) = Some ValueError.
Proof. cbv zeta. split; vm_compute; reflexivity. Qed.
Print Assumptions C44_provisional_zero_refuted.
