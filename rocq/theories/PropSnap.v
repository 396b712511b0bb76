(** Properties: snapshots at given times in successive calls (C60). *)
Require Import List Arith ZArith Bool Lia Sorted.
Require Import Verif.Common Verif.AggModel Verif.AggSpec Verif.AggProofs.
Require Import Verif.SegModel Verif.SegSpec Verif.SegProofs Verif.MergeProofs Verif.EventProofs.
Require Import Verif.CsaModel Verif.CsaSpec Verif.CsaProofs Verif.CsaLoopProofs Verif.CsaSegProofs Verif.CsaTimeProofs Verif.SnapValsSpec.
Require Import Verif.CsaPiecesProofs Verif.CsaRowsProofs Verif.SnapValsProofs Verif.SnapCsaProofs Verif.PropSeg Verif.PropCsa.
Import ListNotations.

(** * C60: snapshots at given times, in successive calls *)
(** A call is given rows and the first [m] points of observation, as a pandas DatetimeIndex. Bins, and
    snapshots, put together, are those of the single call with all rows and points. *)
Definition points_given (points : list (Z * Z)) (m : nat) : option byspec :=
  Some (ByVals PIndex (map fst (firstn m points)) (map snd (firstn m points))).

Theorem C60_time_bins : forall {D V} (N : dtype -> num V) (val : D -> cname -> V) agg dtypes t tg points eo calls,
  agg_valid agg dtypes -> NoDup (map fst agg) -> agg <> [] -> (0 < tg_freq tg)%Z -> fixed_periods tg ->
  NoDup (map fst points) -> StronglySorted Z.lt (map snd points) ->
  calls <> [] -> sorted (map t (concat (map fst calls))) -> points_in_time t (tg_closed tg) points [] 0 calls ->
  let csa m eo rows b := cumsegagg N val agg dtypes (time_bins t tg) sbuf_empty (Some t) (points_given points m) eo rows b in
  let call pm b := csa (snd pm) eo (fst pm) b in
  (eo = false -> exists rs b', run_pieces call (Some csabuf_empty) calls = Ok (rs, b')) /\
  (forall rs b', run_pieces call (Some csabuf_empty) calls = Ok (rs, b') ->
   exists fw sw, csa (length points) false (concat (map fst calls)) None = Ok (Some (fw, Some sw), None)
     /\ frames_make agg (bin_frames rs) fw
     /\ forall out, In out (map fst agg) -> join_results (map (column_of out) (snap_frames rs)) = column_of out sw).
Proof.
  intros D V N val agg dtypes t tg points eo calls Hv Hn Ha Hf Hfix Hl He Hne Hs Hpt csa call.
  exact (time_points_calls N val agg dtypes Hv Hn Ha t points Hl He tg Hf Hfix eo calls Hne Hs Hpt).
Qed.
Print Assumptions C60_time_bins.

Theorem C60_row_bins : forall {D V} (N : dtype -> num V) (val : D -> cname -> V) agg dtypes t x c points eo calls,
  agg_valid agg dtypes -> NoDup (map fst agg) -> agg <> [] -> 0 < x ->
  NoDup (map fst points) -> StronglySorted Z.lt (map snd points) ->
  calls <> [] -> sorted (map t (concat (map fst calls))) -> (c = SRight -> no_straddle t x (concat (map fst calls))) ->
  points_in_time t c points [] 0 calls ->
  let csa m eo rows b := cumsegagg N val agg dtypes (row_bins t x c) None (Some t) (points_given points m) eo rows b in
  let call pm b := csa (snd pm) eo (fst pm) b in
  (eo = false -> exists rs b', run_pieces call (Some csabuf_empty) calls = Ok (rs, b')) /\
  (forall rs b', run_pieces call (Some csabuf_empty) calls = Ok (rs, b') ->
   exists fw sw, csa (length points) false (concat (map fst calls)) None = Ok (Some (fw, Some sw), None)
     /\ frames_make agg (bin_frames rs) fw
     /\ forall out, In out (map fst agg) -> join_results (map (column_of out) (snap_frames rs)) = column_of out sw).
Proof.
  intros D V N val agg dtypes t x c points eo calls Hv Hn Ha Hx Hl He Hne Hs Hstr Hpt csa call.
  exact (row_points_calls N val agg dtypes Hv Hn Ha t points Hl He x Hx c eo calls Hne (conj Hs Hstr) Hpt).
Qed.
Print Assumptions C60_row_bins.

(** Three calls, with 2, 2 and 4 points. All points given are passed at the second call. *)
Definition c60_points : list (Z * Z) := [(100, 3); (101, 6); (102, 24); (103, 30)]%Z.
Definition c60_calls : list (list (Z * Z) * nat) := [([(1, 5); (4, 3)]%Z, 2); ([(5, 4); (19, 2)]%Z, 2); ([(22, 6)]%Z, 4)].
Example C60_case : NoDup (map fst c60_points) /\ StronglySorted Z.lt (map snd c60_points) /\ sorted (map fst (concat (map fst c60_calls))) /\
  points_in_time fst SLeft c60_points [] 0 c60_calls /\
  match run_pieces (fun pm b => ex_csa (time_bins fst ex_tg) sbuf_empty (Some fst) (points_given c60_points (snd pm)) true (fst pm) b)
    (Some csabuf_empty) c60_calls with
  | Ok (rs, _) => map f_labels (snap_frames rs) = [[100; 101]; [101]; [102]]%Z /\
      join_results (map (column_of 10) (snap_frames rs)) = [(100, Some 5); (101, Some 4); (102, Some 6)]%Z
  | Err _ => False
  end.
Proof.
  split; [simpl; repeat constructor; simpl; intuition lia|]. split; [simpl; srt|]. split; [simpl; srt|].
  split; [|vm_compute; auto].
  simpl. repeat split; try discriminate; try lia; auto;
    intros le r Hle Hr; repeat (destruct Hle as [<-|Hle]); try contradiction; repeat (destruct Hr as [<-|Hr]); try contradiction; reflexivity.
Qed.

(** What a restart requires of the points: the last one of the previous call has to be there. *)
Theorem C60_missing_point : forall on points c rk lo, ~ In rk (map snd points) ->
  sorted (map snd points) -> points <> [] ->
  exists e, by_scale on (ByVals PIndex (map fst points) (map snd points)) (Some c) (Some (mkSbuf (Some rk) lo)) = Err e /\
    (e = ValueError \/ e = IndexError).
Proof.
  intros on points c rk lo Hin Hs Hne. unfold by_scale. rewrite !map_length, Nat.eqb_refl. simpl negb. cbv iota.
  assert (Ht : sbuf_true (mkSbuf (Some rk) lo) = true) by reflexivity. rewrite Ht. unfold by_vals_restart. cbn [sb_restart].
  destruct points as [|x l] eqn:El; [congruence|]. rewrite <- El in *.
  assert (E0 : getitem PIndex 0 (map snd points) 0 = Ok (snd x)) by (rewrite El; reflexivity). rewrite E0. cbn [bind].
  assert (H1 : (rk =? snd x)%Z = false).
  { apply Z.eqb_neq. intros ->. apply Hin. rewrite El. left; auto. }
  rewrite H1. cbv zeta. destruct (filter (fun e => (rk <=? e)%Z) (map snd points)) as [|y ys] eqn:Ef.
  - simpl. exists IndexError. auto.
  - simpl getitem. cbn [bind].
    assert (H2 : (rk =? y)%Z = false).
    { apply Z.eqb_neq. intros ->. apply Hin. assert (In y (y :: ys)) as Hy by (left; auto). rewrite <- Ef in Hy. apply filter_In in Hy. tauto. }
    rewrite H2. cbn [bind]. exists ValueError. auto.
Qed.
Print Assumptions C60_missing_point.

(** When rows have passed all the points given so far, rows since the last point are aggregated together:
    a new point earlier than the last row is refused. *)
Theorem C60_late_point : forall on c done late rest last_row, let points := done ++ late :: rest in
  done <> [] -> StronglySorted Z.lt (map snd points) ->
  before c (snd late) last_row = false ->
  by_scale on (ByVals PIndex (map fst points) (map snd points)) (Some c)
    (Some (mkSbuf (Some (last (map snd done) 0%Z)) (Some last_row))) = Err ValueError.
Proof.
  intros on c done late rest last_row points Hne Hs Hb. unfold by_scale. rewrite !map_length, Nat.eqb_refl. simpl negb. cbv iota.
  assert (Ht : forall r l, sbuf_true (mkSbuf (Some r) l) = true) by reflexivity. rewrite Ht. unfold by_vals_restart. cbn [sb_restart sb_last_on].
  destruct (exists_last Hne) as (a & x & Ea).
  assert (El : last (map snd done) 0%Z = snd x) by (rewrite Ea, map_app; apply last_last). rewrite El.
  assert (Ep : points = a ++ x :: late :: rest) by (unfold points; rewrite Ea, <- app_assoc; auto).
  rewrite Ep in *. rewrite map_app in Hs. apply lt_sorted_app in Hs as (S1 & S2 & S3).
  assert (Hk : filter (fun e => (snd x <=? e)%Z) (map snd (a ++ x :: late :: rest)) = map snd (x :: late :: rest)).
  { rewrite map_app, filter_app. rewrite (filter_none _ (map snd a)).
    - rewrite app_nil_l. apply forallb_filter_id. apply forallb_forall. intros y Hy. apply Z.leb_le. simpl in Hy.
      destruct Hy as [<-|Hy]; [lia|]. simpl in S2. apply StronglySorted_inv in S2 as [_ S2]. rewrite Forall_forall in S2. specialize (S2 y Hy). lia.
    - intros y Hy. apply Z.leb_gt. apply S3; auto. left; auto. }
  assert (Hb1 : match c with SRight => (snd late <? last_row)%Z | SLeft => (snd late <=? last_row)%Z end = true).
  { destruct c; simpl in Hb; [apply Z.ltb_ge in Hb; apply Z.leb_le|apply Z.leb_gt in Hb; apply Z.ltb_lt]; auto. }
  destruct a as [|y a].
  - simpl. rewrite Z.eqb_refl. simpl. rewrite Hb1. reflexivity.
  - assert (E0 : getitem PIndex 0 (map snd ((y :: a) ++ x :: late :: rest)) 0 = Ok (snd y)) by reflexivity.
    rewrite E0. cbn [bind]. destruct (snd x =? snd y)%Z eqn:Exy.
    { apply Z.eqb_eq in Exy. specialize (S3 (snd y) (snd x)). simpl in S3. exfalso. assert (snd y < snd x)%Z by (apply S3; auto). lia. }
    rewrite Hk. cbv zeta. simpl getitem. cbn [bind]. rewrite Z.eqb_refl. cbn [bind]. simpl. rewrite Hb1. reflexivity.
Qed.
Print Assumptions C60_late_point.

Example C60_late_case : by_scale [25]%Z (ByVals PIndex [100; 101; 102]%Z [3; 6; 24]%Z) (Some SLeft)
    (Some (mkSbuf (Some 6) (Some 24)))%Z = Err ValueError /\
  by_scale [25]%Z (ByVals PIndex [100; 102]%Z [3; 24]%Z) (Some SLeft) (Some (mkSbuf (Some 6) None))%Z = Err ValueError.
Proof. split; reflexivity. Qed.

(** Points given as a pandas Series, the documented type: once a point has been passed, the restart with
    the same points fails. *)
Theorem C60_series_refuted : exists labels ends pieces,
  NoDup labels /\ StronglySorted Z.lt ends /\ sorted (map (fun r => fst r) (concat pieces)) /\
  first_error (run_pieces (fun p b => ex_csa (time_bins fst ex_tg) sbuf_empty (Some fst) (Some (ByVals PSeries labels ends)) true p b)
    (Some csabuf_empty) pieces) = Some KeyError.
Proof.
  exists [100; 101]%Z, [3; 26]%Z, [[(1, 5)]; [(4, 3)]; [(5, 4)]]%Z.
  split; [repeat constructor; simpl; intuition lia|]. split; [srt|]. split; [simpl; srt|]. vm_compute. reflexivity.
Qed.
Print Assumptions C60_series_refuted.
