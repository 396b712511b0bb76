(** Properties: snapshots along with any bins, in streams (C73). *)
Require Import List Arith ZArith Bool Lia Sorted.
Require Import Verif.RecordProofs.
Require Import Verif.Common Verif.AggModel Verif.AggSpec Verif.SegModel Verif.SegSpec Verif.CsaModel Verif.CsaSpec Verif.WrModel Verif.StreamModel Verif.StreamSpec Verif.KeyModel Verif.BatchSpec.
Require Import Verif.UserBinsSpec Verif.UserSnapSpec Verif.CalModel Verif.CalSpec Verif.CalProofs Verif.SnapPointsSpec Verif.UserSnapInst Verif.GridProofs.
Require Import Verif.UserKeyModel Verif.UserKeySpec Verif.PropUser Verif.PropUserKey Verif.PropCal Verif.PropSnapUser.
Require Verif.IterProofs Verif.PropBatch Verif.MonthProofs.
Import ListNotations.
Local Open Scope Z_scope.

(** * Keys whose bins are periods *)
(** Bins: periods of a fixed length, or periods of a calendar. *)
Definition periods := (tgrouper + cgrouper)%type.
Definition closed_on (g : periods) : side := match g with inl tg => tg_closed tg | inr cg => cg_closed cg end.
(** A key with such bins, with or without snapshots, which are also at the end of periods. *)
Definition period_key {D PB} (dtypes : list (cname * dtype)) (idx : D -> Z) (u : uconf D sbuf PB) (g : periods) : Prop :=
  agg_valid (u_agg u) dtypes /\ NoDup (map fst (u_agg u)) /\ u_agg u <> [] /\ u_empty u = sbuf_empty /\
  match g with
  | inl tg => u_bins u = time_bins idx tg /\ 0 < tg_freq tg /\ fixed_periods tg
  | inr cg => u_bins u = cal_by idx cg /\ restartable cg
  end /\
  match u_snap u with
  | None => True
  | Some (ByTG tg) => 0 < tg_freq tg /\ fixed_periods tg
  | Some (ByCal cg) => restartable (with_closed cg (closed_on g))
  | Some (ByVals _ _ _) => False
  end.
(** A stream: as [any_stream_ok], [per] giving the periods of keys. *)
Definition period_stream_ok {D V PB} (N : dtype -> num V) (val : D -> cname -> V) dtypes (idx : D -> Z) (enc : option V -> Z) (per : uconf D sbuf PB -> periods) m ms
    (gs : list (nat * (D -> bool))) (confs : list (@anykey D sbuf PB)) (seed : list D) : Prop :=
  forall c, In c confs -> post_does (any_post c) (any_type c) (m c) (ms c) /\
    exists keep, In (any_filter c, keep) gs /\
      match c with
      | inl c => conf_ok dtypes c /\ no_tie idx c (given idx keep seed)
      | inr u => period_key dtypes idx u (per u)
      end.

(** What these keys make. *)
Definition period_spec {D PB} (idx : D -> Z) (per : uconf D sbuf PB -> periods) (u : uconf D sbuf PB) : uspec D sbuf :=
  let c := closed_on (per u) in
  mkUspec (match per u with inl tg => time_groups_of idx tg | inr cg => cal_bins idx cg end)
    (match per u with inl tg => time_after idx tg | inr cg => cal_after idx cg end) (fun rows => sorted (map idx rows)) c
    (match per u with inl tg => time_ends idx tg | inr cg => cal_ends idx cg end)
    (match u_snap u with Some (ByTG tg) => time_points c tg | Some (ByCal cg) => cal_points c cg | _ => fun _ => [] end)
    (match u_snap u with Some (ByTG tg) => time_points_after c tg | Some (ByCal cg) => cal_points_after c cg | _ => fun _ _ => True end).

Lemma time_point_labels : forall c tg on, 0 < tg_freq tg -> StronglySorted Z.lt (map fst (time_points c tg on)).
Proof. intros c tg on Hf. exact (grid_labels _ _ (fun v => kappa c (anchor tg) (tg_freq tg)) (fun v => kappa c (anchor tg) (tg_freq tg) v) (time_edge_inc tg Hf) (time_lab_inc tg Hf) on). Qed.
Lemma cal_point_labels : forall c cg on, restartable (with_closed cg c) -> StronglySorted Z.lt (map fst (cal_points c cg on)).
Proof.
  intros c cg on R. pose proof (grid_labels _ _ (fun v => bin_of (with_closed cg c) (first_point (with_closed cg c) v)) (fun _ => 0) (cal_edge_inc (with_closed cg c) R) (cal_lab_inc (with_closed cg c) R) on) as G.
  destruct on; exact G.
Qed.
Lemma time_group_labels : forall {D} (t : D -> Z) tg rows, 0 < tg_freq tg -> StronglySorted Z.lt (map fst (time_groups_of t tg rows)).
Proof.
  intros D t tg rows Hf. unfold time_groups_of. destruct (map t rows) as [|v l]; [constructor|]. unfold time_groups. rewrite map_map. cbn [fst]. apply BatchKeyProofs.labels_strict. auto.
Qed.

Lemma period_any_ok : forall {D V PB} (N : dtype -> num V) (val : D -> cname -> V) dtypes (idx : D -> Z) enc per m ms gs (confs : list (@anykey D sbuf PB)) seed,
  sorted (map idx seed) -> period_stream_ok N val dtypes idx enc per m ms gs confs seed -> any_stream_ok N val dtypes idx enc (period_spec idx per) m ms gs confs seed.
Proof.
  intros D V PB N val dtypes idx enc per m ms gs confs seed Hs H c Hin. destruct (H c Hin) as (P & keep & K & Hc). split; auto. exists keep. split; auto.
  destruct c as [c|u]; auto. split; [|apply IterProofs.sorted_filter; auto].
  destruct Hc as (H1 & H2 & H3 & H4 & H5 & H6). split; auto. split; auto. split; auto. rewrite H4. unfold period_spec. cbn [us_bins us_after us_good us_closed us_ends us_points us_safter].
  assert (Q : forall by_, u_snap u = Some by_ ->
    snapping by_ (closed_on (per u)) (match u_snap u with Some (ByTG tg) => time_points (closed_on (per u)) tg | Some (ByCal cg) => cal_points (closed_on (per u)) cg | _ => fun _ => [] end)
      (match u_snap u with Some (ByTG tg) => time_points_after (closed_on (per u)) tg | Some (ByCal cg) => cal_points_after (closed_on (per u)) cg | _ => fun _ _ => True end) /\
    (forall on, sorted on -> StronglySorted Z.lt (map fst ((match u_snap u with Some (ByTG tg) => time_points (closed_on (per u)) tg | Some (ByCal cg) => cal_points (closed_on (per u)) cg | _ => fun _ => [] end) on)))).
  { intros by_ E. rewrite E in H6 |- *. destruct by_ as [tg|cg|]; [| |destruct H6].
    - destruct H6 as [F1 F2]. split; [apply time_snapping; auto|intros; apply time_point_labels; auto].
    - split; [apply cal_snapping; auto|intros; apply cal_point_labels; auto]. }
  destruct (per u) as [tg|cg]; cbn [closed_on] in *.
  - destruct H5 as (-> & F1 & F2). split; [apply time_binning; auto|]. split; [intros; apply time_group_labels; auto|].
    intros by_ E. split; [apply time_bin_ends; auto|]. apply (Q by_ E).
  - destruct H5 as (-> & R). pose proof R as (R1 & R2 & R3). split; [apply cal_binning; auto|]. split; [intros; apply cal_labels; auto|].
    intros by_ E. split; [apply cal_bin_ends; auto|]. apply (Q by_ E).
Qed.

(** Streamed aggregation makes the bins and the snapshots of a single aggregation, whatever the runs and chunks. *)
Theorem C73_streamed_is_batch : forall {D V P PB} (N : dtype -> num V) val dtypes (idx : D -> Z) enc truthy usage
    (pre : option (list D -> P -> list D * P * bool)) fs gs pre0 post0 (confs : list (@anykey D sbuf PB)) per m ms rs g,
  harmless pre -> filters_are fs gs -> growing idx [] rs -> period_stream_ok N val dtypes idx enc per m ms gs confs (whole_seed [] rs) ->
  ((forall c, In c confs -> any_nirgs c = None) \/ ((forall i, truthy i = true) /\ all_written true rs)) ->
  run_all idx truthy usage pre fs pre0 anybuf_empty post0 (new_stream pre0 anybuf_empty post0 (map (any_key N val dtypes idx enc) confs)) rs = Ok g ->
  rs <> [] -> r_final (last rs (mkRun false false [])) = true ->
  any_batch N val dtypes idx enc m ms gs confs (whole_seed [] rs) g.
Proof.
  intros D V P PB N val dtypes idx enc truthy usage pre fs gs pre0 post0 confs per m ms rs g Hp Hf Hg Hok Hc E Hne Hl.
  assert (Hs : sorted (map idx (whole_seed [] rs))) by (apply PropBatch.sorted_whole; auto; constructor).
  exact (C68_streamed_is_batch N val dtypes idx enc truthy usage pre fs gs pre0 post0 confs _ m ms rs g Hp Hf Hg (period_any_ok _ _ _ _ _ _ _ _ _ _ _ Hs Hok) Hc E Hne Hl).
Qed.
Print Assumptions C73_streamed_is_batch.

(** Runs are accepted, with the same conditions as in C68_accepted. *)
Theorem C73_accepted : forall {D V P PB} (N : dtype -> num V) val dtypes (idx : D -> Z) enc truthy usage
    (pre : option (list D -> P -> list D * P * bool)) fs gs pre0 post0 (confs : list (@anykey D sbuf PB)) per m ms rs w,
  harmless pre -> filters_are fs gs -> growing idx [] rs -> period_stream_ok N val dtypes idx enc per m ms gs confs (whole_seed [] rs) ->
  (forall i, truthy i = true) -> all_written true rs -> 0 <= w -> (forall f, usage f <= w * Z.of_nat (S (length (rows f)))) ->
  (forall c keep, In c confs -> In (any_filter c, keep) gs -> any_accepted N val dtypes idx enc c w (chunks_between 0 rs) (given idx keep (whole_seed [] rs))) ->
  exists g, run_all idx truthy usage pre fs pre0 anybuf_empty post0 (new_stream pre0 anybuf_empty post0 (map (any_key N val dtypes idx enc) confs)) rs = Ok g /\
    (rs <> [] -> r_final (last rs (mkRun false false [])) = true -> any_batch N val dtypes idx enc m ms gs confs (whole_seed [] rs) g).
Proof.
  intros D V P PB N val dtypes idx enc truthy usage pre fs gs pre0 post0 confs per m ms rs w Hp Hf Hg Hok.
  assert (Hs : sorted (map idx (whole_seed [] rs))) by (apply PropBatch.sorted_whole; auto; constructor).
  exact (C68_accepted N val dtypes idx enc truthy usage pre fs gs pre0 post0 confs _ m ms rs w Hp Hf Hg (period_any_ok _ _ _ _ _ _ _ _ _ _ _ Hs Hok)).
Qed.
Print Assumptions C73_accepted.

(** With interruptions. *)
Theorem C73_interrupted_is_batch : forall {D V P PB} (N : dtype -> num V) val dtypes (idx : D -> Z) enc truthy usage
    (pre : option (list D -> P -> list D * P * bool)) fs gs pre0 post0 (confs : list (@anykey D sbuf PB)) per m ms rs g0 xs g r,
  harmless pre -> filters_are fs gs -> growing idx [] rs -> growing idx (whole_seed [] rs) (map run_of xs) ->
  period_stream_ok N val dtypes idx enc per m ms gs confs (whole_seed (whole_seed [] rs) (map run_of xs)) ->
  (forall c, In c confs -> any_nirgs c = None /\ any_type c <> BOTH) ->
  run_all idx truthy usage pre fs pre0 anybuf_empty post0 (new_stream pre0 anybuf_empty post0 (map (any_key N val dtypes idx enc) confs)) rs = Ok g0 ->
  (forall s, In s (map snd (g_keys g0)) -> s_main s <> None) ->
  restarted false xs -> step_all idx truthy usage pre fs pre0 anybuf_empty post0 g0 xs = Ok g ->
  last xs (Complete (mkRun false false [])) = Complete r -> r_final r = true ->
  any_batch N val dtypes idx enc m ms gs confs (whole_seed (whole_seed [] rs) (map run_of xs)) g.
Proof.
  intros D V P PB N val dtypes idx enc truthy usage pre fs gs pre0 post0 confs per m ms rs g0 xs g r Hp Hf Hg Hg' Hok.
  assert (Hs0 : sorted (map idx (whole_seed [] rs))) by (apply PropBatch.sorted_whole; auto; constructor).
  assert (Hs : sorted (map idx (whole_seed (whole_seed [] rs) (map run_of xs)))) by (apply PropBatch.sorted_whole; auto).
  exact (C68_interrupted_is_batch N val dtypes idx enc truthy usage pre fs gs pre0 post0 confs _ m ms rs g0 xs g r Hp Hf Hg Hg' (period_any_ok _ _ _ _ _ _ _ _ _ _ _ Hs Hok)).
Qed.
Print Assumptions C73_interrupted_is_batch.

(** * Concrete cases *)
(** A key by month with snapshots at the end of weeks, both kept; a key by 5 days with snapshots at the end of months, these being kept only. *)
Import PropBatch.
Definition ex_W : uconf ex_row sbuf nat := mkUconf 0 ex_agg (cal_by ex_idx by_month) sbuf_empty (Some (ByCal by_week)) true None 1000 (Some 2) (Some 2) None.
Definition ex_F : uconf ex_row sbuf nat := mkUconf 1 ex_agg (time_bins ex_idx by_5_days) sbuf_empty (Some (ByCal by_month)) false None 1000 (Some 2) None None.
Definition ex_per (u : uconf ex_row sbuf nat) : periods := match u_filter u with O => inr by_month | _ => inl by_5_days end.
Definition ex_snap : list (@anykey ex_row sbuf nat) := [inr ex_W; inr ex_F].
Notation ex_snap_stream cs := (new_stream tt (anybuf_empty : @anybuf Z sbuf) 0%nat (map (any_key (fun _ => Znum) ex_val ex_dtypes ex_idx ex_enc) cs) : stream ex_row unit (@anybuf Z sbuf) nat).
Definition ex_snap_data (g : stream ex_row unit (@anybuf Z sbuf) nat) := map (fun x => (all_rows (data_of (s_main (snd x))), all_rows (data_of (s_snap (snd x))))) (g_keys g).
Definition ex_snap_seed : list (list ex_row) := [concat ex_cal_seed1; [(at_ 2020 3 3 1, 6)]; [(at_ 2020 3 9 7, 8); (at_ 2020 3 9 8, 9)]].
Definition ex_snap_runs := [mkRun true false ex_cal_seed1; mkRun false true ex_snap_seed].
Definition ex_snap_results : list (list row * list row) :=
  [([[at_ 2020 1 1 0; 3; 2]; [at_ 2020 2 1 0; 7; 4]; [at_ 2020 3 1 0; 14; 8]],
    [[at_ 2020 1 19 0; 1; 1]; [at_ 2020 1 26 0; 1; 1]; [at_ 2020 2 2 0; 3; 3]; [at_ 2020 2 9 0; 3; 3]; [at_ 2020 2 16 0; 3; 3]; [at_ 2020 2 23 0; 3; 3]; [at_ 2020 3 1 0; 7; 4];
     [at_ 2020 3 8 0; 6; 6]; [at_ 2020 3 15 0; 14; 8]]);
   ([[at_ 2020 1 1 0; 2; 2]; [at_ 2020 2 1 0; 4; 4]; [at_ 2020 3 1 0; -1; -1]], [])].
Lemma ex_snap_growing : growing ex_idx [] ex_snap_runs.
Proof.
  repeat split; try (apply IterProofs.sortedb_iff; vm_compute; reflexivity); try (apply ex_chunks; vm_compute; reflexivity).
  - extended.
  - extended.
Qed.
Lemma ex_snap_ok : forall seed, period_stream_ok (fun _ => Znum) ex_val ex_dtypes ex_idx ex_enc ex_per (fun _ r => r) (fun _ r => r) ex_gs ex_snap seed.
Proof.
  destruct (ex_conf_ok ex_A ltac:(left; auto)) as (A1 & A2 & A3 & _).
  intros seed c [<-|[<-|[]]].
  - split; [split; [|split]; cbn; auto|]. eexists. split; [left; reflexivity|]. split; [exact A1|]. split; [exact A2|]. split; [exact A3|]. split; [reflexivity|].
    split; [split; [reflexivity|split; [exact MonthProofs.month_starts_ok|split; [reflexivity|auto]]]|]. split; [apply MonthProofs.weeks_ok|split; [reflexivity|auto]].
  - split; [split; [|split]; cbn; auto|]. eexists. split; [right; left; reflexivity|]. split; [exact A1|]. split; [exact A2|]. split; [exact A3|]. split; [reflexivity|].
    split; [split; [reflexivity|split; [reflexivity|exact I]]|]. split; [exact MonthProofs.month_starts_ok|split; [reflexivity|auto]].
Qed.
Example ex_C73_streamed : exists g, ex_cal_run (ex_snap_stream ex_snap) ex_snap_runs = Ok g /\
  any_batch (fun _ => Znum) ex_val ex_dtypes ex_idx ex_enc (fun _ r => r) (fun _ r => r) ex_gs ex_snap (whole_seed [] ex_snap_runs) g /\ ex_snap_data g = ex_snap_results.
Proof.
  destruct (C73_accepted (fun _ => Znum) ex_val ex_dtypes ex_idx ex_enc (fun _ => true) (fun f => Z.of_nat (length (rows f)))
    (None : option (list ex_row -> unit -> list ex_row * unit * bool)) ex_fs ex_gs tt 0%nat ex_snap ex_per (fun _ r => r) (fun _ r => r) ex_snap_runs 1) as (g & E & B).
  - exact I.
  - apply ex_filters_are.
  - apply ex_snap_growing.
  - apply ex_snap_ok.
  - reflexivity.
  - repeat split; auto.
  - lia.
  - intro f. lia.
  - intros c keep Hc Hk.
    assert (Nz : never_zero (fun _ => Znum) ex_val ex_dtypes ex_A1 (given ex_idx keep (whole_seed [] ex_snap_runs))).
    { destruct Hk as [Hk|[Hk|[]]]; injection Hk as _ <-; apply never_zero_pos; try reflexivity; vm_compute; reflexivity. }
    destruct Hc as [<-|[<-|[]]]; destruct Hk as [Hk|[Hk|[]]]; try discriminate; injection Hk as <-.
    + split; [reflexivity|]. split; [intros z H; injection H as <-; lia|]. split; [intros z H; injection H as <-; lia|]. split; [exact I|]. split; [exact Nz|vm_compute; discriminate].
    + split; [reflexivity|]. split; [intros z H; injection H as <-; lia|]. split; [intros z H; discriminate|]. split; [exact I|]. split; [exact Nz|vm_compute; discriminate].
  - exists g. split; [exact E|]. split; [apply B; [discriminate|reflexivity]|].
    destruct (shown_ok _ _ ex_snap_data (ex_cal_run (ex_snap_stream ex_snap) ex_snap_runs) ex_snap_results ltac:(vm_cast_no_check (eq_refl (Some ex_snap_results)))) as (g' & E' & Ed).
    assert (Some g = Some g') as Q by (exact (f_equal (fun r => match r with Ok a => Some a | Err _ => None end) (eq_trans (eq_sym E) E'))). injection Q as ->. exact Ed.
Qed.

(** A run is interrupted after the first modification. *)
Definition ex_F2 : uconf ex_row sbuf nat := mkUconf 1 ex_agg (time_bins ex_idx by_5_days) sbuf_empty (Some (ByCal by_week)) false None 1 (Some 2) None None.
Definition ex_snap_steps := [Interrupted (mkRun false true ex_snap_seed) [1]%nat; Complete (mkRun true true [concat ex_snap_seed; [(at_ 2020 4 1 0, 1)]])].
Lemma ex_F2_ok : forall seed, period_stream_ok (fun _ => Znum) ex_val ex_dtypes ex_idx ex_enc ex_per (fun _ r => r) (fun _ r => r) ex_gs [inr ex_F2] seed.
Proof.
  destruct (ex_conf_ok ex_A ltac:(left; auto)) as (A1 & A2 & A3 & _).
  intros seed c [<-|[]]. split; [split; [|split]; cbn; auto|]. eexists. split; [right; left; reflexivity|]. split; [exact A1|]. split; [exact A2|]. split; [exact A3|]. split; [reflexivity|].
  split; [split; [reflexivity|split; [reflexivity|exact I]]|]. split; [apply MonthProofs.weeks_ok|split; [reflexivity|auto]].
Qed.
Lemma ex_snap_steps_growing : growing ex_idx (whole_seed [] [mkRun true true ex_cal_seed1]) (map run_of ex_snap_steps).
Proof.
  repeat split; try (apply IterProofs.sortedb_iff; vm_compute; reflexivity); try (apply ex_chunks; vm_compute; reflexivity).
  - extended.
  - extended.
Qed.
Example ex_C73_interrupted : exists g0 g, ex_cal_run (ex_snap_stream [inr ex_F2]) [mkRun true true ex_cal_seed1] = Ok g0 /\ ex_cal_step g0 ex_snap_steps = Ok g /\
  any_batch (fun _ => Znum) ex_val ex_dtypes ex_idx ex_enc (fun _ r => r) (fun _ r => r) ex_gs [inr ex_F2] (whole_seed (whole_seed [] [mkRun true true ex_cal_seed1]) (map run_of ex_snap_steps)) g /\
  ex_snap_data g = [([[at_ 2020 2 2 0; 2; 2]; [at_ 2020 2 9 0; -1; -1]; [at_ 2020 2 16 0; -1; -1]; [at_ 2020 2 23 0; -1; -1]; [at_ 2020 3 1 0; 4; 4]; [at_ 2020 3 8 0; -1; -1]; [at_ 2020 3 15 0; -1; -1]], [])].
Proof.
  set (R := [([[at_ 2020 2 2 0; 2; 2]; [at_ 2020 2 9 0; -1; -1]; [at_ 2020 2 16 0; -1; -1]; [at_ 2020 2 23 0; -1; -1]; [at_ 2020 3 1 0; 4; 4]; [at_ 2020 3 8 0; -1; -1]; [at_ 2020 3 15 0; -1; -1]], [] : list row)]).
  destruct (shown_ok _ _ (fun g => map (fun x => match s_main (snd x) with Some _ => true | None => false end) (g_keys g)) (ex_cal_run (ex_snap_stream [inr ex_F2]) [mkRun true true ex_cal_seed1]) [true]
    ltac:(vm_cast_no_check (eq_refl (Some [true])))) as (g0 & E0 & Em).
  assert (Es : exists g, bind (ex_cal_run (ex_snap_stream [inr ex_F2]) [mkRun true true ex_cal_seed1]) (fun g0 => ex_cal_step g0 ex_snap_steps) = Ok g /\ ex_snap_data g = R).
  { apply shown_ok. vm_cast_no_check (eq_refl (Some R)). }
  destruct Es as (g & Es & Ed). assert (E : ex_cal_step g0 ex_snap_steps = Ok g) by (exact (eq_trans (f_equal (fun r => bind r (fun g0 => ex_cal_step g0 ex_snap_steps)) (eq_sym E0)) Es)).
  exists g0, g. split; [exact E0|]. split; [exact E|]. split; [|exact Ed].
  refine (C73_interrupted_is_batch (fun _ => Znum) ex_val ex_dtypes ex_idx ex_enc (fun _ => true) (fun f => Z.of_nat (length (rows f)))
    (None : option (list ex_row -> unit -> list ex_row * unit * bool)) ex_fs ex_gs tt 0%nat [inr ex_F2] ex_per (fun _ r => r) (fun _ r => r)
    [mkRun true true ex_cal_seed1] g0 ex_snap_steps g _ _ _ _ _ _ _ E0 _ _ E eq_refl eq_refl).
  - exact I.
  - apply ex_filters_are.
  - destruct ex_snap_growing as (A & B & C & _). exact (conj A (conj B (conj C I))).
  - exact ex_snap_steps_growing.
  - apply ex_F2_ok.
  - intros c [<-|[]]; split; auto; discriminate.
  - intros s Hs Q. apply in_map_iff in Hs as (x & Ex & Hx). assert (Hin : In false [true]) by (rewrite <- Em; apply in_map_iff; exists x; rewrite Ex, Q; auto). destruct Hin as [Q0|[]]; discriminate.
  - split; [discriminate|]. split; [reflexivity|exact I].
Qed.

(** Runs of equal values made by a function of the user, with snapshots every 2 units of time, both kept (C68). *)
Definition ex_own : uconf ex_row (list ex_row) nat := mkUconf 0 ex_agg (ends_bin_by ex_idx runs) [] (Some (ByTG PropCsa.ex_snap)) true None 1000 (Some 2) (Some 2) None.
Definition ex_own_spec : uspec ex_row (list ex_row) :=
  mkUspec runs (fun rows b => b = rows) (fun rows => sorted (map fst rows)) SLeft (next_ends fst runs) (time_points SLeft PropCsa.ex_snap) (time_points_after SLeft PropCsa.ex_snap).
Lemma ex_own_ok : forall seed, sorted (map fst seed) ->
  any_stream_ok (fun _ => Znum) ex_val ex_dtypes ex_idx ex_enc (fun _ => ex_own_spec) (fun _ r => r) (fun _ r => r) ex_gs [inr ex_own] seed.
Proof.
  destruct (ex_conf_ok ex_A ltac:(left; auto)) as (A1 & A2 & A3 & _). destruct ex_C73_user as (B1 & B2 & _).
  intros seed Hs c [<-|[]]. split; [split; [|split]; cbn; auto|]. eexists. split; [left; reflexivity|]. split; [|apply IterProofs.sorted_filter; auto].
  split; [exact A1|]. split; [exact A2|]. split; [exact A3|]. split; [exact B1|]. split; [intros rows _ _; apply runs_strict|].
  intros by_ E. injection E as <-. split; [exact B2|]. split; [apply time_snapping; [reflexivity|exact I]|]. intros on _. apply time_point_labels. reflexivity.
Qed.
Notation ex_own_stream := (ex_any [inr ex_own]).
Definition ex_own_data (g : stream ex_row unit (@anybuf Z (list ex_row)) nat) := map (fun x => (all_rows (data_of (s_main (snd x))), all_rows (data_of (s_snap (snd x))))) (g_keys g).
Example ex_C73_own : exists g, ex_any_run ex_own_stream ex_user_runs = Ok g /\
  any_batch (fun _ => Znum) ex_val ex_dtypes ex_idx ex_enc (fun _ r => r) (fun _ r => r) ex_gs [inr ex_own] (whole_seed [] ex_user_runs) g /\
  ex_own_data g = [([[0; 3; 1]; [1; 8; 4]; [2; 8; 8]; [3; 27; 9]; [4; 3; 1]], [[0; 1; 1]; [2; 2; 1]; [4; 4; 4]; [6; 8; 4]; [8; 8; 4]; [10; 9; 9]; [12; 27; 9]; [14; 3; 1]])].
Proof.
  set (R := [([[0; 3; 1]; [1; 8; 4]; [2; 8; 8]; [3; 27; 9]; [4; 3; 1]], [[0; 1; 1]; [2; 2; 1]; [4; 4; 4]; [6; 8; 4]; [8; 8; 4]; [10; 9; 9]; [12; 27; 9]; [14; 3; 1]])]).
  destruct (shown_ok _ _ ex_own_data (ex_any_run ex_own_stream ex_user_runs) R ltac:(vm_cast_no_check (eq_refl (Some R)))) as (g & E & Ed).
  exists g. split; [exact E|]. split; [|exact Ed].
  refine (C68_streamed_is_batch (fun _ => Znum) ex_val ex_dtypes ex_idx ex_enc (fun _ => true) (fun f => Z.of_nat (length (rows f)))
    (None : option (list ex_row -> unit -> list ex_row * unit * bool)) ex_fs ex_gs tt 0%nat [inr ex_own] (fun _ => ex_own_spec) (fun _ r => r) (fun _ r => r) ex_user_runs g _ _ _ _ _ E _ eq_refl).
  - exact I.
  - apply ex_filters_are.
  - exact ex_user_growing.
  - apply ex_own_ok. apply sorted_whole; [exact ex_user_growing|constructor].
  - left. intros c [<-|[]]; reflexivity.
  - discriminate.
Qed.
