(** Bins and points of snapshots along a grid: periods of a fixed length, or of a calendar. *)
Require Import List Arith ZArith Bool Lia Sorted.
Require Import Verif.Common Verif.SegModel Verif.SegSpec Verif.SegProofs Verif.UserBinsSpec Verif.UserSnapSpec Verif.CalModel Verif.CalSpec Verif.CalProofs.
Require Verif.MergeProofs.
Import ListNotations.
Local Open Scope Z_scope.

Section Calls.
Variable c : side.
(** Labels and limits of cells, number of the cell of a value, and number of the first cell, given the first value. *)
Variables (lab edge kap : Z -> Z -> Z) (k0 : Z -> Z).
Hypothesis edge_inc : forall v i j, i < j -> edge v i < edge v j.
Hypothesis edge_kap : forall v k x, before c (edge v k) x = (kap v x <? k).
Hypothesis lab_inc : forall v i j, i < j -> lab v i < lab v j.
Hypothesis k0_le : forall v, k0 v <= kap v v.

Definition grid_seg (v : Z) (on : list Z) (K : Z) : seg :=
  let k1 := kap v (last on 0) in
  mkSeg (gstarts c (edge v) on K k1) (map (lab v) (zrange K k1)) (n_empty 0 (gstarts c (edge v) on K k1)) c (map (fun k => edge v (k + 1)) (zrange K k1)) false 0.

Variable call : list Z -> option sbuf -> res (seg * option sbuf).
(** Content of the buffer from which bins are made again from the one of a given number. *)
Variable restarts : Z -> sbuf -> Z -> Prop.
Hypothesis Honce : forall on, on <> [] -> sorted on -> call on None = Ok (grid_seg (hd 0 on) on (k0 (hd 0 on)), None).
Hypothesis Hfirst : forall on, on <> [] -> sorted on -> exists b',
  call on (Some sbuf_empty) = Ok (grid_seg (hd 0 on) on (k0 (hd 0 on)), Some b') /\ restarts (hd 0 on) b' (kap (hd 0 on) (last on 0)).
Hypothesis Hnext : forall v on b K, on <> [] -> sorted on -> restarts v b K -> K <= kap v (hd 0 on) -> exists b',
  call on (Some b) = Ok (grid_seg v on K, Some b') /\ restarts v b' (kap v (last on 0)).

Definition grid_points (on : list Z) : list (Z * Z) :=
  match on with
  | [] => []
  | v :: _ => map (fun k => (lab v k, edge v (k + 1))) (zrange (k0 v) (kap v (last on 0)))
  end.
Definition grid_after (on : list Z) (b : sbuf) : Prop :=
  match on with
  | [] => b = sbuf_empty
  | v :: _ => restarts v b (kap v (last on 0))
  end.

Lemma points_is : forall on, on <> [] -> grid_points on = map (fun k => (lab (hd 0 on) k, edge (hd 0 on) (k + 1))) (zrange (k0 (hd 0 on)) (kap (hd 0 on) (last on 0))).
Proof. intros [|v on] H; [congruence|auto]. Qed.
Lemma after_is : forall on b, on <> [] -> (grid_after on b <-> restarts (hd 0 on) b (kap (hd 0 on) (last on 0))).
Proof. intros [|v on] b H; [congruence|reflexivity]. Qed.
Lemma kmono : forall v x y, x <= y -> kap v x <= kap v y.
Proof. intros v x y. apply (kap_mono c (edge v) (kap v) (edge_kap v)). Qed.
Lemma k0_last : forall on, on <> [] -> sorted on -> k0 (hd 0 on) <= kap (hd 0 on) (last on 0).
Proof. intros on H Hs. etransitivity; [apply k0_le|]. apply kmono. apply sorted_last_ge; auto. destruct on; [congruence|left; auto]. Qed.

(** More values. *)
Lemma grid_more : forall on more, on <> [] -> more <> [] -> sorted (on ++ more) ->
  let v := hd 0 on in let K := kap v (last on 0) in let K' := kap v (last more 0) in
  hd 0 (on ++ more) = v /\ last (on ++ more) 0 = last more 0 /\ k0 v <= K /\ K <= kap v (hd 0 more) /\ K <= K' /\
  sorted on /\ sorted more.
Proof.
  intros on more H Hm Hs v K K'. apply sorted_app in Hs as (S1 & S2 & S3).
  assert (L1 : In (last on 0) on) by (apply last_In; auto). assert (L2 : In (last more 0) more) by (apply last_In; auto).
  split; [unfold v; destruct on; [congruence|auto]|]. split.
  { destruct (exists_last Hm) as (m' & y & ->). rewrite app_assoc, !last_last. auto. }
  split; [apply k0_last; auto|]. split; [apply kmono, S3; auto; destruct more; [congruence|left; auto]|]. split; [apply kmono, S3; auto|]. auto.
Qed.

Lemma grid_tells : forall v on K, on <> [] -> sorted on -> tells c (grid_seg v on K) on (map (fun k => (lab v k, edge v (k + 1))) (zrange K (kap v (last on 0)))).
Proof.
  intros v on K H Hs. split; cbn [grid_seg s_labels s_ends s_starts s_nnull s_label_idx]; rewrite ?map_map; auto.
Qed.
Lemma points_order : forall v K k1, StronglySorted Z.lt (map (lab v) (zrange K k1)) /\ sorted (map (fun k => edge v (k + 1)) (zrange K k1)).
Proof.
  intros v K k1. split; [|apply (gedges_sorted (edge v) (edge_inc v))].
  remember (Z.to_nat (k1 - K + 1)) as m eqn:Em. revert K Em. induction m as [|m IH]; intros K Em.
  - rewrite zrange_nil by lia. constructor.
  - rewrite zrange_cons by lia. simpl. constructor; [apply IH; lia|]. apply Forall_forall. intros x Hx. apply in_map_iff in Hx as (k & <- & Hk).
    apply zrange_In in Hk. apply lab_inc. lia.
Qed.
Lemma SSorted_lt_NoDup : forall l, StronglySorted Z.lt l -> NoDup l.
Proof. induction l as [|x l IH]; intros H; constructor; apply StronglySorted_inv in H as [H1 H2]; auto. intro Q. rewrite Forall_forall in H2. specialize (H2 x Q). lia. Qed.
Lemma grid_labels : forall on, StronglySorted Z.lt (map fst (grid_points on)).
Proof. intros [|v on]; [constructor|]. rewrite points_is by discriminate. rewrite map_map. cbn [fst]. apply points_order. Qed.

(** [points] of more values. *)
Lemma points_more : forall on more, on <> [] -> more <> [] -> sorted (on ++ more) ->
  let v := hd 0 on in let K := kap v (last on 0) in let pt := fun k => (lab v k, edge v (k + 1)) in
  grid_points on = map pt (zrange (k0 v) (K - 1)) ++ [pt K] /\
  grid_points (on ++ more) = map pt (zrange (k0 v) (K - 1)) ++ map pt (zrange K (kap v (last more 0))).
Proof.
  intros on more H Hm Hs v K pt. destruct (grid_more on more H Hm Hs) as (A1 & A2 & A3 & A4 & A5 & A6 & A7). fold v in A1, A3, A4, A5. fold K in A3, A4, A5. split.
  - rewrite points_is by auto. fold v. fold K. rewrite zrange_snoc by auto. rewrite map_app. auto.
  - rewrite points_is by (destruct on; simpl; congruence). rewrite A1, A2. rewrite (zrange_app (k0 v) (K - 1)) by lia. rewrite map_app.
    replace (K - 1 + 1) with K by ring. auto.
Qed.

Theorem grid_snapping : forall by_, (forall on b, call on b = by_scale on by_ (Some c) b) -> snapping by_ c grid_points grid_after.
Proof.
  intros by_ Hcall. split; [split| | | |].
  - intros on _. apply SSorted_lt_NoDup, grid_labels.
  - intros [|v on] _; [constructor|]. rewrite points_is by discriminate. rewrite map_map. apply points_order.
  - intros on H Hs. eexists. rewrite <- Hcall. split; [apply Honce; auto|]. rewrite points_is by auto. apply grid_tells; auto.
  - split; reflexivity.
  - intros on more H Hs. destruct more as [|m0 more].
    + rewrite app_nil_r in *. rewrite points_is by auto. rewrite zrange_snoc by (apply k0_last; auto). rewrite map_app. do 3 eexists. split; reflexivity.
    + destruct (points_more on (m0 :: more) H ltac:(discriminate) Hs) as [E1 E2].
      cbv zeta in E1, E2. destruct (grid_more on (m0 :: more) H ltac:(discriminate) Hs) as (_ & _ & _ & _ & A5 & _). rewrite (zrange_cons _ _ A5) in E2. cbn [map] in E2. do 3 eexists. split; [exact E1|exact E2].
  - intros on ps x H Hs E. rewrite points_is in E by auto. set (v := hd 0 on) in *. rewrite zrange_snoc in E by (apply k0_last; auto). rewrite map_app in E. cbn [map] in E.
    apply app_inj_tail in E as [<- <-]. cbn [snd]. split.
    + intros w Hw. rewrite edge_kap. apply Z.ltb_lt. pose proof (kmono v w (last on 0) (sorted_last_ge on w Hs Hw)). lia.
    + intros y Hy. apply in_map_iff in Hy as (k & <- & Hk). cbn [snd]. rewrite edge_kap. apply Z.ltb_ge. apply zrange_In in Hk. lia.
  - intros on more b Hm Hs Ha. destruct on as [|v0 on0].
    + red in Ha. subst b. cbn [app] in *. destruct (Hfirst more Hm Hs) as (b' & E & R'). exists (grid_seg (hd 0 more) more (k0 (hd 0 more))), b'. rewrite <- Hcall. split; auto. split; [apply after_is; auto|].
      cbn [grid_points length Nat.sub skipn]. rewrite points_is by auto. apply grid_tells; auto.
    + set (on := v0 :: on0) in *. assert (H : on <> []) by discriminate. clearbody on.
      destruct (grid_more on more H Hm Hs) as (A1 & A2 & A3 & A4 & A5 & A6 & A7). apply after_is in Ha; auto.
      destruct (Hnext (hd 0 on) more b _ Hm A7 Ha A4) as (b' & E & R').
      exists (grid_seg (hd 0 on) more (kap (hd 0 on) (last on 0))), b'. rewrite <- Hcall. split; auto. split.
      * apply after_is; [destruct on; simpl; congruence|]. rewrite A1, A2. auto.
      * destruct (points_more on more H Hm Hs) as [E1 E2]. cbv zeta in E1, E2. rewrite E1, E2, app_length. cbn [length]. rewrite Nat.add_sub, skipn_app, skipn_all, Nat.sub_diag. cbn [app skipn]. apply grid_tells; auto.
Qed.

(** Bins along the grid. *)
Context {D : Type} (t : D -> Z).
Definition grid_bins (rows : list D) : list (Z * list D) :=
  match map t rows with
  | [] => []
  | v :: _ => map (fun k => (lab v k, filter (fun r => kap v (t r) =? k) rows)) (zrange (k0 v) (kap v (last (map t rows) 0)))
  end.
Definition grid_ends (rows : list D) : list Z := map snd (grid_points (map t rows)).
Notation hd_ rows := (hd 0 (map t rows)).
Notation lastk rows := (kap (hd_ rows) (last (map t rows) 0)).
Notation cell v k rows := (filter (fun r : D => in_cell (kap v) k (t r)) rows).

Lemma map_ne_ : forall rows : list D, rows <> [] -> map t rows <> [].
Proof. intros [|r rows] H; [congruence|discriminate]. Qed.
Lemma bins_is : forall rows, rows <> [] -> grid_bins rows = map (fun k => (lab (hd_ rows) k, cell (hd_ rows) k rows)) (zrange (k0 (hd_ rows)) (lastk rows)).
Proof. intros [|r rows] H; [congruence|reflexivity]. Qed.
Lemma ends_is : forall rows, rows <> [] -> grid_ends rows = map (fun k => edge (hd_ rows) (k + 1)) (zrange (k0 (hd_ rows)) (lastk rows)).
Proof. intros rows H. unfold grid_ends. rewrite points_is by (apply map_ne_; auto). rewrite map_map. auto. Qed.
Lemma cell_none : forall v k rows, (forall x, In x rows -> kap v (t x) <> k) -> cell v k rows = [].
Proof. intros v k rows H. apply (rows_filter_all_false t (in_cell (kap v) k)). intros r Hin. unfold in_cell. apply Z.eqb_neq. auto. Qed.

Lemma bins_split : forall rows more, rows <> [] -> more <> [] -> sorted (map t (rows ++ more)) ->
  let v := hd_ rows in let K := lastk rows in let K' := kap v (last (map t more) 0) in
  grid_bins rows = map (fun k => (lab v k, cell v k rows)) (zrange (k0 v) (K - 1)) ++ [(lab v K, cell v K rows)] /\
  grid_bins (rows ++ more) = map (fun k => (lab v k, cell v k rows)) (zrange (k0 v) (K - 1)) ++
    map (fun k => (lab v k, (if k =? K then cell v K rows else []) ++ cell v k more)) (zrange K K').
Proof.
  intros rows more Hr Hm Hs v K K'. rewrite map_app in Hs. destruct (grid_more _ _ (map_ne_ _ Hr) (map_ne_ _ Hm) Hs) as (A1 & A2 & A3 & A4 & A5 & A6 & A7).
  fold K in A3, A4, A5. fold v in A1, A3, A4, A5. fold K' in A5. apply sorted_app in Hs as (_ & _ & S3).
  assert (L1 : In (last (map t rows) 0) (map t rows)) by (apply last_In, map_ne_; auto).
  split.
  - rewrite bins_is by auto. fold v K. rewrite zrange_snoc, map_app by auto. auto.
  - rewrite bins_is by (destruct rows; simpl; congruence). rewrite map_app, A1, A2. fold K'. rewrite (zrange_app (k0 v) (K - 1) K') by lia. rewrite map_app.
    replace (K - 1 + 1) with K by ring. f_equal.
    + apply map_ext_in. intros k Hk. apply zrange_In in Hk. f_equal. rewrite filter_app, (cell_none v k more), app_nil_r; auto.
      intros x Hx Q. pose proof (kmono v (last (map t rows) 0) (t x) (S3 _ _ L1 (in_map t _ _ Hx))) as W. change (K <= kap v (t x)) in W. lia.
    + apply map_ext_in. intros k Hk. apply zrange_In in Hk. f_equal. rewrite filter_app. f_equal. destruct (Z.eqb_spec k K) as [->|]; auto.
      apply cell_none. intros x Hx Q. pose proof (kmono v _ _ (sorted_last_ge _ (t x) A6 (in_map t _ _ Hx))) as W. change (kap v (t x) <= K) in W. lia.
Qed.
Lemma last_cell : forall rows, rows <> [] -> sorted (map t rows) -> cell (hd_ rows) (lastk rows) rows <> [].
Proof.
  intros rows H Hs. destruct (exists_last H) as (l' & y & E). assert (In y (cell (hd_ rows) (lastk rows) rows)); [|intros Q; rewrite Q in *; contradiction].
  apply filter_In. split; [rewrite E; apply in_or_app; right; left; auto|]. unfold in_cell. apply Z.eqb_eq. f_equal. rewrite E, map_app. simpl. rewrite last_last. auto.
Qed.
Lemma seg_describes : forall running rows v K, rows <> [] -> sorted (map t rows) -> K <= kap v (hd_ rows) ->
  describes (grid_seg v (map t rows) K) running rows
    (map (fun k => (lab v k, (if k =? K then running else []) ++ cell v k rows)) (zrange K (kap v (last (map t rows) 0)))).
Proof. intros running rows v K H Hs HK. exact (grid_describes c (edge v) (kap v) (edge_inc v) (edge_kap v) t (lab v) running rows K H Hs HK). Qed.
Lemma seg_describes_nil : forall rows, rows <> [] -> sorted (map t rows) -> describes (grid_seg (hd_ rows) (map t rows) (k0 (hd_ rows))) [] rows (grid_bins rows).
Proof.
  intros rows H Hs. rewrite bins_is by auto. pose proof (seg_describes [] rows (hd_ rows) (k0 (hd_ rows)) H Hs (k0_le _)) as G.
  replace (map (fun k => (lab (hd_ rows) k, cell (hd_ rows) k rows)) (zrange (k0 (hd_ rows)) (lastk rows)))
    with (map (fun k => (lab (hd_ rows) k, (if k =? k0 (hd_ rows) then [] else []) ++ cell (hd_ rows) k rows)) (zrange (k0 (hd_ rows)) (lastk rows))); auto.
  apply map_ext. intro k. destruct (k =? _); auto.
Qed.
Lemma new_bins_is : forall rows more, rows <> [] -> more <> [] -> sorted (map t (rows ++ more)) ->
  new_bins grid_bins rows more = map (fun k => (lab (hd_ rows) k, (if k =? lastk rows then cell (hd_ rows) (lastk rows) rows else []) ++ cell (hd_ rows) k more)) (zrange (lastk rows) (kap (hd_ rows) (last (map t more) 0)))
  /\ last_rows (grid_bins rows) = cell (hd_ rows) (lastk rows) rows /\ (length (grid_bins rows) - 1)%nat = length (zrange (k0 (hd_ rows)) (lastk rows - 1)).
Proof.
  intros rows more H Hm Hs. destruct (bins_split rows more H Hm Hs) as [E1 E2]. cbv zeta in E1, E2. split; [|split].
  - unfold new_bins. rewrite E1, E2, app_length. cbn [length]. rewrite Nat.add_sub, skipn_app, skipn_all, Nat.sub_diag. auto.
  - unfold last_rows. rewrite E1, map_app. cbn [map snd]. apply last_last.
  - rewrite E1, app_length, map_length. cbn [length]. lia.
Qed.

Notation bin_by := (fun (rows : list D) b => call (map t rows) b).
Notation after := (fun rows b => grid_after (map t rows) b).
Notation good := (fun rows : list D => sorted (map t rows)).

Lemma bin_call : forall rows more b, more <> [] -> good (rows ++ more) -> after rows b -> exists b',
  bin_by more (Some b) = Ok (match rows with [] => grid_seg (hd_ more) (map t more) (k0 (hd_ more)) | _ => grid_seg (hd_ rows) (map t more) (lastk rows) end, Some b') /\ after (rows ++ more) b'.
Proof.
  intros rows more b Hm Hs Ha. destruct rows as [|r0 rows0].
  - cbn [map grid_after] in Ha. subst b. cbn [app] in *. destruct (Hfirst _ (map_ne_ _ Hm) Hs) as (b' & E & R'). exists b'. split; auto. apply after_is; auto. apply map_ne_; auto.
  - set (rows := r0 :: rows0) in *. assert (H : rows <> []) by discriminate.
    rewrite map_app in Hs. destruct (grid_more _ _ (map_ne_ _ H) (map_ne_ _ Hm) Hs) as (A1 & A2 & A3 & A4 & A5 & A6 & A7).
    apply after_is in Ha; [|apply map_ne_; auto]. destruct (Hnext _ (map t more) b _ (map_ne_ _ Hm) A7 Ha A4) as (b' & E & R'). exists b'. split; auto.
    apply after_is; [rewrite map_app; discriminate|]. rewrite map_app, A1, A2. auto.
Qed.

Theorem grid_binning : binning bin_by sbuf_empty grid_bins after good.
Proof.
  split.
  - intros rows more H. rewrite map_app in H. apply sorted_app in H. tauto.
  - split; reflexivity.
  - intros rows _. apply SSorted_lt_NoDup. destruct rows as [|r rows]; [constructor|]. rewrite bins_is by discriminate. rewrite map_map. cbn [fst]. apply points_order.
  - intros rows more H Hs. assert (S1 : sorted (map t rows)) by (rewrite map_app in Hs; apply sorted_app in Hs; tauto). pose proof (last_cell rows H S1) as Hl.
    destruct more as [|m0 more].
    + rewrite app_nil_r. rewrite bins_is by auto. rewrite zrange_snoc by (apply k0_last; auto; apply map_ne_; auto). rewrite map_app. cbn [map].
      do 5 eexists. split; [reflexivity|]. split; [exact Hl|]. rewrite app_nil_r. reflexivity.
    + destruct (bins_split rows (m0 :: more) H ltac:(discriminate) Hs) as [E1 E2]. cbv zeta in E1, E2. rewrite map_app in Hs.
      destruct (grid_more _ _ (map_ne_ _ H) (map_ne_ (m0 :: more) ltac:(discriminate)) Hs) as (_ & _ & _ & _ & A5 & _).
      rewrite (zrange_cons _ _ A5) in E2. cbn [map] in E2. rewrite Z.eqb_refl in E2. do 5 eexists. split; [exact E1|]. split; [exact Hl|]. exact E2.
  - intros rows more b Hm Hs Ha. destruct (bin_call rows more b Hm Hs Ha) as (b' & E & R'). do 2 eexists. split; [exact E|]. split; auto.
    destruct rows as [|r0 rows0].
    + unfold new_bins. cbn [grid_bins map length Nat.sub skipn app last_rows last]. apply seg_describes_nil; auto.
    + set (rows := r0 :: rows0) in *. assert (H : rows <> []) by discriminate.
      destruct (new_bins_is rows more H Hm Hs) as (-> & -> & _). rewrite map_app in Hs.
      destruct (grid_more _ _ (map_ne_ _ H) (map_ne_ _ Hm) Hs) as (_ & _ & _ & A4 & _ & _ & A7). apply seg_describes; auto.
  - intros rows H Hs. eexists. split; [apply Honce; auto; apply map_ne_; auto|]. apply seg_describes_nil; auto.
Qed.

Theorem grid_bin_ends : bin_ends t c bin_by grid_bins after good grid_ends.
Proof.
  split.
  - intros rows Hs. destruct rows as [|r rows]; [constructor|]. rewrite ends_is by discriminate. apply points_order.
  - intros rows i j e r Hs Hi Hr. destruct rows as [|r0 rows0]; [destruct i; discriminate|]. set (rows := r0 :: rows0) in *. assert (H : rows <> []) by discriminate.
    rewrite ends_is in Hi by auto. assert (Li : (i < length (zrange (k0 (hd_ rows)) (lastk rows)))%nat).
    { rewrite <- (map_length (fun k => edge (hd_ rows) (k + 1))). apply nth_error_Some. congruence. }
    rewrite (nth_error_zrange_map (fun k => edge (hd_ rows) (k + 1))) in Hi by auto. injection Hi as <-.
    rewrite bins_is in Hr by auto. rewrite map_map in Hr. cbn [snd] in Hr.
    destruct (Nat.lt_ge_cases j (length (zrange (k0 (hd_ rows)) (lastk rows)))) as [Lj|Lj]; [|rewrite nth_overflow in Hr by (rewrite map_length; auto); contradiction].
    rewrite (nth_error_nth _ _ _ (nth_error_zrange_map (fun k => cell (hd_ rows) k rows) _ _ j Lj)) in Hr.
    apply filter_In in Hr as [_ Hr]. unfold in_cell in Hr. apply Z.eqb_eq in Hr.
    pose proof (edge_kap (hd_ rows) (k0 (hd_ rows) + Z.of_nat i + 1) (t r)) as Q. rewrite Hr in Q. destruct (j <=? i)%nat eqn:Eji.
    + apply Nat.leb_le in Eji. replace (_ <? _) with true in Q by (symmetry; apply Z.ltb_lt; lia). destruct c; simpl in Q; [apply Z.ltb_lt in Q|apply Z.leb_le in Q]; lia.
    + apply Nat.leb_gt in Eji. etransitivity; [exact Q|]. apply Z.ltb_ge. lia.
  - intros rows more H Hs. destruct more as [|m0 more]; [rewrite app_nil_r; auto|]. set (more' := m0 :: more) in *. assert (Hm : more' <> []) by discriminate.
    destruct (new_bins_is rows more' H Hm Hs) as (_ & _ & ->). rewrite map_app in Hs. destruct (grid_more _ _ (map_ne_ _ H) (map_ne_ _ Hm) Hs) as (A1 & A2 & A3 & A4 & A5 & _).
    rewrite !ends_is by (auto; destruct rows; simpl; congruence). rewrite map_app, A1, A2.
    rewrite (zrange_app (k0 (hd_ rows)) (lastk rows - 1) (kap (hd_ rows) (last (map t more') 0))) by lia. rewrite (zrange_app (k0 (hd_ rows)) (lastk rows - 1) (lastk rows)) by lia.
    rewrite !map_app, <- (map_length (fun k => edge (hd_ rows) (k + 1)) (zrange (k0 (hd_ rows)) (lastk rows - 1))).
    rewrite !firstn_app, Nat.sub_diag, !firstn_all, !firstn_O. auto.
  - intros rows more b sg b' Hm Hs Ha E. destruct (bin_call rows more b Hm Hs Ha) as (b'' & E' & _). rewrite E in E'. injection E' as -> _.
    destruct rows as [|r0 rows0].
    + split; [reflexivity|]. split; [apply points_order|]. cbn [app grid_bins map length Nat.sub skipn]. rewrite ends_is by auto. reflexivity.
    + set (rows := r0 :: rows0) in *. assert (H : rows <> []) by discriminate. split; [reflexivity|]. split; [apply points_order|].
      destruct (new_bins_is rows more H Hm Hs) as (_ & _ & ->). rewrite map_app in Hs. destruct (grid_more _ _ (map_ne_ _ H) (map_ne_ _ Hm) Hs) as (A1 & A2 & A3 & A4 & A5 & _).
      rewrite ends_is by (destruct rows; simpl; congruence). rewrite map_app, A1, A2.
      rewrite (zrange_app (k0 (hd_ rows)) (lastk rows - 1) (kap (hd_ rows) (last (map t more) 0))) by lia. rewrite map_app.
      rewrite <- (map_length (fun k => edge (hd_ rows) (k + 1)) (zrange (k0 (hd_ rows)) (lastk rows - 1))). rewrite skipn_app, skipn_all, Nat.sub_diag. cbn [app skipn].
      replace (lastk rows - 1 + 1) with (lastk rows) by ring. reflexivity.
  - intros rows sg b' H Hs E. rewrite Honce in E by (auto; apply map_ne_; auto). injection E as <- <-. split; [reflexivity|]. split; [apply points_order|].
    rewrite ends_is by auto. reflexivity.
Qed.

(** Rows of a snapshot: those before its point, and not before the end of a bin before its point. *)
Lemma split_ends : forall v e n k0, exists k1, k0 <= k1 <= k0 + Z.of_nat n /\
  Z.of_nat (length (filter (fun k => k <? e) (map (fun k => edge v (k + 1)) (zrange k0 (k0 + Z.of_nat n - 1))))) = k1 - k0 /\
  forall k, k0 <= k < k0 + Z.of_nat n -> (edge v (k + 1) < e <-> k < k1).
Proof.
  intros v e. induction n as [|n IH]; intros a.
  - exists a. rewrite zrange_nil by lia. split; [lia|]. split; [simpl; lia|]. intros; lia.
  - rewrite zrange_cons by lia. cbn [map filter]. destruct (Z.ltb_spec (edge v (a + 1)) e) as [Q|Q].
    + destruct (IH (a + 1)) as (k1 & B1 & B2 & B3). exists k1. split; [lia|]. cbn [length].
      replace (a + Z.of_nat (S n) - 1) with (a + 1 + Z.of_nat n - 1) by lia. split; [lia|].
      intros k Hk. destruct (Z.eq_dec k a) as [->|Hn]; [split; [lia|auto]|]. apply B3. lia.
    + exists a. split; [lia|]. assert (G : forall k, a <= k -> e <= edge v (k + 1)).
      { intros k Hk. destruct (Z.eq_dec k a) as [->|Hn]; auto. pose proof (edge_inc v (a + 1) (k + 1) ltac:(lia)). lia. }
      split; [|intros k Hk; specialize (G k ltac:(lia)); lia]. rewrite (rows_filter_all_false (fun k => k) (fun k => k <? e)); [simpl; lia|].
      intros y Hy. apply in_map_iff in Hy as (k & <- & Hk). apply zrange_In in Hk. apply Z.ltb_ge. apply G. lia.
Qed.
Lemma grid_shot : forall rows e, sorted (map t rows) -> shot t c (grid_bins rows) (grid_ends rows) e =
  filter (fun r => before c e (t r) && forallb (fun k => negb ((k <? e) && before c k (t r))) (grid_ends rows)) rows.
Proof.
  intros rows e Hs. destruct rows as [|r0 rows0]; [reflexivity|]. set (rows := r0 :: rows0) in *. assert (H : rows <> []) by discriminate. clearbody rows.
  unfold shot. rewrite ends_is, bins_is by auto. set (K := lastk rows). set (v := hd_ rows) in *. rewrite map_map. cbn [snd].
  assert (HK : forall r, In r rows -> k0 v <= kap v (t r) <= K).
  { intros r Hr. split; [|apply kmono; apply sorted_last_ge; auto; apply in_map; auto].
    etransitivity; [apply k0_le|]. apply kmono. apply sorted_hd_le; auto. apply in_map; auto. }
  assert (Hk : k0 v <= K).
  { destruct rows as [|r rs]; [congruence|]. specialize (HK r (or_introl eq_refl)). lia. }
  destruct (split_ends v e (Z.to_nat (K - k0 v + 1)) (k0 v)) as (k1 & B1 & B2 & B3). rewrite Z2Nat.id in * by lia.
  replace (k0 v + (K - k0 v + 1) - 1) with K in B2 by ring. apply (f_equal Z.to_nat) in B2. rewrite Nat2Z.id in B2. rewrite B2.
  destruct (Z.eq_dec k1 (K + 1)) as [->|Hk1].
  - rewrite nth_overflow by (rewrite map_length, zrange_length; lia). symmetry. apply MergeProofs.filter_none. intros r Hr.
    apply andb_false_iff. right. apply not_true_iff_false. intro Q. rewrite forallb_forall in Q. specialize (Q (edge v (K + 1))).
    rewrite edge_kap in Q. specialize (HK r Hr). replace (edge v (K + 1) <? e) with true in Q by (symmetry; apply Z.ltb_lt; apply B3; lia).
    replace (kap v (t r) <? K + 1) with true in Q by (symmetry; apply Z.ltb_lt; lia). discriminate Q. apply in_map_iff. exists K. split; auto. apply zrange_In. lia.
  - assert (Hl : (Z.to_nat (k1 - k0 v) < length (zrange (k0 v) K))%nat) by (rewrite zrange_length; lia).
    rewrite (nth_error_nth _ _ _ (nth_error_zrange_map (fun k => cell v k rows) _ _ (Z.to_nat (k1 - k0 v)) Hl)).
    rewrite Z2Nat.id by lia. replace (k0 v + (k1 - k0 v)) with k1 by ring.
    assert (FF : forall (f g h : D -> bool) l, (forall r, In r l -> f r && g r = h r) -> filter f (filter g l) = filter h l).
    { clear. induction l as [|a l IH]; intros E; auto. simpl. pose proof (E a (or_introl eq_refl)) as Ea. rewrite <- Ea.
      destruct (g a); simpl; [destruct (f a); simpl|rewrite andb_false_r]; rewrite IH; auto; intros; apply E; right; auto. }
    apply FF. intros r Hr. specialize (HK r Hr). destruct (before c e (t r)) eqn:Eb; cbn [andb]; auto. unfold in_cell. apply eq_true_iff_eq. rewrite Z.eqb_eq, forallb_forall.
    assert (E1 : kap v (t r) <= k1).
    { assert (Q : before c (edge v (k1 + 1)) (t r) = true).
      { assert (e <= edge v (k1 + 1)) by (apply Z.le_ngt; intro W; apply B3 in W; lia). destruct c; simpl in *; [apply Z.ltb_lt in Eb; apply Z.ltb_lt|apply Z.leb_le in Eb; apply Z.leb_le]; lia. }
      rewrite edge_kap in Q. apply Z.ltb_lt in Q. lia. }
    split.
    + intros Ek z Hz. apply in_map_iff in Hz as (k & <- & Hkk). apply zrange_In in Hkk. rewrite edge_kap, Ek. destruct (Z.ltb_spec (edge v (k + 1)) e) as [W|W]; auto.
      apply B3 in W; [|lia]. cbn [andb]. apply negb_true_iff. apply Z.ltb_ge. lia.
    + intros Q. destruct (Z.eq_dec (kap v (t r)) k1) as [|Hn]; auto. exfalso. specialize (Q (edge v (kap v (t r) + 1))). rewrite edge_kap in Q.
      replace (edge v (kap v (t r) + 1) <? e) with true in Q by (symmetry; apply Z.ltb_lt; apply B3; lia). replace (kap v (t r) <? kap v (t r) + 1) with true in Q by (symmetry; apply Z.ltb_lt; lia).
      discriminate Q. apply in_map_iff. eexists. split; [reflexivity|]. apply zrange_In. lia.
Qed.
End Calls.
