(** Proofs for calendar frequencies. *)
Require Import List Arith ZArith Bool Lia Sorted.
Require Import Verif.Common Verif.SegModel Verif.SegSpec Verif.SegProofs Verif.UserBinsSpec Verif.CalModel Verif.CalSpec.
Import ListNotations.
Local Open Scope Z_scope.

Lemma until_app_more : forall n l p more, Forall (fun q => q <> n) l -> p = n -> until n (l ++ p :: more) = l ++ [p].
Proof.
  induction l as [|q l IH]; intros p more H Hp; simpl.
  - rewrite Hp, Nat.eqb_refl. auto.
  - inversion H; subst. destruct (q =? n)%nat eqn:E; [apply Nat.eqb_eq in E; congruence|]. f_equal; auto.
Qed.

(** * Bins between edges in order *)
Section Grid.
Variable c : side.
Variables (edge kap : Z -> Z).
Hypothesis edge_inc : forall i j, i < j -> edge i < edge j.
Hypothesis edge_kap : forall k t, before c (edge k) t = (kap t <? k).

Lemma edge_le : forall i j, i <= j -> edge i <= edge j.
Proof. intros i j H. destruct (Z.eq_dec i j) as [->|]; [lia|]. pose proof (edge_inc i j ltac:(lia)). lia. Qed.

Lemma kap_mono : forall x y, x <= y -> kap x <= kap y.
Proof.
  intros x y H. assert (B : before c (edge (kap y + 1)) y = true) by (rewrite edge_kap; apply Z.ltb_lt; lia).
  apply (before_mono_v c _ x y H) in B. rewrite edge_kap in B. apply Z.ltb_lt in B. lia.
Qed.

Lemma grid_n_before_all : forall on k, on <> [] -> sorted on -> (n_before c on (edge (k + 1)) = length on <-> kap (last on 0) <= k).
Proof.
  intros on k Hn Hs. unfold n_before. split.
  - intro H.
    assert (G : forall l, length (filter (before c (edge (k + 1))) l) = length l -> forall x, In x l -> before c (edge (k + 1)) x = true).
    { clear. induction l as [|y l IH]; simpl; intros H x Hx; [contradiction|].
      assert (length (filter (before c (edge (k + 1))) l) <= length l)%nat.
      { clear. induction l as [|z l IH]; simpl; [lia|]. destruct (before _ _ z); simpl; lia. }
      destruct (before c (edge (k + 1)) y) eqn:E; simpl in H; [|lia]. destruct Hx as [->|Hx]; auto. }
    specialize (G on H (last on 0) (last_In on 0 Hn)). rewrite edge_kap in G. apply Z.ltb_lt in G. lia.
  - intro H.
    assert (G : forall x, In x on -> before c (edge (k + 1)) x = true).
    { intros x Hx. rewrite edge_kap. apply Z.ltb_lt. pose proof (kap_mono x (last on 0) (sorted_last_ge on x Hs Hx)). lia. }
    clear -G. induction on as [|x l IH]; simpl; auto. rewrite G by (left; auto). simpl. f_equal. apply IH. intros; apply G; right; auto.
Qed.

Definition gstarts (on : list Z) (k0 k1 : Z) : list nat := map (fun k => n_before c on (edge (k + 1))) (zrange k0 k1).

Lemma gstarts_until : forall on k0 K, on <> [] -> sorted on -> k0 <= kap (last on 0) <= K ->
  until (length on) (gstarts on k0 K) = gstarts on k0 (kap (last on 0)) /\ existsb (Nat.eqb (length on)) (gstarts on k0 K) = true.
Proof.
  intros on k0 K Hn Hs [H0 H1]. set (k1 := kap (last on 0)) in *. unfold gstarts.
  assert (A : n_before c on (edge (k1 + 1)) = length on) by (apply grid_n_before_all; auto; unfold k1; lia).
  rewrite (zrange_app k0 k1 K) by lia. rewrite (zrange_snoc k0 k1), !map_app by auto. simpl map. rewrite <- app_assoc. simpl app. split.
  - apply until_app_more; auto. apply Forall_forall. intros q Hq. apply in_map_iff in Hq as (k & <- & Hk').
    apply zrange_In in Hk'. rewrite grid_n_before_all by auto. unfold k1 in *. lia.
  - rewrite existsb_app. simpl. rewrite A, Nat.eqb_refl. simpl. apply orb_true_r.
Qed.

Lemma gstarts_length : forall on k0 k1, length (gstarts on k0 k1) = length (zrange k0 k1).
Proof. intros. apply map_length. Qed.

Lemma gedges_sorted : forall k0 k1, sorted (map (fun k => edge (k + 1)) (zrange k0 k1)).
Proof.
  intros k0 k1. remember (Z.to_nat (k1 - k0 + 1)) as n eqn:En. revert k0 En. induction n as [|n IH]; intros k0 En.
  - rewrite zrange_nil by lia. constructor.
  - rewrite zrange_cons by lia. simpl. constructor; [apply IH; lia|]. apply Forall_forall. intros x Hx. apply in_map_iff in Hx as (k & <- & Hk).
    apply zrange_In in Hk. apply edge_le. lia.
Qed.

Lemma gstarts_sorted : forall on k0 k1, StronglySorted le (gstarts on k0 k1).
Proof.
  intros on k0 k1. unfold gstarts. remember (Z.to_nat (k1 - k0 + 1)) as n eqn:En. revert k0 En. induction n as [|n IH]; intros k0 En.
  - rewrite zrange_nil by lia. constructor.
  - rewrite zrange_cons by lia. simpl. constructor; [apply IH; lia|]. apply Forall_forall. intros x Hx. apply in_map_iff in Hx as (k & <- & Hk).
    apply zrange_In in Hk. apply n_before_mono. apply edge_le. lia.
Qed.

Lemma firstn_zrange_map : forall {A} (g : Z -> A) k0 k1 K, k0 <= k1 + 1 -> k1 <= K ->
  firstn (length (zrange k0 k1)) (map g (zrange k0 K)) = map g (zrange k0 k1).
Proof.
  intros A g k0 k1 K H0 H1. rewrite (zrange_app k0 k1 K) by auto. rewrite map_app, <- (map_length g (zrange k0 k1)), firstn_app, Nat.sub_diag, firstn_all, firstn_O, app_nil_r. auto.
Qed.

Lemma nth_error_zrange_map : forall {A} (g : Z -> A) k0 k1 i, (i < length (zrange k0 k1))%nat ->
  nth_error (map g (zrange k0 k1)) i = Some (g (k0 + Z.of_nat i)).
Proof.
  intros A g k0 k1 i Hi. rewrite nth_error_map. unfold zrange. rewrite nth_error_map. rewrite zrange_length in Hi.
  rewrite (nth_error_nth' (seq 0 (Z.to_nat (k1 - k0 + 1))) 0%nat) by (rewrite seq_length; auto). rewrite seq_nth by auto. simpl. auto.
Qed.

(** 'restart_key' *)
Definition grid_restart (on : list Z) (k0 k1 : Z) : Z :=
  match c with SLeft => if k0 <? k1 then edge k1 else hd 0 on | SRight => edge (k1 + 1) end.

Lemma by_scale_finish_grid : forall (lab : Z -> Z) on k0 K buffer, on <> [] -> sorted on -> k0 <= kap (last on 0) <= K ->
  (forall b, buffer = Some b -> sb_last_on b = None) ->
  let k1 := kap (last on 0) in
  by_scale_finish true PIndex 0 on c (map lab (zrange k0 K)) (map (fun k => edge (k + 1)) (zrange k0 K)) buffer =
  Ok (mkSeg (gstarts on k0 k1) (map lab (zrange k0 k1)) (n_empty 0 (gstarts on k0 k1)) c (map (fun k => edge (k + 1)) (zrange k0 k1)) false 0,
      match buffer with None => None | Some _ => Some (mkSbuf (Some (grid_restart on k0 k1)) None) end).
Proof.
  intros lab on k0 K buffer Hn Hs Hk Hb k1. unfold by_scale_finish. rewrite next_chunk_starts_spec by (auto; apply gedges_sorted).
  rewrite map_map. change (map (fun x => n_before c on (edge (x + 1))) (zrange k0 K)) with (gstarts on k0 K).
  destruct (gstarts_until on k0 K Hn Hs Hk) as [U X]. fold k1 in U. cbv zeta. rewrite U, X, gstarts_length.
  rewrite !firstn_zrange_map by (unfold k1 in *; lia). destruct buffer as [b|]; simpl; auto. rewrite (Hb b eq_refl).
  assert (L : length (zrange k0 k1) = S (Z.to_nat (k1 - k0))) by (rewrite zrange_length; unfold k1 in *; lia).
  unfold grid_restart. destruct c; simpl.
  - destruct (Z.ltb_spec k0 k1) as [E|E].
    + destruct (1 <? length (zrange k0 k1))%nat eqn:E2; [|apply Nat.ltb_ge in E2; lia].
      rewrite nth_error_zrange_map by lia. cbn [bind]. do 5 f_equal. f_equal. lia.
    + destruct (1 <? length (zrange k0 k1))%nat eqn:E2; [apply Nat.ltb_lt in E2; lia|]. auto.
  - rewrite nth_error_zrange_map by lia. cbn [bind]. do 5 f_equal. f_equal. lia.
Qed.

Context {D : Type} (t : D -> Z).

Definition in_cell (k : Z) (x : Z) : bool := kap x =? k.

Lemma cut_grid : forall rows k0 k1, sorted (map t rows) ->
  cut (n_before c (map t rows) (edge k0)) (gstarts (map t rows) k0 k1) rows = map (fun k => filter (fun r => in_cell k (t r)) rows) (zrange k0 k1).
Proof.
  intros rows k0 k1 Hs. unfold gstarts. remember (Z.to_nat (k1 - k0 + 1)) as n eqn:En. revert k0 En. induction n as [|n IH]; intros k0 En.
  - rewrite zrange_nil by lia. auto.
  - rewrite zrange_cons by lia. simpl map. simpl cut. f_equal.
    + rewrite (rows_between t) by (auto; apply edge_le; lia). apply filter_ext. intro r. rewrite !edge_kap. unfold in_cell.
      destruct (Z.ltb_spec (kap (t r)) k0), (Z.ltb_spec (kap (t r)) (k0 + 1)), (Z.eqb_spec (kap (t r)) k0); simpl; auto; lia.
    + apply IH. lia.
Qed.

Lemma grid_start : forall rows k0, sorted (map t rows) -> rows <> [] -> k0 <= kap (hd 0 (map t rows)) -> n_before c (map t rows) (edge k0) = 0%nat.
Proof.
  intros rows k0 Hs Hn Hk. rewrite n_before_map, (rows_filter_all_false t (before c (edge k0))); auto.
  intros r Hr. rewrite edge_kap. apply Z.ltb_ge. etransitivity; [exact Hk|]. apply kap_mono. apply sorted_hd_le; auto. apply in_map; auto.
Qed.

(** What is returned describes the cells of rows. *)
Lemma grid_describes : forall (lab : Z -> Z) running rows k0, rows <> [] -> sorted (map t rows) -> k0 <= kap (hd 0 (map t rows)) ->
  let on := map t rows in let k1 := kap (last on 0) in
  describes (mkSeg (gstarts on k0 k1) (map lab (zrange k0 k1)) (n_empty 0 (gstarts on k0 k1)) c (map (fun k => edge (k + 1)) (zrange k0 k1)) false 0)
    running rows (map (fun k => (lab k, (if k =? k0 then running else []) ++ filter (fun r => in_cell k (t r)) rows)) (zrange k0 k1)).
Proof.
  intros lab running rows k0 Hn Hs Hk on k1.
  assert (Hon : on <> []) by (unfold on; destruct rows; simpl; congruence).
  assert (Hh : kap (hd 0 on) <= k1). { apply kap_mono. apply sorted_last_ge; auto. destruct on; [congruence|left; auto]. }
  assert (H01 : k0 <= k1) by (fold on in Hk; lia).
  assert (C : cut 0 (gstarts on k0 k1) rows = map (fun k => filter (fun r => in_cell k (t r)) rows) (zrange k0 k1)).
  { rewrite <- (cut_grid rows k0 k1 Hs). rewrite grid_start by auto. auto. }
  assert (Hrows : map snd (map (fun k => (lab k, (if k =? k0 then running else []) ++ filter (fun r => in_cell k (t r)) rows)) (zrange k0 k1)) =
    match cut 0 (gstarts on k0 k1) rows with [] => [] | r :: rs => (running ++ r) :: rs end).
  { rewrite C, map_map, zrange_cons by auto. simpl. rewrite Z.eqb_refl. f_equal. apply map_ext_in. intros k Hin. apply zrange_In in Hin.
    destruct (Z.eqb_spec k k0); [lia|]. auto. }
  assert (Hin : forall p, In p (gstarts on k0 k1) -> (p <= length rows)%nat).
  { intros p Hp. apply in_map_iff in Hp as (k & <- & _). etransitivity; [apply n_before_le|]. unfold on. rewrite map_length. auto. }
  split; cbn [s_labels s_ends s_starts s_nnull].
  - rewrite map_map. auto.
  - rewrite !map_length. auto.
  - unfold gstarts. rewrite !map_length. auto.
  - apply gstarts_sorted.
  - unfold gstarts. rewrite zrange_snoc, map_app by auto. simpl. rewrite last_last.
    replace (length rows) with (length on) by (unfold on; apply map_length). apply grid_n_before_all; auto. unfold k1; lia.
  - intros n Hlen. rewrite gstarts_length in Hlen. unfold gstarts. rewrite zrange_length in Hlen.
    assert (E : nth_error (map (fun k => n_before c on (edge (k + 1))) (zrange k0 k1)) n = Some (n_before c on (edge (k0 + Z.of_nat n + 1))))
      by (apply (nth_error_zrange_map (fun k => n_before c on (edge (k + 1)))); rewrite zrange_length; lia).
    rewrite (nth_error_nth _ _ _ E). assert (A : n_before c on (edge (k0 + Z.of_nat n + 1)) <> length on).
    { rewrite grid_n_before_all by auto. fold k1. lia. }
    pose proof (n_before_le c on (edge (k0 + Z.of_nat n + 1))) as Le. assert (LL : length on = length rows) by (unfold on; apply map_length). lia.
  - exact Hrows.
  - rewrite Hrows, (n_empty_cut rows).
    + destruct (cut 0 (gstarts on k0 k1) rows) as [|r rs]; simpl; auto. destruct r; simpl; destruct (running ++ _) eqn:E; simpl; try lia.
      apply app_eq_nil in E as [_ E]. discriminate.
    + constructor; [apply gstarts_sorted|]. apply Forall_forall. intros; lia.
    + exact Hin.
Qed.
End Grid.

(** * Calendars *)
Section Cal.
Variable cal : calendar.
Hypothesis OK : calendar_ok cal.

Lemma point_le : forall i j, i <= j -> point cal i <= point cal j.
Proof. intros i j H. destruct (Z.eq_dec i j) as [->|]; [lia|]. pose proof (cal_order _ OK i j ltac:(lia)). lia. Qed.
Lemma point_lt_inv : forall i j, point cal i < point cal j -> i < j.
Proof. intros i j H. destruct (Z_lt_le_dec i j) as [|L]; auto. apply point_le in L. lia. Qed.
Lemma number_unique : forall t k, point cal k <= t < point cal (k + 1) -> number cal t = k.
Proof.
  intros t k H. pose proof (cal_number _ OK t) as N. assert (number cal t < k + 1) by (apply point_lt_inv; lia).
  assert (k < number cal t + 1) by (apply point_lt_inv; lia). lia.
Qed.
Lemma number_point : forall k, number cal (point cal k) = k.
Proof. intro k. apply number_unique. pose proof (cal_order _ OK k (k + 1) ltac:(lia)). lia. Qed.
Lemma lt_point : forall k t, (t <? point cal k) = (number cal t <? k).
Proof.
  intros k t. pose proof (cal_number _ OK t) as N. destruct (Z.ltb_spec (number cal t) k) as [L|L].
  - apply Z.ltb_lt. pose proof (point_le (number cal t + 1) k ltac:(lia)). lia.
  - apply Z.ltb_ge. apply point_le in L. lia.
Qed.
Lemma number_mono : forall x y, x <= y -> number cal x <= number cal y.
Proof. intros x y H. pose proof (cal_number _ OK x). pose proof (cal_number _ OK y). assert (number cal x < number cal y + 1) by (apply point_lt_inv; lia). lia. Qed.
Lemma normalize_le : forall t, normalize t <= t < normalize t + day.
Proof. intro t. unfold normalize. pose proof (Z.mod_pos_bound t day ltac:(reflexivity)). lia. Qed.
Lemma point_normalize : forall k t, point cal k <= t -> point cal k <= normalize t.
Proof.
  intros k t H. pose proof (cal_midnight _ OK k) as M. unfold normalize. assert (D : day > 0) by reflexivity.
  pose proof (Z.div_mod t day ltac:(lia)) as E. pose proof (Z.div_mod (point cal k) day ltac:(lia)) as E'. rewrite M in E'.
  assert (point cal k / day <= t / day) by (apply Z.div_le_mono; lia). nia.
Qed.
Lemma number_normalize : forall t, number cal (normalize t) = number cal t.
Proof. intro t. apply number_unique. pose proof (cal_number _ OK t) as N. pose proof (normalize_le t). pose proof (point_normalize _ _ (proj1 N)). lia. Qed.
Lemma normalize_point : forall k, normalize (point cal k) = point cal k.
Proof. intro k. unfold normalize. rewrite (cal_midnight _ OK). lia. Qed.
Lemma number_before : forall d, (if on_point cal d then number cal d else number cal d + 1) = number cal (d - 1) + 1.
Proof.
  intro d. unfold on_point. pose proof (cal_number _ OK d) as N. destruct (Z.eqb_spec (point cal (number cal d)) d) as [E|E].
  - assert (number cal (d - 1) = number cal d - 1); [|lia]. apply number_unique. replace (number cal d - 1 + 1) with (number cal d) by ring.
    pose proof (cal_order _ OK (number cal d - 1) (number cal d) ltac:(lia)). lia.
  - assert (number cal (d - 1) = number cal d); [|lia]. apply number_unique. lia.
Qed.
End Cal.

Section Grouper.
Variable cg : cgrouper.
Hypothesis OK : calendar_ok (cg_cal cg).
Hypothesis Hn : 0 < cg_n cg.
Notation c := (cg_closed cg).
Notation n := (cg_n cg).
Notation cal := (cg_cal cg).

Lemma bin_start_inc : forall s i j, i < j -> bin_start cg s i < bin_start cg s j.
Proof. intros s i j H. apply (cal_order _ OK). nia. Qed.
Lemma bin_start_of : forall s k x, before c (bin_start cg s k) x = (bin_of cg s x <? k).
Proof.
  intros s k x. unfold bin_start, bin_of, before.
  assert (G : forall y, (number cal y <? s + k * n) = ((number cal y - s) / n <? k)).
  { intro y. destruct (Z.ltb_spec (number cal y) (s + k * n)); symmetry; [apply Z.ltb_lt|apply Z.ltb_ge].
    - apply Z.div_lt_upper_bound; lia.
    - apply Z.div_le_lower_bound; lia. }
  destruct c; rewrite <- G, <- lt_point by auto; auto.
  destruct (Z.leb_spec x (point cal (s + k * n))); symmetry; [apply Z.ltb_lt|apply Z.ltb_ge]; lia.
Qed.
Lemma bin_end_start : forall s i, bin_end cg s i = bin_start cg s (i + 1).
Proof. auto. Qed.
Lemma in_bin_of : forall s i x, in_bin cg s i x = (bin_of cg s x =? i).
Proof.
  intros s i x. assert (E : in_bin cg s i x = negb (before c (bin_start cg s i) x) && before c (bin_end cg s i) x).
  { unfold in_bin, before. destruct c; rewrite ?Z.leb_antisym, ?Z.ltb_antisym, ?negb_involutive; auto. }
  rewrite E, bin_end_start, !bin_start_of. destruct (Z.ltb_spec (bin_of cg s x) i), (Z.ltb_spec (bin_of cg s x) (i + 1)), (Z.eqb_spec (bin_of cg s x) i); simpl; auto; lia.
Qed.

(** 'gtre' *)
Lemma gtre_cal_is : forall first last_ s k0, first_point cg first = s + k0 * n ->
  gtre_cal cal n first last_ c = (bin_start cg s k0, point cal (number cal last_ + n)).
Proof.
  intros first last_ s k0 E. unfold gtre_cal, plus_freq. rewrite number_normalize by auto. f_equal. unfold bin_start. rewrite <- E. unfold first_point.
  destruct c.
  - unfold rollback. rewrite number_normalize by auto. auto.
  - unfold minus_freq. f_equal. pose proof (number_before cal OK (normalize first)) as B. destruct (on_point cal (normalize first)); lia.
Qed.
Lemma date_range_cal_is : forall s k0 last_, let K := (number cal last_ - s) / n in
  date_range_cal cal n (bin_start cg s k0) (point cal (number cal last_ + n)) = map (bin_start cg s) (zrange k0 (K + 1)).
Proof.
  intros s k0 last_ K. unfold date_range_cal, bin_start. rewrite !number_point by auto. unfold zrange. rewrite map_map.
  replace ((number cal last_ + n - (s + k0 * n)) / n) with (K + 1 - k0).
  2:{ replace (number cal last_ + n - (s + k0 * n)) with (number cal last_ - s + (1 - k0) * n) by ring. rewrite Z.div_add by lia. unfold K. ring. }
  apply map_ext. intro i. f_equal. ring.
Qed.
Lemma bin_of_last : forall s x, bin_of cg s x <= (number cal x - s) / n.
Proof. intros s x. unfold bin_of. apply Z.div_le_mono; auto. destruct c; [lia|]. pose proof (number_mono cal OK (x - 1) x ltac:(lia)). lia. Qed.

Lemma by_scale_cal_is : forall on first s k0 buffer, on <> [] -> sorted on -> first_point cg first = s + k0 * n -> k0 <= bin_of cg s (last on 0) ->
  match buffer with
  | None => first = hd 0 on
  | Some b => sb_last_on b = None /\ first = match sb_restart b with Some r => r | None => hd 0 on end
  end ->
  let k1 := bin_of cg s (last on 0) in
  by_scale on (ByCal cg) None buffer =
  Ok (mkSeg (gstarts c (bin_start cg s) on k0 k1) (map (bin_label cg s) (zrange k0 k1)) (n_empty 0 (gstarts c (bin_start cg s) on k0 k1)) c
        (map (fun k => bin_start cg s (k + 1)) (zrange k0 k1)) false 0,
      match buffer with None => None | Some _ => Some (mkSbuf (Some (grid_restart c (bin_start cg s) on k0 k1)) None) end).
Proof.
  intros on first s k0 buffer Hon Hs Hf Hk Hb k1. unfold by_scale.
  match goal with |- context [bind ?x _] => replace x with (Ok first : res Z) end.
  2:{ destruct buffer as [b|]; [|subst; auto]. destruct Hb as [B1 B2]. destruct b as [[r|] lo]; simpl in *; subst; auto. }
  cbn [bind]. rewrite (gtre_cal_is first (last on 0) s k0 Hf). rewrite date_range_cal_is. set (K := (number cal (last on 0) - s) / n).
  assert (HK : k1 <= K) by apply bin_of_last. fold k1 in Hk.
  assert (E1 : tl (map (bin_start cg s) (zrange k0 (K + 1))) = map (fun k => bin_start cg s (k + 1)) (zrange k0 K)).
  { rewrite zrange_cons by lia. simpl. rewrite map_shift_zrange. auto. }
  assert (E2 : removelast (map (bin_start cg s) (zrange k0 (K + 1))) = map (bin_start cg s) (zrange k0 K)).
  { rewrite (zrange_snoc k0 (K + 1)) by lia. rewrite map_app. simpl. rewrite removelast_last. do 2 f_equal. lia. }
  rewrite E1, E2.
  replace (match cg_label cg with SLeft => map (bin_start cg s) (zrange k0 K) | SRight => map (fun k => bin_start cg s (k + 1)) (zrange k0 K) end)
    with (map (bin_label cg s) (zrange k0 K)) by (unfold bin_label; destruct (cg_label cg); auto).
  apply (by_scale_finish_grid c (bin_start cg s) (bin_of cg s) (bin_start_inc s) (bin_start_of s) (bin_label cg s) on k0 K buffer); auto.
  intros b ->. tauto.
Qed.

Lemma first_bin : forall x, 0 <= bin_of cg (first_point cg x) x.
Proof.
  intro x. unfold bin_of, first_point. apply Z.div_pos; auto. destruct c; [lia|].
  pose proof (number_mono cal OK (normalize x - 1) (x - 1)). pose proof (normalize_le x). lia.
Qed.

(** The bins [cal_bins] with cells. *)
Context {D : Type} (t : D -> Z).
Notation anchor_of rows := (first_point cg (hd 0 (map t rows))).
Notation lastk rows := (bin_of cg (anchor_of rows) (last (map t rows) 0)).
Lemma cal_bins_cells : forall rows, rows <> [] ->
  cal_bins t cg rows = map (fun k => (bin_label cg (anchor_of rows) k, filter (fun r => in_cell (bin_of cg (anchor_of rows)) k (t r)) rows)) (zrange 0 (lastk rows)).
Proof.
  intros [|r0 rows] H; [congruence|]. unfold cal_bins. cbn [map hd].
  replace (last (t r0 :: map t rows) 0) with (t (last (r0 :: rows) r0)).
  2:{ change (t r0 :: map t rows) with (map t (r0 :: rows)). generalize (r0 :: rows) as l, (ltac:(discriminate) : r0 :: rows <> []). intros l Hl.
      destruct (exists_last Hl) as (l' & y & ->). rewrite map_app. simpl. rewrite !last_last. auto. }
  apply map_ext. intro k. f_equal. apply filter_ext. intro r. rewrite in_bin_of. auto.
Qed.

Hypothesis Hr : n = 1 \/ c = SRight.
Notation cell s k := (filter (fun r : D => in_cell (bin_of cg s) k (t r))).

Lemma restart_point : forall on s k0, on <> [] -> sorted on -> k0 <= bin_of cg s (hd 0 on) ->
  first_point cg (grid_restart c (bin_start cg s) on k0 (bin_of cg s (last on 0))) = s + bin_of cg s (last on 0) * n.
Proof.
  intros on s k0 Hon Hs Hk. set (k1 := bin_of cg s (last on 0)).
  assert (Hh : bin_of cg s (hd 0 on) <= k1).
  { apply (kap_mono c (bin_start cg s) (bin_of cg s) (bin_start_of s)). apply sorted_last_ge; auto. destruct on; [congruence|left; auto]. }
  unfold first_point, grid_restart. destruct c eqn:Ec.
  - destruct (Z.ltb_spec k0 k1).
    + unfold bin_start. rewrite number_point by auto. auto.
    + assert (Hb : bin_of cg s (hd 0 on) = k1) by lia. destruct Hr as [E1|E1]; [|congruence].
      unfold bin_of in Hb at 1. rewrite Ec, E1, Z.div_1_r in Hb. rewrite E1. lia.
  - unfold bin_start. rewrite normalize_point by auto. pose proof (number_before cal OK (point cal (s + (k1 + 1) * n))) as B.
    unfold on_point in B. rewrite number_point, Z.eqb_refl in B by auto. lia.
Qed.

Lemma last_map_hd : forall (r0 : D) rows, t (last (r0 :: rows) r0) = last (map t (r0 :: rows)) 0.
Proof.
  intros r0 rows. destruct (exists_last (l := r0 :: rows) ltac:(discriminate)) as (l' & y & E). rewrite E, map_app. simpl. rewrite !last_last. auto.
Qed.
Lemma cal_after_is : forall rows b, rows <> [] -> (cal_after t cg rows b <-> sb_last_on b = None /\ exists r, sb_restart b = Some r /\ first_point cg r = anchor_of rows + lastk rows * n).
Proof. intros [|r0 rows] b H; [congruence|]. unfold cal_after. rewrite last_map_hd. reflexivity. Qed.
Lemma lastk_nonneg : forall rows, rows <> [] -> sorted (map t rows) -> 0 <= lastk rows.
Proof.
  intros rows H Hs. etransitivity; [apply (first_bin (hd 0 (map t rows)))|]. apply (kap_mono c _ _ (bin_start_of _)). apply sorted_last_ge; auto. destruct rows; [congruence|left; auto].
Qed.
Lemma cell_nil : forall s k rows, (forall x, In x rows -> bin_of cg s (t x) <> k) -> cell s k rows = [].
Proof. intros s k rows H. apply (rows_filter_all_false t (in_cell (bin_of cg s) k)). intros r Hin. unfold in_cell. apply Z.eqb_neq. auto. Qed.

(** More rows. *)
Lemma cal_more : forall rows more, rows <> [] -> more <> [] -> sorted (map t (rows ++ more)) ->
  anchor_of (rows ++ more) = anchor_of rows /\ lastk rows <= bin_of cg (anchor_of rows) (hd 0 (map t more)) /\
  last (map t (rows ++ more)) 0 = last (map t more) 0 /\ bin_of cg (anchor_of rows) (hd 0 (map t more)) <= bin_of cg (anchor_of rows) (last (map t more) 0) /\
  (forall x k, In x rows -> lastk rows < k -> bin_of cg (anchor_of rows) (t x) <> k) /\
  (forall x k, In x more -> k < lastk rows -> bin_of cg (anchor_of rows) (t x) <> k).
Proof.
  intros rows more Hrows Hmore Hs. set (s := anchor_of rows). rewrite map_app in Hs. apply sorted_app in Hs as (S1 & S2 & S3).
  assert (M := kap_mono c (bin_start cg s) (bin_of cg s) (bin_start_of s)).
  assert (L1 : In (last (map t rows) 0) (map t rows)) by (apply last_In; destruct rows; simpl; congruence).
  split; [unfold s; destruct rows; [congruence|auto]|]. split; [|split; [|split; [|split]]].
  - apply M. apply S3; auto. destruct more; [congruence|left; auto].
  - destruct (exists_last Hmore) as (m' & y & ->). rewrite app_assoc, !map_app. simpl. rewrite !last_last. auto.
  - apply M. apply sorted_last_ge; auto. destruct more; [congruence|left; auto].
  - intros x k Hx Hk E. pose proof (M _ _ (sorted_last_ge _ (t x) S1 (in_map t _ _ Hx))). lia.
  - intros x k Hx Hk E. pose proof (M (last (map t rows) 0) (t x) (S3 _ _ L1 (in_map t _ _ Hx))). lia.
Qed.

Lemma cal_bins_split : forall rows more, rows <> [] -> more <> [] -> sorted (map t (rows ++ more)) ->
  let s := anchor_of rows in let K := lastk rows in let K' := bin_of cg s (last (map t more) 0) in
  cal_bins t cg rows = map (fun k => (bin_label cg s k, cell s k rows)) (zrange 0 (K - 1)) ++ [(bin_label cg s K, cell s K rows)] /\
  cal_bins t cg (rows ++ more) = map (fun k => (bin_label cg s k, cell s k rows)) (zrange 0 (K - 1)) ++
    map (fun k => (bin_label cg s k, (if k =? K then cell s K rows else []) ++ cell s k more)) (zrange K K').
Proof.
  intros rows more Hrows Hmore Hs s K K'. destruct (cal_more rows more Hrows Hmore Hs) as (A1 & A2 & A3 & A4 & A5 & A6). fold K in A2, A5, A6. fold s in A1, A2, A4, A5, A6. fold K' in A4.
  assert (S1 : sorted (map t rows)) by (rewrite map_app in Hs; apply sorted_app in Hs; tauto).
  assert (K0 : 0 <= K) by (apply lastk_nonneg; auto).
  split.
  - rewrite cal_bins_cells by auto. fold K. fold s. rewrite zrange_snoc, map_app by auto. auto.
  - rewrite cal_bins_cells by (destruct rows; simpl; congruence). rewrite A1, A3. fold K'. rewrite (zrange_app 0 (K - 1) K') by lia. rewrite map_app.
    replace (K - 1 + 1) with K by ring. f_equal.
    + apply map_ext_in. intros k Hk. apply zrange_In in Hk. f_equal. rewrite filter_app, (cell_nil s k more), app_nil_r; auto. intros x Hx. apply A6; auto. lia.
    + apply map_ext_in. intros k Hk. apply zrange_In in Hk. f_equal. rewrite filter_app. f_equal. destruct (Z.eqb_spec k K) as [->|]; auto.
      apply cell_nil. intros x Hx. apply A5; auto. lia.
Qed.

Lemma bin_label_inc : forall s i j, i < j -> bin_label cg s i < bin_label cg s j.
Proof. intros s i j H. unfold bin_label. destruct (cg_label cg); [|rewrite !bin_end_start]; apply bin_start_inc; lia. Qed.
Lemma labels_inc : forall s k0 k1, StronglySorted Z.lt (map (bin_label cg s) (zrange k0 k1)).
Proof.
  intros s k0 k1. remember (Z.to_nat (k1 - k0 + 1)) as m eqn:Em. revert k0 Em. induction m as [|m IH]; intros k0 Em.
  - rewrite zrange_nil by lia. constructor.
  - rewrite zrange_cons by lia. simpl. constructor; [apply IH; lia|]. apply Forall_forall. intros x Hx. apply in_map_iff in Hx as (k & <- & Hk).
    apply zrange_In in Hk. apply bin_label_inc. lia.
Qed.
Lemma cal_labels : forall rows, StronglySorted Z.lt (map fst (cal_bins t cg rows)).
Proof. intros [|r0 rows]; [constructor|]. rewrite cal_bins_cells by discriminate. rewrite map_map. apply labels_inc. Qed.

Lemma grid_describes_nil : forall s rows, rows <> [] -> sorted (map t rows) -> s = anchor_of rows ->
  let on := map t rows in let k1 := bin_of cg s (last on 0) in
  describes (mkSeg (gstarts c (bin_start cg s) on 0 k1) (map (bin_label cg s) (zrange 0 k1)) (n_empty 0 (gstarts c (bin_start cg s) on 0 k1)) c
      (map (fun k => bin_start cg s (k + 1)) (zrange 0 k1)) false 0)
    [] rows (map (fun k => (bin_label cg s k, cell s k rows)) (zrange 0 k1)).
Proof.
  intros s rows H Hs E on k1.
  pose proof (grid_describes c (bin_start cg s) (bin_of cg s) (bin_start_inc s) (bin_start_of s) t (bin_label cg s) [] rows 0 H Hs ltac:(subst s; apply first_bin)) as G.
  cbv zeta in G. fold on in G. fold k1 in G.
  replace (map (fun k => (bin_label cg s k, cell s k rows)) (zrange 0 k1)) with (map (fun k => (bin_label cg s k, (if k =? 0 then [] else []) ++ cell s k rows)) (zrange 0 k1)); auto.
  apply map_ext. intro k. destruct (k =? 0); auto.
Qed.

Lemma cal_once : forall rows, rows <> [] -> sorted (map t rows) ->
  exists sg, cal_by t cg rows None = Ok (sg, None) /\ describes sg [] rows (cal_bins t cg rows).
Proof.
  intros rows H Hs. set (s := anchor_of rows). assert (K0 : 0 <= lastk rows) by (apply lastk_nonneg; auto).
  assert (Hon : map t rows <> []) by (destruct rows; simpl; congruence).
  pose proof (by_scale_cal_is (map t rows) (hd 0 (map t rows)) s 0 None Hon Hs ltac:(unfold s; lia) K0 eq_refl) as E. cbv zeta in E.
  eexists. split; [exact E|]. rewrite cal_bins_cells by auto. fold s.
  apply grid_describes_nil; auto.
Qed.

Theorem cal_binning : binning (cal_by t cg) sbuf_empty (cal_bins t cg) (cal_after t cg) (fun rows => sorted (map t rows)).
Proof.
  split.
  - intros rows more H. rewrite map_app in H. apply sorted_app in H. tauto.
  - split; reflexivity.
  - intros rows _. pose proof (cal_labels rows) as L. induction L as [|a l L IH F]; constructor; auto.
    intro Hin. rewrite Forall_forall in F. specialize (F _ Hin). lia.
  - intros rows more H Hs. set (s := anchor_of rows). set (K := lastk rows).
    assert (S1 : sorted (map t rows)) by (rewrite map_app in Hs; apply sorted_app in Hs; tauto).
    assert (K0 : 0 <= K) by (apply lastk_nonneg; auto).
    assert (Hlast : cell s K rows <> []).
    { destruct (exists_last H) as (l' & y & E). assert (In y (cell s K rows)); [|intros Q; rewrite Q in *; contradiction].
      apply filter_In. split; [rewrite E; apply in_or_app; right; left; auto|]. unfold in_cell. apply Z.eqb_eq. unfold K. rewrite E, !map_app. simpl. rewrite last_last. unfold s. rewrite E, map_app. auto. }
    destruct more as [|m0 more].
    + rewrite app_nil_r. exists (map (fun k => (bin_label cg s k, cell s k rows)) (zrange 0 (K - 1))), (bin_label cg s K), (cell s K rows), [], [].
      rewrite app_nil_r. assert (E : cal_bins t cg rows = map (fun k => (bin_label cg s k, cell s k rows)) (zrange 0 (K - 1)) ++ [(bin_label cg s K, cell s K rows)]); [|auto].
      rewrite cal_bins_cells by auto. fold K s. rewrite zrange_snoc, map_app by auto. auto.
    + destruct (cal_bins_split rows (m0 :: more) H ltac:(discriminate) Hs) as [E1 E2]. fold K s in E1, E2.
      destruct (cal_more rows (m0 :: more) H ltac:(discriminate) Hs) as (_ & A2 & _ & A4 & _). fold K s in A2, A4.
      rewrite (zrange_cons K) in E2 by lia. cbn [map] in E2. rewrite Z.eqb_refl in E2. do 5 eexists. split; [exact E1|]. split; [exact Hlast|]. exact E2.
  - intros rows more b Hm Hs Ha. destruct rows as [|r0 rows0].
    { cbn [app] in *. red in Ha. subst b. set (s := anchor_of more). assert (K0 : 0 <= lastk more) by (apply lastk_nonneg; auto).
      assert (Hon : map t more <> []) by (destruct more; simpl; congruence).
      pose proof (by_scale_cal_is (map t more) (hd 0 (map t more)) s 0 (Some sbuf_empty) Hon Hs ltac:(unfold s; lia) K0 ltac:(split; reflexivity)) as E. cbv zeta in E.
      do 2 eexists. split; [exact E|]. split.
      - apply cal_after_is; auto. split; [reflexivity|]. eexists. split; [reflexivity|]. apply restart_point; auto. apply first_bin.
      - unfold new_bins. cbn [cal_bins length app last_rows map last skipn Nat.sub]. rewrite cal_bins_cells by auto. fold s.
        apply grid_describes_nil; auto. }
    set (rows := r0 :: rows0) in *. assert (Hrows : rows <> []) by discriminate. clearbody rows. clear r0 rows0.
    destruct (cal_more rows more Hrows Hm Hs) as (A1 & A2 & A3 & A4 & A5 & A6). set (K := lastk rows) in *. set (s := anchor_of rows) in *.
    apply cal_after_is in Ha as (B1 & r & B2 & B3); auto. fold K s in B3.
    assert (Sm : sorted (map t more)) by (rewrite map_app in Hs; apply sorted_app in Hs; tauto).
    assert (Hon : map t more <> []) by (destruct more; simpl; congruence).
    assert (B4 : r = match sb_restart b with Some r => r | None => hd 0 (map t more) end) by (rewrite B2; auto).
    pose proof (by_scale_cal_is (map t more) r s K (Some b) Hon Sm B3 ltac:(lia) (conj B1 B4)) as E. cbv zeta in E.
    do 2 eexists. split; [exact E|]. split.
    + apply cal_after_is; [destruct rows; simpl; congruence|]. split; [reflexivity|]. eexists. split; [reflexivity|].
      rewrite A1, A3. fold s. apply restart_point; auto.
    + destruct (cal_bins_split rows more Hrows Hm Hs) as [E1 E2]. fold K s in E1, E2.
      assert (EL : last_rows (cal_bins t cg rows) = cell s K rows) by (unfold last_rows; rewrite E1, map_app; simpl; apply last_last).
      assert (EN : new_bins (cal_bins t cg) rows more = map (fun k => (bin_label cg s k, (if k =? K then cell s K rows else []) ++ cell s k more)) (zrange K (bin_of cg s (last (map t more) 0)))).
      { unfold new_bins. rewrite E1, E2, app_length. simpl length. rewrite Nat.add_sub, skipn_app, skipn_all, Nat.sub_diag. auto. }
      rewrite EL, EN. apply (grid_describes c (bin_start cg s) (bin_of cg s) (bin_start_inc s) (bin_start_of s) t (bin_label cg s) (cell s K rows) more K Hm Sm A2).
  - intros rows H Hs. apply cal_once; auto.
Qed.
End Grouper.
