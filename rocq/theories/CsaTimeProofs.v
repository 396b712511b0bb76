(** 'cumsegagg' on bins of time. *)
Require Import List Arith ZArith Bool Lia Sorted Permutation.
Require Import Verif.Common Verif.AggModel Verif.AggSpec Verif.AggProofs.
Require Import Verif.SegModel Verif.SegSpec Verif.SegProofs Verif.SegRowsProofs Verif.MergeProofs Verif.EventProofs.
Require Import Verif.CsaModel Verif.CsaSpec Verif.CsaProofs Verif.CsaLoopProofs Verif.CsaSegProofs.
Import ListNotations.
Local Open Scope Z_scope.

Lemma NoDup_consistent : forall {A} (lg : list (Z * list A)), NoDup (map fst lg) -> label_consistent lg.
Proof.
  intros A lg H l r1 r2 H1 H2. f_equal. revert H H1 H2. induction lg as [|[k r] lg IH]; intros H H1 H2; [contradiction|].
  simpl in H. inversion H as [|? ? Hni Hnd]; subst.
  destruct H1 as [Q1|H1], H2 as [Q2|H2]; try congruence.
  - injection Q1 as -> ->. destruct Hni. apply in_map_iff. exists (l, r2); auto.
  - injection Q2 as -> ->. destruct Hni. apply in_map_iff. exists (l, r1); auto.
  - auto.
Qed.

Lemma combine_map2 : forall {A B C} (g : A -> B) (h : A -> C) l, combine (map g l) (map h l) = map (fun x => (g x, h x)) l.
Proof. induction l; simpl; auto. f_equal. auto. Qed.

Lemma bin_groups_nil_le : forall {R} (acc : list R) starts data,
  (length (filter is_nil (bin_groups acc starts data)) <= length (filter is_nil (cut 0 starts data)))%nat.
Proof.
  intros R acc [|p ps] data; simpl; auto. unfold slice. rewrite Nat.sub_0_r. simpl.
  destruct acc; simpl; auto. destruct (is_nil (firstn p data)); simpl; auto.
Qed.

Lemma last_zrange : forall {A} (g : Z -> A) k0 k1 d, k0 <= k1 -> last (map g (zrange k0 k1)) d = g k1.
Proof. intros A g k0 k1 d H. rewrite zrange_snoc by auto. rewrite map_app. simpl. apply last_last. Qed.

Lemma hd_zrange : forall {A} (g : Z -> A) k0 k1 d, k0 <= k1 -> hd d (map g (zrange k0 k1)) = g k0.
Proof. intros A g k0 k1 d H. rewrite zrange_cons by auto. auto. Qed.

Lemma kappa_last_ge : forall c a f l y, 0 < f -> sorted l -> In y l -> kappa c a f y <= kappa c a f (last l 0).
Proof. intros. apply kappa_mono; auto. apply sorted_last_ge; auto. Qed.
Lemma kappa_hd_le : forall c a f l y, 0 < f -> sorted l -> In y l -> kappa c a f (hd 0 l) <= kappa c a f y.
Proof. intros. apply kappa_mono; auto. apply sorted_hd_le; auto. Qed.

Lemma NoDup_labels : forall lab a f k0 k1, 0 < f -> NoDup (map (period_label lab a f) (zrange k0 k1)).
Proof.
  intros lab a f k0 k1 Hf. unfold zrange. rewrite map_map.
  assert (G : forall n s, NoDup (map (fun i => period_label lab a f (k0 + Z.of_nat i)) (seq s n))).
  { induction n as [|n IH]; intros s; simpl; constructor; auto.
    intro Q. apply in_map_iff in Q as (i & E & Hi). apply in_seq in Hi.
    assert (k0 + Z.of_nat i = k0 + Z.of_nat s); [|lia].
    destruct lab; simpl in E; nia. }
  apply G.
Qed.

Section Time.
Context {D : Type}.
Variable t : D -> Z.

Lemma filter_app_nil_l : forall (p : D -> bool) l m, (forall x, In x l -> p x = false) -> filter p (l ++ m) = filter p m.
Proof. intros p l m H. rewrite filter_app, (filter_none p l) by auto. auto. Qed.

(** Rows of period bins. *)
Lemma period_groups : forall c a f H p k0, 0 < f -> sorted (map t p) -> p <> [] ->
  k0 <= kappa c a f (hd 0 (map t p)) -> (forall h, In h H -> kappa c a f (t h) <= k0) ->
  let k1 := kappa c a f (last (map t p) 0) in
  bin_groups (filter (fun r => in_period c a f k0 (t r)) H) (pstarts c a f (map t p) k0 k1) p
  = map (fun k => filter (fun r => in_period c a f k (t r)) (H ++ p)) (zrange k0 k1).
Proof.
  intros c a f H p k0 Hf Hs Hne Hk0 HH k1.
  assert (Hk : k0 <= k1).
  { etransitivity; [exact Hk0|]. apply kappa_hd_le; auto. apply last_In. destruct p; [congruence|discriminate]. }
  pose proof (cut_periods t c a f p k0 k1 Hf Hs) as C. rewrite (n_before_start t c a f p k0) in C by auto.
  unfold pstarts in *. rewrite (zrange_cons k0 k1) in * by auto. simpl map in C |- *.
  unfold bin_groups. simpl cut in C. injection C as C1 C2. rewrite Nat.sub_0_r in C1. unfold slice.
  rewrite Nat.sub_0_r. simpl skipn. f_equal.
  - rewrite C1, filter_app. auto.
  - rewrite C2. apply map_ext_in. intros k Hk'. apply zrange_In in Hk'. symmetry. apply filter_app_nil_l.
    intros h Hh. destruct (in_period c a f k (t h)) eqn:E; auto. apply in_period_kappa in E; auto.
    specialize (HH h Hh). lia.
Qed.

Lemma period_seg_ok : forall c lab a f p k0 n, 0 < f -> sorted (map t p) -> p <> [] ->
  k0 <= kappa c a f (last (map t p) 0) ->
  let k1 := kappa c a f (last (map t p) 0) in
  seg_ok p (mkSeg (pstarts c a f (map t p) k0 k1) (map (period_label lab a f) (zrange k0 k1))
              n c (map (period_end a f) (zrange k0 k1)) false 0).
Proof.
  intros c lab a f p k0 n Hf Hs Hne Hk k1.
  assert (Hpn : map t p <> []) by (destruct p; [congruence|discriminate]).
  constructor; simpl; unfold pstarts; rewrite ?map_length; auto.
  - pose proof (pstarts_sorted c a f (map t p) k0 k1 Hf) as Q. inversion Q; auto.
  - rewrite zrange_cons by auto. discriminate.
  - rewrite last_zrange by auto. rewrite (proj2 (n_before_all c a f (map t p) k1 Hf Hpn Hs)) by (unfold k1; lia).
    apply map_length.
  - intros H2 Q. destruct (Z.eq_dec k0 k1) as [E|E].
    { unfold k1 in *. rewrite E, zrange_cons, zrange_nil in H2 by lia. simpl in H2. lia. }
    revert Q. rewrite (zrange_snoc k0 k1) by auto. rewrite (zrange_snoc k0 (k1 - 1)) by lia.
    rewrite !map_app, <- app_assoc. simpl app.
    replace (length _ - 2)%nat with (length (map (fun k => n_before c (map t p) (period_end a f k)) (zrange k0 (k1 - 1 - 1)))).
    2:{ rewrite !app_length, map_length. simpl. lia. }
    rewrite <- app_assoc. simpl app. rewrite nth_middle. intro Q.
    assert (n_before c (map t p) (period_end a f (k1 - 1)) = length (map t p)) as Q' by (rewrite map_length; auto).
    apply (n_before_all c a f (map t p) (k1 - 1) Hf Hpn Hs) in Q'. unfold k1 in Q'. lia.
Qed.

Lemma sorted_ends : forall a f k0 k1, 0 < f -> sorted (map (period_end a f) (zrange k0 k1)).
Proof.
  intros a f k0 k1 Hf. unfold period_end. rewrite <- (map_shift_zrange (fun k => a + k * f)). apply sorted_zrange; auto.
Qed.

Lemma n_empty_bin_groups : forall c a f acc p k0 k1, 0 < f ->
  (length (filter is_nil (bin_groups acc (pstarts c a f (map t p) k0 k1) p)) <= n_empty 0 (pstarts c a f (map t p) k0 k1))%nat.
Proof.
  intros c a f acc p k0 k1 Hf. rewrite (n_empty_cut p).
  - apply bin_groups_nil_le.
  - apply pstarts_sorted; auto.
  - intros q Hq. apply pstarts_le in Hq. rewrite map_length in Hq. auto.
Qed.

Lemma combine_map_l : forall {A B C} (g : A -> B) (l : list A) (h : A -> C), combine (map g l) (map h l) = map (fun x => (g x, h x)) l.
Proof. intros. apply combine_map2. Qed.

Lemma filter_zrange_lt : forall k0 k1 (P : Z -> bool) m, (forall k, P k = (k <? m)) ->
  filter P (zrange k0 k1) = zrange k0 (Z.min k1 (m - 1)).
Proof.
  intros k0 k1 P m HP. rewrite (filter_ext P (fun k => k <? m)) by auto. clear HP.
  destruct (Z_lt_le_dec k1 k0) as [L|L].
  { rewrite !zrange_nil by lia. auto. }
  destruct (Z_lt_le_dec k1 m) as [L1|L1].
  - rewrite Z.min_l by lia. apply filter_all. intros x Hx. apply zrange_In in Hx. apply Z.ltb_lt. lia.
  - rewrite Z.min_r by lia. destruct (Z_lt_le_dec (m - 1) k0) as [L2|L2].
    + rewrite (zrange_nil k0 (m-1)) by lia. apply filter_none. intros x Hx. apply zrange_In in Hx. apply Z.ltb_ge. lia.
    + rewrite (zrange_app k0 (m - 1) k1) by lia. rewrite filter_app, filter_all, filter_none, app_nil_r; auto.
      * intros x Hx. apply zrange_In in Hx. apply Z.ltb_ge. lia.
      * intros x Hx. apply zrange_In in Hx. apply Z.ltb_lt. lia.
Qed.

Lemma period_end_lt : forall a f k e, 0 < f -> (period_end a f k <? e) = (k <? kappa SRight a f e).
Proof.
  intros a f k e Hf. pose proof (before_kappa SRight a f (k + 1) e Hf) as B. unfold before in B. unfold period_end.
  destruct (a + (k + 1) * f <? e) eqn:E1; destruct (k <? kappa SRight a f e) eqn:E2; auto; exfalso.
  - apply Z.ltb_lt in E1. apply Z.ltb_ge in E2.
    assert (Q : (kappa SRight a f e <? k + 1) = true) by (apply Z.ltb_lt; lia). rewrite Q in B. apply Z.leb_le in B. lia.
  - apply Z.ltb_ge in E1. apply Z.ltb_lt in E2.
    assert (Q : (kappa SRight a f e <? k + 1) = false) by (apply Z.ltb_ge; lia). rewrite Q in B. apply Z.leb_gt in B. lia.
Qed.

Lemma kappa_end : forall a f e, 0 < f -> a + kappa SRight a f e * f < e <= a + (kappa SRight a f e + 1) * f.
Proof.
  intros a f e Hf. assert (E : in_period SRight a f (kappa SRight a f e) e = true) by (apply in_period_kappa; auto).
  unfold in_period in E. apply andb_true_iff in E as [E1 E2]. apply Z.ltb_lt in E1. apply Z.leb_le in E2. auto.
Qed.

Lemma is_nil_map : forall {A B} (g : A -> B) l, is_nil (map g l) = is_nil l.
Proof. intros A B g []; auto. Qed.

Lemma period_snap_rows : forall c a f H p k0 e, 0 < f -> sorted (map t p) -> p <> [] ->
  k0 <= kappa c a f (hd 0 (map t p)) -> (forall h, In h H -> kappa c a f (t h) <= k0) ->
  (H <> [] -> exists h, In h H /\ kappa c a f (t h) = k0) ->
  (forall h, In h H -> before c e (t h) = true) ->
  let k1 := kappa c a f (last (map t p) 0) in
  snap_rows p (filter (fun r => in_period c a f k0 (t r)) H)
    (combine (map (period_end a f) (zrange k0 k1)) (pstarts c a f (map t p) k0 k1))
    (e, n_before c (map t p) e)
  = snap_period t c a f e (H ++ p).
Proof.
  intros c a f H p k0 e Hf Hs Hne Hk0 HH Hlast Hbe k1.
  assert (Hk : k0 <= k1).
  { etransitivity; [exact Hk0|]. apply kappa_hd_le; auto. apply last_In. destruct p; [congruence|discriminate]. }
  set (ks := kappa SRight a f e).
  pose proof (kappa_end a f e Hf) as He. fold ks in He.
  unfold pstarts. rewrite combine_map2. unfold snap_rows. simpl fst. simpl snd.
  assert (F : filter (fun b : Z * nat => fst b <? e) (map (fun x => (period_end a f x, n_before c (map t p) (period_end a f x))) (zrange k0 k1))
          = map (fun x => (period_end a f x, n_before c (map t p) (period_end a f x))) (zrange k0 (Z.min k1 (ks - 1)))).
  { rewrite <- (filter_zrange_lt k0 k1 (fun k => period_end a f k <? e) ks) by (intro k; apply period_end_lt; auto).
    generalize (zrange k0 k1). induction l as [|x l IH]; simpl; auto. destruct (period_end a f x <? e); simpl; rewrite IH; auto. }
  rewrite F. rewrite is_nil_map, map_map. simpl.
  assert (Hpk : forall r, In r p -> k0 <= kappa c a f (t r) <= k1).
  { intros r Hr. split.
    - etransitivity; [exact Hk0|]. apply kappa_hd_le; auto. apply in_map; auto.
    - apply kappa_last_ge; auto. apply in_map; auto. }
  unfold snap_period. fold ks.
  destruct (Z_lt_le_dec k0 ks) as [L|L].
  - assert (Hnn : is_nil (zrange k0 (Z.min k1 (ks - 1))) = false) by (rewrite zrange_cons by lia; auto).
    rewrite Hnn. rewrite last_zrange by lia. simpl app.
    rewrite filter_app_nil_l.
    2:{ intros h Hh. destruct (in_period c a f ks (t h)) eqn:E; auto. apply in_period_kappa in E; auto. specialize (HH h Hh). lia. }
    destruct (Z_lt_le_dec k1 (ks - 1)) as [L1|L1].
    + rewrite Z.min_l by lia.
      assert (Hpn : map t p <> []) by (destruct p; [congruence|discriminate]).
      rewrite (proj2 (n_before_all c a f (map t p) k1 Hf Hpn Hs)) by (unfold k1; lia).
      unfold slice. rewrite map_length, skipn_all, firstn_nil. symmetry. apply filter_none.
      intros r Hr. destruct (in_period c a f ks (t r)) eqn:E; auto. apply in_period_kappa in E; auto. specialize (Hpk r Hr). lia.
    + rewrite Z.min_r by lia. unfold slice, period_end. replace (ks - 1 + 1) with ks by lia.
      rewrite (rows_between t c (a + ks * f) e p) by (auto; lia).
      apply filter_ext_in. intros r Hr. rewrite in_period_before.
      destruct (before c e (t r)) eqn:E; [|rewrite !andb_false_r; auto].
      rewrite (before_mono_e c e (a + (ks + 1) * f)) by (auto; lia). rewrite !andb_true_r. auto.
  - assert (Hnn : is_nil (zrange k0 (Z.min k1 (ks - 1))) = true) by (rewrite zrange_nil by lia; auto).
    rewrite Hnn. rewrite (zrange_nil k0) by lia. simpl last. unfold slice. rewrite Nat.sub_0_r. simpl skipn.
    rewrite (rows_firstn t c e p) by auto. rewrite filter_app.
    assert (Hp : filter (fun r => before c e (t r)) p = filter (fun r => in_period c a f ks (t r) && before c e (t r)) p).
    { apply filter_ext_in. intros r Hr. destruct (before c e (t r)) eqn:E; [|rewrite andb_false_r; auto].
      rewrite andb_true_r. symmetry. apply in_period_kappa; auto.
      assert (Q : before c (a + (ks + 1) * f) (t r) = true) by (apply (before_mono_e c e); auto; lia).
      rewrite before_kappa in Q by auto. apply Z.ltb_lt in Q. specialize (Hpk r Hr). lia. }
    rewrite Hp. f_equal.
    destruct H as [|h0 H'] eqn:EH; auto. rewrite <- EH in *.
    destruct Hlast as (h & Hh & Hkh); [subst H; congruence|].
    assert (Q : before c (a + (ks + 1) * f) (t h) = true) by (apply (before_mono_e c e); auto; lia).
    rewrite before_kappa in Q by auto. apply Z.ltb_lt in Q.
    assert (ks = k0) by lia.
    rewrite H0. apply filter_ext_in. intros r Hr. rewrite (Hbe r Hr), andb_true_r. auto.
Qed.

Lemma compat_n_before : forall c on es ks, compat (combine es (map (n_before c on) es)) (combine ks (map (n_before c on) ks)).
Proof.
  intros c on es ks [e pe] [k pk] H1 H2.
  assert (G : forall l x px, In (x, px) (combine l (map (n_before c on) l)) -> px = n_before c on x).
  { induction l as [|y l IH]; intros x px H; simpl in H; [contradiction|]. destruct H as [Q|H]; [congruence|auto]. }
  apply G in H1. apply G in H2. subst. simpl. split; intro H; apply n_before_mono; lia.
Qed.
End Time.
