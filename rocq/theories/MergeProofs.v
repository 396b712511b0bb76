(** Proofs about the merge of bins and snapshots. *)
Require Import List Arith ZArith Bool Lia Sorted Permutation.
Require Import Verif.Common Verif.SegModel Verif.SegSpec Verif.SegProofs.
Import ListNotations.
Local Open Scope Z_scope.

Definition key_le {A} (x y : Z * A) : Prop := fst x <= fst y.

Lemma ins_In : forall {A} (x y : Z * A) l, In y (ins x l) <-> y = x \/ In y l.
Proof.
  induction l as [|z l IH]; simpl; [intuition|].
  destruct (fst x <=? fst z); simpl; [intuition|]. rewrite IH. intuition.
Qed.

Lemma ins_sorted : forall {A} (x : Z * A) l, StronglySorted key_le l -> StronglySorted key_le (ins x l).
Proof.
  induction l as [|y l IH]; intros H; simpl.
  - repeat constructor.
  - destruct (fst x <=? fst y) eqn:E.
    + apply Z.leb_le in E. constructor; auto. inversion H; subst. constructor; auto.
      eapply Forall_impl; [|exact H3]. unfold key_le. intros; lia.
    + apply Z.leb_gt in E. inversion H; subst. constructor; auto.
      apply Forall_forall. intros z Hz. apply ins_In in Hz as [->|Hz]; unfold key_le; [lia|].
      rewrite Forall_forall in H3. apply H3; auto.
Qed.

Lemma stable_sort_sorted : forall {A} (l : list (Z * A)), StronglySorted key_le (stable_sort l).
Proof. induction l; simpl; [constructor|apply ins_sorted; auto]. Qed.

Lemma stable_sort_In : forall {A} (l : list (Z * A)) y, In y (stable_sort l) <-> In y l.
Proof. induction l as [|x l IH]; intro y; simpl; [tauto|]. rewrite ins_In, IH. intuition. Qed.

Lemma ins_le_all : forall {A} (x : Z * A) l, (forall y, In y l -> fst x <= fst y) -> ins x l = x :: l.
Proof.
  destruct l as [|y l]; intros H; simpl; auto.
  destruct (fst x <=? fst y) eqn:E; auto. apply Z.leb_gt in E. specialize (H y (or_introl eq_refl)). lia.
Qed.

Lemma filter_ins : forall {A} (p : Z * A -> bool) x l, StronglySorted key_le l ->
  filter p (ins x l) = if p x then ins x (filter p l) else filter p l.
Proof.
  induction l as [|y l IH]; intros H; simpl.
  - destruct (p x); auto.
  - inversion H; subst. destruct (fst x <=? fst y) eqn:E.
    + apply Z.leb_le in E. simpl. destruct (p x) eqn:Px.
      * rewrite ins_le_all.
        -- auto.
        -- intros z Hz. assert (In z (y :: l)) by (apply (filter_In p); simpl; auto).
           destruct H0 as [->|H0]; [lia|]. rewrite Forall_forall in H3. specialize (H3 z H0). unfold key_le in H3. lia.
      * auto.
    + simpl. rewrite IH by auto. destruct (p x) eqn:Px, (p y) eqn:Py; simpl; auto. rewrite E. auto.
Qed.

Lemma filter_stable_sort : forall {A} (p : Z * A -> bool) l,
  filter p (stable_sort l) = stable_sort (filter p l).
Proof.
  induction l as [|x l IH]; simpl; auto. rewrite filter_ins by apply stable_sort_sorted.
  destruct (p x); simpl; rewrite IH; auto.
Qed.

Lemma stable_sort_id : forall {A} (l : list (Z * A)), StronglySorted key_le l -> stable_sort l = l.
Proof.
  induction l as [|x l IH]; intros H; simpl; auto. inversion H; subst. rewrite IH by auto.
  apply ins_le_all. rewrite Forall_forall in H3. auto.
Qed.

(** Snapshots before bins at equal keys. *)
Lemma ins_ev_le : forall (x : event) l, StronglySorted ev_le l ->
  (ev_is_bin x = false \/ forall y, In y l -> ev_is_bin y = true) -> StronglySorted ev_le (ins x l).
Proof.
  induction l as [|y l IH]; intros H Hx; simpl.
  - repeat constructor.
  - inversion H; subst. destruct (fst x <=? fst y) eqn:E.
    + apply Z.leb_le in E. constructor; auto.
      assert (Hxy : ev_le x y).
      { unfold ev_le. destruct (Z.eq_dec (fst x) (fst y)) as [Q|]; [right; split; auto|left; lia].
        destruct Hx as [Hx|Hx]; auto. right. apply Hx. left; auto. }
      constructor; auto. rewrite Forall_forall in *. intros z Hz. specialize (H3 z Hz).
      unfold ev_le in *. destruct (Z.eq_dec (fst x) (fst z)) as [Q|]; [right; split; auto|left; lia].
      destruct Hx as [Hx|Hx]; auto. right. apply Hx. right; auto.
    + apply Z.leb_gt in E. constructor.
      * apply IH; auto. destruct Hx as [Hx|Hx]; auto. right. intros; apply Hx; right; auto.
      * apply Forall_forall. intros z Hz. apply ins_In in Hz as [->|Hz]; [left; lia|].
        rewrite Forall_forall in H3; auto.
Qed.

Lemma stable_sort_ev_le : forall (l1 l2 : list event),
  (forall x, In x l1 -> ev_is_bin x = false) -> (forall x, In x l2 -> ev_is_bin x = true) ->
  StronglySorted ev_le (stable_sort (l1 ++ l2)).
Proof.
  intros l1 l2 H1 H2. induction l1 as [|x l1 IH]; simpl.
  - induction l2 as [|y l2 IH2]; simpl; [constructor|].
    apply ins_ev_le; [apply IH2; intros; apply H2; right; auto|].
    right. intros z Hz. apply (proj1 (stable_sort_In _ _)) in Hz. apply H2; right; auto.
  - apply ins_ev_le; [apply IH; intros; apply H1; right; auto|]. left. apply H1; left; auto.
Qed.

Lemma combine_fst_sorted : forall (ks : list Z) (ls : list nat), sorted ks ->
  StronglySorted key_le (combine ks ls).
Proof.
  induction ks as [|k ks IH]; intros [|l ls] H; simpl; try constructor.
  - inversion H; subst; auto.
  - inversion H; subst. apply Forall_forall. intros [k' l'] Hin. apply in_combine_l in Hin.
    rewrite Forall_forall in H3. apply H3; auto.
Qed.

Lemma map_key_sorted : forall {A B} (g : Z * A -> Z * B) l, (forall x, fst (g x) = fst x) ->
  StronglySorted key_le l -> StronglySorted key_le (map g l).
Proof.
  intros A B g l Hg H. induction H as [|x l H IH F]; simpl; constructor; auto.
  apply Forall_forall. intros y Hy. apply in_map_iff in Hy as (z & <- & Hz). unfold key_le.
  rewrite !Hg. rewrite Forall_forall in F. apply F; auto.
Qed.

Lemma filter_all : forall {A} (p : A -> bool) l, (forall x, In x l -> p x = true) -> filter p l = l.
Proof.
  induction l as [|x l IH]; intros H; simpl; auto. rewrite H by (left; auto). f_equal. apply IH.
  intros; apply H; right; auto.
Qed.
Lemma filter_none : forall {A} (p : A -> bool) l, (forall x, In x l -> p x = false) -> filter p l = [].
Proof.
  induction l as [|x l IH]; intros H; simpl; auto. rewrite H by (left; auto). apply IH.
  intros; apply H; right; auto.
Qed.

Lemma StronglySorted_removelast : forall {A} (R : A -> A -> Prop) l, StronglySorted R l -> StronglySorted R (removelast l).
Proof.
  intros A R l H. induction H as [|x l H IH F]; simpl; [constructor|].
  destruct l as [|y l]; [constructor|]. constructor; auto.
  apply Forall_forall. intros z Hz. rewrite Forall_forall in F. apply F.
  clear -Hz. revert y Hz. induction l as [|w l IH]; intros y Hz; [destruct Hz|].
  destruct Hz as [->|Hz]; [left; auto|right; apply IH; auto].
Qed.

Lemma nonzero_from_indices : forall {A} (p : A -> bool) l k,
  nonzero_from k p l =
  filter (fun i => match nth_error l (i - k) with Some x => p x | None => false end) (seq k (length l)).
Proof.
  induction l as [|x l IH]; intros k; simpl; auto.
  rewrite Nat.sub_diag. simpl. rewrite IH.
  assert (E : filter (fun i => match nth_error l (i - S k) with Some x0 => p x0 | None => false end) (seq (S k) (length l))
            = filter (fun i => match nth_error (x :: l) (i - k) with Some x0 => p x0 | None => false end) (seq (S k) (length l))).
  { apply filter_ext_in. intros i Hi. apply in_seq in Hi.
    replace (i - k)%nat with (S (i - S k)) by lia. auto. }
  rewrite E. destruct (p x); auto.
Qed.

Lemma nonzero_from_0 : forall {A} (p : A -> bool) l, nonzero_from 0 p l = indices p l.
Proof.
  intros. rewrite nonzero_from_indices. unfold indices. apply filter_ext. intro i. rewrite Nat.sub_0_r. auto.
Qed.

Lemma map_removelast : forall {A B} (g : A -> B) l, removelast (map g l) = map g (removelast l).
Proof. induction l as [|x [|y l] IH]; simpl; auto. f_equal. apply IH. Qed.

Lemma removelast_last_list : forall {A} (l : list A) d, l <> [] -> l = removelast l ++ [last l d].
Proof. intros. apply app_removelast_last; auto. Qed.

Lemma mergesort_spec : forall snaps bins force,
  StronglySorted key_le snaps -> StronglySorted key_le bins ->
  (force = true -> bins <> []) ->
  exists m,
    mergesort (map snd snaps) (map snd bins) (map fst snaps) (map fst bins) force
      = Ok (map ev_pos m, indices ev_is_bin m) /\
    is_merge snaps bins force m.
Proof.
  intros snaps bins force Hs Hb Hf. unfold mergesort. rewrite !map_length, !Nat.eqb_refl. simpl negb. cbv iota zeta.
  assert (C : forall l : list (Z * nat), combine (map fst l) (map snd l) = l).
  { induction l as [|[k p] l IH]; simpl; f_equal; auto. }
  rewrite !C.
  change (map (fun kl : Z * nat => (fst kl, (snd kl, false))) snaps) with (map snap_ev snaps).
  change (map (fun kl : Z * nat => (fst kl, (snd kl, true))) bins) with (map bin_ev bins).
  assert (Hs' : StronglySorted key_le (map snap_ev snaps)) by (apply map_key_sorted; auto).
  assert (Hb' : StronglySorted key_le (map bin_ev bins)) by (apply map_key_sorted; auto).
  assert (Ts : forall x, In x (map snap_ev snaps) -> ev_is_bin x = false).
  { intros x Hx. apply in_map_iff in Hx as (y & <- & _). auto. }
  assert (Tb : forall bs x, In x (map bin_ev bs) -> ev_is_bin x = true).
  { intros bs x Hx. apply in_map_iff in Hx as (y & <- & _). auto. }
  assert (F : forall bs, StronglySorted key_le (map bin_ev bs) ->
     filter (fun e => negb (ev_is_bin e)) (stable_sort (map snap_ev snaps ++ map bin_ev bs)) = map snap_ev snaps /\
     filter ev_is_bin (stable_sort (map snap_ev snaps ++ map bin_ev bs)) = map bin_ev bs).
  { intros bs Hbs. rewrite !filter_stable_sort, !filter_app. split.
    - rewrite filter_all by (intros x Hx; rewrite (Ts x Hx); auto).
      rewrite filter_none by (intros x Hx; rewrite (Tb bs x Hx); auto).
      rewrite app_nil_r. apply stable_sort_id; auto.
    - rewrite filter_none by (intros x Hx; apply Ts; auto).
      rewrite filter_all by (intros x Hx; apply (Tb bs); auto).
      apply stable_sort_id; auto. }
  destruct force.
  - specialize (Hf eq_refl).
    rewrite map_removelast.
    assert (exists b, match map bin_ev bins with [] => [] | x :: t => [last t x] end = [bin_ev b]
              /\ bins = removelast bins ++ [b]) as (b & E1 & E2).
    { destruct bins as [|b0 t]; [congruence|]. exists (last (b0 :: t) b0). split.
      - simpl map. cbv iota. f_equal.
        assert (G : forall t b0, last (map bin_ev t) (bin_ev b0) = bin_ev (last (b0 :: t) b0)).
        { clear. induction t as [|b1 t IH]; intros b0; auto.
          simpl map. destruct t as [|b2 t]; auto.
          change (last (bin_ev b1 :: map bin_ev (b2 :: t)) (bin_ev b0)) with (last (map bin_ev (b2 :: t)) (bin_ev b0)).
          rewrite IH. auto. }
        apply G.
      - apply removelast_last_list. congruence. }
    rewrite E1.
    exists (stable_sort (map snap_ev snaps ++ map bin_ev (removelast bins)) ++ [bin_ev b]). split.
    + rewrite nonzero_from_0. reflexivity.
    + assert (S' : StronglySorted key_le (map bin_ev (removelast bins))).
      { apply map_key_sorted; auto. apply StronglySorted_removelast; auto. }
      destruct (F _ S') as [F1 F2].
      split; [|split].
      * rewrite filter_app, F1. simpl. apply app_nil_r.
      * rewrite filter_app, F2. simpl. rewrite E2 at 2. rewrite map_app. auto.
      * eexists _, _. split; [reflexivity|]. split; auto.
        apply stable_sort_ev_le; auto. apply Tb.
  - exists (stable_sort (map snap_ev snaps ++ map bin_ev bins)). split.
    + rewrite nonzero_from_0. reflexivity.
    + destruct (F bins Hb') as [F1 F2]. split; [|split]; auto.
      apply stable_sort_ev_le; auto. apply Tb.
Qed.
