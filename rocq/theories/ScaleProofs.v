(** Proofs about writes of the same rows given in another way. *)
Require Import List Arith ZArith Bool Lia Permutation.
Require Import Verif.Common Verif.WrModel Verif.WrSpec Verif.WrIterProofs Verif.WrProofs Verif.WrHistProofs Verif.ScaleSpec.
Import ListNotations.
Local Open Scope Z_scope.

Definition change_group (g : row -> row) (x : rg) : rg := mkRg (part x) (map g (content x)).

Section Alike.
Variables (c c' : nat) (g : row -> row) (U : list row).
Hypothesis OA : ordered_alike c c' g U.

Lemma alike_leb : forall r s, In r U -> In s U -> (col c' (g r) <=? col c' (g s)) = (col c r <=? col c s).
Proof.
  intros r s Hr Hs. pose proof (OA r s Hr Hs). destruct (Z.leb_spec (col c' (g r)) (col c' (g s))), (Z.leb_spec (col c r) (col c s)); auto; lia.
Qed.
Lemma alike_ltb : forall r s, In r U -> In s U -> (col c' (g r) <? col c' (g s)) = (col c r <? col c s).
Proof.
  intros r s Hr Hs. pose proof (OA s r Hs Hr). destruct (Z.ltb_spec (col c' (g r)) (col c' (g s))), (Z.ltb_spec (col c r) (col c s)); auto; lia.
Qed.

(** Sorting *)
Lemma insert_by_alike : forall {A B} (k : A -> Z) (k' : B -> Z) (h : A -> B) x l,
  (forall y, In y l -> (k' (h x) <=? k' (h y)) = (k x <=? k y)) -> insert_by k' (h x) (map h l) = map h (insert_by k x l).
Proof.
  intros A B k k' h x. induction l as [|y l IH]; intro H; simpl; auto. rewrite (H y) by (left; auto). destruct (k x <=? k y); simpl; auto.
  f_equal. apply IH. intros z Hz. apply H. right. auto.
Qed.
Lemma insert_by_in : forall {A} (k : A -> Z) x l y, In y (insert_by k x l) <-> y = x \/ In y l.
Proof.
  intros A k x. induction l as [|z l IH]; intro y; simpl; [intuition|]. destruct (k x <=? k z); simpl; [intuition|]. rewrite IH. intuition.
Qed.
Lemma sort_by_in : forall {A} (k : A -> Z) l y, In y (sort_by k l) <-> In y l.
Proof. intros A k. induction l as [|x l IH]; intro y; simpl; [tauto|]. rewrite insert_by_in, IH. intuition. Qed.
Lemma sort_by_alike : forall {A B} (k : A -> Z) (k' : B -> Z) (h : A -> B) l,
  (forall x y, In x l -> In y l -> (k' (h x) <=? k' (h y)) = (k x <=? k y)) -> sort_by k' (map h l) = map h (sort_by k l).
Proof.
  intros A B k k' h. induction l as [|x l IH]; intro H; simpl; auto. rewrite IH by (intros; apply H; right; auto).
  apply insert_by_alike. intros y Hy. apply H; [left; auto|]. right. apply sort_by_in in Hy. auto.
Qed.

(** Statistics *)
Lemma fold_max_alike : forall l r0, In r0 U -> incl l U -> exists r, In r (r0 :: l)
  /\ fold_left Z.max (map (col c) l) (col c r0) = col c r /\ fold_left Z.max (map (col c') (map g l)) (col c' (g r0)) = col c' (g r).
Proof.
  induction l as [|x l IH]; intros r0 H0 Hl; simpl; [exists r0; auto|].
  assert (Hx : In x U) by (apply Hl; left; auto). assert (Hl' : incl l U) by (intros z Hz; apply Hl; right; auto).
  pose proof (OA r0 x H0 Hx). pose proof (OA x r0 Hx H0).
  destruct (Z.le_gt_cases (col c r0) (col c x)).
  - rewrite !Z.max_r by (auto; tauto). destruct (IH x Hx Hl') as (r & Hr & E & E'). exists r. split; [right; auto|auto].
  - rewrite !Z.max_l by lia. destruct (IH r0 H0 Hl') as (r & Hr & E & E'). exists r. split; [simpl in Hr; tauto|auto].
Qed.
Lemma fold_min_alike : forall l r0, In r0 U -> incl l U -> exists r, In r (r0 :: l)
  /\ fold_left Z.min (map (col c) l) (col c r0) = col c r /\ fold_left Z.min (map (col c') (map g l)) (col c' (g r0)) = col c' (g r).
Proof.
  induction l as [|x l IH]; intros r0 H0 Hl; simpl; [exists r0; auto|].
  assert (Hx : In x U) by (apply Hl; left; auto). assert (Hl' : incl l U) by (intros z Hz; apply Hl; right; auto).
  pose proof (OA r0 x H0 Hx). pose proof (OA x r0 Hx H0).
  destruct (Z.le_gt_cases (col c r0) (col c x)).
  - rewrite !Z.min_l by (auto; tauto). destruct (IH r0 H0 Hl') as (r & Hr & E & E'). exists r. split; [simpl in Hr; tauto|auto].
  - rewrite !Z.min_r by lia. destruct (IH x Hx Hl') as (r & Hr & E & E'). exists r. split; [right; auto|auto].
Qed.
Definition group_in (x : rg) : Prop := content x <> [] /\ incl (content x) U.
Lemma rg_max_alike : forall x, group_in x -> exists r, In r U /\ rg_max c x = col c r /\ rg_max c' (change_group g x) = col c' (g r).
Proof.
  intros [p [|r0 l]] [Hne Hi]; [elim Hne; reflexivity|]. unfold rg_max, list_max. simpl in *.
  destruct (fold_max_alike l r0) as (r & Hr & E & E'); [apply Hi; left; auto|intros z Hz; apply Hi; right; auto|]. exists r. auto.
Qed.
Lemma rg_min_alike : forall x, group_in x -> exists r, In r U /\ rg_min c x = col c r /\ rg_min c' (change_group g x) = col c' (g r).
Proof.
  intros [p [|r0 l]] [Hne Hi]; [elim Hne; reflexivity|]. unfold rg_min, list_min. simpl in *.
  destruct (fold_min_alike l r0) as (r & Hr & E & E'); [apply Hi; left; auto|intros z Hz; apply Hi; right; auto|]. exists r. auto.
Qed.
Lemma rg_max_leb : forall x y, group_in x -> group_in y ->
  (rg_max c' (change_group g x) <=? rg_max c' (change_group g y)) = (rg_max c x <=? rg_max c y).
Proof.
  intros x y Hx Hy. destruct (rg_max_alike x Hx) as (r & Hr & E & E'), (rg_max_alike y Hy) as (s & Hs & F & F').
  rewrite E, E', F, F'. apply alike_leb; auto.
Qed.
Lemma overlaps_alike : forall first last x, In first U -> In last U -> group_in x ->
  overlaps c' (col c' (g first)) (col c' (g last)) (change_group g x) = overlaps c (col c first) (col c last) x.
Proof.
  intros first last x Hf Hl Hx. destruct (rg_max_alike x Hx) as (r & Hr & E & E'), (rg_min_alike x Hx) as (s & Hs & F & F').
  unfold overlaps. rewrite E, E', F, F', !alike_ltb by auto. destruct x as [p [|r0 l]]; auto.
Qed.
Lemma nonzero_map : forall {A B} (h : A -> B) p p' l k, (forall x, In x l -> p' (h x) = p x) -> nonzero_from k p' (map h l) = nonzero_from k p l.
Proof.
  intros A B h p p'. induction l as [|x l IH]; intros k H; simpl; auto. rewrite (H x) by (left; auto). rewrite IH; auto. intros; apply H; right; auto.
Qed.
Lemma overlap_alike : forall ds data, incl data U -> (forall x, In x ds -> group_in x) ->
  overlap c' (change_dataset g ds) (map g data) = overlap c ds data.
Proof.
  intros ds data Hd Hds. unfold overlap. destruct data as [|r data]; auto. simpl map.
  assert (E : last (g r :: map g data) [] = g (last (r :: data) [])).
  { clear. revert r. induction data as [|x l IH]; intro r; auto. change (last (g x :: map g l) [] = g (last (x :: l) [])). apply IH. }
  rewrite E. unfold change_dataset at 1.
  rewrite (nonzero_map (change_group g) (overlaps c (col c r) (col c (last (r :: data) [])))); [unfold change_dataset; rewrite map_length; auto|].
  intros x Hx. apply overlaps_alike; auto; apply Hd; [left; auto|]. destruct (exists_last (l := r :: data)) as (l & z & Ez); [discriminate|].
  rewrite Ez, last_last. apply in_or_app. right. left. auto.
Qed.

(** Splitting *)
Lemma searchsorted_alike : forall l v, In v U -> incl l U -> searchsorted (map (col c') (map g l)) (col c' (g v)) = searchsorted (map (col c) l) (col c v).
Proof.
  intros l v Hv. induction l as [|x l IH]; intro H; simpl; auto. rewrite alike_ltb by (auto; apply H; left; auto).
  rewrite IH by (intros z Hz; apply H; right; auto). auto.
Qed.
Lemma sharp_starts_alike : forall l starts, incl l U -> (l <> [] -> forall i, In i starts -> (i < length l)%nat) ->
  sharp_starts (map (col c') (map g l)) starts = sharp_starts (map (col c) l) starts.
Proof.
  intros l starts Hl Hs. unfold sharp_starts. destruct l as [|x l]; auto. set (L := x :: l) in *.
  assert (E : map (fun i => searchsorted (map (col c') (map g L)) (nth i (map (col c') (map g L)) 0)) starts
            = map (fun i => searchsorted (map (col c) L) (nth i (map (col c) L) 0)) starts).
  { apply map_ext_in. intros i Hi. assert (Li : (i < length L)%nat) by (apply Hs; auto; discriminate).
    rewrite (nth_indep _ 0 (col c' (g []))) by (rewrite !map_length; auto). rewrite map_nth with (f := col c'). rewrite map_nth with (f := g).
    rewrite (nth_indep (map (col c) L) 0 (col c [])) by (rewrite map_length; auto). rewrite map_nth with (f := col c).
    apply searchsorted_alike; auto. apply Hl. apply nth_In. auto. }
  transitivity (Ok (unique (map (fun i => searchsorted (map (col c') (map g L)) (nth i (map (col c') (map g L)) 0)) starts))); [reflexivity|].
  rewrite E. reflexivity.
Qed.
Lemma slices_map : forall {A B} (h : A -> B) starts l, slices starts (map h l) = map (map h) (slices starts l).
Proof.
  intros A B h. induction starts as [|s [|e starts] IH]; intro l; simpl in *; auto; [rewrite skipn_map; auto|].
  unfold slice. rewrite skipn_map, firstn_map. f_equal. apply IH.
Qed.
Lemma slices_in : forall {A} starts (l : list A) x ch, In ch (slices starts l) -> In x ch -> In x l.
Proof.
  assert (S : forall {A} n (l : list A) x, In x (skipn n l) -> In x l).
  { intros A n l x H. rewrite <- (firstn_skipn n l). apply in_or_app. auto. }
  assert (F : forall {A} n (l : list A) x, In x (firstn n l) -> In x l).
  { intros A n l x H. rewrite <- (firstn_skipn n l). apply in_or_app. auto. }
  intros A. induction starts as [|s [|e starts] IH]; intros l x ch H Hx; simpl in *; [tauto| |].
  - destruct H as [<-|[]]. eauto.
  - destruct H as [<-|H]; [|eapply IH; eauto]. apply F in Hx. eauto.
Qed.

(** Duplicates *)
Lemma same_on_key : forall cols r s, same_on cols r s = true <-> same_key cols r s.
Proof. intros. unfold same_on, same_key. rewrite forallb_forall. split; intros H x Hx; specialize (H x Hx); [apply Z.eqb_eq|apply Z.eqb_eq]; auto. Qed.
Lemma drop_duplicates_alike : forall cols cols' l, identified_alike cols cols' g U -> incl l U ->
  drop_duplicates cols' (map g l) = map g (drop_duplicates cols l).
Proof.
  intros cols cols' l I. induction l as [|r l IH]; intro H; simpl; auto.
  assert (E : existsb (same_on cols' (g r)) (map g l) = existsb (same_on cols r) l).
  { assert (E : forall s, In s l -> same_on cols' (g r) (g s) = same_on cols r s).
    { intros s Hs. specialize (I r s (H r (or_introl eq_refl)) (H s (or_intror Hs))). rewrite <- !same_on_key in I.
      destruct I as [I1 I2]. destruct (same_on cols' (g r) (g s)), (same_on cols r s); auto. symmetry; auto. }
    clear - E. induction l as [|s l IH]; simpl; auto. rewrite E by (left; auto). rewrite IH by (intros; apply E; right; auto). auto. }
  rewrite E, IH by (intros z Hz; apply H; right; auto). destruct (existsb _ l); auto.
Qed.

Lemma starts_in : forall n max starts, starts_of n max = Ok starts -> (0 < n)%nat -> forall i, In i starts -> (i < n)%nat.
Proof.
  intros m max starts H Hm i Hi. destruct (starts_of_good m max starts Hm H) as (_ & _ & E). rewrite E in Hi. clear - Hi.
  revert Hi. generalize (Z.to_nat (row_group_size (Z.of_nat m) max)). intro step. generalize 0%nat. generalize m at 1. intro fuel.
  induction fuel as [|fuel IH]; intros start Hi; simpl in Hi; [destruct Hi|].
  destruct (Nat.ltb_spec start m); [|destruct Hi]. destruct Hi as [<-|Hi]; auto. eapply IH. eauto.
Qed.

Variables (n n' : nat) (dup dup' : option (list nat)).
Hypothesis Cn : (c < n)%nat.
Hypothesis Cn' : (c' < n')%nat.
Definition dup_alike : Prop :=
  match dup, dup' with
  | None, None => True
  | Some D, Some D' => Forall (fun x => (x < n)%nat) D /\ Forall (fun x => (x < n')%nat) D'
      /\ identified_alike (identity_columns n c D) (identity_columns n' c' D') g U
  | _, _ => False
  end.
Hypothesis DA : dup_alike.

Lemma with_column_range : forall m d (D : list nat), (d < m)%nat -> Forall (fun x => (x < m)%nat) D -> existsb (fun x => (m <=? x)%nat) (with_column d D) = false.
Proof.
  intros m d D Hd HD. apply not_true_iff_false. intro E. apply existsb_exists in E. destruct E as (x & Hx & Ex). apply Nat.leb_le in Ex.
  rewrite Forall_forall in HD. unfold with_column in Hx. destruct D as [|y D]; [destruct Hx|]. destruct (existsb (Nat.eqb d) (y :: D)).
  - specialize (HD x Hx). lia.
  - apply in_app_or in Hx. destruct Hx as [Hx|[<-|[]]]; [specialize (HD x Hx)|]; lia.
Qed.
Lemma with_column_twice : forall d D, with_column d (with_column d D) = with_column d D.
Proof.
  intros d [|x D]; auto. unfold with_column at 2 3. destruct (existsb (Nat.eqb d) (x :: D)) eqn:E.
  - unfold with_column. rewrite E. auto.
  - unfold with_column. simpl app. change (x :: D ++ [d]) with ((x :: D) ++ [d]). rewrite existsb_app. simpl existsb at 2. rewrite Nat.eqb_refl, orb_true_r. auto.
Qed.
Lemma identity_columns_key : forall m d D r s, same_key (identity_columns m d D) r s <-> same_key (dup_columns m (with_column d D)) r s.
Proof.
  intros m d D r s. destruct D as [|x D]; [tauto|]. unfold identity_columns, with_column, dup_columns. destruct (existsb (Nat.eqb d) (x :: D)) eqn:E.
  - apply existsb_exists in E. destruct E as (y & Hy & Ey). apply Nat.eqb_eq in Ey. subst y.
    split; intros H z Hz; apply H; [right; auto|]. destruct Hz as [<-|Hz]; auto.
  - change (same_key (d :: x :: D) r s <-> same_key ((x :: D) ++ [d]) r s).
    split; intros H z Hz; apply H; [apply in_app_or in Hz; simpl in *; tauto|]. apply in_or_app. simpl in *. tauto.
Qed.

Lemma iter_plain_alike : forall v size l,
  iter_dataframe v (mkFrame n' (map g l)) size None None false
  = match iter_dataframe v (mkFrame n l) size None None false with Ok ch => Ok (map (map g) ch) | Err e => Err e end.
Proof.
  intros v size l. unfold iter_dataframe. cbn [rows]. rewrite andb_false_r. rewrite map_length. destruct (starts_of (length l) _) as [starts|e]; simpl; auto.
  rewrite slices_map. auto.
Qed.
Lemma iter_sharp_alike : forall size l, incl l U ->
  iter_dataframe true (mkFrame n' (map g l)) size (Some c') (option_map (with_column c') dup') true
  = match iter_dataframe true (mkFrame n l) size (Some c) (option_map (with_column c) dup) true with Ok ch => Ok (map (map g) ch) | Err e => Err e end.
Proof.
  intros size l Hl. unfold iter_dataframe. cbn [rows ncols negb andb]. rewrite map_length.
  assert (G : forall max, (let* starts := starts_of (length l) max in sharp_starts (map (col c') (map g l)) starts)
            = (let* starts := starts_of (length l) max in sharp_starts (map (col c) l) starts)).
  { intro max. destruct (starts_of (length l) max) as [starts|e] eqn:E; simpl; auto. apply sharp_starts_alike; auto.
    intros Hne i Hi. eapply starts_in; eauto. destruct l; [congruence|simpl; lia]. }
  set (max := match size with Some m => m | None => MAX_ROW_GROUP_SIZE end). specialize (G max).
  unfold dup_alike in DA. destruct dup as [D|], dup' as [D'|]; try contradiction; cbn [option_map].
  - destruct DA as (HD & HD' & I).
    destruct (starts_of (length l) max) as [starts|e]; cbn [bind] in G |- *; auto. rewrite G. destruct (sharp_starts (map (col c) l) starts) as [st|e]; cbn [bind]; auto.
    rewrite !with_column_twice, (with_column_range n c D), (with_column_range n' c' D') by auto. rewrite slices_map, !map_map. f_equal.
    apply map_ext_in. intros ch Hch. apply drop_duplicates_alike.
    + intros r s Hr Hs. rewrite <- !identity_columns_key. apply I; auto.
    + intros z Hz. apply Hl. eapply slices_in; eauto.
  - destruct (starts_of (length l) max) as [starts|e]; cbn [bind] in G |- *; auto. rewrite G. destruct (sharp_starts (map (col c) l) starts) as [st|e]; cbn [bind]; auto.
    rewrite slices_map. auto.
Qed.

(** Files *)
Lemma number_parts_map : forall chunks k, number_parts k (map (map g) chunks) = change_dataset g (number_parts k chunks).
Proof. induction chunks as [|[|r ch] l IH]; intro k; simpl; auto. rewrite IH. auto. Qed.
Lemma next_part_map : forall ds, next_part (change_dataset g ds) = next_part ds.
Proof. intro ds. unfold next_part. generalize 0%nat. induction ds as [|x ds IH]; intro k; simpl; auto. Qed.
Lemma renumber_map : forall ds k, renumber k (change_dataset g ds) = change_dataset g (renumber k ds).
Proof. induction ds as [|x ds IH]; intro k; simpl; auto. rewrite IH. auto. Qed.
Lemma all_rows_map : forall ds, all_rows (change_dataset g ds) = map g (all_rows ds).
Proof. unfold all_rows, change_dataset. induction ds as [|x ds IH]; simpl; auto. rewrite map_app, IH. auto. Qed.
Lemma number_parts_group : forall chunks k x, (forall ch, In ch chunks -> incl ch U) -> In x (number_parts k chunks) -> group_in x.
Proof.
  induction chunks as [|[|r ch] l IH]; intros k x H Hx; simpl in Hx; [tauto| |].
  - eapply IH; [|eauto]. intros; apply H; right; auto.
  - destruct Hx as [<-|Hx]; [|eapply IH; [|eauto]; intros; apply H; right; auto]. split; simpl; [discriminate|]. apply H. left. auto.
Qed.
Lemma incomplete_map : forall m l, incomplete m (change_dataset g l) = incomplete m l.
Proof.
  intros m. induction l as [|x l IH]; simpl; auto. unfold rg_count in *. simpl content. rewrite map_length. rewrite IH. auto.
Qed.
Lemma coalesce_map : forall size nirgs k ds s e, coalesce size nirgs k (change_dataset g ds) s e = coalesce size nirgs k ds s e.
Proof.
  intros. unfold coalesce. destruct nirgs; auto. destruct size; auto. unfold change_dataset. rewrite <- map_rev. fold (change_dataset g (rev ds)).
  rewrite incomplete_map, map_length. auto.
Qed.

Lemma drop_duplicates_incl : forall cols l, incl (drop_duplicates cols l) l.
Proof.
  intros cols. induction l as [|r l IH]; intros z Hz; simpl in Hz; [destruct Hz|]. destruct (existsb _ l); [right; auto|].
  destruct Hz as [<-|Hz]; [left; auto|right; auto].
Qed.
Lemma iter_in : forall v f size so d b ch, iter_dataframe v f size so d b = Ok ch -> forall x, In x ch -> incl x (rows f).
Proof.
  intros v f size so d b ch H x Hx z Hz. unfold iter_dataframe in H. destruct (negb v && _); [discriminate|].
  set (max := match size with Some m => m | None => MAX_ROW_GROUP_SIZE end) in *. clearbody max.
  assert (P : forall st, In x (slices st (rows f)) -> In z (rows f)) by (intros st Hs; eapply slices_in; eauto).
  assert (Q : forall cols st, In x (map (drop_duplicates cols) (slices st (rows f))) -> In z (rows f)).
  { intros cols st Hs. apply in_map_iff in Hs. destruct Hs as (y & <- & Hy). apply drop_duplicates_incl in Hz. eapply slices_in; eauto. }
  destruct d as [D|], so as [cc|]; try discriminate H;
    destruct (starts_of (length (rows f)) max) as [st|e]; cbn [bind] in H; try discriminate H;
    try (destruct (sharp_starts _ st) as [st'|e]; cbn [bind] in H; [|discriminate H]);
    try (destruct (existsb _ (with_column cc D)); [discriminate H|]); injection H as <-; eauto.
Qed.

Lemma slice_incl : forall {A} s e (l : list A), incl (slice s e l) l.
Proof.
  intros A s e l x H. unfold slice in H. rewrite <- (firstn_skipn s l). apply in_or_app. right. rewrite <- (firstn_skipn (e - s) (skipn s l)). apply in_or_app. auto.
Qed.
Lemma skipn_incl : forall {A} s (l : list A), incl (skipn s l) l.
Proof. intros A s l x H. rewrite <- (firstn_skipn s l). apply in_or_app. auto. Qed.
Lemma firstn_incl : forall {A} s (l : list A), incl (firstn s l) l.
Proof. intros A s l x H. rewrite <- (firstn_skipn s l). apply in_or_app. auto. Qed.

Lemma all_rows_in : forall ds, (forall x, In x ds -> group_in x) -> incl (all_rows ds) U.
Proof. intros ds H z Hz. unfold all_rows in Hz. apply in_flat_map in Hz. destruct Hz as (x & Hx & Hz). apply (proj2 (H x Hx)). auto. Qed.

Lemma merged_alike : forall size ov l, incl l U -> (forall x, In x ov -> group_in x) ->
  iter_dataframe true (mkFrame n' (sort_by (col c') (all_rows (change_dataset g ov) ++ map g l))) size (Some c') (option_map (with_column c') dup') true
  = match iter_dataframe true (mkFrame n (sort_by (col c) (all_rows ov ++ l))) size (Some c) (option_map (with_column c) dup) true with
    | Ok ch => Ok (map (map g) ch) | Err e => Err e end
  /\ forall ch, iter_dataframe true (mkFrame n (sort_by (col c) (all_rows ov ++ l))) size (Some c) (option_map (with_column c) dup) true = Ok ch ->
     forall k x, In x (number_parts k ch) -> group_in x.
Proof.
  intros size ov l Hl Hov. rewrite all_rows_map, <- map_app.
  assert (HM : incl (all_rows ov ++ l) U) by (apply incl_app; auto; apply all_rows_in; auto).
  rewrite (sort_by_alike (col c)) by (intros x y Hx Hy; apply alike_leb; auto).
  assert (HS : incl (sort_by (col c) (all_rows ov ++ l)) U) by (intros z Hz; apply sort_by_in in Hz; auto).
  split; [apply iter_sharp_alike; auto|]. intros ch E k x Hx. eapply number_parts_group; [|eauto]. intros y Hy z Hz. apply HS.
  exact (iter_in _ _ _ _ _ _ _ E y Hy z Hz).
Qed.

Lemma update_alike : forall size ds s e l, incl l U -> (forall x, In x ds -> group_in x) ->
  update_rgs size (Some c') (option_map (with_column c') dup') (change_dataset g ds) s e (mkFrame n' (map g l))
  = change_result g (update_rgs size (Some c) (option_map (with_column c) dup) ds s e (mkFrame n l)).
Proof.
  intros size ds s e l Hl Hds. unfold update_rgs. cbn [rows ncols].
  assert (Hf : forall k, firstn k (change_dataset g ds) = change_dataset g (firstn k ds)) by (intro; apply firstn_map).
  assert (Hk : forall k, skipn k (change_dataset g ds) = change_dataset g (skipn k ds)) by (intro; apply skipn_map).
  assert (Hs : forall k j, slice k j (change_dataset g ds) = change_dataset g (slice k j ds)) by (intros; unfold slice; rewrite Hk; apply firstn_map).
  assert (Hn : forall o ov, change_dataset g (o :: ov) = change_group g o :: change_dataset g ov) by reflexivity.
  destruct e as [e|].
  - destruct (merged_alike size (slice s e ds) l Hl) as [M N]; [intros x Hx; apply Hds; eapply slice_incl; eauto|].
    rewrite Hs. destruct (slice s e ds) as [|o ov]; [reflexivity|]. rewrite Hn in *. rewrite M. clear M.
    destruct (iter_dataframe true (mkFrame n (sort_by (col c) (all_rows (o :: ov) ++ l))) size (Some c) (option_map (with_column c) dup) true) as [ch|err]; [|reflexivity].
    cbn [bind change_result]. rewrite next_part_map, number_parts_map, Hf, Hk, <- renumber_map. do 2 f_equal. unfold change_dataset. rewrite <- !map_app.
    apply sort_by_alike.
    assert (G : forall x, In x ((firstn s ds ++ skipn e ds) ++ number_parts (next_part ds) ch) -> group_in x).
    { intros z Hz. apply in_app_or in Hz. destruct Hz as [Hz|Hz]; [|eapply N; eauto]. apply in_app_or in Hz. apply Hds.
      destruct Hz as [Hz|Hz]; [eapply firstn_incl|eapply skipn_incl]; eauto. }
    intros x y Hx Hy. apply rg_max_leb; auto.
  - destruct (merged_alike size (skipn s ds) l Hl) as [M N]; [intros x Hx; apply Hds; eapply skipn_incl; eauto|].
    rewrite Hk. destruct (skipn s ds) as [|o ov]; [reflexivity|]. rewrite Hn in *. rewrite M. clear M.
    destruct (iter_dataframe true (mkFrame n (sort_by (col c) (all_rows (o :: ov) ++ l))) size (Some c) (option_map (with_column c) dup) true) as [ch|err]; [|reflexivity].
    cbn [bind change_result]. rewrite next_part_map, number_parts_map, Hf, <- renumber_map. do 2 f_equal. unfold change_dataset. rewrite !app_nil_r, <- !map_app. auto.
Qed.

Lemma write_alike : forall size nirgs v ds l, incl l U -> (forall x, In x ds -> group_in x) ->
  write (mkParams size (OrderedOn c') dup' nirgs) v (change_dataset g ds) (mkFrame n' (map g l))
  = change_result g (write (mkParams size (OrderedOn c) dup nirgs) v ds (mkFrame n l)).
Proof.
  intros size nirgs v ds l Hl Hds. unfold write. cbn [ordered_on duplicates_on max_row_group_size max_nirgs ncols rows check_ordered_on].
  destruct (Nat.ltb_spec c n); [|lia]. destruct (Nat.ltb_spec c' n'); [|lia]. cbn [bind].
  destruct ds as [|d ds].
  - simpl change_dataset. cbv iota. rewrite iter_plain_alike. destruct (iter_dataframe v (mkFrame n l) size None None false); cbn [bind change_result]; auto.
    rewrite number_parts_map. auto.
  - set (DS := d :: ds) in *. change (change_dataset g DS) with (change_group g d :: change_dataset g ds). cbv iota.
    change (change_group g d :: change_dataset g ds) with (change_dataset g DS).
    assert (ED : check_duplicates_on dup' (Some c') = Ok (option_map (with_column c') dup')) by (destruct dup'; auto).
    assert (ED' : check_duplicates_on dup (Some c) = Ok (option_map (with_column c) dup)) by (destruct dup; auto).
    rewrite ED, ED'. unfold DS at 4. cbv iota. fold DS. cbn [bind]. rewrite overlap_alike by auto.
    destruct (overlap c DS l) as [[st en]|err]; cbn [bind]; auto. rewrite map_length, coalesce_map.
    destruct (coalesce size nirgs (Z.of_nat (length l)) DS st en) as [[s|]|err]; cbn [bind]; auto.
    + apply update_alike; auto.
    + rewrite iter_plain_alike. destruct (iter_dataframe v (mkFrame n l) size None None false); cbn [bind change_result]; auto.
      rewrite next_part_map, number_parts_map. unfold change_dataset. rewrite map_app. auto.
Qed.
End Alike.

Lemma group_in_filled : forall ds U, filled ds -> incl (all_rows ds) U -> forall x, In x ds -> group_in U x.
Proof.
  intros ds U F I x Hx. unfold filled in F. rewrite Forall_forall in F. split; [auto|]. intros z Hz. apply I. unfold all_rows. apply in_flat_map. eauto.
Qed.

Lemma run_alike : forall n c c' g U, (c < n)%nat -> (c' < n)%nat -> ordered_alike c c' g U ->
  (forall D, Forall (fun x => (x < n)%nat) D -> identified_alike (identity_columns n c D) (identity_columns n c' D) g U) ->
  forall h ds, filled ds -> incl (all_rows ds) U -> (forall k, In k h -> dup_in n k /\ incl (c_rows k) U) ->
  run_writes n c' (change_dataset g ds) (map (change_call g) h)
  = (change_dataset g (fst (run_writes n c ds h)), snd (run_writes n c ds h)).
Proof.
  intros n c c' g U Hc Hc' OA IA. induction h as [|k h IH]; intros ds F I H; [reflexivity|]. cbn [run_writes map].
  destruct (H k (or_introl eq_refl)) as [Hd Hk]. assert (H' : forall k, In k h -> dup_in n k /\ incl (c_rows k) U) by (intros; apply H; right; auto).
  change (c_size (change_call g k)) with (c_size k). change (c_dup (change_call g k)) with (c_dup k).
  change (c_nirgs (change_call g k)) with (c_nirgs k). change (c_vaex (change_call g k)) with (c_vaex k). change (c_rows (change_call g k)) with (map g (c_rows k)).
  rewrite (write_alike c c' g U OA n n (c_dup k) (c_dup k)); auto.
  2:{ unfold dup_alike. unfold dup_in in Hd. destruct (c_dup k); auto. }
  2:{ apply group_in_filled; auto. }
  destruct (write _ (c_vaex k) ds _) as [ds'|e] eqn:E; cbn [change_result].
  - rewrite IH; auto.
    + destruct (run_writes n c ds' h). reflexivity.
    + eapply write_filled; eauto.
    + destruct (write_rows _ _ _ _ _ E) as (rest & P & _). intros z Hz.
      assert (Hz' : In z (all_rows ds ++ c_rows k)) by (eapply Permutation_in; [exact P|]; apply in_or_app; auto).
      apply in_app_or in Hz'. destruct Hz'; auto.
  - rewrite IH; auto. destruct (run_writes n c ds h). reflexivity.
Qed.

Lemma change_dataset_id : forall ds, change_dataset (fun r => r) ds = ds.
Proof. induction ds as [|[p l] ds IH]; simpl; auto. rewrite map_id. f_equal. apply IH. Qed.
Lemma change_call_id : forall h, map (change_call (fun r => r)) h = h.
Proof. induction h as [|[a b d e l] h IH]; simpl; auto. unfold change_call. simpl. rewrite map_id. f_equal. auto. Qed.

(** Two columns which order rows the same way. *)
Lemma same_order_identified : forall n c c' D U, (c < n)%nat -> (c' < n)%nat -> ordered_alike c c' (fun r => r) U ->
  identified_alike (identity_columns n c D) (identity_columns n c' D) (fun r => r) U.
Proof.
  intros n c c' D U Hc Hc' OA r s Hr Hs. destruct D as [|d D]; [tauto|].
  pose proof (OA r s Hr Hs) as A. pose proof (OA s r Hs Hr) as B. cbv beta in *. cbn [identity_columns].
  split; intros H x [<-|Hx]; try solve [apply H; right; auto]; assert (Q := H _ (or_introl eq_refl)); lia.
Qed.

(** Change of values in a column. *)
Lemma change_column_col : forall c f r x, (c < length r)%nat -> col x (change_column c f r) = if (x =? c)%nat then f (col x r) else col x r.
Proof.
  unfold col, change_column. induction c as [|c IH]; intros f [|v r] x H; simpl in H; try lia.
  - simpl. destruct x; reflexivity.
  - simpl. destruct x as [|x]; [reflexivity|]. simpl. apply IH. lia.
Qed.
Lemma change_column_ordered : forall c f U, (forall a b, a < b -> f a < f b) -> Forall (fun r => (c < length r)%nat) U ->
  ordered_alike c c (change_column c f) U.
Proof.
  intros c f U Hf HU r s Hr Hs. rewrite Forall_forall in HU. rewrite !change_column_col, Nat.eqb_refl by auto.
  pose proof (Hf (col c r) (col c s)). pose proof (Hf (col c s) (col c r)).
  destruct (Z.lt_total (col c r) (col c s)) as [L|[L|L]]; [|rewrite L|]; split; intros; try lia.
Qed.
Lemma change_column_identified : forall n c f D U, (forall a b, a < b -> f a < f b) -> Forall (fun r => (c < length r)%nat) U ->
  identified_alike (identity_columns n c D) (identity_columns n c D) (change_column c f) U.
Proof.
  intros n c f D U Hf HU r s Hr Hs. rewrite Forall_forall in HU.
  assert (G : forall x, col x r = col x s <-> col x (change_column c f r) = col x (change_column c f s)).
  { intro x. rewrite !change_column_col by auto. destruct (Nat.eqb_spec x c) as [->|]; [|tauto].
    pose proof (Hf (col c r) (col c s)). pose proof (Hf (col c s) (col c r)).
    split; intro E; [rewrite E; auto|]. destruct (Z.lt_total (col c r) (col c s)) as [L|[L|L]]; auto; lia. }
  split; intros H x Hx; apply G; auto.
Qed.
