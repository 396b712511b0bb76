(** Proofs about 'write'. *)
Require Import List Arith ZArith Bool Lia Sorting.Sorted Sorting.Permutation.
Require Import Verif.Common Verif.EventProofs Verif.WrModel Verif.WrSpec Verif.WrIterProofs.
Import ListNotations.
Local Open Scope Z_scope.

Lemma Ok_inj : forall {A} (x y : A), Ok x = Ok y -> x = y.
Proof. intros A x y H. injection H. auto. Qed.

(** * Sorting *)
Lemma insert_by_perm : forall {A} (key : A -> Z) x l, Permutation (insert_by key x l) (x :: l).
Proof.
  intros A key x l. induction l as [|y l IH]; simpl; auto. destruct (key x <=? key y); auto.
  rewrite IH. apply perm_swap.
Qed.
Lemma sort_by_perm : forall {A} (key : A -> Z) l, Permutation (sort_by key l) l.
Proof. intros A key l. induction l as [|x l IH]; simpl; auto. rewrite insert_by_perm, IH. auto. Qed.
Lemma insert_by_sorted : forall {A} (key : A -> Z) x l, StronglySorted (fun a b => key a <= key b) l -> StronglySorted (fun a b => key a <= key b) (insert_by key x l).
Proof.
  intros A key x l H. induction H as [|y l H IH F]; simpl; [repeat constructor|]. destruct (key x <=? key y) eqn:E.
  - apply Z.leb_le in E. constructor; [constructor; auto|]. constructor; auto. eapply Forall_impl; [|exact F]. simpl. intros; lia.
  - apply Z.leb_gt in E. constructor; auto. eapply Permutation_Forall; [symmetry; apply insert_by_perm|]. constructor; auto. lia.
Qed.
Lemma sort_by_sorted : forall {A} (key : A -> Z) l, StronglySorted (fun a b => key a <= key b) (sort_by key l).
Proof. intros A key l. induction l as [|x l IH]; simpl; [constructor|]. apply insert_by_sorted. auto. Qed.

(** A strictly ordered arrangement is the one obtained by sorting. *)
Lemma strict_unique : forall {A} (key : A -> Z) l m, StronglySorted (fun a b => key a <= key b) l -> StronglySorted (fun a b => key a < key b) m -> Permutation l m -> l = m.
Proof.
  intros A key l. induction l as [|x l IH]; intros m Hl Hm P.
  - apply Permutation_nil in P. auto.
  - destruct m as [|y m]; [symmetry in P; apply Permutation_nil in P; discriminate|].
    inversion Hl as [|? ? Hl' Fl]; inversion Hm as [|? ? Hm' Fm]; subst. rewrite Forall_forall in Fl, Fm.
    assert (x = y).
    { assert (In x (y :: m)) by (eapply Permutation_in; [exact P|simpl; auto]).
      assert (In y (x :: l)) by (eapply Permutation_in; [symmetry; exact P|simpl; auto]).
      destruct H as [->|H]; auto. destruct H0 as [->|H0]; auto. specialize (Fm x H). specialize (Fl y H0). lia. }
    subst y. f_equal. apply IH; auto. eapply Permutation_cons_inv; eauto.
Qed.
Lemma sort_by_strict : forall {A} (key : A -> Z) l m, StronglySorted (fun a b => key a < key b) m -> Permutation l m -> sort_by key l = m.
Proof. intros A key l m H P. apply strict_unique with key; auto; [apply sort_by_sorted|]. rewrite sort_by_perm. auto. Qed.

(** Sorting is stable. *)
Lemma insert_by_filter : forall {A} (key : A -> Z) (P : A -> bool) x l, (forall a b, P a = true -> P b = true -> key a = key b) ->
  filter P (insert_by key x l) = filter P (x :: l).
Proof.
  intros A key P x l H. induction l as [|y l IH]; auto. cbn [insert_by]. destruct (key x <=? key y) eqn:E; auto.
  apply Z.leb_gt in E. cbn [filter] in *. rewrite IH. destruct (P x) eqn:Px, (P y) eqn:Py; auto.
  specialize (H x y Px Py). lia.
Qed.
Lemma sort_by_filter : forall {A} (key : A -> Z) (P : A -> bool) l, (forall a b, P a = true -> P b = true -> key a = key b) -> filter P (sort_by key l) = filter P l.
Proof. intros A key P l H. induction l as [|x l IH]; simpl; auto. rewrite insert_by_filter by auto. simpl. rewrite IH. auto. Qed.

(** Order of concatenations. *)
Lemma SS_app : forall {A} (R : A -> A -> Prop) l m, StronglySorted R (l ++ m) <-> StronglySorted R l /\ StronglySorted R m /\ forall x y, In x l -> In y m -> R x y.
Proof.
  intros A R l m. induction l as [|a l IH]; simpl.
  - split; [intro H; split; [constructor|split; auto; intros x y []]|intros (_ & H & _); auto].
  - split.
    + intro H. inversion H as [|? ? H1 H2]; subst. apply IH in H1 as (A1 & A2 & A3). apply Forall_app in H2 as [F1 F2]. split; [constructor; auto|]. split; auto.
      intros x y [->|Hx] Hy; auto. rewrite Forall_forall in F2. auto.
    + intros (H1 & H2 & H3). inversion H1 as [|? ? H4 H5]; subst. constructor; [apply IH; auto|]. apply Forall_app. split; auto. apply Forall_forall. auto.
Qed.

(** * Rows and row groups *)
Lemma all_rows_concat : forall ds, all_rows ds = concat (map content ds).
Proof. intro ds. unfold all_rows. apply flat_map_concat_map. Qed.
Lemma all_rows_app : forall a b, all_rows (a ++ b) = all_rows a ++ all_rows b.
Proof. intros. apply flat_map_app. Qed.
Lemma In_all_rows : forall r ds, In r (all_rows ds) <-> exists g, In g ds /\ In r (content g).
Proof. intros. unfold all_rows. apply in_flat_map. Qed.

Lemma number_parts_rows : forall chunks n, all_rows (number_parts n chunks) = concat chunks.
Proof. intro chunks. induction chunks as [|[|r c] l IH]; intro n; simpl; auto. rewrite IH. auto. Qed.
Lemma number_parts_content : forall chunks n, Forall (fun c => c <> []) chunks -> map content (number_parts n chunks) = chunks.
Proof. intros chunks n H. revert n. induction H as [|c l Hc H IH]; intro n; auto. destruct c; [congruence|]. simpl. rewrite IH. auto. Qed.
Lemma number_parts_filled : forall chunks n, filled (number_parts n chunks).
Proof. intro chunks. induction chunks as [|[|r c] l IH]; intro n; simpl; [constructor|apply IH|]. constructor; [simpl; congruence|apply IH]. Qed.
Lemma number_parts_sub : forall chunks n g, In g (number_parts n chunks) -> In (content g) chunks.
Proof. intro chunks. induction chunks as [|[|r c] l IH]; intros n g H; simpl in *; [contradiction|eauto|]. destruct H as [<-|H]; eauto. Qed.
Lemma renumber_content : forall ds n, map content (renumber n ds) = map content ds.
Proof. induction ds as [|g ds IH]; intro n; simpl; auto. rewrite IH. auto. Qed.
Lemma renumber_rows : forall ds n, all_rows (renumber n ds) = all_rows ds.
Proof. intros. rewrite !all_rows_concat, renumber_content. auto. Qed.
Lemma filled_content : forall ds, filled ds <-> Forall (fun l => l <> []) (map content ds).
Proof. intro ds. unfold filled. symmetry. apply Forall_map. Qed.

(** * Parts of a dataset *)
(** Row groups rewritten, those before, those after. *)
Definition before (s : nat) (ds : dataset) : dataset := firstn s ds.
Definition middle (s : nat) (e : option nat) (ds : dataset) : dataset := match e with Some e => slice s e ds | None => skipn s ds end.
Definition after (e : option nat) (ds : dataset) : dataset := match e with Some e => skipn e ds | None => [] end.

Lemma parts_split : forall s e ds, match e with Some e => (s <= e)%nat | None => True end -> ds = before s ds ++ middle s e ds ++ after e ds.
Proof.
  intros s e ds H. unfold before, middle, after. destruct e as [e|]; [|rewrite app_nil_r, firstn_skipn; auto].
  unfold slice. rewrite <- (firstn_skipn s ds) at 1. f_equal. rewrite <- (firstn_skipn (e - s) (skipn s ds)) at 1. f_equal.
  rewrite skipn_skipn'. f_equal. lia.
Qed.

Lemma update_inv : forall max ordered dup ds s e data ds', update_rgs max ordered dup ds s e data = Ok ds' ->
  exists chunks, middle s e ds <> [] /\
    let merged := all_rows (middle s e ds) ++ rows data in
    iter_dataframe true (mkFrame (ncols data) (match ordered with Some c => sort_by (col c) merged | None => merged end)) max ordered dup true = Ok chunks /\
    exists l, map content ds' = map content l /\ (exists k, ds' = renumber k l) /\
      let kept := before s ds ++ after e ds in
      let new := number_parts (next_part ds) chunks in
      l = match e, ordered with Some _, Some c => sort_by (rg_max c) (kept ++ new) | _, _ => kept ++ new end.
Proof.
  intros max ordered dup ds s e data ds' H. unfold update_rgs in H. cbv zeta in H. change (match e with Some e => slice s e ds | None => skipn s ds end) with (middle s e ds) in H. destruct (middle s e ds) as [|g m] eqn:Em; [discriminate|].
  rewrite <- Em in *. cbv zeta in H.
  destruct (iter_dataframe true (mkFrame (ncols data) (match ordered with Some c => sort_by (col c) (all_rows (middle s e ds) ++ rows data) | None => all_rows (middle s e ds) ++ rows data end)) max ordered dup true) as [chunks|] eqn:Ei; cbn [bind] in H; [|discriminate].
  apply Ok_inj in H. exists chunks. split; [congruence|]. split; auto.
  eexists. split; [rewrite <- H; apply renumber_content|]. split; [exists 0%nat; rewrite <- H; reflexivity|]. reflexivity.
Qed.

Lemma write_inv : forall p v ds data ds', write p v ds data = Ok ds' -> exists ordered, check_ordered_on (ordered_on p) (ncols data) = Ok ordered /\
  ((ds = [] /\ exists chunks, iter_dataframe v data (max_row_group_size p) None None false = Ok chunks /\ ds' = number_parts 0 chunks) \/
   (ds <> [] /\ exists dup st en st', check_duplicates_on (duplicates_on p) ordered = Ok dup /\
      match ordered with None => Ok (None, None) | Some c => overlap c ds (rows data) end = Ok (st, en) /\
      coalesce (max_row_group_size p) (max_nirgs p) (Z.of_nat (length (rows data))) ds st en = Ok st' /\
      match st' with
      | None => exists chunks, iter_dataframe v data (max_row_group_size p) None None false = Ok chunks /\ ds' = ds ++ number_parts (next_part ds) chunks
      | Some s => update_rgs (max_row_group_size p) ordered dup ds s en data = Ok ds'
      end)).
Proof.
  intros p v ds data ds' H. unfold write in H. destruct (check_ordered_on (ordered_on p) (ncols data)) as [ordered|] eqn:Eo; cbn [bind] in H; [|discriminate].
  exists ordered. split; auto. destruct ds as [|g ds].
  - left. split; auto. destruct (iter_dataframe v data (max_row_group_size p) None None false) as [chunks|]; cbn [bind] in H; [|discriminate].
    exists chunks. split; auto. congruence.
  - right. split; [discriminate|]. remember (g :: ds) as ds0. clear Heqds0 g ds.
    destruct (check_duplicates_on (duplicates_on p) ordered) as [dup|]; cbn [bind] in H; [|discriminate].
    destruct (match ordered with None => Ok (None, None) | Some c => overlap c ds0 (rows data) end) as [[st en]|] eqn:Ov; cbn [bind] in H; [|discriminate].
    destruct (coalesce (max_row_group_size p) (max_nirgs p) (Z.of_nat (length (rows data))) ds0 st en) as [st'|] eqn:Ec; cbn [bind] in H; [|discriminate].
    exists dup, st, en, st'. repeat (split; auto). destruct st' as [s|]; auto.
    destruct (iter_dataframe v data (max_row_group_size p) None None false) as [chunks|]; cbn [bind] in H; [|discriminate].
    exists chunks. split; auto. congruence.
Qed.

(** * Statistics *)
Lemma fold_min : forall l a, (fold_left Z.min l a <= a) /\ (forall x, In x l -> fold_left Z.min l a <= x) /\ (fold_left Z.min l a = a \/ In (fold_left Z.min l a) l).
Proof.
  induction l as [|x l IH]; intro a; simpl; [split; [lia|split; [intros x []|auto]]|]. destruct (IH (Z.min a x)) as (A & B & C).
  split; [lia|]. split; [intros y [->|Hy]; [lia|auto]|]. destruct C as [C|C]; auto. rewrite C. destruct (Z.min_spec a x) as [[_ ->]|[_ ->]]; auto.
Qed.
Lemma fold_max : forall l a, (a <= fold_left Z.max l a) /\ (forall x, In x l -> x <= fold_left Z.max l a) /\ (fold_left Z.max l a = a \/ In (fold_left Z.max l a) l).
Proof.
  induction l as [|x l IH]; intro a; simpl; [split; [lia|split; [intros x []|auto]]|]. destruct (IH (Z.max a x)) as (A & B & C).
  split; [lia|]. split; [intros y [->|Hy]; [lia|auto]|]. destruct C as [C|C]; auto. rewrite C. destruct (Z.max_spec a x) as [[_ ->]|[_ ->]]; auto.
Qed.
Lemma rg_min_spec : forall c g, content g <> [] -> (forall r, In r (content g) -> rg_min c g <= col c r) /\ exists r, In r (content g) /\ col c r = rg_min c g.
Proof.
  intros c g H. unfold rg_min. destruct (content g) as [|x l]; [congruence|]. simpl. destruct (fold_min (map (col c) l) (col c x)) as (A & B & C). split.
  - intros r [->|Hr]; auto. apply B. apply in_map. auto.
  - destruct C as [C|C]; [exists x; auto|]. apply in_map_iff in C as (r & E & Hr). exists r. auto.
Qed.
Lemma rg_max_spec : forall c g, content g <> [] -> (forall r, In r (content g) -> col c r <= rg_max c g) /\ exists r, In r (content g) /\ col c r = rg_max c g.
Proof.
  intros c g H. unfold rg_max. destruct (content g) as [|x l]; [congruence|]. simpl. destruct (fold_max (map (col c) l) (col c x)) as (A & B & C). split.
  - intros r [->|Hr]; auto. apply B. apply in_map. auto.
  - destruct C as [C|C]; [exists x; auto|]. apply in_map_iff in C as (r & E & Hr). exists r. auto.
Qed.

Lemma sorted_first : forall c r l x, sorted_on c (r :: l) -> In x (r :: l) -> col c r <= col c x.
Proof. intros c r l x H [->|Hx]; [lia|]. inversion H as [|? ? _ F]; subst. rewrite Forall_forall in F. auto. Qed.
Lemma sorted_last : forall c l x, sorted_on c l -> In x l -> col c x <= col c (last l []).
Proof.
  intros c l x H Hx. destruct (exists_last (l := l)) as (l' & a & ->); [intro; subst; auto|]. rewrite last_last. apply SS_app in H as (_ & _ & H).
  apply in_app_or in Hx as [Hx|[->|[]]]; [|lia]. apply H; simpl; auto.
Qed.
Lemma last_In : forall {A} (l : list A) d, l <> [] -> In (last l d) l.
Proof. intros A l d H. destruct (exists_last H) as (l' & a & ->). rewrite last_last. apply in_or_app. simpl. auto. Qed.

Lemma overlaps_meets : forall c r l g, sorted_on c (r :: l) -> (overlaps c (col c r) (col c (last (r :: l) [])) g = true <-> meets c (r :: l) g).
Proof.
  intros c r l g Hs. unfold overlaps. destruct (content g) as [|x y] eqn:Eg.
  - split; [discriminate|]. intros (a & b & d & d' & Ha & _). rewrite Eg in Ha. contradiction.
  - assert (Hn : content g <> []) by congruence. destruct (rg_min_spec c g Hn) as [Mi (ri & Hi & Ei)]. destruct (rg_max_spec c g Hn) as [Ma (ra & Ha & Ea)].
    rewrite andb_true_iff, !negb_true_iff, !Z.ltb_ge. split.
    + intros [A B]. exists ri, ra, (last (r :: l) []), r. rewrite Ei, Ea. repeat split; simpl; auto. apply (last_In (r :: l)). discriminate.
    + intros (a & b & d & d' & H1 & H2 & H3 & H4 & H5 & H6). specialize (Mi a H1). specialize (Ma b H2).
      pose proof (sorted_first c r l d' Hs H4). pose proof (sorted_last c (r :: l) d Hs H3). lia.
Qed.

Lemma nonzero_spec : forall {A} (p : A -> bool) l k i, In i (nonzero_from k p l) <-> (k <= i)%nat /\ exists x, nth_error l (i - k) = Some x /\ p x = true.
Proof.
  intros A p l. induction l as [|a l IH]; intros k i; simpl.
  - split; [contradiction|]. intros (_ & x & H & _). destruct (i - k)%nat; discriminate.
  - destruct (p a) eqn:E; simpl; rewrite IH; clear IH.
    + split.
      * intros [->|(H & x & Hx & Px)]; [split; auto; exists a; rewrite Nat.sub_diag; auto|]. split; [lia|]. exists x. replace (i - k)%nat with (S (i - S k)) by lia. auto.
      * intros (H & x & Hx & Px). destruct (Nat.eq_dec k i) as [->|Q]; [auto|]. right. split; [lia|]. exists x. replace (i - k)%nat with (S (i - S k)) in Hx by lia. auto.
    + split.
      * intros (H & x & Hx & Px). split; [lia|]. exists x. replace (i - k)%nat with (S (i - S k)) by lia. auto.
      * intros (H & x & Hx & Px). destruct (Nat.eq_dec k i) as [->|Q]; [rewrite Nat.sub_diag in Hx; simpl in Hx; congruence|]. split; [lia|]. exists x. replace (i - k)%nat with (S (i - S k)) in Hx by lia. auto.
Qed.
Lemma nonzero_sorted : forall {A} (p : A -> bool) l k, StronglySorted lt (nonzero_from k p l).
Proof.
  intros A p l. induction l as [|a l IH]; intro k; simpl; [constructor|]. destruct (p a); auto. constructor; auto. apply Forall_forall. intros i H. apply nonzero_from_ge in H. lia.
Qed.
Lemma lt_last : forall l x, StronglySorted lt l -> In x l -> (x <= last l 0)%nat.
Proof.
  intros l x H Hx. destruct (exists_last (l := l)) as (l' & a & ->); [intro; subst; auto|]. rewrite last_last. apply SS_app in H as (_ & _ & H).
  apply in_app_or in Hx as [Hx|[->|[]]]; auto. assert (x < a)%nat by (apply H; simpl; auto). lia.
Qed.
Lemma Forall_nth_error : forall {A} (P : A -> Prop) l, Forall P l <-> forall i x, nth_error l i = Some x -> P x.
Proof.
  intros A P l. rewrite Forall_forall. split; [intros H i x E; apply H; eapply nth_error_In; eauto|]. intros H x Hx. apply In_nth_error in Hx as (i & E). eauto.
Qed.
Lemma nth_error_firstn : forall {A} n (l : list A) i x, nth_error (firstn n l) i = Some x <-> (i < n)%nat /\ nth_error l i = Some x.
Proof.
  intros A n. induction n as [|n IH]; intros l i x; simpl; [split; [destruct i; discriminate|lia]|]. destruct l as [|a l].
  - split; [destruct i; discriminate|intros [_ H]; destruct i; discriminate].
  - destruct i as [|i]; simpl; [split; [split; auto; lia|tauto]|]. rewrite IH. split; intros [H1 H2]; split; auto; lia.
Qed.
Lemma nth_error_skipn : forall {A} n (l : list A) i, nth_error (skipn n l) i = nth_error l (n + i).
Proof. intros A n. induction n as [|n IH]; intros l i; simpl; auto. destruct l as [|a l]; auto. destruct i; auto. Qed.

Lemma overlap_spec : forall c ds data st en, sorted_on c data -> overlap c ds data = Ok (st, en) ->
  data <> [] /\
  match st with
  | None => en = None /\ Forall (fun g => ~ meets c data g) ds
  | Some i => (exists g, nth_error ds i = Some g /\ meets c data g) /\ Forall (fun g => ~ meets c data g) (firstn i ds) /\
      match en with
      | None => (forall j g, nth_error ds j = Some g -> meets c data g -> j = i) \/ (exists g, nth_error ds (length ds - 1) = Some g /\ meets c data g)
      | Some e => (S i < e < length ds)%nat /\ Forall (fun g => ~ meets c data g) (skipn e ds) /\ exists g, nth_error ds (e - 1) = Some g /\ meets c data g
      end
  end.
Proof.
  intros c ds data st en Hs H. unfold overlap in H. destruct data as [|r l]; [discriminate|]. split; [discriminate|]. apply Ok_inj in H.
  pose proof (overlaps_meets c r l) as M. set (P := overlaps c (col c r) (col c (last (r :: l) []))) in *.
  pose proof (nonzero_spec P ds 0) as N. pose proof (nonzero_sorted P ds 0) as S.
  assert (N' : forall i, In i (nonzero_from 0 P ds) <-> exists g, nth_error ds i = Some g /\ meets c (r :: l) g).
  { intro i. rewrite N. rewrite Nat.sub_0_r. split.
    - intros (_ & x & Hx & Px). exists x. split; auto. apply M; auto.
    - intros (x & Hx & Px). split; [lia|]. exists x. split; auto. apply M; auto. }
  clear N M. destruct (nonzero_from 0 P ds) as [|i idx].
  - injection H as <- <-. split; auto. apply Forall_nth_error. intros i x E K. apply (proj2 (N' i)). eauto.
  - assert (Hpre : Forall (fun g => ~ meets c (r :: l) g) (firstn i ds)).
    { apply Forall_nth_error. intros j x E K. apply nth_error_firstn in E as [Hj E]. assert (In j (i :: idx)) by (apply N'; eauto).
      destruct H0 as [->|H0]; [lia|]. inversion S as [|? ? _ F]; subst. rewrite Forall_forall in F. specialize (F j H0). lia. }
    assert (Hi : exists g, nth_error ds i = Some g /\ meets c (r :: l) g) by (apply N'; simpl; auto).
    destruct idx as [|i2 idx].
    + injection H as <- <-. split; auto. split; auto. left. intros j g E K. assert (In j [i]) by (apply N'; eauto). simpl in H. intuition.
    + set (e := Datatypes.S (last (i2 :: idx) 0%nat)) in *.
      assert (He : exists g, nth_error ds (last (i2 :: idx) 0%nat) = Some g /\ meets c (r :: l) g) by (apply N'; right; apply (last_In (i2 :: idx)); discriminate).
      assert (Hle : (e <= length ds)%nat) by (destruct He as (g & E & _); assert (H0 : nth_error ds (last (i2 :: idx) 0%nat) <> None) by congruence; apply nth_error_Some in H0; unfold e; lia).
      assert (Hmax : forall j, In j (i :: i2 :: idx) -> (j < e)%nat).
      { intros j Hj. pose proof (lt_last _ _ S Hj). change (last (i :: i2 :: idx) 0%nat) with (last (i2 :: idx) 0%nat) in H0. unfold e. lia. }
      assert (Hlt : (Datatypes.S i < e)%nat).
      { inversion S as [|? ? _ F]; subst. rewrite Forall_forall in F. specialize (F i2 (or_introl eq_refl)). specialize (Hmax i2 ltac:(simpl; auto)). lia. }
      destruct (e =? length ds)%nat eqn:Q.
      * apply Nat.eqb_eq in Q. injection H as <- <-. split; auto. split; auto. right. replace (length ds - 1)%nat with (last (i2 :: idx) 0%nat) by (unfold e in Q; lia). auto.
      * apply Nat.eqb_neq in Q. injection H as <- <-. split; auto. split; auto. split; [lia|]. split.
        -- apply Forall_nth_error. intros j x E K. rewrite nth_error_skipn in E. assert (In (e + j)%nat (i :: i2 :: idx)) by (apply N'; eauto). specialize (Hmax _ H). lia.
        -- replace (e - 1)%nat with (last (i2 :: idx) 0%nat) by (unfold e; lia). auto.
Qed.

(** * Rewritten part *)
Lemma overlap_shape : forall c ds data st en, overlap c ds data = Ok (st, en) ->
  match st, en with
  | None, _ => en = None
  | Some i, None => (i < length ds)%nat
  | Some i, Some e => (S i < e < length ds)%nat
  end.
Proof.
  intros c ds data st en H. unfold overlap in H. destruct data as [|r l]; [discriminate|]. apply Ok_inj in H.
  set (P := overlaps c (col c r) (col c (last (r :: l) []))) in *. pose proof (nonzero_spec P ds 0) as N. pose proof (nonzero_sorted P ds 0) as S.
  assert (B : forall i, In i (nonzero_from 0 P ds) -> (i < length ds)%nat).
  { intros i Hi. apply N in Hi as (_ & x & E & _). rewrite Nat.sub_0_r in E. apply nth_error_Some. congruence. }
  destruct (nonzero_from 0 P ds) as [|i [|i2 idx]]; [injection H as <- <-; auto|injection H as <- <-; apply B; simpl; auto|].
  assert (Hl : In (last (i2 :: idx) 0%nat) (i :: i2 :: idx)) by (right; apply (last_In (i2 :: idx)); discriminate).
  set (e := Datatypes.S (last (i2 :: idx) 0%nat)) in *. specialize (B _ Hl).
  assert (Hlt : (Datatypes.S i < e)%nat).
  { pose proof (lt_last _ i2 S ltac:(simpl; auto)) as L. change (last (i :: i2 :: idx) 0%nat) with (last (i2 :: idx) 0%nat) in L.
    inversion S as [|? ? _ F]; subst. rewrite Forall_forall in F. specialize (F i2 (or_introl eq_refl)). unfold e. lia. }
  destruct (e =? length ds)%nat eqn:Q; injection H as <- <-; [apply Nat.eqb_eq in Q|apply Nat.eqb_neq in Q]; unfold e in *; lia.
Qed.

Lemma coalesce_none : forall max n ds st en, coalesce max None n ds st en = Ok st.
Proof. reflexivity. Qed.

Lemma incomplete_le : forall m l, (fst (incomplete m l) <= length l)%nat.
Proof. intros m l. induction l as [|g l IH]; simpl; auto. destruct (rg_count g <=? m); simpl; [|lia]. destruct (incomplete m l). simpl in *. lia. Qed.

Lemma coalesce_spec : forall max nirgs n ds st en st', en <> Some 0%nat -> coalesce max nirgs n ds st en = Ok st' ->
  st' = st \/ exists m k t, nirgs = Some k /\ max = Some m /\ incomplete (9 * m / 10) (rev ds) = t /\
    (m <= n + snd t \/ k <= Z.of_nat (fst t)) /\
    match st with
    | None => en = None /\ st' = Some (length ds - fst t)%nat
    | Some O => en = None /\ st' = Some (length ds - fst t)%nat
    | Some s => st' = Some (Nat.min (length ds - fst t) s)
    end.
Proof.
  intros max nirgs n ds st en st' Hen H. unfold coalesce in H. destruct nirgs as [k|]; [|left; congruence]. destruct max as [m|]; [|discriminate].
  destruct (incomplete (9 * m / 10) (rev ds)) as [ni tot] eqn:E.
  destruct ((m <=? n + tot) || (k <=? Z.of_nat ni)) eqn:Q; [|left; congruence].
  assert (Q' : m <= n + tot \/ k <= Z.of_nat ni) by (apply orb_true_iff in Q as [Q|Q]; apply Z.leb_le in Q; auto).
  apply Ok_inj in H. assert (T : truthy_idx en = false -> en = None) by (destruct en as [[|e]|]; simpl; congruence).
  destruct st as [[|s]|].
  - destruct (truthy_idx en); [left; auto|]. right. exists m, k, (ni, tot). repeat (split; auto).
  - destruct en as [e|]; [destruct ((length ds - ni <? e)%nat); [|left; auto]|]; right; exists m, k, (ni, tot); repeat (split; auto).
  - destruct (truthy_idx en); [left; auto|]. right. exists m, k, (ni, tot). repeat (split; auto).
Qed.

(** Whatever the parameters, the rewritten part is well formed. *)
Lemma start_end : forall p data ds ordered st en st', match ordered with None => Ok (None, None) | Some c => overlap c ds (rows data) end = Ok (st, en) ->
  coalesce (max_row_group_size p) (max_nirgs p) (Z.of_nat (length (rows data))) ds st en = Ok st' ->
  match st' with None => st = None /\ en = None | Some s => match en with Some e => (s <= e)%nat | None => True end end.
Proof.
  intros p data ds ordered st en st' H1 H2.
  assert (Sh : match st, en with None, _ => en = None | Some i, None => (i < length ds)%nat | Some i, Some e => (S i < e < length ds)%nat end).
  { destruct ordered as [c|]; [eapply overlap_shape; eauto|]. injection H1 as <- <-. auto. }
  apply coalesce_spec in H2 as [->|(m & k & t & _ & _ & _ & _ & M)].
  - destruct st as [s|]; [destruct en; auto; lia|auto].
  - destruct st as [[|s]|].
    + destruct M as [-> ->]. auto.
    + subst st'. destruct en; auto. lia.
    + destruct M as [-> ->]. auto.
  - destruct st as [i|]; [|subst; discriminate]. destruct en as [e|]; [|discriminate]. intro Q. injection Q as Q. lia.
Qed.

(** * Rows kept *)
Lemma drop_chunks : forall cols raw, exists rest, Permutation (concat (map (drop_duplicates cols) raw) ++ rest) (concat raw) /\
  forall r, In r (concat raw) -> exists s, In s (concat (map (drop_duplicates cols) raw)) /\ same_key cols r s.
Proof.
  intros cols raw. induction raw as [|a raw (rest & P & K)]; simpl; [exists []; split; auto; intros r []|].
  assert (D : exists ra, Permutation (drop_duplicates cols a ++ ra) a).
  { clear. induction a as [|r a (ra & IH)]; simpl; [exists []; auto|]. destruct (existsb (same_on cols r) a).
    - exists (r :: ra). rewrite <- Permutation_middle. auto.
    - exists ra. simpl. auto. }
  destruct D as (ra & D). exists (ra ++ rest). split.
  - rewrite <- D at 2. rewrite <- P. rewrite <- !app_assoc. apply Permutation_app_head. rewrite !app_assoc. apply Permutation_app_tail. apply Permutation_app_comm.
  - intros r Hr. apply in_app_or in Hr as [Hr|Hr].
    + destruct (keep_last_facts cols a _ (drop_keep_last cols a)) as (_ & F & _). destruct (F r Hr) as (s & Hs & Ks). exists s. split; auto. apply in_or_app. auto.
    + destruct (K r Hr) as (s & Hs & Ks). exists s. split; auto. apply in_or_app. auto.
Qed.

Lemma merged_perm : forall c l, Permutation (match c with Some c => sort_by (col c) l | None => l end) l.
Proof. intros [c|] l; auto. apply sort_by_perm. Qed.

Lemma iter_rows : forall v data max sharp dup dl chunks, iter_dataframe v data max sharp dup dl = Ok chunks ->
  exists rest, Permutation (concat chunks ++ rest) (rows data) /\ (dup = None -> rest = []) /\
    forall c cols, sharp = Some c -> dup = Some cols -> forall r, In r (rows data) -> exists s, In s (concat chunks) /\ same_key (duplicate_columns (ncols data) c cols) r s.
Proof.
  intros v data max sharp dup dl chunks H. apply iter_inv in H as (raw & C & _ & _ & _ & D & _). destruct dup as [cols|].
  - destruct sharp as [c|]; [|contradiction]. subst chunks. destruct (drop_chunks (duplicate_columns (ncols data) c cols) raw) as (rest & P & K).
    rewrite C in *. exists rest. split; auto. split; [discriminate|]. intros c' cols' E1 E2. injection E1 as <-. injection E2 as <-. auto.
  - subst chunks. exists []. rewrite app_nil_r, C. split; auto. split; auto. discriminate.
Qed.

Lemma sort_rgs_rows : forall (key : rg -> Z) l, Permutation (all_rows (sort_by key l)) (all_rows l).
Proof.
  intros key l. assert (P : forall a b, Permutation a b -> Permutation (all_rows a) (all_rows b)).
  { intros a b P. unfold all_rows. apply Permutation_flat_map. auto. }
  apply P. apply sort_by_perm.
Qed.

(** Rows after an update, in any order. *)
Lemma update_rows : forall max ordered dup ds s e data ds', match e with Some e => (s <= e)%nat | None => True end -> update_rgs max ordered dup ds s e data = Ok ds' ->
  exists chunks, Permutation (all_rows ds') (all_rows (before s ds ++ after e ds) ++ concat chunks) /\
    iter_dataframe true (mkFrame (ncols data) (match ordered with Some c => sort_by (col c) (all_rows (middle s e ds) ++ rows data) | None => all_rows (middle s e ds) ++ rows data end)) max ordered dup true = Ok chunks.
Proof.
  intros max ordered dup ds s e data ds' Hse H. apply update_inv in H as (chunks & _ & Hi & l & Hc & _ & Hl). cbv zeta in *. exists chunks. split; auto.
  rewrite all_rows_concat, Hc, <- all_rows_concat.
  assert (P : Permutation (all_rows l) (all_rows ((before s ds ++ after e ds) ++ number_parts (next_part ds) chunks))).
  { subst l. destruct e; auto. destruct ordered; auto. apply sort_rgs_rows. }
  rewrite P, all_rows_app, number_parts_rows. auto.
Qed.
Lemma parts_perm : forall s e ds data, match e with Some e => (s <= e)%nat | None => True end ->
  Permutation (all_rows ds ++ data) (all_rows (before s ds ++ after e ds) ++ all_rows (middle s e ds) ++ data).
Proof.
  intros s e ds data H. rewrite (parts_split s e ds H) at 1. rewrite !all_rows_app, <- !app_assoc. apply Permutation_app_head.
  rewrite !app_assoc. apply Permutation_app_tail. apply Permutation_app_comm.
Qed.

Lemma dup_columns_idem : forall n c cols, duplicate_columns n c (with_column c cols) = duplicate_columns n c cols.
Proof.
  intros n c cols. unfold duplicate_columns, with_column. destruct cols as [|x cols]; auto. destruct (existsb (Nat.eqb c) (x :: cols)) eqn:E.
  - rewrite E. auto.
  - simpl app. change (x :: cols ++ [c]) with ((x :: cols) ++ [c]). rewrite existsb_app. simpl. rewrite Nat.eqb_refl, orb_true_r. auto.
Qed.

Lemma check_ordered_inv : forall o n ordered, check_ordered_on o n = Ok ordered ->
  match ordered with None => o = Unordered | Some c => o = OrderedOn c /\ (c < n)%nat end.
Proof.
  intros o n ordered H. destruct o as [|c|]; simpl in H; [injection H as <-; auto| |discriminate].
  destruct (c <? n)%nat eqn:E; [|discriminate]. injection H as <-. apply Nat.ltb_lt in E. auto.
Qed.
Lemma check_dup_inv : forall dup ordered dup', check_duplicates_on dup ordered = Ok dup' ->
  match dup with None => dup' = None | Some cols => exists c, ordered = Some c /\ dup' = Some (with_column c cols) end.
Proof.
  intros dup ordered dup' H. destruct dup as [cols|]; [destruct ordered as [c|]; [|discriminate]; exists c; split; auto|]; simpl in H; congruence.
Qed.

(** Rows after any write: no row is invented, a row can be missing only if there is another one with the same key. *)
Lemma write_rows : forall p v ds data ds', write p v ds data = Ok ds' ->
  exists rest, Permutation (all_rows ds' ++ rest) (all_rows ds ++ rows data) /\ (duplicates_on p = None -> rest = []) /\
    forall c cols, ordered_on p = OrderedOn c -> duplicates_on p = Some cols -> forall r, In r (all_rows ds ++ rows data) -> exists s, In s (all_rows ds') /\ same_key (duplicate_columns (ncols data) c cols) r s.
Proof.
  intros p v ds data ds' H.
  assert (Refl : forall l cols r, In r l -> exists s, In s l /\ same_key cols r s) by (intros l cols r Hr; exists r; split; auto; intros x Hx; auto).
  apply write_inv in H as (ordered & Ho & [(-> & chunks & Hi & ->)|(Hne & dup & st & en & st' & Hd & Hov & Hc & H)]).
  - apply iter_rows in Hi as (rest & P & R & _). rewrite (R eq_refl), app_nil_r in P. exists []. rewrite app_nil_r, number_parts_rows. simpl.
    split; [auto|]. split; [auto|]. intros c cols _ _ r Hr. apply Refl. eapply Permutation_in; [symmetry; exact P|auto].
  - pose proof (start_end p data ds ordered st en st' Hov Hc) as SE. destruct st' as [s|].
    + apply update_rows in H as (chunks & P & Hi); auto. apply iter_rows in Hi as (rest & P2 & R & K). cbn [rows ncols] in *.
      exists rest. split; [|split].
      * rewrite P, (parts_perm s en ds (rows data) SE), <- app_assoc. apply Permutation_app_head. rewrite P2. apply merged_perm.
      * intro E. apply R. apply check_dup_inv in Hd. rewrite E in Hd. auto.
      * intros c cols E1 E2 r Hr. apply check_dup_inv in Hd. rewrite E2 in Hd. destruct Hd as (c' & -> & ->).
        apply check_ordered_inv in Ho as [Ho _]. assert (c' = c) by congruence. subst c'.
        apply (Permutation_in _ (parts_perm s en ds (rows data) SE)) in Hr. apply in_app_or in Hr as [Hr|Hr].
        -- exists r. split; [|intros x Hx; auto]. eapply Permutation_in; [symmetry; exact P|]. apply in_or_app. auto.
        -- destruct (K c (with_column c cols) eq_refl eq_refl r) as (x & Hx & Kx).
           { eapply Permutation_in; [symmetry; apply sort_by_perm|auto]. }
           rewrite dup_columns_idem in Kx. exists x. split; auto. eapply Permutation_in; [symmetry; exact P|]. apply in_or_app. auto.
    + destruct H as (chunks & Hi & ->). apply iter_rows in Hi as (rest & P & R & _). rewrite (R eq_refl), app_nil_r in P.
      exists []. rewrite app_nil_r, all_rows_app, number_parts_rows. split; [apply Permutation_app_head; auto|]. split; auto.
      intros c cols _ _ r Hr. apply Refl. eapply Permutation_in; [|exact Hr]. apply Permutation_app_head. symmetry. auto.
Qed.

(** * Newest rows *)
Lemma same_key_refl : forall cols r, same_key cols r r.
Proof. intros cols r c _. auto. Qed.
Lemma filter_same_key : forall cols d l x, In x (filter (same_on cols d) l) <-> In x l /\ same_key cols d x.
Proof. intros. rewrite filter_In. rewrite same_on_iff. reflexivity. Qed.

Lemma keep_last_filter : forall cols d l out, keep_last cols l out ->
  filter (same_on cols d) out = match filter (same_on cols d) l with [] => [] | x :: l' => [last (x :: l') x] end.
Proof.
  intros cols d l out H. induction H as [|r l out s Hs Hk H IH|r l out Hn H IH]; simpl; auto.
  - rewrite IH. destruct (same_on cols d r) eqn:E; auto. apply same_on_iff in E.
    assert (Q : In s (filter (same_on cols d) l)) by (apply filter_same_key; split; auto; eapply same_key_trans; eauto).
    destruct (filter (same_on cols d) l) as [|x l']; [contradiction|]. f_equal. change (last (r :: x :: l') r) with (last (x :: l') r).
    destruct (exists_last (l := x :: l')) as (l2 & y & E2); [discriminate|]. rewrite E2, !last_last. auto.
  - destruct (same_on cols d r) eqn:E; [|auto]. rewrite IH. apply same_on_iff in E.
    assert (Q : filter (same_on cols d) l = []).
    { destruct (filter (same_on cols d) l) as [|x l'] eqn:F; auto. assert (In x (filter (same_on cols d) l)) by (rewrite F; simpl; auto).
      apply filter_same_key in H0 as [H1 H2]. exfalso. apply (Hn x H1). eapply same_key_trans; [apply same_key_sym; exact E|auto]. }
    rewrite Q. auto.
Qed.

Lemma last_of_filter : forall cols d l x, In x (filter (same_on cols d) l) -> last (filter (same_on cols d) l) x = last (filter (same_on cols d) l) [] /\
  last_of_key cols (last (filter (same_on cols d) l) x) l /\ same_key cols d (last (filter (same_on cols d) l) x).
Proof.
  intros cols d l. induction l as [|r l IH] using rev_ind; intros x Hx; [contradiction|]. rewrite filter_app in *. simpl in *.
  destruct (same_on cols d r) eqn:E.
  - rewrite !last_last. split; auto. apply same_on_iff in E. split; auto. exists l, []. split; auto; intros s [].
  - rewrite app_nil_r in *. destruct (IH x Hx) as (A & B & C). split; auto. split; auto. clear A IH Hx. generalize dependent (last (filter (same_on cols d) l) x). intros y B C.
    destruct B as (b & a & -> & Ha). exists b, (a ++ [r]). split; [rewrite <- app_assoc; auto|]. intros s Hs. apply in_app_or in Hs as [Hs|[->|[]]]; auto. intro K.
    assert (same_on cols d s = true) by (apply same_on_iff; eapply same_key_trans; eauto). congruence.
Qed.

Lemma filter_single : forall cols d l r, filter (same_on cols d) l = [r] -> only_row cols r l.
Proof.
  intros cols d l r H. assert (Hr : In r (filter (same_on cols d) l)) by (rewrite H; simpl; auto). apply filter_same_key in Hr as [Hr Kr].
  apply in_split in Hr as (b & a & ->). exists b, a. split; auto. rewrite filter_app in H. simpl in H.
  rewrite (proj2 (same_on_iff cols d r) Kr) in H.
  assert (L : length (filter (same_on cols d) b) = 0%nat /\ length (filter (same_on cols d) a) = 0%nat) by (apply (f_equal (@length _)) in H; rewrite app_length in H; simpl in H; lia).
  destruct L as [L1 L2]. intros s Hs K. assert (Q : same_key cols d s) by (eapply same_key_trans; eauto).
  apply in_app_or in Hs as [Hs|Hs].
  - assert (In s (filter (same_on cols d) b)) by (apply filter_same_key; auto). destruct (filter (same_on cols d) b); [contradiction|discriminate].
  - assert (In s (filter (same_on cols d) a)) by (apply filter_same_key; auto). destruct (filter (same_on cols d) a); [contradiction|discriminate].
Qed.

Lemma Permutation_filter : forall {A} (P : A -> bool) l m, Permutation l m -> Permutation (filter P l) (filter P m).
Proof.
  intros A P l m H. induction H; simpl; auto.
  - destruct (P x); auto.
  - destruct (P x), (P y); auto. apply perm_swap.
  - etransitivity; eauto.
Qed.

Lemma sorted_sort : forall c l, sorted_on c (sort_by (col c) l).
Proof. intros. apply (sort_by_sorted (col c)). Qed.

(** What is written by an update, on an ordered column. *)
Lemma update_chunks : forall n c cols l max chunks, (c < n)%nat ->
  iter_dataframe true (mkFrame n (sort_by (col c) l)) max (Some c) (Some cols) true = Ok chunks ->
  keep_last (duplicate_columns n c cols) (sort_by (col c) l) (concat chunks).
Proof.
  intros n c cols l max chunks Hc H. apply iter_inv in H as (raw & C & _ & _ & S & D & _). cbn [rows ncols] in *. subst chunks. rewrite <- C.
  apply keep_last_chunks with c; [apply duplicate_columns_In; auto|]. apply S; auto. apply sorted_sort.
Qed.

(** Row groups left as they are do not have any value of the data. *)
Lemma not_meets : forall c data g r d, ~ meets c data g -> In r (content g) -> In d data -> col c r <> col c d.
Proof. intros c data g r d H Hr Hd E. apply H. exists r, r, d, d. repeat split; auto; lia. Qed.

Lemma update_start : forall p c data ds st en st' g, sorted_on c (rows data) -> overlap c ds (rows data) = Ok (st, en) ->
  coalesce (max_row_group_size p) (max_nirgs p) (Z.of_nat (length (rows data))) ds st en = Ok st' ->
  (max_nirgs p = None \/ ~ meets_first c (rows data) ds) -> In g ds -> meets c (rows data) g ->
  exists i s, st = Some i /\ st' = Some s /\ (s <= i)%nat.
Proof.
  intros p c data ds st en st' g Hs Hov Hc Hm Hg Mg. destruct (overlap_spec _ _ _ _ _ Hs Hov) as [_ OS]. destruct st as [i|].
  2:{ destruct OS as [_ F]. rewrite Forall_forall in F. exfalso. apply (F g); auto. }
  pose proof (overlap_shape _ _ _ _ _ Hov) as Sh.
  exists i. destruct (max_nirgs p) as [k|] eqn:Ek.
  - apply coalesce_spec in Hc; [|destruct en; [intro Q; injection Q as Q; lia|discriminate]]. destruct Hc as [->|(m & k' & t & _ & _ & _ & _ & M)].
    + exists i. auto.
    + destruct i as [|i]; [|eexists; split; [auto|split; [exact M|lia]]]. exfalso. destruct Hm as [Hm|Hm]; [discriminate|].
      apply Hm. destruct OS as [(g0 & E & M0) _]. destruct ds as [|g1 ds]; [discriminate|]. injection E as ->. exists g0, ds. auto.
  - rewrite coalesce_none in Hc. apply Ok_inj in Hc. exists i. auto.
Qed.

Lemma filter_none : forall cols d l, (forall r, In r l -> ~ same_key cols d r) -> filter (same_on cols d) l = [].
Proof.
  intros cols d l H. destruct (filter (same_on cols d) l) as [|x l'] eqn:F; auto. assert (Hx : In x (filter (same_on cols d) l)) by (rewrite F; simpl; auto).
  apply filter_same_key in Hx as [H1 H2]. exfalso. eapply H; eauto.
Qed.

Lemma after_not_meets : forall c ds data i en, match en with None => True | Some e => (S i < e < length ds)%nat /\ Forall (fun g => ~ meets c data g) (skipn e ds) /\ exists g, nth_error ds (e - 1) = Some g /\ meets c data g end ->
  Forall (fun g => ~ meets c data g) (after en ds).
Proof. intros c ds data i [e|] H; simpl; [apply H|constructor]. Qed.

Lemma firstn_In_le : forall {A} (l : list A) s i x, (s <= i)%nat -> In x (firstn s l) -> In x (firstn i l).
Proof.
  intros A l s i x H Hx. rewrite <- (firstn_skipn s (firstn i l)). apply in_or_app. left. rewrite firstn_firstn, Nat.min_l; auto.
Qed.

Theorem write_newest : forall p v ds data ds' c cols g, write p v ds data = Ok ds' -> ordered_on p = OrderedOn c -> duplicates_on p = Some cols ->
  sorted_on c (rows data) -> (max_nirgs p = None \/ ~ meets_first c (rows data) ds) -> In g ds -> meets c (rows data) g ->
  let key := duplicate_columns (ncols data) c cols in
  forall d, In d (rows data) -> exists r, same_key key d r /\ last_of_key key r (rows data) /\ only_row key r (all_rows ds').
Proof.
  intros p v ds data ds' c cols g H Eo Ed Hs Hm Hg Mg key d Hd.
  apply write_inv in H as (ordered & Ho & [(-> & _)|(Hne & dup & st & en & st' & Hdup & Hov & Hc & H)]); [contradiction|].
  rewrite Eo in Ho. apply check_ordered_inv in Ho. destruct ordered as [c'|]; [|discriminate]. destruct Ho as [Q Hcn]. injection Q as <-.
  apply check_dup_inv in Hdup. rewrite Ed in Hdup. destruct Hdup as (c' & Q & ->). injection Q as <-.
  pose proof (start_end p data ds (Some c) st en st' Hov Hc) as SE.
  destruct (update_start p c data ds st en st' g Hs Hov Hc Hm Hg Mg) as (i & s & -> & -> & Hsi).
  destruct (overlap_spec _ _ _ _ _ Hs Hov) as [_ (_ & Hpre & Hen)].
  apply update_rows in H as (chunks & P & Hi); auto. apply update_chunks in Hi; auto. rewrite dup_columns_idem in Hi. fold key in Hi.
  assert (Kc : forall a b, same_key key a b -> col c a = col c b) by (intros a b K; apply K; apply duplicate_columns_In; auto).
  assert (Kept : filter (same_on key d) (all_rows (before s ds ++ after en ds)) = []).
  { apply filter_none. intros r Hr K. apply In_all_rows in Hr as (g' & Hg' & Hr). assert (~ meets c (rows data) g').
    { apply in_app_or in Hg' as [Hg'|Hg'].
      - rewrite Forall_forall in Hpre. apply Hpre. eapply firstn_In_le; eauto.
      - assert (F : Forall (fun g => ~ meets c (rows data) g) (after en ds)) by (apply after_not_meets with i; destruct en; auto).
        rewrite Forall_forall in F. auto. }
    apply (not_meets c (rows data) g' r d H Hr Hd). symmetry. auto. }
  set (l := all_rows (middle s en ds) ++ rows data) in *.
  assert (F1 : filter (same_on key d) (sort_by (col c) l) = filter (same_on key d) (all_rows (middle s en ds)) ++ filter (same_on key d) (rows data)).
  { rewrite sort_by_filter; [apply filter_app|]. intros a b Ha Hb. apply same_on_iff in Ha, Hb. rewrite <- (Kc d a Ha). auto. }
  assert (Hdf : In d (filter (same_on key d) (rows data))) by (apply filter_same_key; split; auto; apply same_key_refl).
  destruct (last_of_filter key d (rows data) d Hdf) as (L1 & L2 & L3). set (r := last (filter (same_on key d) (rows data)) d) in *.
  exists r. split; auto. split; auto. apply filter_single with d.
  apply (Permutation_filter (same_on key d)) in P. rewrite filter_app, Kept in P. simpl in P.
  rewrite (keep_last_filter key d _ _ Hi), F1 in P.
  destruct (exists_last (l := filter (same_on key d) (rows data))) as (fl & y & Ey); [intro Q; rewrite Q in Hdf; contradiction|].
  assert (y = r) by (unfold r; rewrite Ey, last_last; auto). subst y. rewrite Ey, app_assoc in P.
  destruct ((filter (same_on key d) (all_rows (middle s en ds)) ++ fl) ++ [r]) as [|x l'] eqn:El; [destruct (filter (same_on key d) (all_rows (middle s en ds)) ++ fl); discriminate|].
  rewrite <- El, last_last in P. apply Permutation_sym, Permutation_length_1_inv in P. auto.
Qed.

(** * Order *)
Lemma sorted_parts : forall c ds1 ds2 r s, sorted_on c (all_rows (ds1 ++ ds2)) -> In r (all_rows ds1) -> In s (all_rows ds2) -> col c r <= col c s.
Proof. intros c ds1 ds2 r s H Hr Hs. rewrite all_rows_app in H. apply SS_app in H as (_ & _ & H). auto. Qed.
Lemma before_data : forall c ds data i g r d, sorted_on c (all_rows ds) -> nth_error ds i = Some g -> meets c data g -> Forall (fun g => ~ meets c data g) (firstn i ds) ->
  In r (all_rows (firstn i ds)) -> In d data -> col c r < col c d.
Proof.
  intros c ds data i g r d Hs Hi (a & _ & d2 & _ & Ha & _ & Hd2 & _ & L & _) F Hr Hd.
  apply Z.lt_nge. intro Q. apply In_all_rows in Hr as (g' & Hg' & Hr). rewrite Forall_forall in F. apply (F g' Hg').
  assert (col c r <= col c a).
  { rewrite <- (firstn_skipn i ds) in Hs. eapply sorted_parts; [exact Hs|apply In_all_rows; eauto|]. apply In_all_rows. exists g. split; auto.
    apply nth_error_In with 0%nat. rewrite nth_error_skipn, Nat.add_0_r. auto. }
  exists r, r, d2, d. repeat split; auto; lia.
Qed.
Lemma after_data : forall c ds data e g r d, sorted_on c (all_rows ds) -> (0 < e)%nat -> nth_error ds (e - 1) = Some g -> meets c data g -> Forall (fun g => ~ meets c data g) (skipn e ds) ->
  In r (all_rows (skipn e ds)) -> In d data -> col c d < col c r.
Proof.
  intros c ds data e g r d Hs He Hi (_ & a & _ & d2 & _ & Ha & _ & Hd2 & _ & L) F Hr Hd.
  apply Z.lt_nge. intro Q. apply In_all_rows in Hr as (g' & Hg' & Hr). rewrite Forall_forall in F. apply (F g' Hg').
  assert (col c a <= col c r).
  { rewrite <- (firstn_skipn e ds) in Hs. eapply sorted_parts; [exact Hs| |apply In_all_rows; eauto]. apply In_all_rows. exists g. split; auto.
    apply nth_error_In with (e - 1)%nat. apply nth_error_firstn. split; auto. lia. }
  exists r, r, d, d2. repeat split; auto; lia.
Qed.

Lemma separated_app : forall c a b, separated c (a ++ b) <-> separated c a /\ separated c b /\ (forall r s, In r (concat a) -> In s (concat b) -> col c r < col c s).
Proof.
  intros c a b. unfold separated. rewrite SS_app. split; intros (H1 & H2 & H3); split; auto; split; auto.
  - intros r s Hr Hs. apply in_concat in Hr as (x & Hx & Hr). apply in_concat in Hs as (y & Hy & Hs). eapply H3; eauto.
  - intros x y Hx Hy r s Hr Hs. apply H3; apply in_concat; eauto.
Qed.
Lemma separated_max : forall c ds, filled ds -> separated c (map content ds) -> StronglySorted (fun a b => rg_max c a < rg_max c b) ds.
Proof.
  intros c ds F H. induction ds as [|g ds IH]; [constructor|]. inversion F as [|? ? Fg Fd]; subst. simpl in H. inversion H as [|? ? H1 H2]; subst.
  constructor; [apply IH; auto|]. apply Forall_forall. intros b Hb. rewrite Forall_forall in H2, Fd.
  destruct (rg_max_spec c g Fg) as [_ (r & Hr & <-)]. destruct (rg_max_spec c b (Fd b Hb)) as [_ (s & Hs & <-)].
  apply (H2 (content b)); auto. apply in_map. auto.
Qed.
Lemma sublist_sorted : forall {A} (R : A -> A -> Prop) out l, sublist out l -> StronglySorted R l -> StronglySorted R out.
Proof.
  intros A R out l H. assert (Sub : forall x (out l : list A), sublist out l -> In x out -> In x l).
  { clear. intros x out l H. induction H; simpl; intuition. }
  induction H as [|x out l H IH|x out l H IH]; intro S; auto; inversion S as [|? ? S1 S2]; subst; auto.
  constructor; auto. rewrite Forall_forall in *. intros y Hy. apply S2. eapply Sub; eauto.
Qed.
Lemma drop_chunks_separated : forall c cols raw, separated c raw -> separated c (map (drop_duplicates cols) raw).
Proof.
  intros c cols raw H. assert (Sub : forall a r, In r (drop_duplicates cols a) -> In r a).
  { induction a as [|x a IH]; intros r Hr; simpl in *; auto. destruct (existsb (same_on cols x) a); simpl in *; intuition. }
  induction H as [|a raw H IH F]; simpl; constructor; auto. apply Forall_map. eapply Forall_impl; [|exact F]. simpl. intros b Hb r s Hr Hs. apply Hb; auto.
Qed.
Lemma drop_nonempty : forall cols l, l <> [] -> drop_duplicates cols l <> [].
Proof.
  intros cols l H E. destruct l as [|r l]; [congruence|]. destruct (keep_last_facts cols _ _ (drop_keep_last cols (r :: l))) as (_ & F & _).
  destruct (F r (or_introl eq_refl)) as (s & Hs & _). rewrite E in Hs. contradiction.
Qed.

(** What an update of an ordered dataset gives. *)
Lemma update_core : forall n c dup ds s en data max ds', (c < n)%nat -> ncols data = n -> filled ds -> rows data <> [] ->
  match en with Some e => (s <= e)%nat | None => True end ->
  (forall r x, In r (all_rows (before s ds)) -> In x (all_rows (middle s en ds) ++ rows data) -> col c r <= col c x) ->
  (en <> None -> separated c (map content ds) /\ (forall r d, In r (all_rows (before s ds)) -> In d (rows data) -> col c r < col c d) /\ (forall r d, In r (all_rows (after en ds)) -> In d (rows data) -> col c d < col c r)) ->
  update_rgs max (Some c) dup ds s en data = Ok ds' ->
  exists news, map content ds' = map content (before s ds) ++ news ++ map content (after en ds) /\ Forall (fun l => l <> []) news /\ separated c news /\
    match dup with
    | None => concat news = sort_by (col c) (all_rows (middle s en ds) ++ rows data)
    | Some cols => keep_last (duplicate_columns n c cols) (sort_by (col c) (all_rows (middle s en ds) ++ rows data)) (concat news)
    end.
Proof.
  intros n c dup ds s en data max ds' Hc En Hf Hne Hse Hle Hsep H. apply update_inv in H as (chunks & Hmid & Hi & l & Hl & _ & E). cbv zeta in *. subst n.
  set (m := sort_by (col c) (all_rows (middle s en ds) ++ rows data)) in *. apply iter_inv in Hi as (raw & C & F & _ & S & D & _). cbn [rows ncols] in *.
  assert (Hm : m <> []).
  { intro Q. destruct (rows data) as [|x y] eqn:Er; [congruence|]. assert (In x m) by (eapply Permutation_in; [symmetry; apply sort_by_perm|]; apply in_or_app; simpl; auto). rewrite Q in H. contradiction. }
  specialize (F Hm). specialize (S c eq_refl (sorted_sort _ _)).
  assert (Hnews : Forall (fun l => l <> []) chunks /\ separated c chunks /\ match dup with None => concat chunks = m | Some cols => keep_last (duplicate_columns (ncols data) c cols) m (concat chunks) end /\ (forall x, In x (concat chunks) -> In x m)).
  { destruct dup as [cols|]; subst chunks.
    - split; [apply Forall_map; eapply Forall_impl; [|exact F]; intros a Ha; apply drop_nonempty; auto|]. split; [apply drop_chunks_separated; auto|].
      assert (K : keep_last (duplicate_columns (ncols data) c cols) m (concat (map (drop_duplicates (duplicate_columns (ncols data) c cols)) raw))).
      { rewrite <- C. apply keep_last_chunks with c; auto. apply duplicate_columns_In; auto. }
      split; auto. intros x Hx. destruct (keep_last_facts _ _ _ K) as (_ & _ & L & _). destruct (L x Hx) as (b & a & -> & _). apply in_or_app. simpl. auto.
    - split; auto. split; auto. split; auto. rewrite C. auto. }
  destruct Hnews as (N1 & N2 & N3 & N4). exists chunks. split; [|auto].
  rewrite Hl, E. destruct en as [e|].
  - destruct (Hsep ltac:(discriminate)) as (Sp & B1 & B2).
    assert (Q : sort_by (rg_max c) ((before s ds ++ after (Some e) ds) ++ number_parts (next_part ds) chunks) = before s ds ++ number_parts (next_part ds) chunks ++ after (Some e) ds).
    { apply sort_by_strict; [|rewrite <- app_assoc; apply Permutation_app_head; apply Permutation_app_comm].
      assert (Ed : ds = before s ds ++ middle s (Some e) ds ++ after (Some e) ds) by (apply parts_split; auto).
      unfold filled in Hf. rewrite Ed in Hf, Sp. apply Forall_app in Hf as [F1 F2]. apply Forall_app in F2 as [F2 F3].
      rewrite !map_app in Sp. apply separated_app in Sp as (S1 & S2 & S3). apply separated_app in S2 as (S2 & S4 & S5).
      rewrite concat_app in S3. rewrite <- !all_rows_concat in *.
      apply separated_max.
      - apply Forall_app. split; auto. apply Forall_app. split; auto. apply number_parts_filled.
      - rewrite !map_app, number_parts_content by auto. apply separated_app. split; [auto|]. split.
        + apply separated_app. split; [auto|]. split; [auto|]. intros r x Hr Hx. apply N4 in Hr. rewrite <- all_rows_concat in Hx. apply (Permutation_in _ (sort_by_perm _ _)) in Hr. apply in_app_or in Hr as [Hr|Hr]; auto.
        + intros r x Hr Hx. rewrite <- all_rows_concat in Hr. rewrite concat_app, <- all_rows_concat in Hx. apply in_app_or in Hx as [Hx|Hx].
          * apply N4 in Hx. apply (Permutation_in _ (sort_by_perm _ _)) in Hx. apply in_app_or in Hx as [Hx|Hx]; auto. apply S3; auto. apply in_or_app. auto.
          * apply S3; auto. apply in_or_app. auto. }
    rewrite Q, !map_app, number_parts_content; auto.
  - simpl. rewrite app_nil_r. rewrite map_app, number_parts_content, app_nil_r; auto.
Qed.

(** * Shape of the result of a write on an ordered dataset *)
Lemma after_not_meet : forall c data ds g, after_end c data ds -> In g ds -> ~ meets c data g.
Proof. intros c data ds g H Hg (_ & s & _ & d & _ & Hs & _ & Hd & _ & L). assert (In s (all_rows ds)) by (apply In_all_rows; eauto). specialize (H s d H0 Hd). lia. Qed.

Lemma write_shape : forall p v ds data ds' c, write p v ds data = Ok ds' -> ordered_on p = OrderedOn c ->
  filled ds -> sorted_on c (all_rows ds) -> sorted_on c (rows data) ->
  placed c (rows data) ds -> splittable c (rows data) ds -> (max_nirgs p = None \/ ~ meets_first c (rows data) ds) ->
  (c < ncols data)%nat /\
  exists A M C news, ds = A ++ M ++ C /\ map content ds' = map content A ++ news ++ map content C /\ Forall (fun l => l <> []) news /\
    (forall r d, In r (all_rows A) -> In d (rows data) -> col c r < col c d) /\ (forall r d, In r (all_rows C) -> In d (rows data) -> col c d < col c r) /\
    ((M = [] /\ C = [] /\ concat news = rows data) \/
     (M <> [] /\ rows data <> [] /\ separated c news /\ (C <> [] -> separated c (map content ds)) /\
      match duplicates_on p with
      | None => concat news = sort_by (col c) (all_rows M ++ rows data)
      | Some cols => keep_last (duplicate_columns (ncols data) c cols) (sort_by (col c) (all_rows M ++ rows data)) (concat news)
      end)).
Proof.
  intros p v ds data ds' c H Eo Hf Hds Hs Hpl Hsp Hm.
  apply write_inv in H as (ordered & Ho & H). rewrite Eo in Ho. apply check_ordered_inv in Ho. destruct ordered as [c'|]; [|discriminate]. destruct Ho as [Q Hcn]. injection Q as <-.
  split; auto.
  assert (Plain : forall n chunks, iter_dataframe v data (max_row_group_size p) None None false = Ok chunks -> exists news, map content (number_parts n chunks) = news /\ Forall (fun l => l <> []) news /\ concat news = rows data).
  { intros n chunks Hi. apply iter_inv in Hi as (raw & C & F & F0 & _ & -> & _). eexists. split; [reflexivity|]. split; [apply filled_content, number_parts_filled|].
    rewrite <- all_rows_concat, number_parts_rows. auto. }
  destruct H as [(-> & chunks & Hi & ->)|(Hne & dup & st & en & st' & Hdup & Hov & Hc & H)].
  - destruct (Plain 0%nat chunks Hi) as (news & E & F & C). exists [], [], [], news. simpl. rewrite app_nil_r. repeat (split; auto); intros r d [].
  - pose proof (start_end p data ds (Some c) st en st' Hov Hc) as SE. destruct (overlap_spec _ _ _ _ _ Hs Hov) as [Hdne OS].
    destruct st' as [s|].
    2:{ destruct SE as [-> ->]. destruct H as (chunks & Hi & ->). destruct (Plain (next_part ds) chunks Hi) as (news & E & F & C). exists ds, [], [], news.
        split; [rewrite !app_nil_r; auto|]. split; [rewrite map_app, E; simpl; rewrite app_nil_r; auto|]. split; [auto|].
        assert (AE : after_end c (rows data) ds).
        { destruct Hpl as [Hpl|[(g & Hg & Mg)|Hpl]]; auto; [congruence|]. destruct OS as [_ OS]. rewrite Forall_forall in OS. exfalso. eapply OS; eauto. }
        split; [intros r d Hr Hd; apply AE; auto|]. split; [intros r d []|]. auto. }
    assert (Hu : (forall r d, In r (all_rows (before s ds)) -> In d (rows data) -> col c r < col c d) /\ (forall r d, In r (all_rows (after en ds)) -> In d (rows data) -> col c d < col c r) /\ (en <> None -> separated c (map content ds))).
    { assert (Cases : (exists g, In g ds /\ meets c (rows data) g) \/ after_end c (rows data) ds) by (destruct Hpl as [Hpl|Hpl]; [congruence|auto]).
      destruct Cases as [(g & Hg & Mg)|AE].
      - destruct (update_start p c data ds st en (Some s) g Hs Hov Hc Hm Hg Mg) as (i & s' & -> & Q & Hsi). injection Q as <-.
        destruct OS as ((gi & Ei & Mi) & Hpre & Hen). split; [|split].
        + intros r d Hr Hd. apply In_all_rows in Hr as (g' & Hg' & Hr). apply (before_data c ds (rows data) i gi r d); auto. apply In_all_rows. exists g'. split; auto. eapply firstn_In_le; eauto.
        + intros r d Hr Hd. destruct en as [e|]; [|contradiction]. destruct Hen as (B & Fs & ge & Ee & Me). apply (after_data c ds (rows data) e ge r d); auto. lia.
        + intro Hn. destruct en as [e|]; [|congruence]. destruct Hen as (B & Fs & _). destruct Hsp as [Hsp|[AE|(ds0 & gl & E & Ml)]]; auto.
          * exfalso. apply (after_not_meet c (rows data) ds g AE Hg Mg).
          * exfalso. rewrite Forall_forall in Fs. apply (Fs gl); auto. subst ds. rewrite app_length in B. simpl in B. rewrite skipn_app.
            apply in_or_app. right. replace (e - length ds0)%nat with 0%nat by lia. simpl. auto.
      - assert (st = None /\ en = None).
        { destruct st as [i|]; [|destruct OS; auto]. exfalso. destruct OS as ((gi & Ei & Mi) & _). apply (after_not_meet c (rows data) ds gi AE); auto. eapply nth_error_In; eauto. }
        destruct H0 as [-> ->]. split; [|split; [intros r d []|congruence]]. intros r d Hr Hd. apply AE; auto. apply In_all_rows in Hr as (g' & Hg' & Hr). apply In_all_rows. exists g'. split; auto.
        rewrite <- (firstn_skipn s ds). apply in_or_app. auto. }
    destruct Hu as (U1 & U2 & U3).
    assert (Ed : ds = before s ds ++ middle s en ds ++ after en ds) by (apply parts_split; auto).
    pose proof H as H'. apply update_inv in H' as (_ & Hmid & _).
    apply (update_core (ncols data) c dup ds s en data (max_row_group_size p) ds') in H; auto.
    + destruct H as (news & N1 & N2 & N3 & N4). exists (before s ds), (middle s en ds), (after en ds), news. split; [auto|]. split; [auto|]. split; [auto|]. split; [auto|]. split; [auto|].
      right. split; [auto|]. split; [auto|]. split; [auto|]. split; [intro Hn; apply U3; intro Q; subst en; simpl in Hn; congruence|].
      apply check_dup_inv in Hdup. destruct (duplicates_on p) as [cols|]; [|subst dup; auto]. destruct Hdup as (c' & Q & ->). injection Q as <-. rewrite dup_columns_idem in N4. auto.
    + intros r x Hr Hx. apply in_app_or in Hx as [Hx|Hx]; [|specialize (U1 r x Hr Hx); lia]. rewrite Ed in Hds. eapply sorted_parts; [exact Hds|auto|]. rewrite all_rows_app. apply in_or_app. auto.
Qed.
