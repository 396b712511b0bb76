(** Proofs about 'iter_dataframe'. *)
Require Import List Arith ZArith Bool Lia Sorting.Sorted Sorting.Permutation.
Require Import Verif.Common Verif.WrModel Verif.WrSpec.
Import ListNotations.
Local Open Scope Z_scope.

Lemma skipn_skipn' : forall {A} (l : list A) a b, skipn a (skipn b l) = skipn (a + b) l.
Proof. intros A l a b. revert l. induction b as [|b IH]; intros l; [rewrite Nat.add_0_r; auto|]. rewrite Nat.add_succ_r. destruct l; simpl; [apply skipn_nil|apply IH]. Qed.

(** * Size of row groups *)
Lemma size_bounds : forall n max, 0 < n -> 0 < max -> 0 < row_group_size n max <= max /\ row_group_size n max <= n
  /\ n <= ((n - 1) / max + 1) * row_group_size n max.
Proof.
  intros n max Hn Hm. unfold row_group_size. set (k := (n - 1) / max).
  assert (0 <= k) by (apply Z.div_pos; lia).
  assert (Hk : n - 1 < max * (k + 1)) by (unfold k; pose proof (Z.mul_div_le (n - 1) max Hm); pose proof (Z.mod_pos_bound (n - 1) max Hm); pose proof (Z.div_mod (n - 1) max ltac:(lia)); lia).
  set (q := (n - 1) / (k + 1)). assert (0 <= q) by (apply Z.div_pos; lia).
  assert (Hq : q < max) by (apply Z.div_lt_upper_bound; lia).
  assert (Hq2 : n - 1 < (k + 1) * (q + 1)) by (unfold q; pose proof (Z.div_mod (n - 1) (k + 1) ltac:(lia)); pose proof (Z.mod_pos_bound (n - 1) (k + 1) ltac:(lia)); lia).
  split; [lia|]. split; [lia|]. destruct (Z.min_spec (q + 1) n) as [[_ ->]|[_ ->]]; [lia|]. nia.
Qed.

(** * Starts *)
(** Strictly increasing, less than [n]. *)
Inductive incr_from : nat -> list nat -> nat -> Prop :=
| IFNil k n : (k <= n)%nat -> incr_from k [] n
| IFCons k s l n : (k <= s)%nat -> (s < n)%nat -> incr_from (S s) l n -> incr_from k (s :: l) n.

Lemma incr_weaken : forall k l n, incr_from k l n -> forall j, (j <= k)%nat -> incr_from j l n.
Proof. intros k l n H j Hj. inversion H; subst; constructor; auto; lia. Qed.

Lemma range_incr : forall fuel start stop step, (0 < step)%nat -> (start <= stop)%nat -> incr_from start (range fuel start stop step) stop.
Proof.
  induction fuel as [|fuel IH]; intros start stop step Hs H; simpl; [constructor; auto|].
  destruct (start <? stop)%nat eqn:E; [|constructor; auto]. apply Nat.ltb_lt in E. constructor; auto.
  destruct (Nat.le_gt_cases (start + step) stop) as [L|L].
  - eapply incr_weaken; [apply IH; auto|]. lia.
  - destruct fuel; simpl; [constructor; lia|]. destruct (start + step <? stop)%nat eqn:E'; [apply Nat.ltb_lt in E'; lia|]. constructor; lia.
Qed.

Lemma slices_spec : forall {A} starts (l : list A) s, incr_from s (s :: starts) (length l) ->
  concat (slices (s :: starts) l) = skipn s l /\ Forall (fun c => c <> []) (slices (s :: starts) l).
Proof.
  intros A starts. induction starts as [|e starts IH]; intros l s H; inversion H as [|? ? ? ? H1 H2 H3]; subst.
  - simpl. rewrite app_nil_r. split; auto. constructor; auto. intro E. apply (f_equal (@length _)) in E. rewrite skipn_length in E. simpl in E. lia.
  - change (slices (s :: e :: starts) l) with (slice s e l :: slices (e :: starts) l). inversion H3 as [|? ? ? ? H4 H5 H6]; subst.
    destruct (IH l e) as [E F]; [constructor; auto|]. split.
    + cbn [concat]. rewrite E. unfold slice. rewrite <- (firstn_skipn (e - s) (skipn s l)) at 2. rewrite skipn_skipn'.
      replace (e - s + s)%nat with e by lia. auto.
    + constructor; auto. intro E'. apply (f_equal (@length _)) in E'. unfold slice in E'. rewrite firstn_length, skipn_length in E'. simpl in E'. lia.
Qed.

Lemma slices_range : forall {A} fuel (l : list A) start step, (0 < step)%nat -> (start < length l)%nat -> (length l <= start + fuel * step)%nat ->
  Forall (fun c => (length c <= step)%nat) (slices (range fuel start (length l) step) l)
  /\ (step * length (range fuel start (length l) step) < length l - start + step)%nat
  /\ exists rest, range fuel start (length l) step = start :: rest.
Proof.
  intros A fuel. induction fuel as [|fuel IH]; intros l start step Hs H1 H2; [lia|]. cbn [range]. rewrite (proj2 (Nat.ltb_lt _ _) H1).
  destruct (Nat.lt_ge_cases (start + step) (length l)) as [L|L].
  - destruct (IH l (start + step)%nat step Hs L ltac:(lia)) as (F & C & rest & E). split; [|split; [|eexists; reflexivity]].
    + rewrite E in *. change (Forall (fun c => (length c <= step)%nat) (slice start (start + step) l :: slices (start + step :: rest)%nat l)).
      constructor; auto. unfold slice. rewrite firstn_length. lia.
    + cbn [length]. rewrite Nat.mul_succ_r. lia.
  - assert (E : range fuel (start + step) (length l) step = []).
    { destruct fuel; simpl; auto. destruct (start + step <? length l)%nat eqn:Q; auto. apply Nat.ltb_lt in Q. lia. }
    rewrite E. split; [|split; [simpl; lia|eexists; reflexivity]]. simpl. constructor; auto. rewrite skipn_length. lia.
Qed.

(** * Sharp starts *)
Lemma searchsorted_le : forall a i, (i < length a)%nat -> (searchsorted a (nth i a 0%Z) <= i)%nat.
Proof.
  intros a i H. assert (G : forall v, v = nth i a 0 -> (searchsorted a v <= i)%nat).
  { intros v E. revert i H E. induction a as [|x a IH]; intros i H E; simpl in *; [lia|]. destruct (x <? v) eqn:Q; [|lia].
    apply Z.ltb_lt in Q. destruct i as [|i]; [lia|]. apply le_n_S. apply IH; auto. lia. }
  auto.
Qed.
Lemma searchsorted_split : forall a v, StronglySorted Z.le a -> Forall (fun x => x < v) (firstn (searchsorted a v) a) /\ Forall (fun x => v <= x) (skipn (searchsorted a v) a).
Proof.
  intros a v H. induction H as [|x a H IH F]; simpl; [split; constructor|]. destruct (x <? v) eqn:E; simpl.
  - apply Z.ltb_lt in E. split; [constructor; auto; apply IH|apply IH].
  - apply Z.ltb_ge in E. split; constructor; auto. eapply Forall_impl; [|exact F]. simpl. lia.
Qed.

Lemma insert_unique_incr : forall x l k n, incr_from k l n -> (k <= x)%nat -> (x < n)%nat -> incr_from k (insert_unique x l) n.
Proof.
  intros x l. induction l as [|m l IH]; intros k n H Hk Hn; simpl.
  - constructor; auto. constructor. lia.
  - inversion H as [|? ? ? ? H1 H2 H3]; subst. destruct (x <? m)%nat eqn:E.
    + apply Nat.ltb_lt in E. constructor; auto. constructor; auto.
    + apply Nat.ltb_ge in E. destruct (x =? m)%nat eqn:E'; auto. apply Nat.eqb_neq in E'. constructor; auto. apply IH; auto. lia.
Qed.
Lemma insert_unique_In : forall x l y, In y (insert_unique x l) <-> y = x \/ In y l.
Proof.
  intros x l y. induction l as [|m l IH]; simpl; [intuition|]. destruct (x <? m)%nat; simpl; [intuition|].
  destruct (x =? m)%nat eqn:E; simpl; [apply Nat.eqb_eq in E; subst; intuition|]. rewrite IH. intuition.
Qed.
Lemma unique_spec : forall l n, Forall (fun x => (x < n)%nat) l -> incr_from 0 (unique l) n /\ forall y, In y (unique l) <-> In y l.
Proof.
  intros l n H. unfold unique. induction H as [|x l Hx H [IH1 IH2]]; simpl; [split; [constructor; lia|reflexivity]|]. split.
  - apply insert_unique_incr; auto. lia.
  - intro y. rewrite insert_unique_In, IH2. intuition.
Qed.
Lemma incr_zero : forall l n, incr_from 0 l n -> In 0%nat l -> exists rest, l = 0%nat :: rest.
Proof.
  intros l n H Hin. inversion H as [|? s l' ? H1 H2 H3]; subst; [contradiction|]. destruct Hin as [->|Hin]; [eauto|].
  exfalso. assert (G : forall k l n x, incr_from k l n -> In x l -> (k <= x)%nat).
  { clear. intros k l n x H. induction H; intros Hx; [contradiction|]. destruct Hx as [->|Hx]; auto. specialize (IHincr_from Hx). lia. }
  specialize (G _ _ _ _ H3 Hin). lia.
Qed.

(** Starts of 'iter_dataframe': first one is 0, strictly increasing, in range. *)
Definition good_starts (starts : list nat) (n : nat) : Prop := exists rest, starts = 0%nat :: rest /\ incr_from 0 starts n.

Lemma starts_of_good : forall n max starts, (0 < n)%nat -> starts_of n max = Ok starts -> 0 < max /\ good_starts starts n
  /\ starts = range n 0 n (Z.to_nat (row_group_size (Z.of_nat n) max)).
Proof.
  intros n max starts Hn H. unfold starts_of in H. destruct n as [|n]; [lia|]. set (m := S n) in *.
  destruct (max <=? 0) eqn:E; [discriminate|]. apply Z.leb_gt in E.
  destruct (size_bounds (Z.of_nat m) max ltac:(lia) E) as (B1 & B2 & B3).
  set (k := Z.to_nat (row_group_size (Z.of_nat m) max)) in *. assert (Q : starts = range m 0 m k) by congruence.
  split; auto. split; auto. subst starts. exists (range n (0 + k) m k). split; [|apply range_incr; lia].
  change (range m 0 m k) with (if (0 <? m)%nat then 0%nat :: range n (0 + k) m k else []). rewrite (proj2 (Nat.ltb_lt 0 m) Hn). auto.
Qed.

Lemma sharp_starts_good : forall values starts starts', good_starts starts (length values) -> sharp_starts values starts = Ok starts' ->
  good_starts starts' (length values) /\ forall s, In s starts' -> exists v, s = searchsorted values v.
Proof.
  intros values starts starts' (rest & -> & H) E. unfold sharp_starts in E. destruct values as [|x values]; [discriminate|].
  assert (E' : starts' = unique (map (fun idx => searchsorted (x :: values) (nth idx (x :: values) 0)) (0%nat :: rest))) by (injection E; auto). clear E.
  set (a := x :: values) in *.
  assert (F : Forall (fun i => (i < length a)%nat) (0%nat :: rest)).
  { apply Forall_forall. intros i Hi. clear -H Hi. induction H; [contradiction|]. destruct Hi as [->|Hi]; auto. }
  destruct (unique_spec (map (fun idx => searchsorted a (nth idx a 0)) (0%nat :: rest)) (length a)) as [U1 U2].
  { apply Forall_forall. intros y Hy. apply in_map_iff in Hy as (i & <- & Hi). rewrite Forall_forall in F. specialize (F i Hi).
    pose proof (searchsorted_le a i F). lia. }
  rewrite <- E' in U1, U2. split.
  - destruct (incr_zero starts' (length a) U1) as (rest' & ->); [|exists rest'; auto]. apply U2. simpl. left. unfold a. simpl. rewrite Z.ltb_irrefl. auto.
  - intros s Hs. apply U2 in Hs. apply in_map_iff in Hs as (i & <- & _). eauto.
Qed.

(** * Duplicates *)
Lemma same_on_iff : forall cols r s, same_on cols r s = true <-> same_key cols r s.
Proof.
  intros cols r s. unfold same_on, same_key. rewrite forallb_forall. split; intros H c Hc; specialize (H c Hc); apply Z.eqb_eq; auto.
Qed.
Lemma same_key_sym : forall cols r s, same_key cols r s -> same_key cols s r.
Proof. intros cols r s H c Hc. symmetry. auto. Qed.
Lemma same_key_trans : forall cols r s t, same_key cols r s -> same_key cols s t -> same_key cols r t.
Proof. intros cols r s t H1 H2 c Hc. rewrite H1, H2 by auto. auto. Qed.

Lemma exists_same : forall cols r l, existsb (same_on cols r) l = true <-> exists s, In s l /\ same_key cols r s.
Proof.
  intros cols r l. rewrite existsb_exists. split; intros (s & Hs & H); exists s; split; auto; apply same_on_iff; auto.
Qed.

Lemma drop_keep_last : forall cols l, keep_last cols l (drop_duplicates cols l).
Proof.
  intros cols l. induction l as [|r l IH]; simpl; [constructor|]. destruct (existsb (same_on cols r) l) eqn:E.
  - apply exists_same in E as (s & Hs & Hk). eapply KDrop; eauto.
  - constructor; auto. intros s Hs Hk. assert (existsb (same_on cols r) l = true) by (apply exists_same; eauto). congruence.
Qed.
Lemma keep_last_unique : forall cols l out, keep_last cols l out -> forall out', keep_last cols l out' -> out = out'.
Proof.
  intros cols l out H. induction H as [|r l out s Hs Hk H IH|r l out Hn H IH]; intros out' H'; inversion H'; subst; auto.
  - exfalso. eapply H2; eauto.
  - exfalso. eapply Hn; eauto.
  - f_equal. auto.
Qed.
Lemma keep_last_facts : forall cols l out, keep_last cols l out ->
  sublist out l /\ (forall r, In r l -> exists s, In s out /\ same_key cols r s) /\
  (forall r, In r out -> last_of_key cols r l) /\
  StronglySorted (fun r s => ~ same_key cols r s) out.
Proof.
  intros cols l out H. induction H as [|r l out s Hs Hk H (S1 & S2 & S3 & S4)|r l out Hn H (S1 & S2 & S3 & S4)].
  - split; [constructor|]. split; [intros r []|]. split; [intros r []|constructor].
  - split; [constructor; auto|]. split; [|split; auto].
    + intros t [->|Ht]; auto. destruct (S2 s Hs) as (u & Hu & Ku). exists u. split; auto. eapply same_key_trans; eauto.
    + intros t Ht. destruct (S3 t Ht) as (b & a & -> & Ha). exists (r :: b), a. auto.
  - assert (Sub : forall x, In x out -> In x l).
    { intros x Hx. destruct (S3 x Hx) as (b & a & -> & _). apply in_or_app. simpl. auto. }
    split; [apply SLKeep; auto|]. split; [|split].
    + intros t [->|Ht]; [exists t; split; [simpl; auto|intros c Hc; auto]|]. destruct (S2 t Ht) as (u & Hu & Ku). exists u. simpl. auto.
    + intros t [->|Ht]; [exists [], l; auto|]. destruct (S3 t Ht) as (b & a & -> & Ha). exists (r :: b), a. auto.
    + constructor; auto. apply Forall_forall. intros x Hx. apply Hn. auto.
Qed.

(** Duplicates dropped in each chunk are those dropped in the whole. *)
Lemma keep_last_app : forall cols l m, (forall r s, In r l -> In s m -> ~ same_key cols r s) -> forall out out', keep_last cols l out -> keep_last cols m out' -> keep_last cols (l ++ m) (out ++ out').
Proof.
  intros cols l m Hd out out' H H'. induction H as [|r l out s Hs Hk H IH|r l out Hn H IH]; simpl; auto.
  - eapply KDrop; [apply in_or_app; left; exact Hs|auto|]. apply IH. intros; apply Hd; simpl; auto.
  - constructor; [|apply IH; intros; apply Hd; simpl; auto]. intros s Hs. apply in_app_or in Hs as [Hs|Hs]; auto. apply Hd; simpl; auto.
Qed.
Lemma keep_last_chunks : forall c cols chunks, In c cols -> separated c chunks -> keep_last cols (concat chunks) (concat (map (drop_duplicates cols) chunks)).
Proof.
  intros c cols chunks Hc H. induction H as [|a chunks H IH F]; simpl; [constructor|]. apply keep_last_app; auto; [|apply drop_keep_last].
  intros r s Hr Hs K. apply in_concat in Hs as (b & Hb & Hs). rewrite Forall_forall in F. specialize (F b Hb r s Hr Hs). rewrite (K c Hc) in F. lia.
Qed.

(** * Chunks *)
Lemma slices_separated : forall c l, sorted_on c l -> forall starts s, incr_from s (s :: starts) (length l) ->
  (forall x, In x starts -> exists v, x = searchsorted (map (col c) l) v) -> separated c (slices (s :: starts) l).
Proof.
  intros c l Hs starts. induction starts as [|e starts IH]; intros s H Hv; inversion H as [|? ? ? ? H1 H2 H3]; subst.
  - simpl. constructor; constructor.
  - change (slices (s :: e :: starts) l) with (slice s e l :: slices (e :: starts) l).
    inversion H3 as [|? ? ? ? H4 H5 H6]; subst. constructor; [apply IH; [constructor; auto|intros; apply Hv; simpl; auto]|].
    destruct (Hv e) as (v & Ev); [simpl; auto|].
    assert (SS : StronglySorted Z.le (map (col c) l)).
    { clear -Hs. induction Hs as [|r l Hs IH F]; simpl; constructor; auto. apply Forall_map. auto. }
    destruct (searchsorted_split (map (col c) l) v SS) as [A B]. rewrite <- Ev in A, B.
    rewrite firstn_map in A. rewrite skipn_map in B. rewrite Forall_map in A, B. rewrite Forall_forall in A, B.
    apply Forall_forall. intros b Hb r t Hr Ht.
    assert (In r (firstn e l)).
    { unfold slice in Hr. rewrite firstn_skipn_comm in Hr. replace (s + (e - s))%nat with e in Hr by lia.
      rewrite <- (firstn_skipn s (firstn e l)). apply in_or_app. auto. }
    assert (In t (skipn e l)).
    { destruct (slices_spec starts l e) as [<- _]; [constructor; auto|]. apply in_concat. eauto. }
    specialize (A r H0). specialize (B t H7). lia.
Qed.

Lemma with_column_dup : forall n c cols, dup_columns n (with_column c cols) = duplicate_columns n c cols.
Proof.
  intros n c cols. unfold dup_columns, with_column, duplicate_columns. destruct cols as [|x cols]; auto.
  destruct (existsb (Nat.eqb c) (x :: cols)); auto.
Qed.
Lemma duplicate_columns_In : forall n c cols, (c < n)%nat -> In c (duplicate_columns n c cols).
Proof.
  intros n c cols H. unfold duplicate_columns. destruct cols as [|x cols]; [apply in_seq; lia|].
  destruct (existsb (Nat.eqb c) (x :: cols)) eqn:E; [|apply in_or_app; simpl; auto].
  apply existsb_exists in E as (y & Hy & E). apply Nat.eqb_eq in E. subst. auto.
Qed.

(** What is yielded, before duplicates are dropped. *)
Lemma iter_inv : forall v data max sharp dup dl chunks, iter_dataframe v data max sharp dup dl = Ok chunks ->
  exists raw, concat raw = rows data /\ (rows data <> [] -> Forall (fun c => c <> []) raw) /\ (rows data = [] -> raw = [[]]) /\
    (forall c, sharp = Some c -> sorted_on c (rows data) -> separated c raw) /\
    match dup, sharp with
    | Some cols, Some c => chunks = map (drop_duplicates (duplicate_columns (ncols data) c cols)) raw
    | Some _, None => False
    | None, _ => chunks = raw
    end /\
    (sharp = None -> rows data <> [] -> let m := match max with Some m => m | None => MAX_ROW_GROUP_SIZE end in
      0 < m /\ raw = slices (range (length (rows data)) 0 (length (rows data)) (Z.to_nat (row_group_size (Z.of_nat (length (rows data))) m))) (rows data)).
Proof.
  intros v data max sharp dup dl chunks H. unfold iter_dataframe in H. set (m := match max with Some m => m | None => MAX_ROW_GROUP_SIZE end) in *.
  match type of H with (if ?b then _ else _) = _ => destruct b; [discriminate|] end.
  assert (Hds : (dup <> None -> sharp <> None) /\
    (let* starts := starts_of (length (rows data)) m in
        let* starts := match sharp with
                       | Some c => sharp_starts (map (col c) (rows data)) starts
                       | None => Ok starts
                       end in
        let chunks := slices starts (rows data) in
        match dup, sharp with
        | Some cols, Some c =>
            if existsb (fun c' => (ncols data <=? c')%nat) (with_column c cols) then Err KeyError
            else Ok (map (drop_duplicates (dup_columns (ncols data) (with_column c cols))) chunks)
        | _, _ => Ok chunks
        end) = Ok chunks).
  { destruct dup, sharp; try discriminate; split; auto; congruence. }
  clear H. destruct Hds as [Hds H]. destruct (starts_of (length (rows data)) m) as [starts|] eqn:Es; cbn [bind] in H; [|discriminate].
  assert (G : exists starts', match sharp with Some c => sharp_starts (map (col c) (rows data)) starts | None => Ok starts end = Ok starts' /\
    match dup, sharp with
        | Some cols, Some c =>
            if existsb (fun c' => (ncols data <=? c')%nat) (with_column c cols) then Err KeyError
            else Ok (map (drop_duplicates (dup_columns (ncols data) (with_column c cols))) (slices starts' (rows data)))
        | _, _ => Ok (slices starts' (rows data))
        end = Ok chunks).
  { destruct (match sharp with Some c => sharp_starts (map (col c) (rows data)) starts | None => Ok starts end) as [st|]; cbn [bind] in H; [|discriminate]. exists st. split; auto. }
  destruct G as (starts' & E1 & E2). exists (slices starts' (rows data)).
  assert (Hlast : match dup, sharp with
    | Some cols, Some c => chunks = map (drop_duplicates (duplicate_columns (ncols data) c cols)) (slices starts' (rows data))
    | Some _, None => False
    | None, _ => chunks = slices starts' (rows data)
    end).
  { destruct dup as [cols|]; [destruct sharp as [c|]; [|apply Hds; congruence]|congruence].
    destruct (existsb (fun c' => (ncols data <=? c')%nat) (with_column c cols)); [discriminate|]. rewrite with_column_dup in E2. congruence. }
  destruct (rows data) as [|r0 l0] eqn:Er.
  - simpl in Es. injection Es as <-. assert (starts' = [0%nat]) by (destruct sharp; [discriminate|congruence]). subst starts'.
    split; [auto|]. split; [congruence|]. split; [auto|]. split; [|split; [auto|congruence]]. intros c _ _. simpl. constructor; constructor.
  - rewrite <- Er in *. assert (Hne : rows data <> []) by congruence. assert (Hn : (0 < length (rows data))%nat) by (rewrite Er; simpl; lia).
    destruct (starts_of_good _ _ _ Hn Es) as (Hm & Hg & Hr).
    assert (Hg' : good_starts starts' (length (rows data)) /\ (forall c, sharp = Some c -> forall s, In s starts' -> exists v, s = searchsorted (map (col c) (rows data)) v)).
    { destruct sharp as [c|]; [|split; [congruence|intros; discriminate]]. rewrite <- (map_length (col c)) in Hg.
      destruct (sharp_starts_good _ _ _ Hg E1) as [A B]. rewrite map_length in A. split; auto. intros c' Q. injection Q as <-. auto. }
    destruct Hg' as [(rest & -> & Hi) Hv]. destruct (slices_spec rest (rows data) 0 Hi) as [C D].
    split; [auto|]. split; [auto|]. split; [congruence|]. split; [|split; [auto|]].
    + intros c Q Hs. apply slices_separated; auto. intros x Hx. apply (Hv c Q). simpl. auto.
    + intros -> _. split; auto. congruence.
Qed.
