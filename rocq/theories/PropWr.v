(** Properties of the writer: splitting in row groups (C13-C16), rows after a write (C17-C19), order and
    histories (C20, C21), coalescing (C22), row groups kept (C23), refused parameters (C27).
    [WrSpec.v] holds the specification: order, keys, duplicates, row groups meeting data, histories. *)
Require Import List Arith ZArith Bool Lia Sorting.Sorted Sorting.Permutation.
Require Import Verif.Common Verif.WrModel Verif.WrSpec Verif.WrIterProofs Verif.WrProofs Verif.WrHistProofs.
Import ListNotations.
Local Open Scope Z_scope.

(** Rows of a key and a value; a dataset from the rows of its row groups; some parameters. *)
Definition kv (l : list (Z * Z)) : list row := map (fun '(k, x) => [k; x]) l.
Definition groups (l : list (list (Z * Z))) : dataset := number_parts 0 (map kv l).
Definition keyed (max : Z) (nirgs : option Z) : params := mkParams (Some max) (OrderedOn 0) (Some [0%nat]) nirgs.
Definition data2 (l : list (Z * Z)) : frame := mkFrame 2 (kv l).

Ltac sorts := unfold sorted_on, strictly_sorted_on; simpl; repeat (apply SSorted_cons || apply SSorted_nil || apply Forall_cons || apply Forall_nil); unfold col; simpl; try lia.

(** * C13 *)
Theorem C13_lossless : forall is_vaex data max sharp_on is_list chunks,
  iter_dataframe is_vaex data max sharp_on None is_list = Ok chunks ->
  concat chunks = rows data /\ (rows data <> [] -> Forall (fun c => c <> []) chunks).
Proof. intros v data max sharp dl chunks H. apply iter_inv in H as (raw & C & F & _ & _ & -> & _). auto. Qed.
Print Assumptions C13_lossless.
Example ex_C13 : iter_dataframe true (data2 [(1,0);(1,1);(1,2);(2,3);(3,4)]) (Some 2) (Some 0%nat) None true
  = Ok [kv [(1,0);(1,1);(1,2);(2,3)]; kv [(3,4)]].
Proof. reflexivity. Qed.

(** * C14 *)
Theorem C14_bound : forall is_vaex data max chunks, iter_dataframe is_vaex data max None None false = Ok chunks -> rows data <> [] ->
  let limit := match max with Some m => m | None => 6345000 end in
  Forall (fun c => Z.of_nat (length c) <= limit) chunks /\
  forall pieces, concat pieces = rows data -> Forall (fun c => Z.of_nat (length c) <= limit) pieces -> (length chunks <= length pieces)%nat.
Proof.
  intros v data max chunks H Hne limit. destruct (iter_sizes _ _ _ _ H Hne) as (Hm & F & L). split; [exact F|].
  intros pieces E Fp. pose proof (split_count pieces (size_limit max) Hm Fp ltac:(rewrite E; auto)) as Q. rewrite E in Q. lia.
Qed.
Print Assumptions C14_bound.
Theorem C14_accepted : forall is_vaex data max, (forall m, max = Some m -> 0 < m) -> exists chunks, iter_dataframe is_vaex data max None None false = Ok chunks.
Proof. intros v data max H. apply iter_ok_plain. destruct max; simpl; auto. Qed.
Print Assumptions C14_accepted.
Example ex_C14 : iter_dataframe false (data2 [(1,0);(1,1);(1,2);(2,3);(3,4);(3,5);(3,6)]) (Some 3) None None false
  = Ok [kv [(1,0);(1,1);(1,2)]; kv [(2,3);(3,4);(3,5)]; kv [(3,6)]].
Proof. reflexivity. Qed.
(** With [sharp_on], a row group can be larger. *)
Theorem C14_sharp_refuted : exists data chunks c, iter_dataframe true data (Some 2) (Some 0%nat) None true = Ok chunks /\ In c chunks /\ 2 < Z.of_nat (length c).
Proof. exists (data2 [(1,0);(1,1);(1,2);(2,3);(3,4)]), [kv [(1,0);(1,1);(1,2);(2,3)]; kv [(3,4)]], (kv [(1,0);(1,1);(1,2);(2,3)]). repeat split; simpl; auto. Qed.
Print Assumptions C14_sharp_refuted.

(** * C15 *)
Theorem C15_sharp : forall is_vaex data max c is_list chunks, iter_dataframe is_vaex data max (Some c) None is_list = Ok chunks ->
  sorted_on c (rows data) -> separated c chunks.
Proof. intros v data max c dl chunks H Hs. apply iter_inv in H as (raw & _ & _ & _ & S & -> & _). auto. Qed.
Print Assumptions C15_sharp.
Theorem C15_sharp_dedup : forall is_vaex data max c cols is_list chunks, iter_dataframe is_vaex data max (Some c) (Some cols) is_list = Ok chunks ->
  sorted_on c (rows data) -> separated c chunks.
Proof. intros v data max c cols dl chunks H Hs. apply iter_inv in H as (raw & _ & _ & _ & S & -> & _). apply drop_chunks_separated. auto. Qed.
Print Assumptions C15_sharp_dedup.
Example ex_C15 : sorted_on 0 (kv [(1,0);(1,1);(1,2);(2,3);(3,4)]).
Proof. sorts. Qed.

(** * C16 *)
Theorem C16_dedup : forall is_vaex data max c cols is_list chunks, iter_dataframe is_vaex data max (Some c) (Some cols) is_list = Ok chunks ->
  sorted_on c (rows data) -> (c < ncols data)%nat ->
  let key := duplicate_columns (ncols data) c cols in
  let out := concat chunks in
  sublist out (rows data) /\
  (forall r, In r (rows data) -> exists s, In s out /\ same_key key r s) /\
  (forall r, In r out -> last_of_key key r (rows data) /\ only_row key r out) /\
  keep_last key (rows data) out.
Proof.
  intros v data max c cols dl chunks H Hs Hc key out. apply iter_inv in H as (raw & C & _ & _ & S & E & _).
  assert (K : keep_last key (rows data) out).
  { unfold out. rewrite E, <- C. apply keep_last_chunks with c; [apply duplicate_columns_In; auto|]. apply S; auto. }
  destruct (keep_last_facts _ _ _ K) as (A & B & D & F). split; [exact A|]. split; [exact B|]. split; [|exact K].
  intros r Hr. split; [auto|]. clear -F Hr. induction F as [|x l F IH Fx]; [contradiction|]. rewrite Forall_forall in Fx. destruct Hr as [->|Hr].
  - exists [], l. split; auto.
  - destruct (IH Hr) as (b & a & -> & U). exists (x :: b), a. split; auto. intros s [->|Hs]; auto. intro Q. apply (Fx r); [apply in_or_app; simpl; auto|]. apply same_key_sym. auto.
Qed.
Print Assumptions C16_dedup.
Example ex_C16 : iter_dataframe true (data2 [(1,0);(1,1);(1,2);(2,3);(3,4)]) (Some 2) (Some 0%nat) (Some [0%nat]) true = Ok [kv [(1,2);(2,3)]; kv [(3,4)]].
Proof. reflexivity. Qed.
Example ex_C16_all_columns : iter_dataframe true (data2 [(1,0);(1,0);(1,2);(2,3);(3,4)]) (Some 2) (Some 0%nat) (Some []) true = Ok [kv [(1,0);(1,2);(2,3)]; kv [(3,4)]].
Proof. reflexivity. Qed.

(** * C17 *)
Theorem C17_permutation : forall p is_vaex ds data ds', write p is_vaex ds data = Ok ds' -> duplicates_on p = None ->
  Permutation (all_rows ds') (all_rows ds ++ rows data).
Proof. intros p v ds data ds' H E. destruct (write_rows _ _ _ _ _ H) as (rest & P & R & _). rewrite (R E), app_nil_r in P. auto. Qed.
Print Assumptions C17_permutation.
Example ex_C17 : write (mkParams (Some 2) (OrderedOn 0) None None) false (groups [[(1,0);(2,0)]; [(4,0);(6,0)]; [(8,0)]]) (data2 [(2,1);(5,1)])
  = Ok (groups [[(1,0)]; [(2,0);(2,1);(4,0)]; [(5,1);(6,0)]; [(8,0)]]).
Proof. reflexivity. Qed.

(** * C18 *)
Theorem C18_keys : forall p is_vaex ds data ds' c cols, write p is_vaex ds data = Ok ds' -> ordered_on p = OrderedOn c -> duplicates_on p = Some cols ->
  (exists dropped, Permutation (all_rows ds' ++ dropped) (all_rows ds ++ rows data)) /\
  forall r, In r (all_rows ds ++ rows data) -> exists s, In s (all_rows ds') /\ same_key (duplicate_columns (ncols data) c cols) r s.
Proof. intros p v ds data ds' c cols H Eo Ed. destruct (write_rows _ _ _ _ _ H) as (rest & P & _ & K). split; eauto. Qed.
Print Assumptions C18_keys.
Example ex_C18 : write (keyed 2 None) false (groups [[(1,0);(2,0)]; [(4,0);(6,0)]; [(8,0)]]) (data2 [(2,1);(5,1)])
  = Ok (groups [[(1,0)]; [(2,1);(4,0)]; [(5,1);(6,0)]; [(8,0)]]).
Proof. reflexivity. Qed.

(** * C19 *)
Theorem C19_newest : forall p is_vaex ds data ds' c cols, write p is_vaex ds data = Ok ds' ->
  ordered_on p = OrderedOn c -> duplicates_on p = Some cols -> sorted_on c (rows data) ->
  (exists g, In g ds /\ meets c (rows data) g) -> (max_nirgs p = None \/ ~ meets_first c (rows data) ds) ->
  let key := duplicate_columns (ncols data) c cols in
  forall d, In d (rows data) -> exists r, same_key key d r /\ last_of_key key r (rows data) /\ only_row key r (all_rows ds').
Proof. intros p v ds data ds' c cols H Eo Ed Hs (g & Hg & Mg) Hm. eapply write_newest; eauto. Qed.
Print Assumptions C19_newest.
Example ex_C19 : write (keyed 4 (Some 1)) false (groups [[(1,0);(2,0);(3,0);(4,0)]; [(5,0);(6,0)]]) (data2 [(6,1);(6,2);(9,1)])
    = Ok (groups [[(1,0);(2,0);(3,0);(4,0)]; [(5,0)]; [(6,2);(9,1)]])
  /\ sorted_on 0 (kv [(6,1);(6,2);(9,1)])
  /\ (exists g, In g (groups [[(1,0);(2,0);(3,0);(4,0)]; [(5,0);(6,0)]]) /\ meets 0 (kv [(6,1);(6,2);(9,1)]) g)
  /\ ~ meets_first 0 (kv [(6,1);(6,2);(9,1)]) (groups [[(1,0);(2,0);(3,0);(4,0)]; [(5,0);(6,0)]]).
Proof.
  split; [reflexivity|]. split; [sorts|]. split.
  - exists (mkRg 1 (kv [(5,0);(6,0)])). split; [simpl; auto|]. exists [5;0], [6;0], [9;1], [6;1]. unfold col; simpl; repeat split; auto; lia.
  - intros (g & l & E & r & s & d & d' & _ & Hs & _ & Hd & _ & L). injection E as <- _. simpl in Hs, Hd. repeat (destruct Hs as [<-|Hs]; [repeat (destruct Hd as [<-|Hd]; [unfold col in L; simpl in L; lia|]); contradiction|]). contradiction.
Qed.
(** When incomplete row groups are coalesced and data meets the first row group, old rows are left. *)
Theorem C19_coalescing_refuted : exists p ds data ds', write p false ds data = Ok ds' /\ ordered_on p = OrderedOn 0 /\ duplicates_on p = Some [0%nat] /\
  strictly_sorted_on 0 (rows data) /\ (exists g, In g ds /\ meets 0 (rows data) g) /\ In [2; 7] (all_rows ds') /\ In [2; 0] (all_rows ds').
Proof.
  exists (keyed 4 (Some 1)), (groups [[(1,0);(2,0);(3,0);(4,0)]; [(5,0);(6,0)]]), (data2 [(2,7)]), (groups [[(1,0);(2,0);(3,0);(4,0)]; [(2,7);(5,0);(6,0)]]).
  split; [reflexivity|]. split; [reflexivity|]. split; [reflexivity|]. split; [sorts|]. split.
  - eexists. split; [left; reflexivity|]. exists [1;0], [4;0], [2;7], [2;7]. unfold col; simpl; repeat split; auto; lia.
  - simpl. intuition.
Qed.
Print Assumptions C19_coalescing_refuted.
(** Duplicates are dropped neither in data making a new dataset nor in data written after the end. *)
Theorem C19_creation_refuted : exists ds', write (keyed 4 None) false [] (data2 [(1,0);(1,1)]) = Ok ds' /\ In [1; 0] (all_rows ds') /\ In [1; 1] (all_rows ds').
Proof. eexists. split; [reflexivity|]. simpl. auto. Qed.
Print Assumptions C19_creation_refuted.

(** * C20 *)
Theorem C20_ordered : forall p is_vaex ds data ds' c, write p is_vaex ds data = Ok ds' -> ordered_on p = OrderedOn c ->
  filled ds -> sorted_on c (all_rows ds) -> sorted_on c (rows data) ->
  placed c (rows data) ds -> splittable c (rows data) ds -> (max_nirgs p = None \/ ~ meets_first c (rows data) ds) ->
  sorted_on c (all_rows ds') /\ filled ds'.
Proof. intros p v ds data ds' c H Eo Hf Hds Hs Hp Hsp Hm. split; [eapply write_sorted; eauto|eapply write_filled; eauto]. Qed.
Print Assumptions C20_ordered.
(** The middle of a dataset is merged with data (see ex_C18), hypotheses being met. *)
Example ex_C20 : let ds := groups [[(1,0);(2,0)]; [(4,0);(6,0)]; [(8,0)]] in let data := kv [(2,1);(5,1)] in
  filled ds /\ sorted_on 0 (all_rows ds) /\ sorted_on 0 data /\ placed 0 data ds /\ splittable 0 data ds.
Proof.
  cbv zeta. split; [repeat constructor; discriminate|]. split; [sorts|]. split; [sorts|]. split.
  - right. left. exists (mkRg 0 (kv [(1,0);(2,0)])). split; [simpl; auto|]. exists [1;0], [2;0], [2;1], [2;1]. unfold col; simpl; repeat split; auto; lia.
  - left. apply strict_separated. sorts.
Qed.
(** Data before all row groups, or between two of them, is written at the end. *)
Theorem C20_gap_refuted : exists ds data ds', write (keyed 4 None) false ds data = Ok ds' /\ strictly_sorted_on 0 (all_rows ds) /\ strictly_sorted_on 0 (rows data) /\ ~ sorted_on 0 (all_rows ds').
Proof.
  exists (groups [[(1,0);(2,0)]; [(8,0);(9,0)]]), (data2 [(5,0)]), (groups [[(1,0);(2,0)]; [(8,0);(9,0)]; [(5,0)]]).
  split; [reflexivity|]. split; [sorts|]. split; [sorts|]. intro H.
  inversion H as [|? ? H1 _]; subst. inversion H1 as [|? ? H2 _]; subst. inversion H2 as [|? ? _ F]; subst. inversion F as [|? ? _ F2]; subst. inversion F2 as [|? ? L _]; subst. unfold col in L; simpl in L. lia.
Qed.
Print Assumptions C20_gap_refuted.
Theorem C20_coalescing_refuted : exists ds data ds', write (keyed 4 (Some 1)) false ds data = Ok ds' /\ strictly_sorted_on 0 (all_rows ds) /\ strictly_sorted_on 0 (rows data) /\
  (exists g, In g ds /\ meets 0 (rows data) g) /\ ~ sorted_on 0 (all_rows ds').
Proof.
  exists (groups [[(1,0);(2,0);(3,0);(4,0)]; [(5,0);(6,0)]]), (data2 [(2,7)]), (groups [[(1,0);(2,0);(3,0);(4,0)]; [(2,7);(5,0);(6,0)]]).
  split; [reflexivity|]. split; [sorts|]. split; [sorts|]. split.
  - eexists. split; [left; reflexivity|]. exists [1;0], [4;0], [2;7], [2;7]. unfold col; simpl; repeat split; auto; lia.
  - intro H. inversion H as [|? ? H1 _]; subst. inversion H1 as [|? ? H2 _]; subst. inversion H2 as [|? ? _ F]; subst. inversion F as [|? ? _ F2]; subst. inversion F2 as [|? ? L _]; subst. unfold col in L; simpl in L. lia.
Qed.
Print Assumptions C20_coalescing_refuted.
(** A value being in two row groups, data merged before them. *)
Theorem C20_straddling_refuted : exists ds data ds', write (mkParams (Some 10) (OrderedOn 0) None None) false ds data = Ok ds' /\ sorted_on 0 (all_rows ds) /\ sorted_on 0 (rows data) /\
  (exists g, In g ds /\ meets 0 (rows data) g) /\ ~ sorted_on 0 (all_rows ds').
Proof.
  exists (groups [[(1,0);(5,0)]; [(6,0);(10,0)]; [(10,1);(10,2)]]), (data2 [(5,7);(6,7)]), (groups [[(10,1);(10,2)]; [(1,0);(5,0);(5,7);(6,0);(6,7);(10,0)]]).
  split; [reflexivity|]. split; [sorts|]. split; [sorts|]. split.
  - eexists. split; [left; reflexivity|]. exists [1;0], [5;0], [5;7], [5;7]. unfold col; simpl; repeat split; auto; lia.
  - intro H. inversion H as [|? ? H1 F]; subst. inversion F as [|? ? _ F2]; subst. inversion F2 as [|? ? L _]; subst. unfold col in L; simpl in L. lia.
Qed.
Print Assumptions C20_straddling_refuted.

(** * C21 *)
Theorem C21_map : forall c h ds, keyed_history c h ds -> strictly_sorted_on c (all_rows ds) /\ forall r, In r (all_rows ds) <-> latest c h r.
Proof. intros c h ds H. apply history_map in H as (_ & A & B). auto. Qed.
Print Assumptions C21_map.
(** There is one row at most for each value. *)
Theorem C21_function : forall c h ds r s, keyed_history c h ds -> In r (all_rows ds) -> In s (all_rows ds) -> col c r = col c s -> r = s.
Proof. intros c h ds r s H Hr Hs E. apply history_map in H as (_ & A & _). eapply strict_inj; eauto. Qed.
Print Assumptions C21_function.
(** Such writes are accepted, and the history goes on. *)
Theorem C21_progress : forall c h ds is_vaex data max, keyed_history c h ds -> 0 < max -> (c < ncols data)%nat -> rows data <> [] ->
  strictly_sorted_on c (rows data) -> placed c (rows data) ds ->
  exists ds', write (mkParams (Some max) (OrderedOn c) (Some [c]) None) is_vaex ds data = Ok ds' /\ keyed_history c (rows data :: h) ds'.
Proof.
  intros c h ds v data max H Hm Hc Hne Hs Hp.
  destruct (write_accepted (mkParams (Some max) (OrderedOn c) (Some [c]) None) v ds data) as (ds' & E); simpl; eauto.
  - intros _. split; [right; exists c, [c]; auto|]. split; auto.
  - exists ds'. split; auto. apply (HWrite c h ds (mkParams (Some max) (OrderedOn c) (Some [c]) None) v data ds'); auto.
Qed.
Print Assumptions C21_progress.
Example ex_C21 : exists ds, keyed_history 0 [kv [(2,2);(8,2)]; kv [(6,1);(7,1)]; kv [(1,0);(2,0);(3,0)]] ds /\ all_rows ds = kv [(1,0);(2,2);(3,0);(6,1);(7,1);(8,2)].
Proof.
  destruct (C21_progress 0 [] [] false (data2 [(1,0);(2,0);(3,0)]) 2) as (d1 & E1 & H1); [constructor|lia|simpl; lia|discriminate|sorts|left; auto|].
  vm_compute in E1. apply Ok_inj in E1. subst d1.
  destruct (C21_progress 0 _ _ false (data2 [(6,1);(7,1)]) 2 H1) as (d2 & E2 & H2); [lia|simpl; lia|discriminate|sorts| |].
  { right. right. intros r d Hr Hd. simpl in Hr, Hd. repeat (destruct Hr as [<-|Hr]; [repeat (destruct Hd as [<-|Hd]; [unfold col; simpl; lia|]); contradiction|]). contradiction. }
  vm_compute in E2. apply Ok_inj in E2. subst d2.
  destruct (C21_progress 0 _ _ false (data2 [(2,2);(8,2)]) 2 H2) as (d3 & E3 & H3); [lia|simpl; lia|discriminate|sorts| |].
  { right. left. eexists. split; [left; reflexivity|]. exists [1;0], [2;0], [2;2], [2;2]. unfold col; simpl; repeat split; auto; lia. }
  vm_compute in E3. apply Ok_inj in E3. subst d3. eexists. split; [exact H3|]. reflexivity.
Qed.

(** * C22 *)
(** Not triggered: one row group more, there are not more than [max_nirgs] incomplete row groups at the end. *)
Theorem C22_bound : forall p is_vaex ds data ds' m k n, write p is_vaex ds data = Ok ds' -> no_meeting p (rows data) ds -> ds <> [] -> rows data <> [] ->
  max_row_group_size p = Some m -> max_nirgs p = Some k -> trailing_incomplete m ds n ->
  Z.of_nat n < k -> Z.of_nat (length (rows data)) + Z.of_nat (length (all_rows (skipn (length ds - n) ds))) < m ->
  (exists g, ds' = ds ++ [g] /\ content g = rows data) /\ exists n', trailing_incomplete m ds' n' /\ Z.of_nat n' <= k.
Proof.
  intros p v ds data ds' m k n H Hn Hne Hd Em Ek Ht Hk Htot. destruct (write_not_coalesced _ _ _ _ _ _ _ _ H Hn Hne Hd Em Ek Ht Hk Htot) as (g & -> & Eg).
  split; [eauto|]. destruct (trailing_snoc m ds n g Ht) as (n' & T & L). exists n'. split; auto. lia.
Qed.
Print Assumptions C22_bound.
(** Triggered, data being written at the end: only incomplete row groups at the end are written again, in as
    few row groups as possible. *)
Theorem C22_rewritten : forall p is_vaex ds data ds' m k n, write p is_vaex ds data = Ok ds' -> ordered_on p = Unordered -> ds <> [] -> rows data <> [] -> 0 < m ->
  max_row_group_size p = Some m -> max_nirgs p = Some k -> trailing_incomplete m ds n ->
  (k <= Z.of_nat n \/ m <= Z.of_nat (length (rows data)) + Z.of_nat (length (all_rows (skipn (length ds - n) ds)))) ->
  exists news, map content ds' = map content (firstn (length ds - n) ds) ++ news /\
    concat news = all_rows (skipn (length ds - n) ds) ++ rows data /\
    Forall (fun l => Z.of_nat (length l) <= m) news /\
    forall pieces, concat pieces = concat news -> Forall (fun l => Z.of_nat (length l) <= m) pieces -> (length news <= length pieces)%nat.
Proof.
  intros p v ds data ds' m k n H Eo Hne Hd Hm Em Ek Ht Htr. destruct (write_coalesced _ _ _ _ _ _ _ _ H Eo Hne Em Ek Ht Htr) as (news & E1 & E2 & K).
  assert (Hn : concat news <> []) by (rewrite E2; intro Q; apply app_eq_nil in Q as [_ Q]; auto). destruct (K Hn) as [F L].
  exists news. split; [auto|]. split; [auto|]. split; [auto|]. intros pieces E Fp. pose proof (split_count pieces m Hm Fp ltac:(rewrite E; auto)) as Q. rewrite E in Q. lia.
Qed.
Print Assumptions C22_rewritten.
(** Rows fitting in a single row group, there is a single incomplete row group at most. *)
Theorem C22_single : forall p is_vaex ds data ds' m k n, write p is_vaex ds data = Ok ds' -> ordered_on p = Unordered -> ds <> [] -> rows data <> [] -> 0 < m ->
  max_row_group_size p = Some m -> max_nirgs p = Some k -> trailing_incomplete m ds n ->
  k <= Z.of_nat n -> Z.of_nat (length (rows data)) + Z.of_nat (length (all_rows (skipn (length ds - n) ds))) <= m ->
  exists n', trailing_incomplete m ds' n' /\ (n' <= 1)%nat.
Proof.
  intros p v ds data ds' m k n H Eo Hne Hd Hm Em Ek Ht Hk Htot. destruct (C22_rewritten _ _ _ _ _ _ _ _ H Eo Hne Hd Hm Em Ek Ht (or_introl Hk)) as (news & E1 & E2 & F & L).
  assert (Hc : concat news <> []) by (rewrite E2; intro Q; apply app_eq_nil in Q as [_ Q]; auto).
  assert (L1 : (length news <= 1)%nat).
  { apply (L [concat news]); [simpl; apply app_nil_r|]. constructor; auto. rewrite E2, app_length. lia. }
  destruct news as [|a [|b news]]; [simpl in Hc; congruence| |simpl in L1; lia].
  pose proof (trailing_spec m ds) as T. cbv zeta in T. destruct T as (T1 & _ & T3). rewrite (trailing_unique m ds _ n T1 Ht) in T3.
  assert (T0 : trailing_incomplete m (firstn (length ds - n) ds) 0).
  { destruct Ht as (x & y & -> & <- & Fy & K). exists x, []. rewrite app_length. replace (length x + length y - length y)%nat with (length x) by lia.
    rewrite firstn_app, Nat.sub_diag, firstn_all. simpl. split; auto. }
  clear H. destruct ds' as [|g l _] using rev_ind.
  { simpl in E1. destruct (map content (firstn (length ds - n) ds)); discriminate. }
  rewrite map_app in E1. apply app_inj_tail in E1 as [E1 Eg].
  assert (E0 : trailing_incomplete m (l) 0).
  { destruct T0 as (x & y & Ex & Ly & _ & K). destruct y; [|discriminate]. rewrite app_nil_r in Ex. subst x. exists (l), []. split; [rewrite app_nil_r; auto|]. split; auto. split; [constructor|].
    intros ds1 g' Eq. rewrite Eq, map_app in E1. destruct (firstn (length ds - n) ds) as [|w z _] using rev_ind; [simpl in E1; destruct (map content ds1); discriminate|].
    rewrite map_app in E1. apply app_inj_tail in E1 as [_ E1]. specialize (K z w eq_refl). unfold is_incomplete in *. simpl in E1. rewrite E1. auto. }
  destruct (trailing_snoc m l 0 g E0) as (n' & T' & Ln'). exists n'. split; auto.
Qed.
Print Assumptions C22_single.
Definition ints (l : list Z) : list (Z * Z) := map (fun x => (x, 0)) l.
Example ex_C22_bound : let ds := groups [ints [1;2;3;4;5;6;7;8;9;10]; ints [11]] in
  write (mkParams (Some 10) Unordered None (Some 2)) false ds (data2 [(12,7)]) = Ok (ds ++ [mkRg 2 (kv [(12,7)])])
  /\ no_meeting (mkParams (Some 10) Unordered None (Some 2)) (kv [(12,7)]) ds /\ trailing_incomplete 10 ds 1 /\ trailing_incomplete 10 (ds ++ [mkRg 2 (kv [(12,7)])]) 2.
Proof.
  cbv zeta. split; [reflexivity|]. split; [left; reflexivity|]. split.
  - destruct (trailing_spec 10 (groups [ints [1;2;3;4;5;6;7;8;9;10]; ints [11]])) as [T _]. exact T.
  - destruct (trailing_spec 10 (groups [ints [1;2;3;4;5;6;7;8;9;10]; ints [11]] ++ [mkRg 2 (kv [(12,7)])])) as [T _]. exact T.
Qed.
Example ex_C22_rewritten : let ds := groups [ints [1;2;3;4;5;6;7;8;9;10]; ints [11]; ints [12]] in
  write (mkParams (Some 10) Unordered None (Some 2)) false ds (data2 [(12,7)]) = Ok (groups [ints [1;2;3;4;5;6;7;8;9;10]; [(11,0);(12,0);(12,7)]])
  /\ trailing_incomplete 10 ds 2.
Proof.
  cbv zeta. split; [reflexivity|]. destruct (trailing_spec 10 (groups [ints [1;2;3;4;5;6;7;8;9;10]; ints [11]; ints [12]])) as [T _]. exact T.
Qed.
(** After coalescing, there can be more than [max_nirgs] incomplete row groups; also after an update. *)
Theorem C22_coalesced_refuted : exists ds data ds', write (mkParams (Some 10) Unordered None (Some 1)) false ds data = Ok ds' /\ trailing_incomplete 10 ds 1 /\ trailing_incomplete 10 ds' 2.
Proof.
  exists (groups [ints [1;2;3;4;5;6]]), (data2 (ints [7;8;9;10;11])), (groups [ints [1;2;3;4;5;6]; ints [7;8;9;10;11]]). split; [reflexivity|]. split.
  - destruct (trailing_spec 10 (groups [ints [1;2;3;4;5;6]])) as [T _]. exact T.
  - destruct (trailing_spec 10 (groups [ints [1;2;3;4;5;6]; ints [7;8;9;10;11]])) as [T _]. exact T.
Qed.
Print Assumptions C22_coalesced_refuted.
(** Data as large as a row group is refused if the last row group is complete. *)
Theorem C22_complete_refuted : exists ds data, trailing_incomplete 3 ds 0 /\ write (mkParams (Some 3) Unordered None (Some 1)) false ds data = Err ValueError /\ rows data <> [].
Proof.
  exists (groups [ints [1;2;3]]), (data2 (ints [4;5;6])). split; [|split; [reflexivity|discriminate]].
  destruct (trailing_spec 3 (groups [ints [1;2;3]])) as [T _]. exact T.
Qed.
Print Assumptions C22_complete_refuted.

(** * C23 *)
(** First row groups, if they do not meet the data and are not among incomplete ones at the end, are kept. *)
Theorem C23_prefix : forall p is_vaex ds data ds' ds1 ds2, write p is_vaex ds data = Ok ds' -> ds = ds1 ++ ds2 ->
  (ordered_on p = Unordered \/ exists c, ordered_on p = OrderedOn c /\ sorted_on c (rows data) /\ filled ds /\ sorted_on c (all_rows ds) /\ splittable c (rows data) ds /\ Forall (fun g => ~ meets c (rows data) g) ds1) ->
  (max_nirgs p = None \/ exists m n, max_row_group_size p = Some m /\ trailing_incomplete m ds n /\ (n <= length ds2)%nat) ->
  exists l, map content ds' = map content ds1 ++ l.
Proof. exact write_prefix. Qed.
Print Assumptions C23_prefix.
(** Last row groups, if they do not meet the data and two others do, are kept. *)
Theorem C23_suffix : forall p is_vaex ds data ds' ds1 ds2 c i j gi gj, write p is_vaex ds data = Ok ds' -> ds = ds1 ++ ds2 ->
  ordered_on p = OrderedOn c -> sorted_on c (rows data) -> filled ds -> sorted_on c (all_rows ds) -> separated c (map content ds) ->
  (i < j)%nat -> nth_error ds1 i = Some gi -> nth_error ds1 j = Some gj -> meets c (rows data) gi -> meets c (rows data) gj ->
  Forall (fun g => ~ meets c (rows data) g) ds2 ->
  exists l, map content ds' = l ++ map content ds2.
Proof. exact write_suffix. Qed.
Print Assumptions C23_suffix.
(** In ex_C18, first row groups meet the data, the last one does not: it is kept. *)
Example ex_C23 : let ds := groups [[(1,0);(2,0)]; [(4,0);(6,0)]; [(8,0)]] in let data := kv [(2,1);(5,1)] in
  meets 0 data (mkRg 0 (kv [(1,0);(2,0)])) /\ meets 0 data (mkRg 1 (kv [(4,0);(6,0)])) /\ ~ meets 0 data (mkRg 2 (kv [(8,0)])).
Proof.
  cbv zeta. split; [exists [1;0], [2;0], [2;1], [2;1]; unfold col; simpl; repeat split; auto; lia|]. split; [exists [4;0], [6;0], [5;1], [5;1]; unfold col; simpl; repeat split; auto; lia|].
  intros (r & s & d & d' & Hr & _ & Hd & _ & L & _). simpl in Hr, Hd. repeat (destruct Hr as [<-|Hr]; [repeat (destruct Hd as [<-|Hd]; [unfold col in L; simpl in L; lia|]); contradiction|]). contradiction.
Qed.
(** A single row group meeting the data, all row groups after it are rewritten. *)
Theorem C23_single_refuted : exists ds data ds' g1 g2 g3, write (keyed 2 None) false ds data = Ok ds' /\ ds = [g1; g2; g3] /\ meets 0 (rows data) g1 /\
  ~ meets 0 (rows data) g2 /\ ~ meets 0 (rows data) g3 /\ map content ds' <> map content ds /\ ~ In (content g3) (map content ds').
Proof.
  exists (groups [[(1,0);(2,0)]; [(4,0);(6,0)]; [(8,0);(9,0)]]), (data2 [(2,1)]), (groups [[(1,0)]; [(2,1);(4,0)]; [(6,0);(8,0)]; [(9,0)]]),
    (mkRg 0 (kv [(1,0);(2,0)])), (mkRg 1 (kv [(4,0);(6,0)])), (mkRg 2 (kv [(8,0);(9,0)])).
  split; [reflexivity|]. split; [reflexivity|]. split; [exists [1;0], [2;0], [2;1], [2;1]; unfold col; simpl; repeat split; auto; lia|].
  assert (N : forall g, (forall r, In r (content g) -> 4 <= col 0 r) -> ~ meets 0 (rows (data2 [(2,1)])) g).
  { intros g H (r & s & d & d' & Hr & _ & Hd & _ & L & _). specialize (H r Hr). simpl in Hd. destruct Hd as [<-|[]]; unfold col in *; simpl in L; lia. }
  split; [apply N; simpl; intros r [<-|[<-|[]]]; unfold col; simpl; lia|]. split; [apply N; simpl; intros r [<-|[<-|[]]]; unfold col; simpl; lia|].
  split; [discriminate|]. simpl. intuition discriminate.
Qed.
Print Assumptions C23_single_refuted.

(** * C27 *)
Theorem C27_tuple : forall p is_vaex ds data, ordered_on p = OrderedOnTuple -> write p is_vaex ds data = Err TypeError.
Proof. intros p v ds data E. unfold write. rewrite E. reflexivity. Qed.
Print Assumptions C27_tuple.
Theorem C27_missing_column : forall p is_vaex ds data c, ordered_on p = OrderedOn c -> (ncols data <= c)%nat -> write p is_vaex ds data = Err ValueError.
Proof. intros p v ds data c E H. unfold write. rewrite E. simpl. rewrite (proj2 (Nat.ltb_ge _ _) H). reflexivity. Qed.
Print Assumptions C27_missing_column.
Theorem C27_duplicates : forall p is_vaex ds data cols, ds <> [] -> ordered_on p = Unordered -> duplicates_on p = Some cols -> write p is_vaex ds data = Err ValueError.
Proof. intros p v ds data cols Hne E1 E2. unfold write. rewrite E1, E2. destruct ds; [congruence|]. reflexivity. Qed.
Print Assumptions C27_duplicates.
Theorem C27_max_nirgs : forall p is_vaex ds data k, ds <> [] -> max_nirgs p = Some k -> max_row_group_size p = None ->
  exists e, write p is_vaex ds data = Err e.
Proof.
  intros p v ds data k Hne E1 E2. destruct (write p v ds data) as [ds'|e] eqn:E; [exfalso|eauto].
  apply write_inv in E as (ordered & _ & [(-> & _)|(_ & dup & st & en & st' & _ & _ & Hc & _)]); [congruence|]. rewrite E1, E2 in Hc. discriminate.
Qed.
Print Assumptions C27_max_nirgs.
Theorem C27_empty_data : forall p is_vaex ds data c, ds <> [] -> ordered_on p = OrderedOn c -> rows data = [] -> exists e, write p is_vaex ds data = Err e.
Proof.
  intros p v ds data c Hne E1 E2. destruct (write p v ds data) as [ds'|e] eqn:E; [exfalso|eauto].
  apply write_inv in E as (ordered & Ho & [(-> & _)|(_ & dup & st & en & st' & _ & Hov & _ & _)]); [congruence|]. rewrite E1 in Ho. apply check_ordered_inv in Ho.
  destruct ordered; [|discriminate]. rewrite E2 in Hov. discriminate.
Qed.
Print Assumptions C27_empty_data.
Theorem C27_iter : forall data max sharp cols is_list,
  iter_dataframe false data max (Some sharp) cols is_list = Err TypeError /\ iter_dataframe true data max None (Some [sharp]) is_list = Err ValueError.
Proof. intros. split; [reflexivity|reflexivity]. Qed.
Print Assumptions C27_iter.
(** Other calls are accepted. *)
Theorem C27_accepted : forall p is_vaex ds data,
  (forall m, max_row_group_size p = Some m -> 0 < m) ->
  (ordered_on p = Unordered \/ exists c, ordered_on p = OrderedOn c /\ (c < ncols data)%nat) ->
  (ds <> [] -> (duplicates_on p = None \/ exists c cols, ordered_on p = OrderedOn c /\ duplicates_on p = Some cols /\ Forall (fun x => (x < ncols data)%nat) cols)
     /\ (ordered_on p = Unordered \/ rows data <> [])
     /\ (max_nirgs p = None \/ exists m ds0 g, max_row_group_size p = Some m /\ ds = ds0 ++ [g] /\ is_incomplete m g)) ->
  exists ds', write p is_vaex ds data = Ok ds'.
Proof. intros p v ds data Hm Ho Hds. apply write_accepted; auto. unfold positive_size. destruct (max_row_group_size p); auto. Qed.
Print Assumptions C27_accepted.
