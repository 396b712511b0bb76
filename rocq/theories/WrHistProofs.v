(** Order, histories, coalescing and acceptance of writes. *)
Require Import List Arith ZArith Bool Lia Sorting.Sorted Sorting.Permutation.
Require Import Verif.Common Verif.WrModel Verif.WrSpec Verif.WrIterProofs Verif.WrProofs.
Import ListNotations.
Local Open Scope Z_scope.

Lemma merged_In : forall c M data x, In x (sort_by (col c) (all_rows M ++ data)) <-> In x (all_rows M) \/ In x data.
Proof.
  intros c M data x. rewrite <- in_app_iff. split; apply Permutation_in; [|symmetry]; apply sort_by_perm.
Qed.

(** Rows written by an update, in order. *)
Lemma news_facts : forall p n c M data news, match duplicates_on p with
      | None => concat news = sort_by (col c) (all_rows M ++ data)
      | Some cols => keep_last (duplicate_columns n c cols) (sort_by (col c) (all_rows M ++ data)) (concat news)
      end -> sorted_on c (concat news) /\ forall x, In x (concat news) -> In x (all_rows M) \/ In x data.
Proof.
  intros p n c M data news H. destruct (duplicates_on p) as [cols|].
  - destruct (keep_last_facts _ _ _ H) as (S & _ & L & _). split; [eapply sublist_sorted; [exact S|apply sorted_sort]|].
    intros x Hx. apply (merged_In c). destruct (L x Hx) as (b & a & -> & _). apply in_or_app. simpl. auto.
  - rewrite H. split; [apply sorted_sort|]. intros x Hx. apply merged_In in Hx. auto.
Qed.

Lemma three_parts : forall (R : row -> row -> Prop) A news C, StronglySorted R A -> StronglySorted R news -> StronglySorted R C ->
  (forall x y, In x A -> In y news -> R x y) -> (forall x y, In x A -> In y C -> R x y) -> (forall x y, In x news -> In y C -> R x y) -> StronglySorted R (A ++ news ++ C).
Proof.
  intros R A news C H1 H2 H3 H4 H5 H6. apply SS_app. split; auto. split; [apply SS_app; auto|]. intros x y Hx Hy. apply in_app_or in Hy as [Hy|Hy]; auto.
Qed.

Theorem write_sorted : forall p v ds data ds' c, write p v ds data = Ok ds' -> ordered_on p = OrderedOn c ->
  filled ds -> sorted_on c (all_rows ds) -> sorted_on c (rows data) ->
  placed c (rows data) ds -> splittable c (rows data) ds -> (max_nirgs p = None \/ ~ meets_first c (rows data) ds) ->
  sorted_on c (all_rows ds').
Proof.
  intros p v ds data ds' c H Eo Hf Hds Hs Hpl Hsp Hm.
  destruct (write_shape _ _ _ _ _ _ H Eo Hf Hds Hs Hpl Hsp Hm) as (_ & A & M & C & news & E & E' & _ & B1 & B2 & Cases).
  rewrite all_rows_concat, E', !concat_app, <- !all_rows_concat. rewrite E, !all_rows_app in Hds.
  apply SS_app in Hds as (SA & SMC & AMC). apply SS_app in SMC as (SM & SC & MC).
  assert (News : sorted_on c (concat news) /\ forall x, In x (concat news) -> In x (all_rows M) \/ In x (rows data)).
  { destruct Cases as [(-> & -> & ->)|(_ & _ & _ & _ & Q)]; [split; auto|]. eapply news_facts; eauto. }
  destruct News as [SN NI]. apply three_parts; auto.
  - intros x y Hx Hy. apply NI in Hy as [Hy|Hy]; [apply AMC; auto; apply in_or_app; auto|]. specialize (B1 x y Hx Hy). lia.
  - intros x y Hx Hy. apply AMC; auto. apply in_or_app. auto.
  - intros x y Hx Hy. apply NI in Hx as [Hx|Hx]; [apply MC; auto|]. specialize (B2 y x Hy Hx). lia.
Qed.

Theorem write_filled : forall p v ds data ds', write p v ds data = Ok ds' -> filled ds -> filled ds'.
Proof.
  intros p v ds data ds' H Hf. apply write_inv in H as (ordered & _ & [(-> & chunks & _ & ->)|(_ & dup & st & en & st' & _ & _ & _ & H)]); [apply number_parts_filled|].
  assert (Sub : forall s en, filled (before s ds ++ after en ds)).
  { intros s e. unfold filled in *. rewrite Forall_forall in *. intros g Hg. apply Hf. apply in_app_or in Hg as [Hg|Hg].
    - rewrite <- (firstn_skipn s ds). apply in_or_app. auto.
    - destruct e as [e|]; [|contradiction]. rewrite <- (firstn_skipn e ds). apply in_or_app. auto. }
  destruct st' as [s|].
  - apply update_inv in H as (chunks & _ & _ & l & Hl & _ & E). cbv zeta in E. apply filled_content. rewrite Hl. apply filled_content.
    assert (F : filled ((before s ds ++ after en ds) ++ number_parts (next_part ds) chunks)) by (apply Forall_app; split; [apply Sub|apply number_parts_filled]).
    subst l. destruct en; auto. destruct ordered; auto. unfold filled in *. eapply Permutation_Forall; [symmetry; apply sort_by_perm|auto].
  - destruct H as (chunks & _ & ->). apply Forall_app. split; auto. apply number_parts_filled.
Qed.

(** * Ordered maps *)
Lemma strict_sorted : forall c l, strictly_sorted_on c l -> sorted_on c l.
Proof. intros c l H. induction H as [|r l H IH F]; constructor; auto. eapply Forall_impl; [|exact F]. simpl. lia. Qed.
Lemma strict_inj : forall c l r s, strictly_sorted_on c l -> In r l -> In s l -> col c r = col c s -> r = s.
Proof.
  intros c l r s H. induction H as [|x l H IH F]; intros Hr Hs E; [contradiction|]. rewrite Forall_forall in F.
  destruct Hr as [->|Hr], Hs as [->|Hs]; auto.
  - specialize (F s Hs). lia.
  - specialize (F r Hr). lia.
Qed.
Lemma strict_separated : forall c ds, strictly_sorted_on c (all_rows ds) -> separated c (map content ds).
Proof.
  intros c ds. induction ds as [|g ds IH]; simpl; intro H; [constructor|]. apply SS_app in H as (_ & H2 & H3). constructor; [apply IH; auto|].
  apply Forall_map. apply Forall_forall. intros b Hb r s Hr Hs. apply H3; auto. apply In_all_rows. eauto.
Qed.
Lemma sorted_distinct_strict : forall c l, sorted_on c l -> StronglySorted (fun r s => ~ same_key [c] r s) l -> strictly_sorted_on c l.
Proof.
  intros c l H K. induction H as [|r l H IH F]; [constructor|]. inversion K as [|? ? K1 K2]; subst. constructor; [apply IH; auto|].
  rewrite Forall_forall in *. intros s Hs. specialize (F s Hs). specialize (K2 s Hs). simpl in F. destruct (Z.eq_dec (col c r) (col c s)) as [E|E]; [|simpl; lia].
  exfalso. apply K2. intros x [<-|[]]. auto.
Qed.
Lemma key_c : forall n c, duplicate_columns n c [c] = [c].
Proof. intros n c. unfold duplicate_columns. simpl. rewrite Nat.eqb_refl. auto. Qed.
Lemma same_key_c : forall c r s, same_key [c] r s <-> col c r = col c s.
Proof. intros c r s. split; [intro H; apply H; simpl; auto|intros H x [<-|[]]; auto]. Qed.

Theorem write_strict : forall p v ds data ds' c, write p v ds data = Ok ds' -> ordered_on p = OrderedOn c -> duplicates_on p = Some [c] ->
  filled ds -> strictly_sorted_on c (all_rows ds) -> strictly_sorted_on c (rows data) ->
  placed c (rows data) ds -> (max_nirgs p = None \/ ~ meets_first c (rows data) ds) ->
  strictly_sorted_on c (all_rows ds').
Proof.
  intros p v ds data ds' c H Eo Ed Hf Hds Hs Hpl Hm.
  destruct (write_shape _ _ _ _ _ _ H Eo Hf (strict_sorted _ _ Hds) (strict_sorted _ _ Hs) Hpl (or_introl (strict_separated _ _ Hds)) Hm) as (_ & A & M & C & news & E & E' & _ & B1 & B2 & Cases).
  rewrite all_rows_concat, E', !concat_app, <- !all_rows_concat. rewrite E, !all_rows_app in Hds.
  apply SS_app in Hds as (SA & SMC & AMC). apply SS_app in SMC as (SM & SC & MC). rewrite Ed in Cases.
  assert (News : strictly_sorted_on c (concat news) /\ forall x, In x (concat news) -> In x (all_rows M) \/ In x (rows data)).
  { destruct Cases as [(-> & -> & ->)|(_ & _ & _ & _ & Q)]; [split; auto|].
    destruct (news_facts p (ncols data) c M (rows data) news) as [S I]; [rewrite Ed; auto|]. split; auto.
    apply sorted_distinct_strict; auto. rewrite key_c in Q. apply keep_last_facts in Q. apply Q. }
  destruct News as [SN NI]. apply three_parts; auto.
  - intros x y Hx Hy. apply NI in Hy as [Hy|Hy]; [apply AMC; auto; apply in_or_app; auto|]. auto.
  - intros x y Hx Hy. apply AMC; auto. apply in_or_app. auto.
  - intros x y Hx Hy. apply NI in Hx as [Hx|Hx]; [apply MC; auto|]. auto.
Qed.

Theorem write_map : forall p v ds data ds' c, write p v ds data = Ok ds' -> ordered_on p = OrderedOn c -> duplicates_on p = Some [c] ->
  filled ds -> strictly_sorted_on c (all_rows ds) -> strictly_sorted_on c (rows data) ->
  placed c (rows data) ds -> (max_nirgs p = None \/ ~ meets_first c (rows data) ds) ->
  forall r, In r (all_rows ds') <-> In r (rows data) \/ ((forall x, In x (rows data) -> col c x <> col c r) /\ In r (all_rows ds)).
Proof.
  intros p v ds data ds' c H Eo Ed Hf Hds Hs Hpl Hm r.
  destruct (write_rows _ _ _ _ _ H) as (rest & P & _ & K). specialize (K c [c] Eo Ed). rewrite key_c in K.
  assert (From : forall x, In x (all_rows ds') -> In x (all_rows ds) \/ In x (rows data)).
  { intros x Hx. apply in_app_or. eapply Permutation_in; [exact P|]. apply in_or_app. auto. }
  assert (Dec : (exists d, In d (rows data) /\ col c d = col c r) \/ forall x, In x (rows data) -> col c x <> col c r).
  { clear. induction (rows data) as [|x l [(d & H1 & H2)|IH]]; [right; intros x []|left; exists d; simpl; auto|].
    destruct (Z.eq_dec (col c x) (col c r)) as [E|E]; [left; exists x; simpl; auto|right]. intros y [->|Hy]; auto. }
  (* the rows of [ds'] with the value of a new row come from the new data *)
  assert (New : forall x d, In x (all_rows ds') -> In d (rows data) -> col c d = col c x -> In x (rows data)).
  { intros x d Hx Hd E.
    destruct Hpl as [->|[(g & Hg & Mg)|AE]].
    - destruct (From x Hx) as [[]|]; auto.
    - destruct (write_newest _ _ _ _ _ _ _ g H Eo Ed (strict_sorted _ _ Hs) Hm Hg Mg d Hd) as (y & K1 & (b & a & Eq & _) & (b' & a' & Eq' & U)).
      rewrite key_c in *. apply same_key_c in K1. assert (x = y).
      { rewrite Eq' in Hx. apply in_app_or in Hx as [Hx|[->|Hx]]; auto; exfalso; apply (U x); [apply in_or_app; auto| |apply in_or_app; auto|]; apply same_key_c; congruence. }
      subst y. rewrite Eq. apply in_or_app. simpl. auto.
    - destruct (From x Hx) as [Hx'|]; auto. specialize (AE x d Hx' Hd). lia. }
  split.
  - intro Hr. destruct Dec as [(d & Hd & E)|Dec]; [left; eapply New; eauto|]. destruct (From r Hr) as [|Hr']; auto.
  - intros [Hr|[Hn Hr]].
    + destruct (K r) as (s & Hs' & Ks); [apply in_or_app; auto|]. apply same_key_c in Ks. assert (In s (rows data)) by (eapply New; eauto).
      assert (r = s) by (eapply strict_inj; [exact Hs| | |]; auto). congruence.
    + destruct (K r) as (s & Hs' & Ks); [apply in_or_app; auto|]. apply same_key_c in Ks. destruct (From s Hs') as [Q|Q]; [|exfalso; apply (Hn s Q); auto].
      assert (r = s) by (eapply strict_inj; [exact Hds| | |]; auto). congruence.
Qed.

Theorem history_map : forall c h ds, keyed_history c h ds -> filled ds /\ strictly_sorted_on c (all_rows ds) /\ forall r, In r (all_rows ds) <-> latest c h r.
Proof.
  intros c h ds H. induction H as [|h ds p v data ds' H (I1 & I2 & I3) Eo Ed Hs Hpl Hm Hw].
  - split; [constructor|]. split; [constructor|]. intro r. reflexivity.
  - split; [eapply write_filled; eauto|]. split; [eapply write_strict; eauto|]. intro r.
    rewrite (write_map _ _ _ _ _ _ Hw Eo Ed I1 I2 Hs Hpl Hm). simpl. rewrite I3. reflexivity.
Qed.

(** * Part numbers *)
Definition increasing_parts (ds : dataset) : Prop := StronglySorted (fun a b => (part a < part b)%nat) ds.
Lemma number_parts_parts : forall chunks n, increasing_parts (number_parts n chunks) /\ Forall (fun g => (n <= part g)%nat) (number_parts n chunks).
Proof.
  intro chunks. induction chunks as [|[|r c] l IH]; intro n; simpl; [split; constructor|apply IH|]. destruct (IH (S n)) as [A B]. split.
  - constructor; auto.
  - constructor; auto. eapply Forall_impl; [|exact B]. simpl. lia.
Qed.
Lemma renumber_parts : forall ds n, increasing_parts (renumber n ds) /\ Forall (fun g => (n <= part g)%nat) (renumber n ds).
Proof.
  induction ds as [|g ds IH]; intro n; simpl; [split; constructor|]. destruct (IH (S n)) as [A B]. split.
  - constructor; auto.
  - constructor; auto. eapply Forall_impl; [|exact B]. simpl. lia.
Qed.
Lemma next_part_gt : forall ds g, In g ds -> (part g < next_part ds)%nat.
Proof.
  intros ds g H. unfold next_part. assert (G : forall l m, (m <= fold_left (fun m g => Nat.max m (S (part g))) l m)%nat /\ forall g, In g l -> (part g < fold_left (fun m g => Nat.max m (S (part g))) l m)%nat).
  { induction l as [|x l IH]; intro m; simpl; [split; [lia|intros ? []]|]. destruct (IH (Nat.max m (S (part x)))) as [A B]. split; [lia|]. intros y [->|Hy]; [lia|auto]. }
  apply G. auto.
Qed.
Theorem write_parts : forall p v ds data ds', write p v ds data = Ok ds' -> increasing_parts ds -> increasing_parts ds'.
Proof.
  intros p v ds data ds' H Hp. apply write_inv in H as (ordered & _ & [(-> & chunks & _ & ->)|(_ & dup & st & en & st' & _ & _ & _ & H)]); [apply number_parts_parts|].
  destruct st' as [s|].
  - apply update_inv in H as (chunks & _ & _ & l & _ & (k & ->) & _). apply renumber_parts.
  - destruct H as (chunks & _ & ->). destruct (number_parts_parts chunks (next_part ds)) as [A B]. apply SS_app. split; [auto|]. split; [auto|].
    intros x y Hx Hy. rewrite Forall_forall in B. specialize (B y Hy). pose proof (next_part_gt ds x Hx). lia.
Qed.

(** * Trailing incomplete row groups *)
Lemma incomplete_spec : forall max l, let t := incomplete (9 * max / 10) l in
  Forall (is_incomplete max) (firstn (fst t) l) /\ (forall g, nth_error l (fst t) = Some g -> ~ is_incomplete max g) /\ snd t = Z.of_nat (length (all_rows (firstn (fst t) l))).
Proof.
  intros max l. cbv zeta.
  assert (Q : forall g, rg_count g <= 9 * max / 10 <-> is_incomplete max g).
  { intro g. unfold rg_count, is_incomplete. generalize (Z.of_nat (length (content g))). intro z. pose proof (Z.div_mod (9 * max) 10 ltac:(lia)). pose proof (Z.mod_pos_bound (9 * max) 10 ltac:(lia)). lia. }
  generalize dependent (9 * max / 10). intros k Q. induction l as [|g l (A & B & C)]; [simpl; split; [constructor|split; [discriminate|auto]]|].
  cbn [incomplete]. destruct (rg_count g <=? k) eqn:E.
  - apply Z.leb_le in E. destruct (incomplete k l) as [n t]. cbn [fst snd] in *. cbn [firstn nth_error]. split; [constructor; auto; apply Q; auto|]. split; auto.
    cbn [all_rows flat_map]. rewrite app_length, C. unfold rg_count, all_rows. lia.
  - apply Z.leb_gt in E. simpl. split; [constructor|]. split; auto. intros g' Eg. injection Eg as <-. rewrite <- Q. lia.
Qed.

Lemma trailing_spec : forall max ds, let t := incomplete (9 * max / 10) (rev ds) in
  trailing_incomplete max ds (fst t) /\ snd t = Z.of_nat (length (all_rows (skipn (length ds - fst t) ds))) /\ (fst t <= length ds)%nat.
Proof.
  intros max ds. cbv zeta. destruct (incomplete_spec max (rev ds)) as (A & B & C). pose proof (incomplete_le (9 * max / 10) (rev ds)) as L. rewrite rev_length in L.
  set (n := fst (incomplete (9 * max / 10) (rev ds))) in *.
  assert (E : skipn (length ds - n) ds = rev (firstn n (rev ds))).
  { rewrite firstn_rev, rev_involutive. auto. }
  split; [|split; auto].
  - exists (firstn (length ds - n) ds), (skipn (length ds - n) ds). split; [symmetry; apply firstn_skipn|]. split; [rewrite skipn_length; lia|]. split.
    + rewrite E. apply Forall_rev. auto.
    + intros ds1 g Eg. apply B. assert (R : rev ds = rev (skipn (length ds - n) ds) ++ g :: rev ds1).
      { rewrite <- (firstn_skipn (length ds - n) ds) at 1. rewrite rev_app_distr, Eg, rev_app_distr. auto. }
      rewrite R. rewrite nth_error_app2; rewrite rev_length, skipn_length; [|lia]. replace (n - (length ds - (length ds - n)))%nat with 0%nat by lia. auto.
  - rewrite C, E. f_equal. unfold all_rows. rewrite !flat_map_concat_map, map_rev. clear. induction (map content (firstn n (rev ds))) as [|x l IH]; auto.
    simpl. rewrite concat_app, !app_length, <- IH. simpl. rewrite app_nil_r. lia.
Qed.
Lemma trailing_unique : forall max ds n m, trailing_incomplete max ds n -> trailing_incomplete max ds m -> n = m.
Proof.
  assert (G : forall max ds n m, trailing_incomplete max ds n -> trailing_incomplete max ds m -> (n <= m)%nat).
  { intros max ds n m (a & b & -> & <- & F & _) (a' & b' & E & <- & _ & K). apply Nat.le_ngt. intro L.
    apply app_eq_app in E as (l & [(-> & ->)|(-> & ->)]).
    - destruct l as [|x l] using rev_ind; [simpl in L; lia|]. rewrite app_length in L. lia.
    - destruct l as [|x l _] using rev_ind; [simpl in L; lia|]. apply (K (a ++ l) x); [rewrite app_assoc; auto|]. rewrite Forall_forall in F. apply F. apply in_or_app. left. apply in_or_app. simpl. auto. }
  intros max ds n m H1 H2. apply Nat.le_antisymm; eapply G; eauto.
Qed.

(** * Number and size of chunks *)
Definition size_limit (max : option Z) : Z := match max with Some m => m | None => MAX_ROW_GROUP_SIZE end.
Lemma iter_sizes : forall v data max chunks, iter_dataframe v data max None None false = Ok chunks -> rows data <> [] ->
  0 < size_limit max /\ Forall (fun l => Z.of_nat (length l) <= size_limit max) chunks /\
  Z.of_nat (length chunks) <= (Z.of_nat (length (rows data)) - 1) / size_limit max + 1.
Proof.
  intros v data max chunks H Hne. apply iter_inv in H as (raw & _ & _ & _ & _ & -> & R). specialize (R eq_refl Hne). cbv zeta in R. fold (size_limit max) in R. destruct R as [Hm ->].
  assert (Hn : (0 < length (rows data))%nat) by (destruct (rows data); [congruence|simpl; lia]).
  set (n := length (rows data)) in *. set (m := size_limit max) in *.
  destruct (size_bounds (Z.of_nat n) m ltac:(lia) Hm) as (B1 & B2 & B3). set (k := row_group_size (Z.of_nat n) m) in *.
  destruct (slices_range n (rows data) 0 (Z.to_nat k)) as (F & L & rest & E); [lia|auto|fold n; nia|]. fold n in F, L, E.
  split; auto. split; [eapply Forall_impl; [|exact F]; simpl; intros; lia|].
  assert (Ls : forall (st : list nat) (l : list row), length (slices st l) = length st) by (induction st as [|a st IH]; intros l; auto; destruct st as [|b st]; auto; change (slices (a :: b :: st) l) with (slice a b l :: slices (b :: st) l); cbn [length]; rewrite IH; auto).
  rewrite Ls. set (q := length (range n 0 n (Z.to_nat k))) in *.
  set (j := (Z.of_nat n - 1) / m) in *. nia.
Qed.
Lemma split_count : forall {A} (pieces : list (list A)) m, 0 < m -> Forall (fun l => Z.of_nat (length l) <= m) pieces -> concat pieces <> [] ->
  (Z.of_nat (length (concat pieces)) - 1) / m + 1 <= Z.of_nat (length pieces).
Proof.
  intros A pieces m Hm F Hne. assert (L : Z.of_nat (length (concat pieces)) <= m * Z.of_nat (length pieces)).
  { clear Hne. induction F as [|x l Hx F IH]; simpl; [lia|]. rewrite app_length. nia. }
  assert (P : 0 < Z.of_nat (length (concat pieces))) by (destruct (concat pieces); [congruence|simpl; lia]).
  assert ((Z.of_nat (length (concat pieces)) - 1) / m < Z.of_nat (length pieces)) by (apply Z.div_lt_upper_bound; lia). lia.
Qed.

(** * Row groups kept as they are *)
Definition no_meeting (p : params) (data : list row) (ds : dataset) : Prop :=
  ordered_on p = Unordered \/ exists c, ordered_on p = OrderedOn c /\ sorted_on c data /\ Forall (fun g => ~ meets c data g) ds.

Lemma overlap_none : forall p data ds ordered st en, no_meeting p (rows data) ds -> check_ordered_on (ordered_on p) (ncols data) = Ok ordered ->
  match ordered with None => Ok (None, None) | Some c => overlap c ds (rows data) end = Ok (st, en) -> st = None /\ en = None.
Proof.
  intros p data ds ordered st en H Ho Hov. apply check_ordered_inv in Ho. destruct ordered as [c|].
  - destruct H as [H|(c' & H & Hs & F)]; [destruct Ho; congruence|]. assert (c' = c) by (destruct Ho; congruence). subst c'.
    destruct (overlap_spec _ _ _ _ _ Hs Hov) as [_ OS]. destruct st as [i|]; [|destruct OS; auto]. exfalso. destruct OS as ((g & E & M) & _).
    rewrite Forall_forall in F. apply (F g); auto. eapply nth_error_In; eauto.
  - injection Hov as <- <-. auto.
Qed.

Theorem write_not_coalesced : forall p v ds data ds' m k n, write p v ds data = Ok ds' -> no_meeting p (rows data) ds -> ds <> [] -> rows data <> [] ->
  max_row_group_size p = Some m -> max_nirgs p = Some k -> trailing_incomplete m ds n ->
  Z.of_nat n < k -> Z.of_nat (length (rows data)) + Z.of_nat (length (all_rows (skipn (length ds - n) ds))) < m ->
  exists g, ds' = ds ++ [g] /\ content g = rows data.
Proof.
  intros p v ds data ds' m k n H Hn Hne Hd Em Ek Ht Hk Htot.
  apply write_inv in H as (ordered & Ho & [(-> & _)|(_ & dup & st & en & st' & _ & Hov & Hc & H)]); [congruence|].
  destruct (overlap_none _ _ _ _ _ _ Hn Ho Hov) as [-> ->]. rewrite Em, Ek in Hc. unfold coalesce in Hc.
  pose proof (trailing_spec m ds) as T. cbv zeta in T. destruct (incomplete (9 * m / 10) (rev ds)) as [n' t] eqn:E. cbn [fst snd] in T. destruct T as (T1 & T2 & T3).
  assert (n' = n) by (eapply trailing_unique; eauto). subst n'.
  replace (m <=? Z.of_nat (length (rows data)) + t) with false in Hc by (symmetry; apply Z.leb_gt; lia).
  replace (k <=? Z.of_nat n) with false in Hc by (symmetry; apply Z.leb_gt; lia). simpl in Hc. injection Hc as <-.
  destruct H as (chunks & Hi & ->). destruct (iter_sizes _ _ _ _ Hi Hd) as (_ & _ & L). rewrite Em in L. simpl in L.
  apply iter_inv in Hi as (raw & C & F & _ & _ & -> & _). specialize (F Hd).
  assert (length raw = 1)%nat.
  { assert (0 < length (rows data))%nat by (destruct (rows data); [congruence|simpl; lia]). rewrite Z.div_small in L by lia. destruct raw as [|a [|b raw]]; simpl in *; auto; try lia. congruence. }
  destruct raw as [|a [|b raw]]; try discriminate. simpl in C. rewrite app_nil_r in C. subst a. inversion F; subst. destruct (rows data) as [|x l] eqn:Er; [congruence|].
  simpl. eexists. split; [reflexivity|]. auto.
Qed.
Lemma trailing_snoc : forall m ds n g, trailing_incomplete m ds n -> exists n', trailing_incomplete m (ds ++ [g]) n' /\ (n' <= S n)%nat.
Proof.
  intros m ds n g (a & b & -> & <- & F & K). destruct (Z_le_dec (10 * Z.of_nat (length (content g))) (9 * m)) as [L|L].
  - exists (S (length b)). split; auto. exists a, (b ++ [g]). split; [rewrite app_assoc; auto|]. split; [rewrite app_length; simpl; lia|]. split; auto. apply Forall_app. split; auto.
  - exists 0%nat. split; [|lia]. exists ((a ++ b) ++ [g]), []. split; [rewrite app_nil_r; auto|]. split; auto. split; [constructor|].
    intros ds1 g' E. apply app_inj_tail in E as [_ <-]. auto.
Qed.

Theorem write_coalesced : forall p v ds data ds' m k n, write p v ds data = Ok ds' -> ordered_on p = Unordered -> ds <> [] ->
  max_row_group_size p = Some m -> max_nirgs p = Some k -> trailing_incomplete m ds n ->
  (k <= Z.of_nat n \/ m <= Z.of_nat (length (rows data)) + Z.of_nat (length (all_rows (skipn (length ds - n) ds)))) ->
  exists news, map content ds' = map content (firstn (length ds - n) ds) ++ news /\
    concat news = all_rows (skipn (length ds - n) ds) ++ rows data /\
    (concat news <> [] -> Forall (fun l => Z.of_nat (length l) <= m) news /\ Z.of_nat (length news) <= (Z.of_nat (length (concat news)) - 1) / m + 1).
Proof.
  intros p v ds data ds' m k n H Eo Hne Em Ek Ht Htr.
  apply write_inv in H as (ordered & Ho & [(-> & _)|(_ & dup & st & en & st' & Hdup & Hov & Hc & H)]); [congruence|].
  rewrite Eo in Ho. injection Ho as <-. injection Hov as <- <-. rewrite Em, Ek in Hc. unfold coalesce in Hc.
  pose proof (trailing_spec m ds) as T. cbv zeta in T. destruct (incomplete (9 * m / 10) (rev ds)) as [n' t] eqn:E. cbn [fst snd] in T. destruct T as (T1 & T2 & T3).
  assert (n' = n) by (eapply trailing_unique; eauto). subst n'.
  replace ((m <=? Z.of_nat (length (rows data)) + t) || (k <=? Z.of_nat n)) with true in Hc.
  2:{ symmetry. apply orb_true_iff. rewrite !Z.leb_le. destruct Htr as [Htr|Htr]; [right|left]; lia. }
  simpl in Hc. injection Hc as <-.
  assert (dup = None) by (apply check_dup_inv in Hdup; destruct (duplicates_on p); auto; destruct Hdup as (c & Q & _); discriminate). subst dup.
  apply update_inv in H as (chunks & _ & Hi & l & Hl & _ & El). cbv zeta in *. cbn [middle after] in *.
  exists (map content (number_parts (next_part ds) chunks)). rewrite Hl, El. unfold before. rewrite app_nil_r, map_app. split; auto.
  rewrite <- all_rows_concat, number_parts_rows.
  assert (Hi' : iter_dataframe true (mkFrame (ncols data) (all_rows (skipn (length ds - n) ds) ++ rows data)) (Some m) None None false = Ok chunks) by (rewrite <- Em; exact Hi). clear Hi.
  pose proof (iter_inv _ _ _ _ _ _ _ Hi') as (raw & C & F & _ & _ & -> & _). cbn [rows] in *. rewrite C. split; auto. intro Hn.
  destruct (iter_sizes _ _ _ _ Hi' Hn) as (_ & S1 & S2). rewrite number_parts_content by auto. split; auto.
Qed.

Lemma write_prefix : forall p v ds data ds' ds1 ds2, write p v ds data = Ok ds' -> ds = ds1 ++ ds2 ->
  (ordered_on p = Unordered \/ exists c, ordered_on p = OrderedOn c /\ sorted_on c (rows data) /\ filled ds /\ sorted_on c (all_rows ds) /\ splittable c (rows data) ds /\ Forall (fun g => ~ meets c (rows data) g) ds1) ->
  (max_nirgs p = None \/ exists m n, max_row_group_size p = Some m /\ trailing_incomplete m ds n /\ (n <= length ds2)%nat) ->
  exists l, map content ds' = map content ds1 ++ l.
Proof.
  intros p v ds data ds' ds1 ds2 H Ed Ho Hm.
  apply write_inv in H as (ordered & Hco & [(-> & chunks & _ & ->)|(Hne & dup & st & en & st' & Hdup & Hov & Hc & H)]).
  { destruct ds1; [|discriminate]. eexists. reflexivity. }
  pose proof (start_end p data ds ordered st en st' Hov Hc) as SE.
  destruct st' as [s|].
  2:{ destruct H as (chunks & _ & ->). subst ds. rewrite !map_app, <- app_assoc. eexists. reflexivity. }
  apply check_ordered_inv in Hco.
  assert (Tmp : forall k m t, max_nirgs p = Some k -> max_row_group_size p = Some m -> incomplete (9 * m / 10) (rev ds) = t -> (length ds1 <= length ds - fst t)%nat).
  { intros k m t E1 E2 E3. destruct Hm as [Hm|(m' & n & Em & Ht & Hl)]; [congruence|]. assert (m' = m) by congruence. subst m'.
    pose proof (trailing_spec m ds) as T. cbv zeta in T. rewrite E3 in T. destruct T as (T1 & _ & _). assert (fst t = n) by (eapply trailing_unique; eauto). rewrite H0, Ed, app_length. lia. }
  assert (Hse : (length ds1 <= s)%nat /\ (en <> None -> exists i e, st = Some i /\ en = Some e /\ (s <= i)%nat)).
  { assert (Hen0 : en <> Some 0%nat).
    { destruct ordered as [c|]; [|injection Hov as <- <-; discriminate]. pose proof (overlap_shape _ _ _ _ _ Hov) as Sh.
      destruct st as [i|]; [|subst; discriminate]. destruct en as [e|]; [|discriminate]. intro Q. injection Q as Q. lia. }
    assert (Hi : forall i, st = Some i -> (length ds1 <= i)%nat).
    { intros i ->. destruct ordered as [c|]; [|discriminate]. destruct Hco as [Hco _]. destruct Ho as [Ho|(c' & Ec & Hs & _ & _ & _ & F)]; [congruence|]. assert (c' = c) by congruence. subst c'.
      destruct (overlap_spec _ _ _ _ _ Hs Hov) as [_ ((g & E & M) & _)]. apply Nat.le_ngt. intro L. subst ds. rewrite nth_error_app1 in E by auto. rewrite Forall_forall in F. apply (F g); auto. eapply nth_error_In; eauto. }
    assert (Hen : en <> None -> exists i e, st = Some i /\ en = Some e).
    { intro Q. destruct en as [e|]; [|congruence]. destruct ordered as [c|]; [|injection Hov as <- Q'; discriminate]. pose proof (overlap_shape _ _ _ _ _ Hov) as Sh. destruct st as [i|]; [eauto|discriminate]. }
    apply coalesce_spec in Hc; auto. destruct Hc as [<-|(m & k & t & E1 & E2 & E3 & _ & M)].
    - split; [apply Hi; auto|]. intro Q. destruct (Hen Q) as (i & e & E & ->). exists i, e. repeat (split; auto). assert (s = i) by congruence. lia.
    - specialize (Tmp k m t E1 E2 E3). destruct st as [[|i]|].
      + destruct M as [-> M]. split; [assert (s = (length ds - fst t)%nat) by congruence; lia|congruence].
      + specialize (Hi (S i) eq_refl). assert (s = Nat.min (length ds - fst t) (S i)) by congruence. split; [lia|]. intro Q. destruct (Hen Q) as (i' & e & E & ->). exists i', e. split; auto. split; auto. assert (i' = S i) by congruence. lia.
      + destruct M as [-> M]. split; [assert (s = (length ds - fst t)%nat) by congruence; lia|congruence]. }
  destruct Hse as [Hs1 Hen].
  assert (Sh : exists l, map content ds' = map content (before s ds) ++ l).
  { destruct en as [e|].
    - destruct (Hen ltac:(discriminate)) as (i & e' & -> & Q & Hsi). injection Q as <-. destruct ordered as [c|]; [|discriminate]. destruct Hco as [Hco Hcn].
      destruct Ho as [Ho|(c' & Ec & Hs & Hf & Hds & Hsp & F)]; [congruence|]. assert (c' = c) by congruence. subst c'.
      destruct (overlap_spec _ _ _ _ _ Hs Hov) as [Hdne ((gi & Ei & Mi) & Hpre & (B & Fs & ge & Ee & Me))].
      assert (U1 : forall r d, In r (all_rows (before s ds)) -> In d (rows data) -> col c r < col c d).
      { intros r d Hr Hd. apply In_all_rows in Hr as (g' & Hg' & Hr). apply (before_data c ds (rows data) i gi r d); auto. apply In_all_rows. exists g'. split; auto. eapply firstn_In_le; eauto. }
      apply (update_core (ncols data) c dup ds s (Some e) data (max_row_group_size p) ds') in H; auto.
      + destruct H as (news & N1 & _). eauto.
      + intros r x Hr Hx. apply in_app_or in Hx as [Hx|Hx]; [|specialize (U1 r x Hr Hx); lia]. rewrite (parts_split s (Some e) ds SE) in Hds. eapply sorted_parts; [exact Hds|auto|]. rewrite all_rows_app. apply in_or_app. auto.
      + intros _. split; [|split; auto].
        * destruct Hsp as [Hsp|[AE|(ds0 & gl & E & Ml)]]; auto.
          -- exfalso. apply (after_not_meet c (rows data) ds gi AE); auto. eapply nth_error_In; eauto.
          -- exfalso. rewrite Forall_forall in Fs. apply (Fs gl); auto. rewrite E in B |- *. rewrite app_length in B. simpl in B. rewrite skipn_app.
             apply in_or_app. right. replace (e - length ds0)%nat with 0%nat by lia. simpl. auto.
        * intros r d Hr Hd. apply (after_data c ds (rows data) e ge r d); auto. lia.
    - apply update_inv in H as (chunks & _ & _ & l & Hl & _ & El). cbv zeta in El. rewrite Hl, El. simpl. rewrite app_nil_r, map_app. eauto. }
  destruct Sh as (l & ->). unfold before. rewrite <- (firstn_skipn (length ds1) (firstn s ds)). rewrite firstn_firstn, Nat.min_l by auto.
  assert (E1 : firstn (length ds1) ds = ds1) by (rewrite Ed, firstn_app, Nat.sub_diag, firstn_all; simpl; apply app_nil_r).
  rewrite E1, map_app, <- app_assoc. eauto.
Qed.

Lemma write_suffix : forall p v ds data ds' ds1 ds2 c i j gi gj, write p v ds data = Ok ds' -> ds = ds1 ++ ds2 ->
  ordered_on p = OrderedOn c -> sorted_on c (rows data) -> filled ds -> sorted_on c (all_rows ds) -> separated c (map content ds) ->
  (i < j)%nat -> nth_error ds1 i = Some gi -> nth_error ds1 j = Some gj -> meets c (rows data) gi -> meets c (rows data) gj ->
  Forall (fun g => ~ meets c (rows data) g) ds2 ->
  exists l, map content ds' = l ++ map content ds2.
Proof.
  intros p v ds data ds' ds1 ds2 c i j gi gj H Ed Eo Hs Hf Hds Hsp Hij Ei Ej Mi Mj F2.
  destruct ds2 as [|g2 ds2]; [exists (map content ds'); simpl; rewrite app_nil_r; auto|]. remember (g2 :: ds2) as d2.
  apply write_inv in H as (ordered & Hco & [(-> & chunks & _ & ->)|(Hne & dup & st & en & st' & Hdup & Hov & Hc & H)]).
  { destruct ds1; [destruct i; discriminate|discriminate]. }
  pose proof (start_end p data ds ordered st en st' Hov Hc) as SE. rewrite Eo in Hco. apply check_ordered_inv in Hco. destruct ordered as [c'|]; [|discriminate]. destruct Hco as [Q Hcn]. injection Q as <-.
  assert (Ei' : nth_error ds i = Some gi) by (subst ds; rewrite nth_error_app1; auto; apply nth_error_Some; congruence).
  assert (Ej' : nth_error ds j = Some gj) by (subst ds; rewrite nth_error_app1; auto; apply nth_error_Some; congruence).
  destruct (overlap_spec _ _ _ _ _ Hs Hov) as [Hdne OS]. destruct st as [i0|].
  2:{ destruct OS as [_ OS]. exfalso. rewrite Forall_forall in OS. apply (OS gi); auto. eapply nth_error_In; eauto. }
  destruct OS as ((g0 & E0 & M0) & Hpre & Hen). destruct en as [e|].
  2:{ exfalso. destruct Hen as [Hen|(gl & El & Ml)]; [pose proof (Hen i gi Ei' Mi); pose proof (Hen j gj Ej' Mj); lia|].
      rewrite Forall_forall in F2. apply (F2 gl); auto. rewrite Ed, app_length in El. rewrite nth_error_app2 in El by (rewrite Heqd2; simpl; lia). eapply nth_error_In; eauto. }
  destruct Hen as (B & Fs & ge & Ee & Me).
  assert (He : (e <= length ds1)%nat).
  { apply Nat.le_ngt. intro L. rewrite Ed in Ee. rewrite nth_error_app2 in Ee by lia. rewrite Forall_forall in F2. apply (F2 ge); auto. eapply nth_error_In; eauto. }
  assert (Hst : exists s, st' = Some s /\ (s <= i0)%nat).
  { apply coalesce_spec in Hc; [|intro Q; injection Q as Q; lia]. destruct Hc as [->|(m & k & t & _ & _ & _ & _ & M)]; [eauto|].
    destruct i0 as [|i0]; [destruct M; discriminate|]. eexists. split; [exact M|lia]. }
  destruct Hst as (s & -> & Hsi).
  assert (U1 : forall r d, In r (all_rows (before s ds)) -> In d (rows data) -> col c r < col c d).
  { intros r d Hr Hd. apply In_all_rows in Hr as (g' & Hg' & Hr). apply (before_data c ds (rows data) i0 g0 r d); auto. apply In_all_rows. exists g'. split; auto. eapply firstn_In_le; eauto. }
  apply (update_core (ncols data) c dup ds s (Some e) data (max_row_group_size p) ds') in H; auto.
  - destruct H as (news & N1 & _). rewrite N1. cbn [after].
    assert (E1 : skipn e ds = skipn e ds1 ++ d2) by (rewrite Ed, skipn_app; replace (e - length ds1)%nat with 0%nat by lia; auto). rewrite E1, map_app.
    exists (map content (before s ds) ++ news ++ map content (skipn e ds1)). rewrite <- !app_assoc. auto.
  - intros r x Hr Hx. apply in_app_or in Hx as [Hx|Hx]; [|specialize (U1 r x Hr Hx); lia]. rewrite (parts_split s (Some e) ds SE) in Hds. eapply sorted_parts; [exact Hds|auto|]. rewrite all_rows_app. apply in_or_app. auto.
  - intros _. split; [auto|split; auto]. intros r d Hr Hd. apply (after_data c ds (rows data) e ge r d); auto. lia.
Qed.

(** * Acceptance *)
Definition positive_size (max : option Z) : Prop := match max with Some m => 0 < m | None => True end.
Lemma iter_ok_plain : forall v data max, positive_size max -> exists chunks, iter_dataframe v data max None None false = Ok chunks.
Proof.
  intros v data max H. unfold iter_dataframe. rewrite andb_false_r. unfold starts_of. destruct (length (rows data)) as [|n]; [simpl; eauto|].
  assert (Hm : match max with Some m => m | None => MAX_ROW_GROUP_SIZE end <=? 0 = false) by (apply Z.leb_gt; destruct max; simpl in H; [auto|reflexivity]).
  rewrite Hm. simpl. eauto.
Qed.
Lemma iter_ok_sharp : forall data max c dup, positive_size max -> rows data <> [] ->
  match dup with Some cols => Forall (fun x => (x < ncols data)%nat) (with_column c cols) | None => True end ->
  exists chunks, iter_dataframe true data max (Some c) dup true = Ok chunks.
Proof.
  intros data max c dup H Hne Hd. unfold iter_dataframe. cbn [negb andb].
  assert (Hm : match max with Some m => m | None => MAX_ROW_GROUP_SIZE end <=? 0 = false) by (apply Z.leb_gt; destruct max; simpl in H; [auto|reflexivity]).
  destruct (rows data) as [|r l]; [congruence|]. cbn [length starts_of]. rewrite Hm. cbn [bind map sharp_starts]. destruct dup as [cols|]; [|eauto].
  replace (existsb (fun c' => (ncols data <=? c')%nat) (with_column c cols)) with false; [eauto|]. symmetry. apply not_true_is_false. intro Q.
  apply existsb_exists in Q as (x & Hx & Lx). apply Nat.leb_le in Lx. rewrite Forall_forall in Hd. specialize (Hd x Hx). lia.
Qed.
Lemma update_ok : forall max ordered dup ds s en data, positive_size max -> middle s en ds <> [] ->
  match ordered with
  | Some c => rows data <> [] /\ match dup with Some cols => Forall (fun x => (x < ncols data)%nat) (with_column c cols) | None => True end
  | None => dup = None
  end -> exists ds', update_rgs max ordered dup ds s en data = Ok ds'.
Proof.
  intros max ordered dup ds s en data Hm Hmid Ho. unfold update_rgs. cbv zeta.
  change (match en with Some e => slice s e ds | None => skipn s ds end) with (middle s en ds). destruct (middle s en ds) as [|g md] eqn:E; [congruence|]. rewrite <- E.
  assert (G : exists chunks, iter_dataframe true (mkFrame (ncols data) (match ordered with Some c => sort_by (col c) (all_rows (middle s en ds) ++ rows data) | None => all_rows (middle s en ds) ++ rows data end)) max ordered dup true = Ok chunks).
  { destruct ordered as [c|].
    - destruct Ho as [Hne Hd]. apply iter_ok_sharp; auto. cbn [rows]. intro Q. destruct (rows data) as [|x l] eqn:Er; [congruence|].
      assert (In x (sort_by (col c) (all_rows (middle s en ds) ++ x :: l))) by (apply merged_In; simpl; auto). rewrite Q in H. contradiction.
    - subst dup. apply iter_ok_plain. auto. }
  destruct G as (chunks & ->). cbn [bind]. eauto.
Qed.

Theorem write_accepted : forall p v ds data,
  positive_size (max_row_group_size p) ->
  (ordered_on p = Unordered \/ exists c, ordered_on p = OrderedOn c /\ (c < ncols data)%nat) ->
  (ds <> [] -> (duplicates_on p = None \/ exists c cols, ordered_on p = OrderedOn c /\ duplicates_on p = Some cols /\ Forall (fun x => (x < ncols data)%nat) cols)
     /\ (ordered_on p = Unordered \/ rows data <> [])
     /\ (max_nirgs p = None \/ exists m ds0 g, max_row_group_size p = Some m /\ ds = ds0 ++ [g] /\ is_incomplete m g)) ->
  exists ds', write p v ds data = Ok ds'.
Proof.
  intros p v ds data Hm Ho Hds. unfold write.
  assert (Co : exists ordered, check_ordered_on (ordered_on p) (ncols data) = Ok ordered /\ match ordered with None => ordered_on p = Unordered | Some c => ordered_on p = OrderedOn c /\ (c < ncols data)%nat end).
  { destruct Ho as [Ho|(c & Ho & Hc)]; rewrite Ho; simpl; [exists None; auto|]. rewrite (proj2 (Nat.ltb_lt _ _) Hc). exists (Some c). auto. }
  destruct Co as (ordered & -> & Co). cbn [bind]. destruct (iter_ok_plain v data (max_row_group_size p) Hm) as (chunks & Hi).
  destruct ds as [|g0 ds0]; [rewrite Hi; simpl; eauto|]. specialize (Hds ltac:(discriminate)). remember (g0 :: ds0) as ds. assert (Hne : ds <> []) by (subst; discriminate). clear Heqds g0 ds0.
  destruct Hds as (Hd & Hr & Hn).
  assert (Cd : exists dup, check_duplicates_on (duplicates_on p) ordered = Ok dup /\ match ordered with
    | Some c => match dup with Some cols => Forall (fun x => (x < ncols data)%nat) (with_column c cols) | None => True end
    | None => dup = None end).
  { destruct Hd as [Hd|(c & cols & Ec & Hd & F)]; rewrite Hd; [exists None; split; auto; destruct ordered; auto|]. destruct ordered as [c'|]; [|congruence].
    exists (Some (with_column c' cols)). split; auto.
    assert (W : forall l, Forall (fun x => (x < ncols data)%nat) l -> Forall (fun x => (x < ncols data)%nat) (with_column c' l)).
    { intros l Fl. unfold with_column. destruct l; auto. destruct (existsb (Nat.eqb c') (n :: l)); auto. apply Forall_app. split; auto. constructor; auto. destruct Co; auto. }
    apply W. apply W. auto. }
  destruct Cd as (dup & -> & Cd). cbn [bind].
  assert (Ov : exists st en, match ordered with None => Ok (None, None) | Some c => overlap c ds (rows data) end = Ok (st, en)).
  { destruct ordered as [c|]; [|eauto]. destruct Hr as [Hr|Hr]; [destruct Co; congruence|]. unfold overlap. destruct (rows data) as [|x l]; [congruence|].
    match goal with |- exists st en, Ok ?X = _ => destruct X as [st en]; exists st, en; auto end. }
  destruct Ov as (st & en & Hov). rewrite Hov. cbn [bind].
  assert (Cc : exists st', coalesce (max_row_group_size p) (max_nirgs p) (Z.of_nat (length (rows data))) ds st en = Ok st').
  { unfold coalesce. destruct (max_nirgs p) as [k|]; [|eauto]. destruct Hn as [Hn|(m & ds0 & g & -> & _)]; [discriminate|]. destruct (incomplete (9 * m / 10) (rev ds)). eauto. }
  destruct Cc as (st' & Hc). rewrite Hc. cbn [bind]. destruct st' as [s|]; [|rewrite Hi; simpl; eauto].
  apply update_ok; auto.
  - assert (Sh : match st, en with None, _ => en = None | Some i, None => (i < length ds)%nat | Some i, Some e => (S i < e < length ds)%nat end).
    { destruct ordered as [c|]; [eapply overlap_shape; eauto|]. injection Hov as <- <-. auto. }
    assert (Hen : en <> Some 0%nat) by (destruct st; [destruct en; [intro Q; injection Q as Q; lia|discriminate]|subst; discriminate]).
    assert (Lt : (s < length ds)%nat /\ match en with Some e => (s < e)%nat | None => True end).
    { assert (Tmp : forall m t, max_nirgs p <> None -> max_row_group_size p = Some m -> incomplete (9 * m / 10) (rev ds) = t -> (length ds - fst t < length ds)%nat).
      { intros m t E1 E2 E3. destruct Hn as [Hn|(m' & d0 & g & Em & Eds & Hg)]; [congruence|]. assert (m' = m) by congruence. subst m'.
        assert (fst t <> 0)%nat; [|assert (0 < length ds)%nat by (rewrite Eds, app_length; simpl; lia); lia]. pose proof (incomplete_spec m (rev ds)) as T. cbv zeta in T. rewrite E3 in T. destruct T as (_ & T & _). intro Z0. rewrite Z0, Eds, rev_app_distr in T.
        apply (T g); auto. }
      apply coalesce_spec in Hc; auto. destruct Hc as [<-|(m & k & t & E1 & E2 & E3 & _ & M)]; [destruct en; split; auto; lia|].
      specialize (Tmp m t ltac:(congruence) E2 E3). destruct st as [[|i]|].
      - destruct M as [-> M]. assert (s = (length ds - fst t)%nat) by congruence. split; [lia|auto].
      - assert (s = Nat.min (length ds - fst t) (S i)) by congruence. destruct en; split; auto; lia.
      - destruct M as [-> M]. assert (s = (length ds - fst t)%nat) by congruence. split; [lia|auto]. }
    intro Q. apply (f_equal (@length _)) in Q. destruct Lt as [L1 L2]. destruct en as [e|]; simpl in Q.
    + unfold slice in Q. rewrite firstn_length, skipn_length in Q. lia.
    + rewrite skipn_length in Q. lia.
  - destruct ordered as [c|]; auto. split; auto. destruct Hr as [Hr|Hr]; auto. destruct Co. congruence.
Qed.
