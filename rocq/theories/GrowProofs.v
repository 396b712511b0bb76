(** Proofs about the aggregation of a dataset of the store, which grows. *)
Require Import List Arith ZArith Bool Lia Sorting.Sorted Sorting.Permutation.
Require Import Verif.Common Verif.WrModel Verif.WrSpec Verif.WrIterProofs Verif.WrProofs Verif.SegSpec Verif.StreamModel Verif.StreamSpec Verif.BatchSpec Verif.GrowSpec.
Require Verif.IterProofs Verif.SegProofs.
Import ListNotations.
Local Open Scope Z_scope.

(** Data is not before any row of the dataset. *)
Definition at_end (c : nat) (l data : list row) : Prop := forall r d, In r l -> In d data -> col c r <= col c d.

Lemma sort_by_same : forall {A} (key : A -> Z) l, StronglySorted (fun a b => key a <= key b) l -> sort_by key l = l.
Proof.
  intros A key l H. induction H as [|a l H IH F]; auto. cbn [sort_by fold_right]. change (fold_right (insert_by key) [] l) with (sort_by key l). rewrite IH.
  destruct l as [|b l]; auto. cbn [insert_by]. inversion F; subst. rewrite (proj2 (Z.leb_le _ _)); auto.
Qed.

Lemma last_rg : forall c (ds : dataset) g r, filled ds -> sorted_on c (all_rows ds) -> In g ds -> In r (content g) -> exists gl x, nth_error ds (length ds - 1) = Some gl /\ In gl ds /\ In x (content gl) /\ col c r <= col c x.
Proof.
  intros c ds g r Hf Hs Hg Hr. destruct (exists_last (l := ds) ltac:(intro Q; subst; contradiction)) as (ds0 & gl & E). subst ds. exists gl.
  assert (Hgl : content gl <> []) by (unfold filled in Hf; rewrite Forall_forall in Hf; apply Hf; apply in_or_app; simpl; auto).
  assert (Hn : nth_error (ds0 ++ [gl]) (length (ds0 ++ [gl]) - 1) = Some gl).
  { rewrite app_length. simpl. replace (length ds0 + 1 - 1)%nat with (length ds0) by lia. rewrite nth_error_app2, Nat.sub_diag by lia. auto. }
  apply in_app_or in Hg as [Hg|[<-|[]]].
  - destruct (content gl) as [|x l] eqn:El; [congruence|]. exists x. split; [exact Hn|]. split; [apply in_or_app; simpl; auto|]. split; [simpl; auto|].
    apply (sorted_parts c ds0 [gl]); auto; [apply In_all_rows; eauto|]. apply In_all_rows. exists gl. rewrite El. simpl. auto.
  - exists r. split; [exact Hn|]. split; [apply in_or_app; simpl; auto|]. split; [auto|lia].
Qed.

(** Row groups which are read again go to the end of the dataset. *)
Lemma at_end_en : forall c ds data st en, filled ds -> sorted_on c (all_rows ds) -> sorted_on c data -> at_end c (all_rows ds) data -> overlap c ds data = Ok (st, en) -> en = None.
Proof.
  intros c ds data st en Hf Hs Hd Ha Hov. destruct (overlap_spec _ _ _ _ _ Hd Hov) as [Hne OS]. destruct en as [e|]; auto. exfalso. destruct st as [i|]; [|destruct OS; discriminate].
  destruct OS as (_ & _ & B & Fs & ge & Ee & r & s & d & d' & Hr & Hs' & Hd1 & Hd2 & L1 & L2).
  destruct (last_rg c ds ge s Hf Hs (nth_error_In _ _ Ee) Hs') as (gl & x & En & Hgl & Hx & Lx).
  rewrite Forall_forall in Fs. apply (Fs gl).
  - apply nth_error_In with (length ds - 1 - e)%nat. rewrite nth_error_skipn. rewrite <- En. f_equal. lia.
  - exists x, x, d', d'. do 4 (split; [auto|]). split; [|lia]. apply Ha; auto. apply In_all_rows. eauto.
Qed.

Lemma write_filled_end : forall p v ds data ds' c, write p v ds data = Ok ds' -> ordered_on p = OrderedOn c -> filled ds -> sorted_on c (all_rows ds) -> sorted_on c (rows data) -> at_end c (all_rows ds) (rows data) -> filled ds'.
Proof.
  intros p v ds data ds' c H Eo Hf Hds Hs Ha. apply write_inv in H as (ordered & Ho & H). rewrite Eo in Ho. apply check_ordered_inv in Ho. destruct ordered as [c'|]; [|discriminate]. destruct Ho as [Q Hcn]. injection Q as <-.
  destruct H as [(-> & chunks & Hi & ->)|(Hne & dup & st & en & st' & Hdup & Hov & Hc & H)]; [apply number_parts_filled|].
  pose proof (at_end_en _ _ _ _ _ Hf Hds Hs Ha Hov) as ->. destruct st' as [s|].
  - apply update_inv in H as (chunks & _ & _ & l & Hl & _ & E). apply filled_content. rewrite Hl. apply filled_content. rewrite E. unfold after. rewrite app_nil_r.
    apply Forall_app. split; [|apply number_parts_filled]. unfold before, filled in *. rewrite Forall_forall in *. intros g Hg. apply Hf. rewrite <- (firstn_skipn s ds). apply in_or_app. auto.
  - destruct H as (chunks & _ & ->). apply Forall_app. split; auto. apply number_parts_filled.
Qed.

(** Without duplicates to drop, data follows the rows of the dataset. *)
Lemma write_at_end : forall p v ds data ds' c, write p v ds data = Ok ds' -> ordered_on p = OrderedOn c -> duplicates_on p = None -> filled ds -> sorted_on c (all_rows ds) -> sorted_on c (rows data) -> at_end c (all_rows ds) (rows data) ->
  all_rows ds' = all_rows ds ++ rows data.
Proof.
  intros p v ds data ds' c H Eo Ed Hf Hds Hs Ha. apply write_inv in H as (ordered & Ho & H). rewrite Eo in Ho. apply check_ordered_inv in Ho. destruct ordered as [c'|]; [|discriminate]. destruct Ho as [Q Hcn]. injection Q as <-.
  assert (Plain : forall chunks, iter_dataframe v data (max_row_group_size p) None None false = Ok chunks -> concat chunks = rows data).
  { intros chunks Hi. apply iter_inv in Hi as (raw & C & _ & _ & _ & -> & _). auto. }
  destruct H as [(-> & chunks & Hi & ->)|(Hne & dup & st & en & st' & Hdup & Hov & Hc & H)].
  - rewrite number_parts_rows. simpl. auto.
  - pose proof (at_end_en _ _ _ _ _ Hf Hds Hs Ha Hov) as ->. rewrite Ed in Hdup. apply Ok_inj in Hdup. subst dup. destruct st' as [s|].
    + apply update_inv in H as (chunks & _ & Hi & l & Hl & _ & E). apply iter_inv in Hi as (raw & C & _ & _ & _ & -> & _). cbn [rows] in C.
      rewrite all_rows_concat, Hl, <- all_rows_concat, E. unfold after. rewrite app_nil_r, all_rows_app, number_parts_rows, C. rewrite sort_by_same.
      * rewrite app_assoc. f_equal. rewrite <- all_rows_app. unfold before, middle. rewrite firstn_skipn. auto.
      * change (sorted_on c (all_rows (middle s None ds) ++ rows data)). unfold middle. rewrite <- (firstn_skipn s ds) in Hds. rewrite all_rows_app in Hds. apply SS_app in Hds as (_ & Hds & _).
        apply SS_app. split; [auto|]. split; [auto|]. intros r d Hr Hd. apply Ha; auto. rewrite <- (firstn_skipn s ds), all_rows_app. apply in_or_app. auto.
    + destruct H as (chunks & Hi & ->). rewrite all_rows_app, number_parts_rows, (Plain _ Hi). auto.
Qed.

(** Keys. *)
Lemma distinct_kept : forall cols l, distinct cols l -> keep_last cols l l.
Proof. intros cols l H. induction H as [|r l H IH F]; constructor; auto. rewrite Forall_forall in F. auto. Qed.
Lemma distinct_app : forall cols a b, distinct cols (a ++ b) <-> distinct cols a /\ distinct cols b /\ forall r s, In r a -> In s b -> ~ same_key cols r s.
Proof. intros. apply SS_app. Qed.
Lemma keep_last_trans : forall cols l b d out, keep_last cols l b -> keep_last cols (b ++ d) out -> keep_last cols (l ++ d) out.
Proof.
  intros cols l b d out H. revert out. induction H as [|r l b s Hs Hk H IH|r l b Hn H IH]; intros out Ho; cbn [app] in *; auto.
  - eapply KDrop; [apply in_or_app; left; exact Hs|auto|auto].
  - assert (Sub : forall x, In x b -> In x l).
    { intros x Hx. destruct (keep_last_facts _ _ _ H) as (_ & _ & L & _). destruct (L x Hx) as (u & w & -> & _). apply in_or_app. simpl. auto. }
    inversion Ho as [|? ? ? s Hs Hk Ho'|? ? out' Hn' Ho']; subst.
    + eapply KDrop; [|exact Hk|auto]. apply in_app_or in Hs as [Hs|Hs]; apply in_or_app; auto.
    + constructor; auto. intros s Hs. apply in_app_or in Hs as [Hs|Hs]; auto. apply Hn'. apply in_or_app. auto.
Qed.

(** A dataset with a single row group: coalescing changes nothing. *)
Lemma single_rg : forall p v g data ds' c, write p v [g] data = Ok ds' -> ordered_on p = OrderedOn c -> sorted_on c (rows data) -> meets c (rows data) g ->
  write (mkParams (max_row_group_size p) (ordered_on p) (duplicates_on p) None) v [g] data = Ok ds'.
Proof.
  intros p v g data ds' c H Eo Hs Hm. unfold write in *. cbn [ordered_on max_row_group_size duplicates_on max_nirgs]. rewrite Eo in *.
  destruct (check_ordered_on (OrderedOn c) (ncols data)) as [ordered|] eqn:Ec; cbn [bind] in *; [|discriminate].
  assert (ordered = Some c) as -> by (unfold check_ordered_on in Ec; destruct (c <? ncols data)%nat; [injection Ec as <-; auto|discriminate]).
  destruct (check_duplicates_on (duplicates_on p) (Some c)) as [dup|]; cbn [bind] in *; [|discriminate].
  destruct (overlap c [g] (rows data)) as [[st en]|] eqn:Ov; cbn [bind] in *; [|discriminate].
  assert (st = Some 0%nat /\ en = None) as [-> ->].
  { unfold overlap in Ov. destruct (rows data) as [|r l]; [discriminate|]. apply Ok_inj in Ov. cbn [nonzero_from] in Ov. rewrite (proj2 (overlaps_meets c r l g Hs) Hm) in Ov. injection Ov as <- <-. auto. }
  rewrite coalesce_none. cbn [bind].
  destruct (coalesce (max_row_group_size p) (max_nirgs p) (Z.of_nat (length (rows data))) [g] (Some 0%nat) None) as [st'|] eqn:Eco; cbn [bind] in H; [|discriminate].
  apply coalesce_spec in Eco; [|discriminate]. destruct Eco as [->|(m & k & t & _ & _ & _ & _ & _ & ->)]; auto.
  destruct (fst t) as [|[|k']]; simpl in H; auto. discriminate.
Qed.

(** With duplicates to drop: rows of data replace those with the same key. *)
Lemma write_at_end_keys : forall p v ds data ds' c cols, write p v ds data = Ok ds' -> ordered_on p = OrderedOn c -> duplicates_on p = Some cols -> filled ds -> sorted_on c (all_rows ds) -> sorted_on c (rows data) -> at_end c (all_rows ds) (rows data) ->
  let key := duplicate_columns (ncols data) c cols in
  distinct key (all_rows ds) -> distinct key (rows data) -> max_nirgs p = None \/ cols = [c] ->
  (c < ncols data)%nat /\ keep_last key (all_rows ds ++ rows data) (all_rows ds').
Proof.
  intros p v ds data ds' c cols H Eo Ed Hf Hds Hs Ha key K1 K2 Hm.
  assert (Hw : exists p', write p' v ds data = Ok ds' /\ ordered_on p' = OrderedOn c /\ duplicates_on p' = Some cols /\ (max_nirgs p' = None \/ ~ meets_first c (rows data) ds)).
  { destruct Hm as [Hm|Hm]; [exists p; auto|].
    assert (D : meets_first c (rows data) ds \/ ~ meets_first c (rows data) ds).
    { destruct ds as [|g ds0]; [right; intros (? & ? & Q & _); discriminate|]. destruct (rows data) as [|r l] eqn:Er; [right; intros (? & ? & _ & ? & ? & ? & ? & _ & _ & [] & _)|].
      destruct (overlaps c (col c r) (col c (last (r :: l) [])) g) eqn:Q; [left; exists g, ds0; split; auto; apply overlaps_meets; auto|].
      right. intros (g' & ds1 & E & M). injection E as <- <-. apply overlaps_meets in M; auto. congruence. }
    destruct D as [(g & ds0 & -> & M)|D]; [|exists p; auto]. subst cols.
    assert (ds0 = []) as ->.
    { destruct ds0 as [|g1 ds0]; auto. exfalso. unfold filled in Hf. rewrite Forall_forall in Hf. assert (Hg1 : content g1 <> []) by (apply Hf; simpl; auto). destruct (content g1) as [|y l] eqn:Ey; [congruence|].
      destruct M as (r & s & d & d' & Hr & Hs' & Hd1 & Hd2 & L1 & L2).
      assert (Hin : In y (all_rows (g1 :: ds0))) by (apply In_all_rows; exists g1; rewrite Ey; simpl; auto).
      change (all_rows (g :: g1 :: ds0)) with (content g ++ all_rows (g1 :: ds0)) in *. apply distinct_app in K1 as (_ & _ & K1). apply SS_app in Hds as (_ & _ & Hds). specialize (Hds s y Hs' Hin). cbv beta in Hds.
      assert (col c y <= col c d') by (apply Ha; auto; apply in_or_app; auto). apply (K1 s y Hs' Hin). intros c' Hc'. unfold key, duplicate_columns in Hc'. simpl in Hc'. rewrite Nat.eqb_refl in Hc'. simpl in Hc'. destruct Hc' as [<-|[]]. lia. }
    eexists. split; [eapply single_rg; eauto|]. cbn. auto. }
  clear H Eo Ed Hm p. destruct Hw as (p & H & Eo & Ed & Hm).
  assert (Hpl : placed c (rows data) ds /\ splittable c (rows data) ds).
  { destruct ds as [|g0 ds0]; [split; [left; auto|left; constructor]|]. set (ds := g0 :: ds0) in *.
    destruct (rows data) as [|d0 l0] eqn:Er; [split; [right; right|right; left]; intros r d _ []|].
    destruct (exists_last (l := ds) ltac:(discriminate)) as (ds1 & gl & E).
    assert (Hgl : content gl <> []) by (unfold filled in Hf; rewrite Forall_forall in Hf; apply Hf; rewrite E; apply in_or_app; simpl; auto).
    destruct (overlaps c (col c d0) (col c (last (d0 :: l0) [])) gl) eqn:Q.
    - apply overlaps_meets in Q; auto. split; [right; left; exists gl; split; auto; rewrite E; apply in_or_app; simpl; auto|right; right; eauto].
    - assert (AE : after_end c (d0 :: l0) ds).
      { intros r d Hr Hd. apply In_all_rows in Hr as (g & Hg & Hr). destruct (last_rg c ds g r Hf Hds Hg Hr) as (gl' & x & En & _ & Hx & Lx).
        assert (gl' = gl) as -> by (rewrite E in En; rewrite app_length in En; simpl in En; replace (length ds1 + 1 - 1)%nat with (length ds1) in En by lia; rewrite nth_error_app2, Nat.sub_diag in En by lia; injection En; auto).
        destruct (Z.lt_ge_cases (col c r) (col c d)) as [L|L]; auto. exfalso. assert (M : meets c (d0 :: l0) gl).
        { exists x, x, d, d. do 4 (split; [auto|]). split; [|lia]. apply Ha; auto. rewrite E. apply In_all_rows. exists gl. split; auto. apply in_or_app. simpl. auto. }
        apply overlaps_meets in M; auto. congruence. }
      split; [right; right; auto|right; left; auto]. }
  destruct Hpl as [Hpl Hsp]. destruct (write_shape p v ds data ds' c H Eo Hf Hds Hs Hpl Hsp Hm) as (Hc & A & M & C & news & E & Er & _ & U1 & U2 & Cs). split; auto.
  assert (Hck : In c key) by (apply duplicate_columns_In; auto).
  assert (Hr : all_rows ds' = all_rows A ++ concat news ++ all_rows C) by (rewrite all_rows_concat, Er, !concat_app, <- !all_rows_concat; auto).
  destruct Cs as [(-> & -> & En)|(HM & Hdn & _ & _ & Kl)].
  - rewrite Hr, En. simpl. rewrite app_nil_r in *. subst ds. simpl. apply keep_last_app; [|apply distinct_kept; auto; simpl in K1; auto|apply distinct_kept; auto].
    intros r d Hr' Hd Q. specialize (U1 r d Hr' Hd). rewrite (Q c Hck) in U1. lia.
  - assert (C = []) as ->.
    { destruct C as [|g1 C]; auto. exfalso. destruct (rows data) as [|d l]; [congruence|]. unfold filled in Hf. rewrite Forall_forall in Hf. assert (Hg1 : content g1 <> []) by (apply Hf; rewrite E; apply in_or_app; right; apply in_or_app; simpl; auto).
      destruct (content g1) as [|y l1] eqn:Ey; [congruence|]. assert (Hy : In y (all_rows (g1 :: C))) by (apply In_all_rows; exists g1; rewrite Ey; simpl; auto).
      specialize (U2 y d Hy (or_introl eq_refl)). assert (col c y <= col c d) by (apply Ha; [rewrite E, !all_rows_app; apply in_or_app; right; apply in_or_app; auto|simpl; auto]). lia. }
    rewrite Ed in Kl. rewrite Hr. change (all_rows []) with (@nil row) in *. rewrite !app_nil_r in *. subst ds. rewrite all_rows_app in *. apply distinct_app in K1 as (K1 & K3 & K4). apply SS_app in Hds as (_ & Hds & _).
    rewrite sort_by_same in Kl.
    2:{ change (sorted_on c (all_rows M ++ rows data)). apply SS_app. split; [auto|]. split; [auto|]. intros r d Hr' Hd. apply Ha; auto. apply in_or_app; auto. }
    rewrite <- app_assoc. apply keep_last_app; [|apply distinct_kept; auto|exact Kl].
    intros r d Hr' Hd Q. apply in_app_or in Hd as [Hd|Hd]; [apply (K4 r d); auto|]. specialize (U1 r d Hr' Hd). rewrite (Q c Hck) in U1. lia.
Qed.

(** ** Histories *)
Lemma sorted_col : forall c l, sorted (map (col c) l) <-> sorted_on c l.
Proof.
  intros c l. split; intro H.
  - induction l as [|r l IH]; constructor.
    + apply IH. inversion H; auto.
    + inversion H as [|? ? _ F]; subst. rewrite Forall_map in F. auto.
  - induction H as [|r l H IH F]; constructor; auto. apply Forall_map. auto.
Qed.
Lemma last_index_last : forall c l r, last_index (col c) (l ++ [r]) = col c r.
Proof. intros. unfold last_index. rewrite map_app. apply last_last. Qed.
Lemma last_cut : forall c l, sorted_on c l -> exists l1 l2, l = l1 ++ l2 /\ filter (fun r => col c r <? last_index (col c) l) l = l1 /\ (forall r, In r l1 -> col c r < last_index (col c) l) /\ (forall r, In r l2 -> last_index (col c) l <= col c r).
Proof.
  intros c l H. generalize (last_index (col c) l) as x. induction H as [|r l H IH F]; intro x.
  - exists [], []. repeat split; auto; intros r [].
  - cbn [filter]. destruct (col c r <? x) eqn:Q.
    + destruct (IH x) as (l1 & l2 & E & E1 & H1 & H2). exists (r :: l1), l2. split; [simpl; congruence|]. split; [congruence|]. split; auto. intros s [<-|Hs]; auto. apply Z.ltb_lt; auto.
    + apply Z.ltb_ge in Q. exists [], (r :: l). split; auto. rewrite Forall_forall in F. split; [|split; [intros s []|]].
      * destruct (filter (fun r0 => col c r0 <? x) l) as [|s m] eqn:Ef; auto. exfalso. assert (Hs : In s (filter (fun r0 => col c r0 <? x) l)) by (rewrite Ef; simpl; auto). apply filter_In in Hs as [Hs Ls]. apply Z.ltb_lt in Ls. specialize (F s Hs). lia.
      * intros s [<-|Hs]; auto. specialize (F s Hs). lia.
Qed.
Lemma at_end_last : forall c l data d, sorted_on c l -> at_end c l data -> l <> [] -> In d data -> last_index (col c) l <= col c d.
Proof. intros c l data d Hs Ha Hne Hd. destruct (exists_last Hne) as (l' & r & ->). rewrite last_index_last. apply Ha; auto. apply in_or_app. simpl. auto. Qed.

Lemma kept_extends : forall c n dup l data out, sorted_on c l -> sorted_on c data -> at_end c l data -> data <> [] ->
  match dup with None => out = l ++ data | Some cols => In c (duplicate_columns n c cols) /\ distinct (duplicate_columns n c cols) l /\ keep_last (duplicate_columns n c cols) (l ++ data) out end ->
  extends (col c) l out.
Proof.
  intros c n dup l data out Hl Hd Ha Hne H. destruct (last_cut c l Hl) as (l1 & l2 & E & Ef & H1 & H2). destruct dup as [cols|].
  - destruct H as (Hc & K1 & K). set (key := duplicate_columns n c cols) in *. pose proof (drop_keep_last key (l2 ++ data)) as D. exists (drop_duplicates key (l2 ++ data)). split.
    + rewrite Ef. eapply keep_last_unique; [exact K|]. rewrite E, <- app_assoc. rewrite E in K1. apply distinct_app in K1 as (K1 & _ & K2). apply keep_last_app; [|apply distinct_kept; auto|auto].
      intros r s Hr Hs Q. apply in_app_or in Hs as [Hs|Hs]; [apply (K2 r s); auto|]. specialize (H1 r Hr). assert (Hl0 : l <> []) by (intro Q0; rewrite Q0 in E; destruct l1; [contradiction|discriminate]).
      pose proof (at_end_last c l data s Hl Ha Hl0 Hs). rewrite (Q c Hc) in H1. lia.
    + intro Hl0. split; [apply drop_nonempty; destruct l2; simpl; [auto|discriminate]|]. intros r Hr. destruct (keep_last_facts _ _ _ D) as (_ & _ & L & _). destruct (L r Hr) as (u & w & Eq & _).
      assert (Hin : In r (l2 ++ data)) by (rewrite Eq; apply in_or_app; simpl; auto). apply in_app_or in Hin as [Hin|Hin]; auto. eapply at_end_last; eauto.
  - subst out. exists (l2 ++ data). split; [rewrite Ef; rewrite E at 1; rewrite app_assoc; auto|]. intro Hl0. split; [destruct l2; simpl; [auto|discriminate]|]. intros r Hin. apply in_app_or in Hin as [Hin|Hin]; auto. eapply at_end_last; eauto.
Qed.

Lemma sublist_In : forall {A} (out l : list A) x, sublist out l -> In x out -> In x l.
Proof. intros A out l x H. induction H; simpl; auto. intros [->|?]; auto. Qed.
Lemma kept_sorted : forall c n dup l out, kept c n dup l out -> sorted_on c l -> sorted_on c out.
Proof. intros c n dup l out H Hs. destruct dup as [cols|]; [|cbn in H; subst; auto]. cbn in H. destruct (keep_last_facts _ _ _ H) as (S & _). eapply sublist_sorted; eauto. Qed.
Lemma kept_In : forall c n dup l out x, kept c n dup l out -> In x out -> In x l.
Proof. intros c n dup l out x H Hx. destruct dup as [cols|]; [|cbn in H; subst; auto]. cbn in H. destruct (keep_last_facts _ _ _ H) as (S & _). eapply sublist_In; eauto. Qed.

(** A write. *)
Lemma grow_write : forall c n dup s l ds ds', step_ok c n dup s -> kept c n dup l (all_rows ds) -> filled ds -> sorted_on c (l ++ rows (w_data s)) -> write (w_params s) (w_vaex s) ds (w_data s) = Ok ds' ->
  filled ds' /\ kept c n dup (l ++ rows (w_data s)) (all_rows ds') /\ (rows (w_data s) <> [] \/ ds = []) /\ (rows (w_data s) <> [] -> extends (col c) (all_rows ds) (all_rows ds')).
Proof.
  intros c n dup s l ds ds' (Eo & Ed & En & Hk) K Hf Hs H. apply SS_app in Hs as (S1 & S2 & S3).
  assert (Hds : sorted_on c (all_rows ds)) by (eapply kept_sorted; eauto).
  assert (Ha : at_end c (all_rows ds) (rows (w_data s))) by (intros r d Hr Hd; apply S3; auto; eapply kept_In; eauto).
  split; [eapply write_filled_end; eauto|].
  assert (Hne : rows (w_data s) <> [] \/ ds = []).
  { destruct ds as [|g ds]; auto. left. intro Q. unfold write in H. rewrite Eo in H. destruct (check_ordered_on (OrderedOn c) (ncols (w_data s))) as [o|] eqn:Ec; cbn [bind] in H; [|discriminate].
    assert (o = Some c) as -> by (unfold check_ordered_on in Ec; destruct (c <? ncols (w_data s))%nat; [injection Ec as <-; auto|discriminate]).
    destruct (check_duplicates_on (duplicates_on (w_params s)) (Some c)); cbn [bind] in H; [|discriminate]. rewrite Q in H. discriminate. }
  destruct dup as [cols|].
  - destruct Hk as [Hd Hm]. cbn [kept] in *. destruct (keep_last_facts _ _ _ K) as (_ & _ & _ & K1). subst n.
    destruct (write_at_end_keys _ _ _ _ _ _ _ H Eo Ed Hf Hds S2 Ha K1 Hd Hm) as [Hc K2]. split; [eapply keep_last_trans; eauto|]. split; auto.
    intro Hn. apply (kept_extends c (ncols (w_data s)) (Some cols) _ (rows (w_data s))); auto. split; [apply duplicate_columns_In; auto|auto].
  - pose proof (write_at_end _ _ _ _ _ _ H Eo Ed Hf Hds S2 Ha) as E. cbn [kept] in *. split; [congruence|]. split; auto. intro Hn. apply (kept_extends c n None _ (rows (w_data s))); auto.
Qed.

Section History.
Context {P SB PB : Type}.
Variable c n : nat.
Variable dup : option (list nat).
Variable truthy : Z -> bool.
Variable usage : frame -> Z.
Variable pre : option (list row -> P -> list row * P * bool).
Variables (fs : @filters row) (pre0 : P) (seg0 : SB) (post0 : PB).

(** Steps are runs on seed data which grows. *)
Lemma grow_runs : forall ss l ds g ds' g', (forall s, In s ss -> step_ok c n dup s) -> kept c n dup l (all_rows ds) -> filled ds -> sorted_on c (l ++ written ss) ->
  grow_all c truthy usage pre fs pre0 seg0 post0 (ds, g) ss = Ok (ds', g') ->
  kept c n dup (l ++ written ss) (all_rows ds') /\ filled ds' /\
  exists rs, run_all (col c) truthy usage pre fs pre0 seg0 post0 g rs = Ok g' /\ growing (col c) (all_rows ds) rs /\
    map (fun r => (r_fresh r, r_final r)) rs = map (fun s => (w_fresh s, w_final s)) ss /\ whole_seed (all_rows ds) rs = all_rows ds'.
Proof.
  induction ss as [|s ss IH]; intros l ds g ds' g' Hok K Hf Hs H; cbn [grow_all] in H.
  - injection H as <- <-. unfold written. simpl. rewrite app_nil_r. split; auto. split; auto. exists []. repeat split; auto. unfold whole_seed. simpl. apply app_nil_r.
  - change (written (s :: ss)) with (rows (w_data s) ++ written ss) in *. rewrite app_assoc in *.
    unfold grow_once in H. destruct (write (w_params s) (w_vaex s) ds (w_data s)) as [ds1|] eqn:Ew; cbn [bind] in H; [|discriminate].
    destruct (run_once (col c) truthy usage pre fs pre0 seg0 post0 g (mkRun (w_fresh s) (w_final s) (map content ds1))) as [g1|] eqn:Er; cbn [bind] in H; [|discriminate].
    assert (Hs1 : sorted_on c (l ++ rows (w_data s))) by (apply SS_app in Hs; tauto).
    destruct (grow_write c n dup s l ds ds1 (Hok s (or_introl eq_refl)) K Hf Hs1 Ew) as (Hf1 & K1 & Hne & Hx).
    destruct (IH _ _ _ _ _ (fun s' H' => Hok s' (or_intror H')) K1 Hf1 Hs H) as (K2 & Hf2 & rs & R & G & M & W).
    split; auto. split; auto. exists (mkRun (w_fresh s) (w_final s) (map content ds1) :: rs).
    split; [cbn [run_all]; rewrite Er; exact R|]. split; [|split; [cbn [map r_fresh r_final]; congruence|]].
    + cbn [growing r_seed]. rewrite <- all_rows_concat. split; [|split; [apply sorted_col; eapply kept_sorted; eauto|split; [|exact G]]].
      * destruct (rows (w_data s)) as [|d0 l0] eqn:Ed.
        -- destruct Hne as [Hne|Hne]; [congruence|]. subst ds. exists (all_rows ds1). split; auto. intro Q; contradiction Q; auto.
        -- apply Hx. discriminate.
      * intros ch Hch. apply filled_content in Hf1. rewrite Forall_forall in Hf1. auto.
    + unfold whole_seed in *. destruct rs as [|r rs]; cbn [last r_seed] in *; [rewrite <- all_rows_concat; rewrite <- W; simpl; rewrite app_nil_r; auto|].
      rewrite <- W. f_equal. f_equal. clear. revert r. induction rs as [|r' rs IH]; intro r; auto. exact (IH r').
Qed.

Lemma results_written : forall {D} (rs : list (@run D)) ss w, map (fun r => (r_fresh r, r_final r)) rs = map (fun s => (w_fresh s, w_final s)) ss -> results_first w ss -> all_written w rs.
Proof.
  intros D rs. induction rs as [|r rs IH]; intros ss w E H; destruct ss as [|s ss]; try discriminate; cbn [all_written]; auto. cbn [map] in E. injection E as E1 E2 E3. cbn [results_first] in H. destruct H as [H1 H2]. rewrite E1, E2. eauto.
Qed.
Lemma last_final : forall {D} (rs : list (@run D)) ss s0 r0, map (fun r => (r_fresh r, r_final r)) rs = map (fun s => (w_fresh s, w_final s)) ss -> ss <> [] -> rs <> [] /\ r_final (last rs r0) = w_final (last ss s0).
Proof.
  intros D rs ss s0 r0 E Hne. destruct (exists_last Hne) as (ss' & s & ->). destruct rs as [|r1 rs1]; [rewrite map_app in E; destruct ss'; discriminate|]. split; [discriminate|].
  destruct (exists_last (l := r1 :: rs1) ltac:(discriminate)) as (rs' & r & Er). rewrite Er in *. rewrite !last_last, !map_app in *. cbn [map] in E. apply app_inj_tail in E as [_ E]. injection E; auto.
Qed.

(** First step on an empty collection. *)
Lemma grow_new : forall ss g ds' g', (forall s, In s ss -> step_ok c n dup s) -> sorted_on c (written ss) ->
  grow_all c truthy usage pre fs pre0 seg0 post0 ([], g) ss = Ok (ds', g') ->
  kept c n dup (written ss) (all_rows ds') /\
  exists rs, run_all (col c) truthy usage pre fs pre0 seg0 post0 g rs = Ok g' /\ growing (col c) [] rs /\
    map (fun r => (r_fresh r, r_final r)) rs = map (fun s => (w_fresh s, w_final s)) ss /\ whole_seed [] rs = all_rows ds'.
Proof.
  intros ss g ds' g' Hok Hs H. assert (K : kept c n dup [] (all_rows [])) by (destruct dup; cbn; constructor).
  destruct (grow_runs ss [] [] g ds' g' Hok K ltac:(constructor) Hs H) as (K1 & _ & H1). split; auto.
Qed.
End History.
