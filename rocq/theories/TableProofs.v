(** Writing a part of a table with strictly ascending labels in a dataset which holds the beginning of the table, or
    of an older version of it. *)
Require Import List Arith ZArith Bool Lia Sorting.Sorted Sorting.Permutation.
Require Import Verif.Common Verif.WrModel Verif.WrSpec Verif.WrIterProofs Verif.WrProofs Verif.WrHistProofs.
Import ListNotations.
Local Open Scope Z_scope.

(** [m] starts with [l]. *)
Definition starts {A} (l m : list A) : Prop := exists r, m = l ++ r.

Lemma starts_refl : forall {A} (l : list A), starts l l.
Proof. intros A l. exists []. rewrite app_nil_r. auto. Qed.
Lemma starts_nil : forall {A} (l : list A), starts [] l.
Proof. intros A l. exists l. auto. Qed.
Lemma starts_app : forall {A} (l r : list A), starts l (l ++ r).
Proof. intros A l r. exists r. auto. Qed.
Lemma starts_trans : forall {A} (l m n : list A), starts l m -> starts m n -> starts l n.
Proof. intros A l m n [r ->] [r' ->]. exists (r ++ r'). rewrite app_assoc. auto. Qed.
Lemma starts_removelast : forall {A} (l : list A), starts (removelast l) l.
Proof. intros A l. destruct l as [|x l _] using rev_ind; [apply starts_refl|]. rewrite removelast_last. apply starts_app. Qed.
Lemma starts_map : forall {A B} (f : A -> B) l m, starts l m -> starts (map f l) (map f m).
Proof. intros A B f l m [r ->]. exists (map f r). apply map_app. Qed.
Lemma app_eq_starts : forall {A} (a b c d : list A), a ++ b = c ++ d -> starts a c \/ starts c a.
Proof.
  induction a as [|x a IH]; intros b c d H; [left; apply starts_nil|]. destruct c as [|y c]; [right; apply starts_nil|].
  simpl in H. injection H as -> H. destruct (IH _ _ _ H) as [[r ->]|[r ->]]; [left|right]; exists r; auto.
Qed.
Lemma starts_both : forall {A} (l m n : list A), starts l n -> starts m n -> starts l m \/ starts m l.
Proof. intros A l m n [r ->] [r' H]. eapply app_eq_starts; eauto. Qed.
Lemma starts_length : forall {A} (l m : list A), starts l m -> (length l <= length m)%nat.
Proof. intros A l m [r ->]. rewrite app_length. lia. Qed.
Lemma starts_same : forall {A} (l m : list A), starts l m -> length l = length m -> l = m.
Proof.
  intros A l m [r ->] H. rewrite app_length in H. destruct r; [rewrite app_nil_r; auto|simpl in H; lia].
Qed.
(** What is put at the beginning of a list keeps any beginning they have in common. *)
Lemma starts_put : forall {A} (X Y S : list A), starts X S -> starts X Y \/ starts Y X -> starts X (Y ++ skipn (length Y) S).
Proof.
  intros A X Y S [r ->] [[q ->]|[q ->]].
  - exists (q ++ skipn (length (X ++ q)) (X ++ r)). rewrite app_assoc. auto.
  - exists r. rewrite <- !app_assoc, skipn_app, skipn_all, Nat.sub_diag. auto.
Qed.

Lemma SS_map : forall {A} (f : A -> Z) l, StronglySorted Z.lt (map f l) <-> StronglySorted (fun a b => f a < f b) l.
Proof.
  intros A f l. induction l as [|x l IH]; simpl; [split; constructor|]. split; intro H; apply StronglySorted_inv in H as [H F]; (constructor; [apply IH; auto|]).
  - rewrite Forall_forall in *. intros y Hy. apply F. apply in_map. auto.
  - apply Forall_map. exact F.
Qed.
Lemma app_eq_len : forall {A} (a b c d : list A), a ++ b = c ++ d -> length a = length c -> a = c /\ b = d.
Proof.
  induction a as [|x a IH]; intros b [|y c] d H L; simpl in *; try lia; auto. injection H as -> H. destruct (IH _ _ _ H) as [-> ->]; auto.
Qed.

(** Coalescing does nothing to an update of the single row group of a dataset. *)
Lemma write_single : forall p v g data ds' c, write p v [g] data = Ok ds' -> ordered_on p = OrderedOn c -> sorted_on c (rows data) -> meets c (rows data) g ->
  write (mkParams (max_row_group_size p) (ordered_on p) (duplicates_on p) None) v [g] data = Ok ds'.
Proof.
  intros p v g data ds' c H Eo Hs M. unfold write in *. cbn [ordered_on duplicates_on max_nirgs max_row_group_size] in *.
  destruct (check_ordered_on (ordered_on p) (ncols data)) as [o|] eqn:Co; cbn [bind] in *; [|discriminate].
  rewrite Eo in Co. apply check_ordered_inv in Co. destruct o as [c'|]; [|discriminate]. destruct Co as [Q _]. injection Q as <-.
  destruct (check_duplicates_on (duplicates_on p) (Some c)) as [dup|] eqn:Cd; cbn [bind] in *; [|discriminate].
  destruct (overlap c [g] (rows data)) as [[st en]|] eqn:Co; cbn [bind] in *; [|discriminate].
  assert (Q : st = Some 0%nat /\ en = None).
  { destruct (overlap_spec _ _ _ _ _ Hs Co) as [_ OS]. pose proof (overlap_shape _ _ _ _ _ Co) as Sh. destruct st as [i|].
    - simpl in Sh. destruct en as [e|]; [lia|]. split; auto. f_equal. lia.
    - destruct OS as [_ F]. inversion F; contradiction. }
  destruct Q as [-> ->]. cbn [coalesce bind].
  destruct (coalesce (max_row_group_size p) (max_nirgs p) (Z.of_nat (length (rows data))) [g] (Some 0%nat) None) as [st'|] eqn:Cc; cbn [bind] in *; [|discriminate].
  assert (Hz : (None : option nat) <> Some 0%nat) by discriminate.
  destruct (coalesce_spec _ _ _ _ _ _ _ Hz Cc) as [->|(m & k & t & _ & _ & _ & _ & _ & ->)]; auto.
  destruct (fst t) as [|n]; [exfalso; cbn in H; discriminate|exact H].
Qed.

Section Write.
Variable c : nat.
Notation labels := (map (col c)).

(** Rows [A] are in place, [W] is written after them: it replaces the rows with the same labels. *)
Theorem write_at : forall p v n ds A W Lab ds', ordered_on p = OrderedOn c -> duplicates_on p = Some [c] ->
  filled ds -> StronglySorted Z.lt Lab -> starts (labels (all_rows ds)) Lab -> starts (labels (A ++ W)) Lab ->
  starts A (all_rows ds) -> (max_nirgs p = None \/ (length (all_rows ds) <= S (length A))%nat) ->
  write p v ds (mkFrame n W) = Ok ds' ->
  all_rows ds' = (A ++ W) ++ skipn (length (A ++ W)) (all_rows ds).
Proof.
  intros p v n ds A W Lab ds' Eo Ed Hf HL [L1 E1] [L2 E2] [R ER] Hn H.
  rewrite ER, map_app in E1. rewrite map_app in E2. rewrite E1 in E2. rewrite <- !app_assoc in E2. apply app_inv_head in E2.
  rewrite E1 in HL. rewrite <- app_assoc in HL. apply SS_app in HL as (HA & HRL & HAR).
  (* strict order of what is in store, and of what is written *)
  assert (SR : StronglySorted Z.lt (labels R)) by (apply SS_app in HRL; tauto).
  assert (SW : StronglySorted Z.lt (labels W)) by (rewrite E2 in HRL; apply SS_app in HRL; tauto).
  assert (AR : forall x y, In x A -> In y R -> col c x < col c y).
  { intros x y Hx Hy. apply HAR; [apply in_map; auto|apply in_or_app; left; apply in_map; auto]. }
  assert (AW : forall x y, In x A -> In y W -> col c x < col c y).
  { intros x y Hx Hy. apply HAR; [apply in_map; auto|]. rewrite E2. apply in_or_app; left; apply in_map; auto. }
  assert (SD : strictly_sorted_on c (all_rows ds)).
  { rewrite ER. apply SS_app. split; [apply SS_map; auto|]. split; [apply SS_map; auto|auto]. }
  assert (SWs : strictly_sorted_on c W) by (apply SS_map; auto).
  (* the part of stored rows which are kept *)
  set (R2 := skipn (length W) R).
  assert (Esk : skipn (length (A ++ W)) (all_rows ds) = R2).
  { rewrite ER, app_length, skipn_app, skipn_all2 by lia. simpl. unfold R2. f_equal. lia. }
  assert (ER1 : R = firstn (length W) R ++ R2) by (symmetry; apply firstn_skipn).
  assert (K : (forall x, In x R2 -> forall y, In y W -> col c y < col c x) /\ (forall x, In x (firstn (length W) R) -> exists y, In y W /\ col c y = col c x)).
  { rewrite ER1, map_app in E2. destruct (Nat.le_gt_cases (length W) (length R)) as [Le|Gt].
    - rewrite <- app_assoc in E2. apply app_eq_len in E2 as [E2 E3]; [|rewrite !map_length, firstn_length; lia]. split.
      + rewrite ER1, map_app in SR. apply SS_app in SR as (_ & _ & SR). intros x Hx y Hy. apply SR; [rewrite E2|]; apply in_map; auto.
      + intros x Hx. assert (Q : In (col c x) (labels W)) by (rewrite <- E2; apply in_map; auto). apply in_map_iff in Q as (y & Q & Hy). eauto.
    - assert (R2 = []) as -> by (apply skipn_all2; lia). split; [intros ? []|]. rewrite firstn_all2 in * by lia. simpl in E2. rewrite app_nil_r in E2.
      intros x Hx. assert (Q : starts (labels R) (labels W)).
      { destruct (app_eq_starts _ _ _ _ E2) as [Q|Q]; auto. apply starts_length in Q. rewrite !map_length in Q. lia. }
      destruct Q as [q Q]. assert (Hq : In (col c x) (labels W)) by (rewrite Q; apply in_or_app; left; apply in_map; auto).
      apply in_map_iff in Hq as (y & Q' & Hy). eauto. }
  destruct K as [K1 K2]. rewrite Esk.
  destruct W as [|w W'].
  { (* nothing to write *)
    assert (ds = [] /\ ds' = []) as [-> ->].
    { apply write_inv in H as (o & Ho & [(-> & chunks & Hi & ->)|(_ & dup & st & en & st' & _ & Hov & _)]).
      - split; auto. destruct (iter_inv _ _ _ _ _ _ _ Hi) as (raw & C & _ & _ & _ & -> & _). simpl in C.
        pose proof (number_parts_rows raw 0) as Q. rewrite C in Q. pose proof (number_parts_filled raw 0) as F. destruct (number_parts 0 raw) as [|g l]; auto.
        exfalso. inversion F; subst. apply app_eq_nil in Q as [Q _]. auto.
      - exfalso. rewrite Eo in Ho. apply check_ordered_inv in Ho. destruct o as [o|]; [|discriminate]. simpl in Hov. discriminate. }
    simpl in ER. symmetry in ER. apply app_eq_nil in ER as [-> ->]. auto. }
  set (W := w :: W') in *. assert (Hw : In w W) by (left; auto).
  (* where data is written *)
  assert (Pl : placed c W ds).
  { destruct ds as [|g0 ds0]; [left; auto|right]. destruct R as [|x R'].
    - right. intros r d Hr Hd. rewrite ER, app_nil_r in Hr. auto.
    - left. assert (Hx : In x (all_rows (g0 :: ds0))) by (rewrite ER; apply in_or_app; right; left; auto).
      apply In_all_rows in Hx as (g & Hg & Hx). exists g. split; auto. simpl in E2. injection E2 as E2 _.
      exists x, x, w, w. repeat (split; auto); lia. }
  assert (W1 : exists p', ordered_on p' = OrderedOn c /\ duplicates_on p' = Some [c] /\ write p' v ds (mkFrame n W) = Ok ds' /\ (max_nirgs p' = None \/ ~ meets_first c W ds)).
  { destruct Hn as [Hn|Hn]; [exists p; auto|]. rewrite ER, app_length in Hn.
    assert (Dm : meets_first c W ds \/ ~ meets_first c W ds).
    { (* decided by cases on the dataset *)
      destruct R as [|x [|y R']]; [| |simpl in Hn; lia].
      - right. intros (g & ds0 & -> & (r & s & d & d' & Hr & Hs & Hd & Hd' & _ & Q)).
        assert (Hs' : In s A) by (rewrite app_nil_r in ER; rewrite <- ER; apply In_all_rows; exists g; split; [left|]; auto).
        pose proof (AW s d' Hs' Hd'). lia.
      - destruct ds as [|g [|g1 ds1]].
        + right. intros (g & ds0 & Q & _). discriminate.
        + left. exists g, []. split; auto. exists x, x, w, w.
          assert (Hx : In x (content g)). { assert (Hx : In x (all_rows [g])) by (rewrite ER; apply in_or_app; right; left; auto). apply In_all_rows in Hx as (g' & [<-|[]] & Hx). auto. }
          simpl in E2. injection E2 as E2 _. repeat (split; auto); lia.
        + right. intros (g' & ds0 & Q & (r & s & d & d' & Hr & Hs & Hd & Hd' & _ & Q')). injection Q as <- <-.
          assert (Hs' : In s A).
          { (* [x] is the last row of the dataset, it is not in the first row group *)
            change (all_rows (g :: g1 :: ds1)) with (content g ++ all_rows (g1 :: ds1)) in ER.
            destruct (all_rows (g1 :: ds1)) as [|z l _] eqn:El using rev_ind.
            - exfalso. inversion Hf as [|? ? _ Hf']; subst. inversion Hf' as [|? ? Hf1 _]; subst. simpl in El. apply app_eq_nil in El. tauto.
            - rewrite app_assoc in ER. apply app_inj_tail in ER as [ER _]. rewrite <- ER. apply in_or_app. auto. }
          pose proof (AW s d' Hs' Hd'). lia. }
    destruct Dm as [M|M]; [|exists p; auto].
    assert (Q : exists g, ds = [g] /\ meets c W g).
    { destruct M as (g & ds0 & -> & M). exists g. split; auto. destruct ds0 as [|g1 ds1]; auto. exfalso.
      destruct R as [|x [|y R']]; [| |simpl in Hn; lia].
      - destruct M as (r & s & d & d' & Hr & Hs & Hd & Hd' & _ & Q).
        assert (Hs' : In s A) by (rewrite app_nil_r in ER; rewrite <- ER; apply In_all_rows; exists g; split; [left|]; auto).
        pose proof (AW s d' Hs' Hd'). lia.
      - destruct M as (r & s & d & d' & Hr & Hs & Hd & Hd' & _ & Q').
        assert (Hs' : In s A).
        { change (all_rows (g :: g1 :: ds1)) with (content g ++ all_rows (g1 :: ds1)) in ER.
          destruct (all_rows (g1 :: ds1)) as [|z l _] eqn:El using rev_ind.
          - exfalso. inversion Hf as [|? ? _ Hf']; subst. inversion Hf' as [|? ? Hf1 _]; subst. simpl in El. apply app_eq_nil in El. tauto.
          - rewrite app_assoc in ER. apply app_inj_tail in ER as [ER _]. rewrite <- ER. apply in_or_app. auto. }
        pose proof (AW s d' Hs' Hd'). lia. }
    destruct Q as (g & -> & Mg). eexists. split; [|split; [|split; [apply (write_single p v g (mkFrame n W) ds' c H Eo (strict_sorted _ _ SWs) Mg)|]]]; auto. }
  destruct W1 as (p' & Eo' & Ed' & H' & Hn').
  pose proof (write_strict p' v ds (mkFrame n W) ds' c H' Eo' Ed' Hf SD SWs Pl Hn') as SS'.
  pose proof (write_map p' v ds (mkFrame n W) ds' c H' Eo' Ed' Hf SD SWs Pl Hn') as M.
  assert (SF : strictly_sorted_on c ((A ++ W) ++ R2)).
  { apply SS_app. split; [apply SS_app; split; [apply SS_map; auto|split; auto]|]. split.
    - assert (SR' : strictly_sorted_on c R) by (apply SS_map; auto). rewrite ER1 in SR'. apply SS_app in SR'. tauto.
    - intros x y Hx Hy. apply in_app_or in Hx as [Hx|Hx]; [|apply K1; auto]. apply AR; auto. rewrite ER1. apply in_or_app. auto. }
  apply strict_unique with (col c); auto; [apply strict_sorted; auto|].
  assert (Nd : forall l, strictly_sorted_on c l -> NoDup l).
  { clear. intros l H. induction H as [|r l H IH F]; constructor; auto. intro Hr. rewrite Forall_forall in F. specialize (F r Hr). lia. }
  apply NoDup_Permutation; auto. intro r. rewrite (M r). cbn [rows]. rewrite ER. split.
  - intros [Hr|[Hno Hr]]; [apply in_or_app; left; apply in_or_app; auto|]. apply in_app_or in Hr as [Hr|Hr]; [apply in_or_app; left; apply in_or_app; auto|].
    rewrite ER1 in Hr. apply in_app_or in Hr as [Hr|Hr]; [|apply in_or_app; auto]. exfalso. destruct (K2 r Hr) as (y & Hy & Q). apply (Hno y Hy Q).
  - intro Hr. apply in_app_or in Hr as [Hr|Hr]; [apply in_app_or in Hr as [Hr|Hr]; auto|].
    + right. split; [|apply in_or_app; auto]. intros x Hx. pose proof (AW r x Hr Hx). lia.
    + right. split; [|apply in_or_app; right; rewrite ER1; apply in_or_app; auto]. intros x Hx. pose proof (K1 r Hr x Hx). lia.
Qed.

(** Labels stay those of the table. *)
Lemma write_at_labels : forall A W (Sr : list row) Lab, starts (labels Sr) Lab -> starts (labels (A ++ W)) Lab ->
  starts (labels ((A ++ W) ++ skipn (length (A ++ W)) Sr)) Lab.
Proof.
  intros A W Sr Lab [q1 E1] [q2 E2]. set (Y := A ++ W) in *. rewrite map_app, <- skipn_map.
  destruct (Nat.le_gt_cases (length Y) (length Sr)) as [Le|Gt].
  - rewrite <- (firstn_skipn (length Y) (labels Sr)) in E1. rewrite E1 in E2. rewrite <- app_assoc in E2.
    apply app_eq_len in E2 as [E2 _]; [|rewrite firstn_length, !map_length; lia]. exists q1. rewrite E1, E2. auto.
  - rewrite skipn_all2 by (rewrite map_length; lia). exists q2. rewrite app_nil_r. auto.
Qed.
End Write.
