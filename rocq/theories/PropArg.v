(** C66: a list given as 'duplicates_on' to several writes. *)
Require Import List Arith ZArith Bool Lia.
Require Import Verif.Common Verif.WrModel Verif.WrSpec Verif.ArgModel.
Import ListNotations.
Local Open Scope Z_scope.

(** * Specification *)
(** Datasets when a new list with the same columns is made for each write: lists are never modified. A write changes its own
    dataset, unless it fails. *)
Fixpoint with_copies (v : nat -> list nat) (ds : nat -> dataset) (h : list write_op) : nat -> dataset :=
  match h with
  | [] => ds
  | mkOp key p vaex data x :: h =>
      with_copies v (fun k => if (k =? key)%nat
        then match write (mkParams (max_row_group_size p) (ordered_on p) (Some (v x)) (max_nirgs p)) vaex (ds k) data with Ok d => d | Err _ => ds k end
        else ds k) h
  end.
(** Each list is always used with the same column for order. *)
Definition one_order (h : list write_op) : Prop :=
  exists order : nat -> order_arg, forall o, In o h -> ordered_on (op_params o) = order (op_list o).

(** * Proofs *)
Lemma existsb_snoc : forall c l, existsb (Nat.eqb c) (l ++ [c]) = true.
Proof. intros c l. apply existsb_exists. exists c. split; [apply in_or_app; simpl; auto|apply Nat.eqb_refl]. Qed.
Lemma with_column_twice : forall c l, with_column c (with_column c l) = with_column c l.
Proof.
  intros c [|x l]; auto. unfold with_column at 2 3. destruct (existsb (Nat.eqb c) (x :: l)) eqn:E; unfold with_column; [rewrite E; auto|].
  pose proof (existsb_snoc c (x :: l)) as S. cbn [app] in *. rewrite S. auto.
Qed.
Lemma write_with_column : forall p v ds data c cols, ordered_on p = OrderedOn c ->
  write (with_list p (with_column c cols)) v ds data = write (with_list p cols) v ds data.
Proof.
  intros p v ds data c cols E. unfold write. cbn [ordered_on duplicates_on max_row_group_size max_nirgs with_list]. rewrite E.
  cbn [check_ordered_on]. destruct (c <? ncols data)%nat; cbn [bind]; auto. destruct ds; auto. unfold check_duplicates_on. rewrite with_column_twice. auto.
Qed.
Lemma list_after_cases : forall p ds data cols, list_after p ds data cols = cols \/ exists c, ordered_on p = OrderedOn c /\ list_after p ds data cols = with_column c cols.
Proof.
  intros p ds data cols. unfold list_after, check_ordered_on. destruct (ordered_on p) as [|c|]; auto. destruct (c <? ncols data)%nat; auto. destruct ds; auto. right. exists c. auto.
Qed.

(** * C66 *)
Theorem C66_copies : forall h ds v, one_order h -> forall k, datasets (run (mkL ds v) h) k = with_copies v ds h k.
Proof.
  intros h ds v (order & H) k.
  assert (X : forall h ds ds', (forall k, ds k = ds' k) -> with_copies v ds h k = with_copies v ds' h k).
  { clear. induction h as [|[key p vaex data x] h IH]; intros ds ds' E; cbn [with_copies]; auto. apply IH. intro k'. rewrite !E. auto. }
  assert (G : forall h ds l, (forall o, In o h -> ordered_on (op_params o) = order (op_list o)) ->
    (forall x, l x = v x \/ exists c, order x = OrderedOn c /\ l x = with_column c (v x)) -> datasets (run (mkL ds l) h) k = with_copies v ds h k).
  { clear h ds H. intro h. induction h as [|o h IH]; intros ds l H Hl; auto. unfold run. cbn [fold_left with_copies]. unfold step at 2. cbn [datasets lists].
    assert (E : write_one ds o (l (op_list o)) = write_one ds o (v (op_list o))).
    { unfold write_one. destruct (Hl (op_list o)) as [->|(c & Ec & ->)]; auto. rewrite write_with_column; auto. rewrite (H o); auto. left. auto. }
    rewrite E. transitivity (with_copies v (write_one ds o (v (op_list o))) h k).
    2: { destruct o as [key p vaex data x]. apply X. intro k'. unfold write_one, upd, with_list. cbn [op_params op_vaex op_key op_data op_list].
         destruct (Nat.eqb_spec k' key) as [->|N]; destruct (write _ vaex (ds key) data); rewrite ?Nat.eqb_refl; auto. apply Nat.eqb_neq in N. rewrite N. auto. }
    apply IH; [intros; apply H; right; auto|]. intro x. unfold upd. destruct (Nat.eqb_spec x (op_list o)) as [->|N]; auto.
    destruct (list_after_cases (op_params o) (ds (op_key o)) (op_data o) (l (op_list o))) as [->|(c & Ec & ->)]; auto.
    rewrite (H o) in Ec by (left; auto). right. exists c. split; auto. destruct (Hl (op_list o)) as [->|(c' & Ec' & ->)]; auto.
    rewrite Ec in Ec'. injection Ec' as <-. apply with_column_twice. }
  rewrite (G h ds v); auto.
Qed.
Print Assumptions C66_copies.

(** The list of the caller: columns already in it stay, in the same order; an empty list stays empty; nothing is added but
    columns of order. *)
Theorem C66_list : forall h ds v x, let after := lists (run (mkL ds v) h) x in
  (exists added, after = v x ++ added /\ forall c, In c added -> exists o, In o h /\ op_list o = x /\ ordered_on (op_params o) = OrderedOn c)
  /\ (v x = [] -> after = []).
Proof.
  intros h ds v x. cbv zeta. revert ds v. induction h as [|o h IH] using rev_ind; intros ds v.
  - split; [exists []; split; [cbn; rewrite app_nil_r; auto|intros c []]|auto].
  - unfold run. rewrite fold_left_app. cbn [fold_left]. fold (run (mkL ds v) h). unfold step. cbn [lists]. unfold upd.
    destruct (IH ds v) as ((added & E & A) & N). destruct (Nat.eqb_spec x (op_list o)) as [->|Nx].
    + set (s := run (mkL ds v) h) in *. destruct (list_after_cases (op_params o) (datasets s (op_key o)) (op_data o) (lists s (op_list o))) as [->|(c & Ec & ->)].
      * split; auto. exists added. split; auto. intros c Hc. destruct (A c Hc) as (o' & Ho & R). exists o'. split; auto. apply in_or_app. auto.
      * split; [|intro Q; rewrite (N Q); auto]. destruct (lists s (op_list o)) as [|y l] eqn:El.
        -- exists added. split; auto. intros c' Hc'. destruct (A c' Hc') as (o' & Ho & R). exists o'. split; auto. apply in_or_app. auto.
        -- unfold with_column. destruct (existsb (Nat.eqb c) (y :: l)).
           ++ exists added. split; auto. intros c' Hc'. destruct (A c' Hc') as (o' & Ho & R). exists o'. split; auto. apply in_or_app. auto.
           ++ exists (added ++ [c]). split; [rewrite app_assoc, <- E; auto|]. intros c' Hc'. apply in_app_or in Hc' as [Hc'|[<-|[]]].
              ** destruct (A c' Hc') as (o' & Ho & R). exists o'. split; auto. apply in_or_app. auto.
              ** exists o. split; [apply in_or_app; simpl; auto|auto].
    + split; auto. exists added. split; auto. intros c Hc. destruct (A c Hc) as (o' & Ho & R). exists o'. split; auto. apply in_or_app. auto.
Qed.
Print Assumptions C66_list.

(** Two datasets, with the same list of columns, ordered on the same column: the list gets this column. *)
Definition on (c : nat) : params := mkParams (Some 4) (OrderedOn c) None None.
Definition data3 (l : list (list Z)) : frame := mkFrame 3 l.
Definition history (c' : nat) : list write_op :=
  [mkOp 0 (on 0) false (data3 [[1;5;0]; [2;5;0]]) 7; mkOp 0 (on 0) false (data3 [[2;5;1]; [3;5;1]]) 7;
   mkOp 1 (on c') false (data3 [[4;5;1]; [5;5;3]]) 7; mkOp 1 (on c') false (data3 [[6;5;3]; [6;5;4]]) 7].
Example ex_C66 : let s := run (mkL (fun _ => []) (fun _ => [1%nat])) (history 0) in
  one_order (history 0) /\ lists s 7 = [1; 0]%nat /\ all_rows (datasets s 0%nat) = [[1;5;0]; [2;5;1]; [3;5;1]]
  /\ all_rows (datasets s 1%nat) = [[4;5;1]; [5;5;3]; [6;5;3]; [6;5;4]].
Proof. split; [exists (fun _ => OrderedOn 0); intros o Ho; repeat (destruct Ho as [<-|Ho]; [reflexivity|]); contradiction|]. repeat split. Qed.
(** Two datasets ordered on different columns: a duplicate is left in the second one, as rows differ in the column of the
    first one. *)
Theorem C66_other_order_refuted : exists h v ds, let s := run (mkL ds v) h in let copies := with_copies v ds h in
  (forall x, v x = [1%nat]) /\ In [5;5;3] (all_rows (datasets s 1%nat)) /\ In [6;5;3] (all_rows (datasets s 1%nat))
  /\ ~ In [5;5;3] (all_rows (copies 1%nat)).
Proof.
  exists (history 2), (fun _ => [1%nat]), (fun _ => []). cbv zeta. split; [auto|]. split; [vm_compute; auto|]. split; [vm_compute; auto|].
  vm_compute. intuition discriminate.
Qed.
Print Assumptions C66_other_order_refuted.
(** The second dataset may have no such column: the write fails, though it does not with a list of its own. *)
Theorem C66_missing_column_refuted : exists p data cols cols' ds ds', list_after (on 2) [mkRg 0 [[1;5;0]]] (data3 [[1;5;0]]) cols = cols'
  /\ write (with_list p cols) false ds data = Ok ds' /\ write (with_list p cols') false ds data = Err KeyError.
Proof.
  exists (on 0), (mkFrame 2 [[1;7]]), [1%nat], [1;2]%nat, [mkRg 0 [[1;7]]], [mkRg 0 [[1;7]]]. repeat split.
Qed.
Print Assumptions C66_missing_column_refuted.
