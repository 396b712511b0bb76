(** Results written in order of a column which has the same order as labels are written as in order of labels. *)
Require Import List Arith ZArith Bool Lia Sorting.Sorted.
Require Import Verif.Common Verif.WrModel Verif.WrSpec Verif.WrProofs Verif.StreamModel Verif.StreamSpec Verif.TableProofs Verif.BatchSpec.
Require Verif.ScaleSpec Verif.ScaleProofs.
Import ListNotations.
Local Open Scope Z_scope.

(** Same parameters, in order of labels. *)
Definition label_params (p : params) : params := mkParams (max_row_group_size p) (OrderedOn 0) (Some [0%nat]) (max_nirgs p).
Lemma by_label_params : forall p, by_label (label_params p). Proof. split; auto. Qed.

Lemma write_as_label : forall (U : row -> Prop) p v n ds l ds', as_by_label U p -> filled ds -> (forall r, In r (all_rows ds ++ l) -> U r) ->
  write p v ds (mkFrame n l) = Ok ds' -> write (label_params p) v ds (mkFrame n l) = Ok ds'.
Proof.
  intros U [size ord dup nirgs] v n ds l ds' (j & D & Eo & Ed & Hd & Hi & HU) F Hin H. cbn in Eo, Ed. subst ord dup.
  assert (Hj : (j < n)%nat).
  { unfold write in H. cbn [ordered_on check_ordered_on ncols] in H. destruct (Nat.ltb_spec j n); [auto|discriminate]. }
  assert (OA : ScaleSpec.ordered_alike 0 j (fun r => r) (all_rows ds ++ l)) by (intros r s Hr Hs; apply HU; auto).
  pose proof (ScaleProofs.write_alike 0 j (fun r => r) (all_rows ds ++ l) OA n n (Some [0%nat]) (Some D)) as W.
  assert (E : write (mkParams size (OrderedOn j) (Some D) nirgs) v (ScaleSpec.change_dataset (fun r => r) ds) (mkFrame n (map (fun r => r) l))
    = ScaleSpec.change_result (fun r => r) (write (mkParams size (OrderedOn 0) (Some [0%nat]) nirgs) v ds (mkFrame n l))).
  { apply W; try lia.
    - split; [constructor; [lia|constructor]|]. split.
      + apply Forall_forall. intros x Hx. destruct (Hi x Hx) as [<-|[<-|[]]]; lia.
      + intros r s Hr Hs. pose proof (HU r s (Hin r Hr) (Hin s Hs)). pose proof (HU s r (Hin s Hs) (Hin r Hr)). unfold ScaleSpec.identity_columns, same_key. destruct D as [|d D]; [congruence|]. split.
        * intros K x Hx. assert (col 0 r = col 0 s) by (apply K; simpl; auto). assert (x = 0%nat \/ x = j) as [-> | ->] by (destruct Hx as [<-|Hx]; auto; destruct (Hi x Hx) as [<-|[<-|[]]]; auto); auto. lia.
        * intros K x Hx. assert (x = 0%nat) as -> by (simpl in Hx; destruct Hx as [<-|[<-|[]]]; auto). assert (col j r = col j s) by (apply K; simpl; auto). lia.
    - apply incl_appr, incl_refl.
    - apply ScaleProofs.group_in_filled; auto. apply incl_appl, incl_refl. }
  rewrite ScaleProofs.change_dataset_id, map_id, H in E. unfold label_params. cbn.
  destruct (write (mkParams size (OrderedOn 0) (Some [0%nat]) nirgs) v ds (mkFrame n l)) as [d|]; [|discriminate].
  cbn in E. rewrite ScaleProofs.change_dataset_id in E. congruence.
Qed.

Section Writes.
Context {D SB PB : Type}.
Lemma by_label_as : forall U p, by_label p -> as_by_label U p.
Proof. intros U p [A B]. exists 0%nat, [0%nat]. split; auto. split; auto. split; [discriminate|]. split; [intros x Hx; simpl in *; tauto|]. intros; tauto. Qed.
(** Keys with default parameters. *)
Lemma writes_labels : forall (k : kconf D SB PB) ok T TS m ms, writes_by_label k -> writes_as_labels k ok T TS m ms.
Proof.
  intros k ok T TS m ms [A B] Hf _. destruct (k_type k); try (split; [|apply by_label_as, B; auto]); apply by_label_as; auto.
Qed.
End Writes.
