(** C80: a write depends on the column data is ordered on only through the order of its values. *)
Require Import List Arith ZArith Bool Lia.
Require Import Verif.Common Verif.WrModel Verif.WrSpec Verif.ScaleSpec Verif.ScaleProofs.
Import ListNotations.
Local Open Scope Z_scope.

(** Any change of rows, their number of columns included, which orders them and identifies duplicates the same
    way: same row groups in the same files, with rows changed, or same exception. *)
Theorem C80_same_order : forall size nirgs v n n' c c' dup dup' g ds l,
  (c < n)%nat -> (c' < n')%nat -> filled ds ->
  ordered_alike c c' g (all_rows ds ++ l) ->
  match dup, dup' with
  | None, None => True
  | Some D, Some D' => Forall (fun x => (x < n)%nat) D /\ Forall (fun x => (x < n')%nat) D'
      /\ identified_alike (identity_columns n c D) (identity_columns n' c' D') g (all_rows ds ++ l)
  | _, _ => False
  end ->
  write (mkParams size (OrderedOn c') dup' nirgs) v (change_dataset g ds) (mkFrame n' (map g l))
  = change_result g (write (mkParams size (OrderedOn c) dup nirgs) v ds (mkFrame n l)).
Proof.
  intros size nirgs v n n' c c' dup dup' g ds l Hc Hc' F OA DA. apply (write_alike c c' g (all_rows ds ++ l)); auto.
  - apply incl_appr, incl_refl.
  - apply group_in_filled; auto. apply incl_appl, incl_refl.
Qed.
Print Assumptions C80_same_order.

(** Whole history of a dataset, ordered on a column or on another one with values in the same order (timestamps
    and an increasing counter, for instance). *)
Theorem C80_column : forall n c c' h, (c < n)%nat -> (c' < n)%nat -> Forall (dup_in n) h ->
  (forall r s, In r (flat_map c_rows h) -> In s (flat_map c_rows h) -> (col c r <= col c s <-> col c' r <= col c' s)) ->
  run_writes n c' [] h = run_writes n c [] h.
Proof.
  intros n c c' h Hc Hc' Hd OA. rewrite Forall_forall in Hd.
  pose proof (run_alike n c c' (fun r => r) (flat_map c_rows h) Hc Hc' OA) as R.
  specialize (R (fun D _ => same_order_identified n c c' D _ Hc Hc' OA) h []). rewrite change_call_id, (change_dataset_id (fst _)) in R.
  destruct (run_writes n c [] h) as [ds l]. apply R; [constructor|intros z []|].
  intros k Hk. split; auto. intros z Hz. apply in_flat_map. eauto.
Qed.
Print Assumptions C80_column.

(** Whole history of a dataset, values of the column it is ordered on being changed by a strictly increasing
    function (other unit, other origin). *)
Theorem C80_units : forall n c f h, (c < n)%nat -> Forall (dup_in n) h -> (forall a b, a < b -> f a < f b) ->
  Forall (fun r => (c < length r)%nat) (flat_map c_rows h) ->
  run_writes n c [] (map (change_call (change_column c f)) h)
  = (change_dataset (change_column c f) (fst (run_writes n c [] h)), snd (run_writes n c [] h)).
Proof.
  intros n c f h Hc Hd Hf HU. rewrite Forall_forall in Hd.
  apply (run_alike n c c (change_column c f) (flat_map c_rows h) Hc Hc) with (ds := []); auto.
  - apply change_column_ordered; auto.
  - intros D _. apply change_column_identified; auto.
  - constructor.
  - intros z [].
  - intros k Hk. split; auto. intros z Hz. apply in_flat_map. eauto.
Qed.
Print Assumptions C80_units.

(** Four writes: a new dataset, rows inserted in the middle of it and replacing some, an empty data frame (which
    raises), and rows at the end which are merged with incomplete row groups. Columns: a counter, a timestamp, a value. *)
Definition ex_h : list call :=
  [mkCall (Some 2) (Some [0%nat]) (Some 1) false [[1; 100; 7]; [2; 200; 7]; [4; 350; 8]; [6; 400; 9]; [9; 1000; 0]];
   mkCall (Some 2) (Some [0%nat]) None true [[2; 200; 70]; [3; 300; 71]; [4; 350; 72]];
   mkCall (Some 3) None None true [];
   mkCall (Some 2) (Some []) (Some 1) false [[10; 1100; 1]; [11; 1200; 2]]].
Example ex_C80_column : Forall (dup_in 3) ex_h
  /\ (forall r s, In r (flat_map c_rows ex_h) -> In s (flat_map c_rows ex_h) -> (col 0 r <= col 0 s <-> col 1 r <= col 1 s))
  /\ run_writes 3 1 [] ex_h =
  ([mkRg 0 [[1; 100; 7]]; mkRg 1 [[2; 200; 70]; [3; 300; 71]]; mkRg 2 [[4; 350; 72]; [6; 400; 9]]; mkRg 3 [[9; 1000; 0]; [10; 1100; 1]]; mkRg 4 [[11; 1200; 2]]],
   [None; None; Some IndexError; None]).
Proof.
  split; [repeat constructor|]. split; [|vm_compute; reflexivity].
  intros r s Hr Hs. simpl in Hr, Hs. repeat (destruct Hr as [<-|Hr]; [repeat (destruct Hs as [<-|Hs]; [cbn; lia|]); destruct Hs|]). destruct Hr.
Qed.
(** Same writes, timestamps being in another unit with another origin. *)
Example ex_C80_units : Forall (fun r => (1 < length r)%nat) (flat_map c_rows ex_h)
  /\ fst (run_writes 3 1 [] (map (change_call (change_column 1 (fun z => 1000 * z - 5))) ex_h))
     = change_dataset (change_column 1 (fun z => 1000 * z - 5)) (fst (run_writes 3 1 [] ex_h))
  /\ fst (run_writes 3 1 [] (map (change_call (change_column 1 (fun z => 1000 * z - 5))) ex_h)) <> fst (run_writes 3 1 [] ex_h).
Proof. split; [repeat constructor|]. split; [vm_compute; reflexivity|]. vm_compute. discriminate. Qed.

(** Timestamps rounded to a coarser unit keep their order, but are no more distinct: other row groups, and rows lost
    as duplicates. *)
Definition ex_h2 : list call := map (fun k => mkCall (c_size k) (Some [1%nat]) (c_nirgs k) (c_vaex k) (c_rows k)) ex_h.
Theorem C80_rounding_refuted : exists n c f h, (c < n)%nat /\ Forall (dup_in n) h /\ (forall a b, a <= b -> f a <= f b)
  /\ Forall (fun r => (c < length r)%nat) (flat_map c_rows h)
  /\ length (all_rows (fst (run_writes n c [] h))) = 8%nat
  /\ length (all_rows (fst (run_writes n c [] (map (change_call (change_column c f)) h)))) = 2%nat.
Proof.
  exists 3%nat, 1%nat, (fun z => z / 1000), ex_h2. split; [lia|]. split; [repeat constructor|].
  split; [intros; apply Z.div_le_mono; lia|]. split; [repeat constructor|]. split; vm_compute; reflexivity.
Qed.
(** A column which does not order rows as the other one. *)
Theorem C80_other_order_refuted : exists n c c' h, (c < n)%nat /\ (c' < n)%nat /\ Forall (dup_in n) h
  /\ run_writes n c' [] h <> run_writes n c [] h.
Proof.
  exists 3%nat, 0%nat, 2%nat, ex_h. split; [lia|]. split; [lia|]. split; [repeat constructor|]. vm_compute. discriminate.
Qed.
