(** Properties of the aggregation of a dataset of the store, which grows. *)
Require Import List Arith ZArith Bool Lia Sorting.Sorted.
Require Verif.BatchHoldProofs.
Require Import Verif.Common Verif.AggModel Verif.AggSpec Verif.SegModel Verif.SegSpec Verif.CsaModel Verif.CsaSpec Verif.WrModel Verif.WrSpec Verif.StreamModel Verif.StreamSpec
  Verif.KeyModel Verif.BatchSpec Verif.UserKeyModel Verif.UserKeySpec Verif.PropBatch Verif.PropUserKey Verif.GrowSpec Verif.GrowProofs.
Require Import Verif.CalModel Verif.CalSpec Verif.PropCal.
Require Verif.IterProofs Verif.WrIterProofs Verif.MonthProofs.
Import ListNotations.
Local Open Scope Z_scope.

(** ** C76: a dataset of the store is written at its end, and aggregated, again and again *)

(** Each step writes rows which are not before those written beforehand, in a dataset ordered on column [c], with any row group sizes, with
    or without coalescing of incomplete row groups, with or without duplicates to be dropped; then gives all row groups of this dataset to 'agg', with 'trim_start' and
    'discard_last', with the same AggStream instance or a new one, with final write or not. The dataset holds all rows written (but duplicates, the latest
    ones being kept) and, once the last step has written its results, keys hold the results of a single aggregation of its rows, before their
    last index. *)
Theorem C76_grown_is_batch : forall {V P PB} (N : dtype -> num V) val dtypes enc truthy usage
    (pre : option (list row -> P -> list row * P * bool)) fs gs pre0 post0 (confs : list (bconf PB)) m ms c n dup ss ds g,
  harmless pre -> filters_are fs gs -> sorted_on c (written ss) -> (forall s, In s ss -> step_ok c n dup s) ->
  stream_ok N val dtypes (col c) enc gs confs m ms (all_rows ds) ->
  ((forall k, In k confs -> c_nirgs k = None) \/ ((forall i, truthy i = true) /\ results_first true ss)) ->
  grow_all c truthy usage pre fs pre0 segbuf_empty post0 ([], new_stream pre0 segbuf_empty post0 (map (key_of N val dtypes (col c) enc) confs)) ss = Ok (ds, g) ->
  ss <> [] -> w_final (last ss (mkStep (mkParams None Unordered None None) false (mkFrame 0 []) false false)) = true ->
  kept c n dup (written ss) (all_rows ds) /\ all_batch N val dtypes (col c) enc gs confs m ms (all_rows ds) g.
Proof.
  intros V P PB N val dtypes enc truthy usage pre fs gs pre0 post0 confs m ms c n dup ss ds g Hp Hf Hs Hok Hst Hc E Hne Hl.
  destruct (grow_new c n dup truthy usage pre fs pre0 segbuf_empty post0 ss _ _ _ Hok Hs E) as (K & rs & R & G & M & W). split; auto.
  destruct (last_final rs ss (mkStep (mkParams None Unordered None None) false (mkFrame 0 []) false false) (mkRun false false []) M Hne) as [Hne' Hl']. rewrite Hl in Hl'.
  rewrite <- W in *. refine (C50_streamed_is_batch N val dtypes (col c) enc truthy usage pre fs gs pre0 post0 confs m ms rs g Hp Hf G Hst _ R Hne' Hl').
  destruct Hc as [Hc|[Hq Hc]]; [left; auto|right; split; auto]. eapply results_written; eauto.
Qed.
Print Assumptions C76_grown_is_batch.

(** The same with keys having any bins: of time, of a number of rows, or made by functions of the user. *)
Theorem C76_any_bins : forall {V B P PB} (N : dtype -> num V) val dtypes enc truthy usage
    (pre : option (list row -> P -> list row * P * bool)) fs gs pre0 post0 (confs : list (@anykey row B PB)) sp m ms c n dup ss ds g,
  harmless pre -> filters_are fs gs -> sorted_on c (written ss) -> (forall s, In s ss -> step_ok c n dup s) ->
  any_stream_ok N val dtypes (col c) enc sp m ms gs confs (all_rows ds) ->
  ((forall k, In k confs -> any_nirgs k = None) \/ ((forall i, truthy i = true) /\ results_first true ss)) ->
  grow_all c truthy usage pre fs pre0 anybuf_empty post0 ([], new_stream pre0 anybuf_empty post0 (map (any_key N val dtypes (col c) enc) confs)) ss = Ok (ds, g) ->
  ss <> [] -> w_final (last ss (mkStep (mkParams None Unordered None None) false (mkFrame 0 []) false false)) = true ->
  kept c n dup (written ss) (all_rows ds) /\ any_batch N val dtypes (col c) enc m ms gs confs (all_rows ds) g.
Proof.
  intros V B P PB N val dtypes enc truthy usage pre fs gs pre0 post0 confs sp m ms c n dup ss ds g Hp Hf Hs Hok Hst Hc E Hne Hl.
  destruct (grow_new c n dup truthy usage pre fs pre0 anybuf_empty post0 ss _ _ _ Hok Hs E) as (K & rs & R & G & M & W). split; auto.
  destruct (last_final rs ss (mkStep (mkParams None Unordered None None) false (mkFrame 0 []) false false) (mkRun false false []) M Hne) as [Hne' Hl']. rewrite Hl in Hl'.
  rewrite <- W in *. refine (C68_streamed_is_batch N val dtypes (col c) enc truthy usage pre fs gs pre0 post0 confs sp m ms rs g Hp Hf G Hst _ R Hne' Hl').
  destruct Hc as [Hc|[Hq Hc]]; [left; auto|right; split; auto]. eapply results_written; eauto.
Qed.
Print Assumptions C76_any_bins.

(** Concrete cases. Rows are made of a time stamp (column 0) and a value (column 1). *)
Definition gr_val (r : row) (_ : cname) : Z := col 1 r.
Definition gr_even (r : row) : bool := Z.even (col 1 r).
Definition gr_fs : list (nat * option (list row -> res (list bool))) := [(0%nat, None); (1%nat, Some (fun rows => Ok (map gr_even rows)))].
Definition gr_gs : list (nat * (row -> bool)) := [(0%nat, fun _ => true); (1%nat, gr_even)].
Example gr_filters_are : filters_are gr_fs gr_gs.
Proof. split; [repeat constructor; simpl; intuition discriminate|]. repeat constructor. Qed.
Notation gr_key := (@key_of row Z nat (fun _ => Znum) gr_val ex_dtypes (col 0) ex_enc).
Notation gr_start cs := (new_stream tt (segbuf_empty : @segbuf Z) 0%nat (map gr_key cs) : stream row unit (@segbuf Z) nat).
Notation gr_run := (grow_all 0 (fun _ => true) (fun f => Z.of_nat (length (rows f))) (None : option (list row -> unit -> list row * unit * bool)) gr_fs tt (segbuf_empty : @segbuf Z) 0%nat).
Definition gr_stored (g : stream row unit (@segbuf Z) nat) (i : nat) : option (list row) := option_map (fun x => all_rows (data_of (s_main (snd x)))) (nth_error (g_keys g) i).
Definition gr_kv (l : list (Z * Z)) : list row := map (fun x => [fst x; snd x]) l.
Lemma gr_mok : forall c, In c ex_confs -> post_is (gr_key c) (ex_map c) (ex_map c).
Proof.
  intros c [<-|[<-|[<-|[<-|[]]]]]; (split; [|split]); unfold ex_map; cbn [c_post ex_A ex_B ex_C ex_D]; auto; try (intros [|a [|b [|d [|e r]]]]; reflexivity); try (split; auto).
  intros pb f sn r pb' E. injection E as <- <-. exists 3%nat, 3%nat. destruct sn; cbn; auto.
Qed.
Lemma gr_no_straddle : forall x (l : list row), (0 < x)%nat ->
  forallb (fun b => (nth (b * x - 1) (map (col 0) l) 0 <? nth (b * x) (map (col 0) l) 0)) (filter (fun b => (b * x <? length l)%nat) (seq 1 (length l))) = true -> no_straddle (col 0) x l.
Proof.
  intros x l Hx H b Hb Hl. rewrite forallb_forall in H. apply Z.ltb_lt, H, filter_In. split; [|apply Nat.ltb_lt; auto]. apply in_seq. nia.
Qed.
Lemma gr_stream_ok : forall l, forallb (fun b => (nth (b * 3 - 1) (map (col 0) (given (col 0) (fun _ => true) l)) 0 <? nth (b * 3) (map (col 0) (given (col 0) (fun _ => true) l)) 0)) (filter (fun b => (b * 3 <? length (given (col 0) (fun _ => true) l))%nat) (seq 1 (length (given (col 0) (fun _ => true) l)))) = true ->
  stream_ok (fun _ => Znum) gr_val ex_dtypes (col 0) ex_enc gr_gs ex_confs ex_map ex_map l.
Proof.
  intros l H c Hc. split; [apply ex_conf_ok; auto|]. split; [apply gr_mok; auto|].
  destruct Hc as [<-|[<-|[<-|[<-|[]]]]]; eexists; (split; [first [left; reflexivity|right; left; reflexivity]|]); try exact I.
  apply gr_no_straddle; [lia|]. exact H.
Qed.
Lemma distinctb : forall cols l, (fix go l := match l with [] => true | r :: l' => forallb (fun s => negb (same_on cols r s)) l' && go l' end) l = true -> distinct cols l.
Proof.
  intros cols l. induction l as [|r l IH]; intro H; [constructor|]. apply andb_true_iff in H as [H1 H2]. constructor; [apply IH; auto|]. apply Forall_forall. intros s Hs Q. rewrite forallb_forall in H1. specialize (H1 s Hs).
  rewrite (proj2 (WrIterProofs.same_on_iff cols r s) Q) in H1. discriminate.
Qed.

(** Rows with the same index are written by successive steps; incomplete row groups are coalesced in the third one. *)
Definition gr_steps : list gstep :=
  [mkStep (mkParams (Some 3) (OrderedOn 0) None None) false (mkFrame 2 (gr_kv [(1,1);(2,2);(2,3);(3,4)])) true true;
   mkStep (mkParams (Some 3) (OrderedOn 0) None None) false (mkFrame 2 (gr_kv [(3,5);(4,5);(5,6);(8,7)])) false false;
   mkStep (mkParams (Some 5) (OrderedOn 0) None (Some 1)) true (mkFrame 2 (gr_kv [(9,8);(10,9);(11,10);(12,11);(13,12)])) false true;
   mkStep (mkParams (Some 4) (OrderedOn 0) None None) true (mkFrame 2 (gr_kv [(13,13);(20,13);(21,15);(22,18)])) true true].
Example ex_C76 : exists ds g, gr_run ([], gr_start ex_confs) gr_steps = Ok (ds, g) /\ all_rows ds = written gr_steps /\
  all_batch (fun _ => Znum) gr_val ex_dtypes (col 0) ex_enc gr_gs ex_confs ex_map ex_map (written gr_steps) g /\
  gr_stored g 0 = Some [[0; 40; 5]; [5; 42; 8]; [10; 110; 13]; [15; -2; -1]; [20; 56; 15]] /\
  map (fun g => map (col 0) (content g)) ds = [[1; 2; 2; 3; 3]; [4; 5; 8; 9; 10]; [11; 12; 13; 13]; [20; 21; 22]].
Proof.
  destruct (shown_ok _ _ (fun x : dataset * stream row unit (@segbuf Z) nat => (gr_stored (snd x) 0, all_rows (fst x), map (fun g => map (col 0) (content g)) (fst x))) (gr_run ([], gr_start ex_confs) gr_steps)
    (Some [[0; 40; 5]; [5; 42; 8]; [10; 110; 13]; [15; -2; -1]; [20; 56; 15]], written gr_steps, [[1; 2; 2; 3; 3]; [4; 5; 8; 9; 10]; [11; 12; 13; 13]; [20; 21; 22]])
    ltac:(vm_cast_no_check (eq_refl (Some (Some [[0; 40; 5]; [5; 42; 8]; [10; 110; 13]; [15; -2; -1]; [20; 56; 15]], written gr_steps, [[1; 2; 2; 3; 3]; [4; 5; 8; 9; 10]; [11; 12; 13; 13]; [20; 21; 22]]))))) as ([ds g] & E & F).
  cbn [fst snd] in F. apply pair_equal_spec in F as [F F3]. apply pair_equal_spec in F as [F1 F2]. exists ds, g. split; [exact E|]. split; [exact F2|]. split; [|auto]. rewrite <- F2.
  apply (C76_grown_is_batch (fun _ => Znum) gr_val ex_dtypes ex_enc (fun _ => true) (fun f => Z.of_nat (length (rows f))) None gr_fs gr_gs tt 0%nat ex_confs ex_map ex_map 0 2 None gr_steps ds g).
  - exact I.
  - apply gr_filters_are.
  - apply sorted_col, IterProofs.sortedb_iff. reflexivity.
  - intros s [<-|[<-|[<-|[<-|[]]]]]; repeat split.
  - rewrite F2. apply gr_stream_ok. vm_compute. reflexivity.
  - right. split; [auto|]. cbn. repeat split; auto; discriminate.
  - exact E.
  - discriminate.
  - reflexivity.
Qed.

(** The last row is replaced by each step. *)
Definition gr_keyed (max : Z) (nirgs : option Z) : params := mkParams (Some max) (OrderedOn 0) (Some [0%nat]) nirgs.
Definition gr_steps_keys : list gstep :=
  [mkStep (gr_keyed 2 None) false (mkFrame 2 (gr_kv [(1,1);(2,2);(3,4)])) true true;
   mkStep (gr_keyed 3 (Some 1)) false (mkFrame 2 (gr_kv [(3,5);(4,5);(5,6);(8,7)])) false true;
   mkStep (gr_keyed 3 (Some 1)) true (mkFrame 2 (gr_kv [(8,9);(11,10);(12,11);(20,12);(21,1)])) true true].
Example ex_C76_keys : exists ds g, gr_run ([], gr_start [ex_A; ex_B]) gr_steps_keys = Ok (ds, g) /\ all_rows ds = gr_kv [(1,1);(2,2);(3,5);(4,5);(5,6);(8,9);(11,10);(12,11);(20,12);(21,1)] /\
  all_batch (fun _ => Znum) gr_val ex_dtypes (col 0) ex_enc gr_gs [ex_A; ex_B] ex_map ex_map (all_rows ds) g /\
  gr_stored g 0 = Some [[0; 26; 5]; [5; 30; 9]; [10; 42; 11]; [15; -2; -1]; [20; 24; 12]].
Proof.
  destruct (shown_ok _ _ (fun x : dataset * stream row unit (@segbuf Z) nat => (gr_stored (snd x) 0, all_rows (fst x))) (gr_run ([], gr_start [ex_A; ex_B]) gr_steps_keys)
    (Some [[0; 26; 5]; [5; 30; 9]; [10; 42; 11]; [15; -2; -1]; [20; 24; 12]], gr_kv [(1,1);(2,2);(3,5);(4,5);(5,6);(8,9);(11,10);(12,11);(20,12);(21,1)])
    ltac:(vm_cast_no_check (eq_refl (Some (Some [[0; 26; 5]; [5; 30; 9]; [10; 42; 11]; [15; -2; -1]; [20; 24; 12]], gr_kv [(1,1);(2,2);(3,5);(4,5);(5,6);(8,9);(11,10);(12,11);(20,12);(21,1)]))))) as ([ds g] & E & F).
  cbn [fst snd] in F. apply pair_equal_spec in F as [F1 F2]. exists ds, g. split; [exact E|]. split; [exact F2|]. split; [|auto].
  apply (C76_grown_is_batch (fun _ => Znum) gr_val ex_dtypes ex_enc (fun _ => true) (fun f => Z.of_nat (length (rows f))) None gr_fs gr_gs tt 0%nat [ex_A; ex_B] ex_map ex_map 0 2 (Some [0%nat]) gr_steps_keys ds g).
  - exact I.
  - apply gr_filters_are.
  - apply sorted_col, IterProofs.sortedb_iff. reflexivity.
  - intros s [<-|[<-|[<-|[]]]]; (split; [reflexivity|split; [reflexivity|split; [reflexivity|split; [apply distinctb; reflexivity|auto]]]]).
  - intros c Hc. assert (Hc' : In c ex_confs) by (destruct Hc as [<-|[<-|[]]]; simpl; auto). split; [apply ex_conf_ok; auto|]. split; [apply gr_mok; auto|].
    destruct Hc as [<-|[<-|[]]]; eexists; (split; [first [left; reflexivity|right; left; reflexivity]|]); exact I.
  - right. split; [auto|]. cbn. repeat split; auto; discriminate.
  - exact E.
  - discriminate.
  - reflexivity.
Qed.

(** A key by month, with data written in two steps. *)
Definition gr_month : uconf row sbuf nat := mkUconf 0 ex_agg (cal_by (col 0) by_month) sbuf_empty None false None 44 (Some 2) None None.
Definition gr_cal_steps : list gstep :=
  [mkStep (mkParams (Some 2) (OrderedOn 0) None None) false (mkFrame 2 (gr_kv (firstn 3 ex_cal_rows))) true true;
   mkStep (mkParams (Some 3) (OrderedOn 0) None (Some 1)) false (mkFrame 2 (gr_kv (skipn 3 ex_cal_rows ++ [(at_ 2020 9 10 7, 8)]))) true true].
Notation gr_cal_start := (new_stream tt (anybuf_empty : @anybuf Z sbuf) 0%nat (map (any_key (fun _ => Znum) gr_val ex_dtypes (col 0) ex_enc) [inr gr_month]) : stream row unit (@anybuf Z sbuf) nat).
Notation gr_cal_run := (grow_all 0 (fun _ => true) (fun f => Z.of_nat (length (rows f))) (None : option (list row -> unit -> list row * unit * bool)) gr_fs tt (anybuf_empty : @anybuf Z sbuf) 0%nat).
Definition gr_cal_out : list row := [[at_ 2020 1 1 0; 3; 2]; [at_ 2020 2 1 0; 7; 4]; [at_ 2020 3 1 0; -1; -1]; [at_ 2020 4 1 0; -1; -1]; [at_ 2020 5 1 0; -1; -1]; [at_ 2020 6 1 0; -1; -1]; [at_ 2020 7 1 0; 11; 6]].
Example ex_C76_any : exists ds g, gr_cal_run ([], gr_cal_start) gr_cal_steps = Ok (ds, g) /\ all_rows ds = written gr_cal_steps /\
  any_batch (fun _ => Znum) gr_val ex_dtypes (col 0) ex_enc (fun _ r => r) (fun _ r => r) gr_gs [inr gr_month] (all_rows ds) g /\
  map (fun x => all_rows (data_of (s_main (snd x)))) (g_keys g) = [gr_cal_out].
Proof.
  destruct (shown_ok _ _ (fun x : dataset * stream row unit (@anybuf Z sbuf) nat => (map (fun x => all_rows (data_of (s_main (snd x)))) (g_keys (snd x)), all_rows (fst x))) (gr_cal_run ([], gr_cal_start) gr_cal_steps)
    ([gr_cal_out], written gr_cal_steps) ltac:(vm_cast_no_check (eq_refl (Some ([gr_cal_out], written gr_cal_steps))))) as ([ds g] & E & F).
  cbn [fst snd] in F. apply pair_equal_spec in F as [F1 F2]. exists ds, g. split; [exact E|]. split; [exact F2|]. split; [|auto].
  assert (Hs : sorted (map (col 0) (written gr_cal_steps))) by (apply IterProofs.sortedb_iff; vm_compute; reflexivity).
  refine (proj2 (C76_any_bins (fun _ => Znum) gr_val ex_dtypes ex_enc (fun _ => true) (fun f => Z.of_nat (length (rows f))) (None : option (list row -> unit -> list row * unit * bool)) gr_fs gr_gs tt 0%nat [inr gr_month] _ (fun _ r => r) (fun _ r => r) 0 2 None gr_cal_steps ds g _ _ _ _
    (cal_any_ok (fun _ => Znum) gr_val ex_dtypes (col 0) ex_enc (fun _ => by_month) _ _ gr_gs [inr gr_month] (all_rows ds) _ _) _ E _ eq_refl)).
  - exact I.
  - apply gr_filters_are.
  - apply sorted_col, Hs.
  - intros s [<-|[<-|[]]]; repeat split.
  - rewrite F2. exact Hs.
  - destruct (ex_conf_ok ex_A ltac:(left; auto)) as (A1 & A2 & A3 & _). intros c [<-|[]].
    split; [split; [|split]; cbn; auto|]. eexists. split; [left; reflexivity|]. split; [exact A1|]. split; [exact A2|]. split; [exact A3|]. split; [reflexivity|]. split; [reflexivity|]. split; [reflexivity|].
    split; [exact MonthProofs.month_starts_ok|]. split; [reflexivity|left; reflexivity].
  - left. intros c [<-|[]]; reflexivity.
  - discriminate.
Qed.

Lemma gr_batch_stored : forall confs seed g i c kp, all_batch (fun _ => Znum) gr_val ex_dtypes (col 0) ex_enc gr_gs confs ex_map ex_map seed g ->
  nth_error confs i = Some c -> In (c_filter c, kp) gr_gs -> given (col 0) kp seed <> [] -> type_of c = BINS ->
  exists bins, batch (fun _ => Znum) gr_val ex_dtypes (col 0) c (given (col 0) kp seed) = Ok (Some (bins, None)) /\ gr_stored g i = Some (map (ex_map c) (rows (table ex_enc (c_agg c) bins))).
Proof.
  intros confs seed g i c kp H Ec Hk Hn Ht. destruct (H i c Ec) as (b & s & Ei & Hb). specialize (Hb kp Hk). apply BatchHoldProofs.holds_batch_as in Hb. unfold BatchHoldProofs.typed_batch in Hb. destruct (given (col 0) kp seed) as [|a l]; [contradiction|].
  destruct Hb as (bins & sn & E & Hb). rewrite Ht in Hb. destruct sn; [destruct Hb|]. exists bins. split; auto. unfold gr_stored. rewrite Ei. cbn. rewrite Hb. auto.
Qed.
Ltac not_gr_batch c F1 F2 := let H0 := fresh in let H := fresh in let bi := fresh in let E := fresh in intro H0; rewrite F2 in H0;
  destruct (gr_batch_stored _ _ _ 0%nat c (fun _ => true) H0 eq_refl (or_introl eq_refl)) as (bi & E & H); [vm_compute; discriminate|reflexivity|]; rewrite F1 in H; vm_compute in E; injection E as <-; vm_compute in H; discriminate.

(** Rows written before the last index are in the dataset, in order, but are not aggregated. *)
Definition gr_T : bconf nat := mkBconf 0 ex_agg (ByTime ex_tg) None false None 100 (Some 2) None None.
Theorem C76_late_rows_refuted : exists ss ds g, (forall s, In s ss -> step_ok 0 2 None s) /\ gr_run ([], gr_start [gr_T]) ss = Ok (ds, g) /\
  sorted_on 0 (all_rows ds) /\ In [3; 7] (all_rows ds) /\ gr_stored g 0 = Some [[0; 7; 4]; [5; 6; 6]] /\
  ~ all_batch (fun _ => Znum) gr_val ex_dtypes (col 0) ex_enc gr_gs [gr_T] ex_map ex_map (all_rows ds) g.
Proof.
  set (ss := [mkStep (mkParams (Some 3) (OrderedOn 0) None None) false (mkFrame 2 (gr_kv [(1,1);(2,2);(4,4);(6,6)])) true true;
              mkStep (mkParams (Some 3) (OrderedOn 0) None None) false (mkFrame 2 (gr_kv [(3,7);(8,8)])) false true]).
  destruct (shown_ok _ _ (fun x : dataset * stream row unit (@segbuf Z) nat => (gr_stored (snd x) 0, all_rows (fst x))) (gr_run ([], gr_start [gr_T]) ss)
    (Some [[0; 7; 4]; [5; 6; 6]], gr_kv [(1,1);(2,2);(3,7);(4,4);(6,6);(8,8)])
    ltac:(vm_cast_no_check (eq_refl (Some (Some [[0; 7; 4]; [5; 6; 6]], gr_kv [(1,1);(2,2);(3,7);(4,4);(6,6);(8,8)]))))) as ([ds g] & E & F).
  cbn [fst snd] in F. apply pair_equal_spec in F as [F1 F2]. exists ss, ds, g. split; [intros s [<-|[<-|[]]]; repeat split|]. split; [exact E|].
  split; [rewrite F2; apply sorted_col, IterProofs.sortedb_iff; reflexivity|]. split; [rewrite F2; simpl; auto|]. split; [exact F1|]. not_gr_batch gr_T F1 F2.
Qed.
Print Assumptions C76_late_rows_refuted.

(** Duplicates in data making the dataset are not dropped at once (see C19_creation_refuted), but by a later step: the first one aggregates them. *)
Theorem C76_duplicates_refuted : exists ss ds g, sorted_on 0 (written ss) /\ (forall s, In s ss -> ordered_on (w_params s) = OrderedOn 0 /\ duplicates_on (w_params s) = Some [0%nat]) /\
  gr_run ([], gr_start [gr_T]) ss = Ok (ds, g) /\ keep_last [0%nat] (written ss) (all_rows ds) /\ gr_stored g 0 = Some [[0; 7; 4]; [5; 7; 7]] /\
  ~ all_batch (fun _ => Znum) gr_val ex_dtypes (col 0) ex_enc gr_gs [gr_T] ex_map ex_map (all_rows ds) g.
Proof.
  set (ss := [mkStep (gr_keyed 4 None) false (mkFrame 2 (gr_kv [(1,1);(1,2);(2,4);(6,6)])) true true;
              mkStep (gr_keyed 4 None) false (mkFrame 2 (gr_kv [(6,7);(8,8)])) false true]).
  destruct (shown_ok _ _ (fun x : dataset * stream row unit (@segbuf Z) nat => (gr_stored (snd x) 0, all_rows (fst x))) (gr_run ([], gr_start [gr_T]) ss)
    (Some [[0; 7; 4]; [5; 7; 7]], gr_kv [(1,2);(2,4);(6,7);(8,8)])
    ltac:(vm_cast_no_check (eq_refl (Some (Some [[0; 7; 4]; [5; 7; 7]], gr_kv [(1,2);(2,4);(6,7);(8,8)]))))) as ([ds g] & E & F).
  cbn [fst snd] in F. apply pair_equal_spec in F as [F1 F2]. exists ss, ds, g. split; [apply sorted_col, IterProofs.sortedb_iff; reflexivity|]. split; [intros s [<-|[<-|[]]]; split; reflexivity|]. split; [exact E|].
  split; [rewrite F2; apply (WrIterProofs.drop_keep_last [0%nat] (written ss))|]. split; [exact F1|]. not_gr_batch gr_T F1 F2.
Qed.
Print Assumptions C76_duplicates_refuted.
