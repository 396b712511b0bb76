(** Properties of the aggregation of a dataset of the store which grows: nothing is raised. *)
Require Import List Arith ZArith Bool Lia Sorting.Sorted.
Require Import Verif.Common Verif.AggModel Verif.AggSpec Verif.SegModel Verif.SegSpec Verif.CsaModel Verif.CsaSpec Verif.WrModel Verif.WrSpec Verif.StreamModel Verif.StreamSpec
  Verif.KeyModel Verif.BatchSpec Verif.UserKeyModel Verif.UserKeySpec Verif.PropBatch Verif.PropUserKey Verif.GrowSpec Verif.GrowProofs Verif.GrowOkProofs Verif.PropGrow.
Require Verif.IterProofs.
Import ListNotations.
Local Open Scope Z_scope.

(** C76: steps raise nothing when writes are valid, no aggregated value is 0, sizes of row groups are positive, and memory is enough for
    the row groups given between two writings of results: there are not more of them in a step than rows written. *)
Theorem C76_accepted : forall {V P PB} (N : dtype -> num V) val dtypes enc truthy usage
    (pre : option (list row -> P -> list row * P * bool)) fs gs pre0 post0 (confs : list (bconf PB)) m ms c n dup ss w,
  harmless pre -> filters_are fs gs -> sorted_on c (written ss) -> (forall s, In s ss -> step_ok c n dup s /\ write_ok c n dup s) ->
  (forall l, kept c n dup (written ss) l -> stream_ok N val dtypes (col c) enc gs confs m ms l) ->
  (forall i, truthy i = true) -> results_first true ss -> 0 <= w -> (forall f, usage f <= w * Z.of_nat (S (length (rows f)))) ->
  (forall k keep l, In k confs -> In (c_filter k, keep) gs -> kept c n dup (written ss) l ->
     accepted_conf N val dtypes (col c) enc k w (length ss * length (written ss)) (given (col c) keep l)) ->
  exists ds g, grow_all c truthy usage pre fs pre0 segbuf_empty post0 ([], new_stream pre0 segbuf_empty post0 (map (key_of N val dtypes (col c) enc) confs)) ss = Ok (ds, g) /\
    kept c n dup (written ss) (all_rows ds) /\
    (ss <> [] -> w_final (last ss (mkStep (mkParams None Unordered None None) false (mkFrame 0 []) false false)) = true ->
     all_batch N val dtypes (col c) enc gs confs m ms (all_rows ds) g).
Proof.
  intros V P PB N val dtypes enc truthy usage pre fs gs pre0 post0 confs m ms c n dup ss w Hp Hf Hs Hok Hst Hq Hr Hw Hu Ha.
  destruct (grow_new_ok c n dup truthy usage pre fs pre0 (segbuf_empty : @segbuf V) post0 ss Hok Hs) as (rs & ds & R & K & G & M & W & L).
  destruct (C50_accepted N val dtypes (col c) enc truthy usage pre fs gs pre0 post0 confs m ms rs w Hp Hf G) as (g & E & B); auto.
  - rewrite W. auto.
  - eapply results_written; eauto.
  - intros k keep Hk Hkeep. rewrite W. eapply accepted_conf_le; eauto.
  - exists ds, g. split; [rewrite R, E; reflexivity|]. split; auto. intros Hne Hl.
    destruct (last_final rs ss (mkStep (mkParams None Unordered None None) false (mkFrame 0 []) false false) (mkRun false false []) M Hne) as [Hne' Hl'].
    rewrite <- W. apply B; auto. rewrite Hl'. auto.
Qed.
Print Assumptions C76_accepted.

(** The same with keys having any bins. *)
Theorem C76_any_accepted : forall {V B P PB} (N : dtype -> num V) val dtypes enc truthy usage
    (pre : option (list row -> P -> list row * P * bool)) fs gs pre0 post0 (confs : list (@anykey row B PB)) sp m ms c n dup ss w,
  harmless pre -> filters_are fs gs -> sorted_on c (written ss) -> (forall s, In s ss -> step_ok c n dup s /\ write_ok c n dup s) ->
  (forall l, kept c n dup (written ss) l -> any_stream_ok N val dtypes (col c) enc sp m ms gs confs l) ->
  (forall i, truthy i = true) -> results_first true ss -> 0 <= w -> (forall f, usage f <= w * Z.of_nat (S (length (rows f)))) ->
  (forall k keep l, In k confs -> In (any_filter k, keep) gs -> kept c n dup (written ss) l ->
     any_accepted N val dtypes (col c) enc k w (length ss * length (written ss)) (given (col c) keep l)) ->
  exists ds g, grow_all c truthy usage pre fs pre0 anybuf_empty post0 ([], new_stream pre0 anybuf_empty post0 (map (any_key N val dtypes (col c) enc) confs)) ss = Ok (ds, g) /\
    kept c n dup (written ss) (all_rows ds) /\
    (ss <> [] -> w_final (last ss (mkStep (mkParams None Unordered None None) false (mkFrame 0 []) false false)) = true ->
     any_batch N val dtypes (col c) enc m ms gs confs (all_rows ds) g).
Proof.
  intros V B P PB N val dtypes enc truthy usage pre fs gs pre0 post0 confs sp m ms c n dup ss w Hp Hf Hs Hok Hst Hq Hr Hw Hu Ha.
  destruct (grow_new_ok c n dup truthy usage pre fs pre0 (anybuf_empty : @anybuf V B) post0 ss Hok Hs) as (rs & ds & R & K & G & M & W & L).
  destruct (C68_accepted N val dtypes (col c) enc truthy usage pre fs gs pre0 post0 confs sp m ms rs w Hp Hf G) as (g & E & Ba); auto.
  - rewrite W. auto.
  - eapply results_written; eauto.
  - intros k keep Hk Hkeep. rewrite W. eapply accepted_le; eauto.
  - exists ds, g. split; [rewrite R, E; reflexivity|]. split; auto. intros Hne Hl.
    destruct (last_final rs ss (mkStep (mkParams None Unordered None None) false (mkFrame 0 []) false false) (mkRun false false []) M Hne) as [Hne' Hl'].
    rewrite <- W. apply Ba; auto. rewrite Hl'. auto.
Qed.
Print Assumptions C76_any_accepted.

(** Three steps, the last row being replaced by the second one; a new instance is used in the third one. *)
Definition go_A : bconf nat := mkBconf 0 ex_agg (ByTime ex_tg) None false (Some ex_post) 200 (Some 2) None None.
Definition go_B : bconf nat := mkBconf 1 ex_agg (ByTime ex_tg) (Some ex_snap) true None 900 (Some 2) (Some 3) None.
Definition go_steps : list gstep :=
  [mkStep (gr_keyed 2 None) false (mkFrame 2 (gr_kv [(1,1);(2,2);(3,4)])) true false;
   mkStep (gr_keyed 3 None) false (mkFrame 2 (gr_kv [(3,5);(4,5);(5,6);(8,7)])) false true;
   mkStep (gr_keyed 3 None) true (mkFrame 2 (gr_kv [(9,9);(11,10);(12,11);(20,12);(21,1)])) true true].
Lemma keep_last_det : forall cols l a b, keep_last cols l a -> keep_last cols l b -> a = b.
Proof.
  intros cols l a b H. revert b. induction H as [|r l out s Hs Hk H IH|r l out Hn H IH]; intros b Hb; inversion Hb; subst; auto.
  - exfalso. match goal with Q : forall s, In s l -> ~ same_key cols r s |- _ => exact (Q s Hs Hk) end.
  - exfalso. match goal with Q : same_key cols r ?s', I : In ?s' l |- _ => exact (Hn s' I Q) end.
  - f_equal. auto.
Qed.
Lemma keep_last_model : forall cols l, keep_last cols l (drop_duplicates cols l).
Proof.
  intros cols. induction l as [|r l IH]; simpl; [constructor|]. destruct (existsb (same_on cols r) l) eqn:E.
  - apply existsb_exists in E as (s & Hs & E). apply WrIterProofs.same_on_iff in E. econstructor; eauto.
  - constructor; auto. intros s Hs Q. apply WrIterProofs.same_on_iff in Q. apply not_true_iff_false in E. apply E. apply existsb_exists. eauto.
Qed.
Lemma gr_never_zero : forall (c : bconf nat) l, c_agg c = ex_agg -> (forall r, In r l -> 0 < col 1 r) -> never_zero (fun _ => Znum) gr_val ex_dtypes c l.
Proof.
  intros c l Ec H. assert (P : forall l0, incl l0 l -> Forall (fun v => 0 < v) (map (fun r => gr_val r 1%nat) l0)).
  { intros l0 Hl. apply Forall_forall. intros v Hv. apply in_map_iff in Hv as (r & <- & Hr). apply H. auto. }
  assert (F : forall f, f = Z.add \/ f = (fun a b => if a <? b then b else a) -> forall t x, 0 < x -> Forall (fun v => 0 < v) t -> 0 < fold_left f t x).
  { intros f Hf. induction t as [|y t IH]; intros x Hx Ht; [auto|]. cbn [fold_left]. apply Forall_cons_iff in Ht as [Hy Ht]. apply IH; auto. destruct Hf as [->| ->]; [lia|destruct (x <? y); auto]. }
  intros o i f d l0 v Hin Hd Hl Hv. rewrite Ec in Hin. unfold agg_of in Hv.
  destruct Hin as [Hin|[Hin|[]]]; injection Hin as <- <- <-; specialize (P l0 Hl); destruct (map (fun r => gr_val r 1%nat) l0) as [|x t]; try discriminate;
    apply Forall_cons_iff in P as [Px Pt]; cbn [spec_agg] in Hv; injection Hv as <-; cbn [is0 Znum]; apply Z.eqb_neq; intro Q; symmetry in Q; revert Q; apply Z.neq_sym, Z.lt_neq;
    (apply F; [cbn; auto|exact Px|exact Pt]).
Qed.
Example ex_C76_accepted : exists ds g, gr_run ([], gr_start [go_A; go_B]) go_steps = Ok (ds, g) /\
  all_rows ds = gr_kv [(1,1);(2,2);(3,5);(4,5);(5,6);(8,7);(9,9);(11,10);(12,11);(20,12);(21,1)] /\
  all_batch (fun _ => Znum) gr_val ex_dtypes (col 0) ex_enc gr_gs [go_A; go_B] ex_map ex_map (all_rows ds) g.
Proof.
  assert (Kd : forall l, kept 0 2 (Some [0%nat]) (written go_steps) l -> l = gr_kv [(1,1);(2,2);(3,5);(4,5);(5,6);(8,7);(9,9);(11,10);(12,11);(20,12);(21,1)]).
  { intros l Hl. apply (keep_last_det _ _ _ _ Hl). exact (keep_last_model [0%nat] (written go_steps)). }
  destruct (C76_accepted (fun _ => Znum) gr_val ex_dtypes ex_enc (fun _ => true) (fun f => Z.of_nat (length (rows f))) (None : option (list row -> unit -> list row * unit * bool))
    gr_fs gr_gs tt 0%nat [go_A; go_B] ex_map ex_map 0 2 (Some [0%nat]) go_steps 1) as (ds & g & E & K & Bt).
  - exact I.
  - apply gr_filters_are.
  - apply sorted_col, IterProofs.sortedb_iff. reflexivity.
  - intros s [<-|[<-|[<-|[]]]]; (split; [split; [reflexivity|split; [reflexivity|split; [reflexivity|split; [apply distinctb; reflexivity|auto]]]]|]);
      (split; [discriminate|split; [reflexivity|split; [reflexivity|split; [lia|repeat constructor]]]]).
  - intros l Hl c Hc. split; [destruct Hc as [<-|[<-|[]]]; [apply (ex_conf_ok ex_A); left; reflexivity|apply (ex_conf_ok ex_B); right; left; reflexivity]|].
    split; [destruct Hc as [<-|[<-|[]]]; [apply (gr_mok ex_A); left; reflexivity|apply (gr_mok ex_B); right; left; reflexivity]|].
    destruct Hc as [<-|[<-|[]]]; eexists; (split; [first [left; reflexivity|right; left; reflexivity]|]); exact I.
  - reflexivity.
  - cbn. repeat split; auto; discriminate.
  - lia.
  - intro f. lia.
  - intros c keep l Hc Hk Hl. apply Kd in Hl. subst l. assert (Ha : c_agg c = ex_agg) by (destruct Hc as [<-|[<-|[]]]; reflexivity). split; [|split; [|split; [|split; [|split]]]].
    + destruct Hc as [<-|[<-|[]]]; reflexivity.
    + destruct Hc as [<-|[<-|[]]]; intros z H; injection H as <-; lia.
    + destruct Hc as [<-|[<-|[]]]; intros z H; [discriminate|injection H as <-; lia].
    + destruct Hc as [<-|[<-|[]]]; [|exact I]. intros pb f sn. eexists. eexists. split; [reflexivity|]. cbn. lia.
    + apply gr_never_zero; auto. intros r Hr. apply filter_In in Hr as [Hr _]. apply Z.ltb_lt. revert r Hr. apply forallb_forall. vm_compute. reflexivity.
    + assert (Hk' : keep = (fun _ => true) \/ keep = gr_even) by (destruct Hk as [Hk|[Hk|[]]]; injection Hk as _ <-; auto).
      unfold enough_memory. destruct Hc as [<-|[<-|[]]]; destruct Hk' as [-> | ->]; vm_compute; discriminate.
  - exists ds, g. split; [exact E|]. split; [apply Kd; exact K|]. apply Bt; [discriminate|reflexivity].
Qed.
