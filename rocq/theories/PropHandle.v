(** C67: handles kept while datasets are changed. *)
Require Import String List Arith ZArith Bool Lia.
Require Import Verif.Common Verif.MetaModel Verif.WrModel Verif.WrSpec Verif.CrashModel Verif.PropCrash Verif.RouterModel Verif.HandleModel.
Import ListNotations.
Local Open Scope list_scope.

(** * Specification *)
(** Uses which keep the file open. *)
Definition keeps_open (u : use) : bool := match u with UsePf | UseMetadata | UseOups => true | UsePdf | UseMinMax _ => false end.
Definition readable (s : store) : bool := match open_file s with Ok _ => true | Err _ => false end.
(** Store at the time the handle has been first used by one of these, and could be read. *)
Fixpoint first_seen (s : store) (l : list event) : option store :=
  match l with
  | [] => None
  | Change s' :: l => first_seen s' l
  | Use u :: l => if keeps_open u && readable s then Some s else first_seen s l
  end.
(** Store in the end. *)
Fixpoint present (s : store) (l : list event) : store :=
  match l with [] => s | Change s' :: l => present s' l | Use _ :: l => present s l end.

(** * Proofs *)
Lemma same_rows_refl : forall l, same_rows l l = true.
Proof. induction l as [|r l IH]; auto. simpl. destruct (list_eq_dec Z.eq_dec r r); [auto|congruence]. Qed.
Lemma same_rows_eq : forall a b, same_rows a b = true -> a = b.
Proof.
  induction a as [|r a IH]; intros [|s b] H; try discriminate; auto. simpl in H. destruct (list_eq_dec Z.eq_dec r s) as [->|N]; [|discriminate]. f_equal. auto.
Qed.
Lemma read_groups_described : forall d ds, described d ds -> read_groups d ds = Ok (all_rows ds).
Proof.
  intros d ds. induction ds as [|g ds IH]; intro H; auto. cbn [read_groups]. rewrite (H g) by (simpl; auto). rewrite same_rows_refl, IH; auto.
  intros g' Hg. apply H. simpl. auto.
Qed.
Lemma read_groups_only : forall d ds l, read_groups d ds = Ok l -> l = all_rows ds.
Proof.
  intros d ds. induction ds as [|g ds IH]; intros l H; [injection H as <-; auto|]. cbn [read_groups] in H. destruct (files d (Part (part g))) as [[|r]|]; try discriminate.
  destruct (same_rows r (content g)); [|discriminate]. destruct (read_groups d ds) as [r'|] eqn:E; [|discriminate]. injection H as <-. rewrite (IH r'); auto.
Qed.
Definition opened (s : store) : handle := match open_file s with Ok f => Some f | Err _ => None end.
Lemma after_state : forall l s, after s None l = (present s l, match first_seen s l with Some s' => opened s' | None => None end)
  /\ forall s' f, open_file s' = Ok f -> after s (Some f) l = (present s l, Some f).
Proof.
  intro l. induction l as [|[s'|u] l IH]; intro s; [split; auto| |].
  - cbn [after present first_seen]. split; [apply IH|]. intros s2 f H. destruct (IH s') as [_ A]. eauto.
  - cbn [after present first_seen]. unfold readable. destruct (IH s) as [A B].
    assert (K : snd (ask s None u) = if keeps_open u then opened s else None).
    { unfold opened. destruct u; cbn [ask keeps_open]; auto; unfold pf; destruct (open_file s); auto. }
    assert (K' : forall f, snd (ask s (Some f) u) = Some f) by (intro f; destruct u; reflexivity).
    split.
    + rewrite K. destruct (keeps_open u); cbn [andb]; [|exact A]. unfold opened at 1. destruct (open_file s) as [f|e] eqn:E; [|exact A].
      rewrite (B s f E). unfold opened. rewrite E. auto.
    + intros s' f H. rewrite K'. eauto.
Qed.

(** * C67 *)
(** Answers of a handle after any events: rows ([pdf]) and extreme values are those of the dataset at present; metadata is
    that of the dataset when the handle has been first used for it, or through [pf]. *)
Theorem C67_answers : forall s l u, let '(s', h) := after s new_handle l in
  s' = present s l /\
  fst (ask s' h u) =
    match u with
    | UsePdf | UseMinMax _ => fst (ask (present s l) new_handle u)
    | UseMetadata | UseOups => fst (ask (match first_seen s l with Some first => first | None => present s l end) new_handle u)
    | UsePf => match open_file (match first_seen s l with Some first => first | None => present s l end) with
               | Ok f => rows_of (present s l) f
               | Err e => Err e
               end
    end.
Proof.
  intros s l u. destruct (after_state l s) as [A _]. unfold new_handle. rewrite A. split; auto.
  assert (F : forall s', first_seen s l = Some s' -> exists f, open_file s' = Ok f).
  { clear. revert s. induction l as [|[s2|u] l IH]; intros s s' H; [discriminate|eauto|]. cbn [first_seen] in H. unfold readable in H.
    destruct (open_file s) as [f|e] eqn:E; destruct (keeps_open u); cbn [andb] in H; eauto. injection H as <-. eauto. }
  destruct (first_seen s l) as [s'|] eqn:E.
  - destruct (F s' eq_refl) as [f Ef]. unfold opened. rewrite Ef. destruct u; cbn [ask fst pf]; unfold pf; rewrite ?Ef; auto.
  - destruct u; cbn [ask fst]; auto. unfold pf. destruct (open_file (present s l)); auto.
Qed.
Print Assumptions C67_answers.
(** A new handle is up to date, whatever has been done before with others. *)
Theorem C67_new_handle : forall s ds, stored (s_disk s) ds ->
  fst (ask s new_handle UsePdf) = Ok (ARows (all_rows ds)) /\ fst (ask s new_handle UsePf) = Ok (ARows (all_rows ds)) /\
  fst (ask s new_handle UseMetadata) = Ok (AMetadata (s_kv s)).
Proof.
  intros s ds [[M D] _]. unfold ask, pf, new_handle, open_file. rewrite M. cbn [bind fst]. unfold rows_of. cbn [pf_groups pf_kv]. rewrite (read_groups_described _ _ D). auto.
Qed.
Print Assumptions C67_new_handle.
(** Rows given through [pf] are never a mix of old and new ones: rows of the dataset as first seen, or an error. *)
Theorem C67_no_mix : forall s l rows, let '(s', h) := after s new_handle l in
  fst (ask s' h UsePf) = Ok (ARows rows) ->
  exists ds, meta (s_disk (match first_seen s l with Some first => first | None => present s l end)) = Meta ds /\ rows = all_rows ds.
Proof.
  intros s l rows. pose proof (C67_answers s l UsePf) as A. destruct (after s new_handle l) as [s' h]. destruct A as [_ ->]. intro H.
  unfold open_file in H. destruct (meta (s_disk match first_seen s l with Some first => first | None => present s l end)) as [| |ds]; try discriminate.
  exists ds. split; auto. unfold rows_of in H. cbn [pf_groups] in H. destruct (read_groups (s_disk (present s l)) ds) as [r|] eqn:E; [|discriminate]. injection H as <-.
  eapply read_groups_only; eauto.
Qed.
Print Assumptions C67_no_mix.

(** Successive writes which only add row groups. *)
Inductive appends (d : disk) (ds : dataset) : disk -> dataset -> Prop :=
| AppNone : appends d ds d ds
| AppWrite d1 ds1 p v data acts d2 ds2 : appends d ds d1 ds1 -> write p v ds1 data = Ok ds2 -> only_adds p ds1 data ->
    write_trace p v ds1 data = Ok acts -> exec d1 acts = Some d2 -> appends d ds d2 ds2.
(** A handle opened before writes which only add row groups still gives the rows it gave. *)
Theorem C67_snapshot : forall d kv ds d' kv' ds', stored d ds -> distinct_parts ds -> appends d ds d' ds' ->
  let h := snd (ask (mkStore d kv) new_handle UsePf) in
  fst (ask (mkStore d' kv') h UsePf) = Ok (ARows (all_rows ds)) /\ fst (ask (mkStore d' kv') h UsePdf) = Ok (ARows (all_rows ds')).
Proof.
  intros d kv ds d' kv' ds' Hs Hd Ha. cbv zeta.
  assert (G : stored d' ds' /\ distinct_parts ds' /\ exists new, ds' = ds ++ new).
  { induction Ha as [|d1 ds1 p v data acts d2 ds2 Ha (S1 & D1 & new & ->) W O T X]; [split; auto; split; auto; exists []; rewrite app_nil_r; auto|].
    destruct (C26_complete p v (ds ++ new) data ds2 d1 W D1 (or_introl S1)) as (acts' & d2' & T' & X' & S2 & D2). assert (acts' = acts) by congruence. subst acts'. assert (d2' = d2) by congruence. subst d2'.
    split; auto. split; auto. destruct (trace_of_write _ _ _ _ _ W) as (ac & _ & _ & A). destruct (A O) as (new2 & Enew & _). exists (new ++ new2). rewrite app_assoc. auto. }
  destruct G as (S' & _ & new & E). destruct Hs as [[M D] _]. destruct S' as [[M' D'] _]. unfold ask, pf, new_handle, open_file. cbn [s_disk s_kv]. rewrite M. cbn [snd fst bind]. rewrite M'. cbn [bind].
  unfold rows_of. cbn [pf_groups s_disk]. rewrite (read_groups_described _ _ D'), (read_groups_described d' ds); [auto|]. intros g Hg. apply D'. rewrite E. apply in_or_app. auto.
Qed.
Print Assumptions C67_snapshot.

(** Metadata and rows of one handle may not be of the same state of the dataset. *)
Theorem C67_stale_refuted : exists s s' h, h = snd (ask s new_handle UseMetadata) /\
  fst (ask s' h UsePdf) = Ok (ARows [[1; 0]; [2; 0]]%Z) /\ fst (ask s' h UseOups) = Ok (AOups (Some [("n", JTrue 1)]%string)) /\
  fst (ask s' new_handle UseOups) = Ok (AOups (Some [("n", JTrue 2)]%string)).
Proof.
  exists (mkStore (disk_of [mkRg 0 [[1; 0]]%Z]) [("oups", Oups [("n", JTrue 1)])]%string),
    (mkStore (disk_of [mkRg 0 [[1; 0]]%Z; mkRg 1 [[2; 0]]%Z]) [("oups", Oups [("n", JTrue 2)])]%string). eexists. repeat split.
Qed.
Print Assumptions C67_stale_refuted.
(** After data is inserted in row groups, a 'ParquetFile' opened before cannot be read. *)
Theorem C67_updated_refuted : exists p data ds' acts d d' h, write p false two_groups data = Ok ds' /\ write_trace p false two_groups data = Ok acts /\
  d = disk_of two_groups /\ exec d acts = Some d' /\ h = snd (ask (mkStore d []) new_handle UsePf) /\
  fst (ask (mkStore d' []) h UsePf) = Err OSError /\ exists l, fst (ask (mkStore d' []) h UsePdf) = Ok (ARows l).
Proof.
  set (acts := match write_trace plain false two_groups inserted with Ok a => a | Err _ => [] end).
  set (ds' := match write plain false two_groups inserted with Ok a => a | Err _ => [] end).
  set (d' := match exec (disk_of two_groups) acts with Some x => x | None => disk_of [] end).
  exists plain, inserted, ds', acts, (disk_of two_groups), d', (snd (ask (mkStore (disk_of two_groups) []) new_handle UsePf)).
  split; [vm_compute; reflexivity|]. split; [vm_compute; reflexivity|]. split; [reflexivity|]. split.
  - assert (E : match exec (disk_of two_groups) acts with Some _ => true | None => false end = true) by (vm_compute; reflexivity).
    unfold d'. destruct (exec (disk_of two_groups) acts); [reflexivity|discriminate].
  - split; [reflexivity|]. split; [vm_compute; reflexivity|]. exists (all_rows ds'). vm_compute. reflexivity.
Qed.
Print Assumptions C67_updated_refuted.
(** An append met by C67_snapshot. *)
Example ex_C67 : exists ds' d', appends (disk_of two_groups) two_groups d' ds' /\ length ds' = 4%nat /\ stored (disk_of two_groups) two_groups /\ distinct_parts two_groups.
Proof.
  destruct ex_C26_append as (ds' & acts & W & T & A & _). destruct ex_stored as [S D].
  destruct (C26_complete _ _ _ _ _ _ W D (or_introl S)) as (acts' & d' & T' & X & _). assert (acts' = acts) by congruence. subst acts'.
  exists ds', d'. split; [eapply AppWrite; [apply AppNone|eauto..]|]. split; [injection W as <-; reflexivity|]. auto.
Qed.
