(** Properties of keys with values which are not of the declared types: C79. *)
Require Import String List Arith ZArith Bool Lia.
Require Import Verif.Common Verif.IdxModel Verif.IdxSpec Verif.IdxProofs Verif.IdxStrProofs Verif.RetypeSpec Verif.RetypeProofs.
Require Import Verif.ColModel Verif.ColSpec Verif.ColWriter Verif.PropIdx Verif.PropCol.
Import ListNotations.
Local Open Scope list_scope.

(** The constructor accepts int and str values whatever the declared types. Reading the path or the
    string of such a key gives values of the declared types, or nothing if a text is not that of an int. *)
Theorem C79_read_back : forall c args k,
  plain_sep (c_sep c) = true -> shaped (c_fields c) args -> make_key c args true = Ok k -> ~ empty_then_one args ->
  exists p s, to_path c k = Ok p /\ key_str c k = Ok s
    /\ (forall k', from_str c p = Some k' <-> exists args', k' = VDC args' /\ reads (c_fields c) args args')
    /\ (forall k', from_str c s = Some k' <-> exists args', k' = VDC args' /\ reads (c_fields c) args args')
    /\ unpickle c k = from_str c s.
Proof.
  intros c args k Hp Hk H Hd. apply make_key_ok in H as (-> & _ & V).
  destruct (shaped_strings c args true Hk V) as (p & tp & A1 & _ & A3 & A4).
  destruct (shaped_strings c args false Hk V) as (s & ts & B1 & _ & B3 & B4).
  exists p, s. unfold unpickle, to_path, key_str. rewrite A1, B1. do 2 (split; [reflexivity|]).
  split; [exact (from_str_shaped c args tp p Hp Hk (A4 Hd) A3)|]. split; [exact (from_str_shaped c args ts s Hp Hk (B4 Hd) B3)|]. reflexivity.
Qed.
Print Assumptions C79_read_back.

Definition rt_args : list value := [VInt 33%Z; VStr (lit " 0_20"); VDC [VStr (lit "paris"); VStr (lit "+7")]].
Definition rt_read : list value := [VStr (lit "33"); VInt 20%Z; VDC [VStr (lit "paris"); VInt 7%Z]].
Example ex_C79 : shaped (c_fields ex_cls) rt_args /\ make_key ex_cls rt_args true = Ok (VDC rt_args) /\ ~ empty_then_one rt_args
  /\ reads (c_fields ex_cls) rt_args rt_read /\ to_path ex_cls (VDC rt_args) = Ok (lit "33- 0_20/paris-+7").
Proof.
  assert (L : Forall is_leaf_type [TStr; TInt]) by (repeat (apply Forall_cons; [unfold is_leaf_type; auto|]); apply Forall_nil).
  split. { apply (ShNest [TStr; TInt] [_; _] [TStr; TInt]); try discriminate; auto; [repeat (apply Forall_cons; [exact I|]); apply Forall_nil|].
    apply ShLeaf; try discriminate; auto. repeat (apply Forall_cons; [exact I|]); apply Forall_nil. }
  split; [reflexivity|]. split.
  { intro H0. inversion H0; subst. destruct vs as [|v1 [|v2 [|v3 [|]]]]; try discriminate.
    simpl in H. injection H as E1 E2 E3. subst sub. inversion H1. destruct vs as [|? [|? [|]]]; discriminate. }
  split; [|reflexivity].
  apply (RdNest [TStr; TInt] [_; _] [_; _] [TStr; TInt]); [discriminate| |].
  - apply RCons; [apply (RIntAsStr 33)|]. apply RCons; [apply RStrAsInt; reflexivity|constructor].
  - apply RdLeaf; [discriminate|]. apply RCons; [apply RStr|]. apply RCons; [apply RStrAsInt; reflexivity|constructor].
Qed.

(** What is read is a key of the declared types. *)
Theorem C79_typed : forall c args args', reads (c_fields c) args args' -> key_of (c_fields c) args'.
Proof. intros c args args' H. eapply reads_key; eauto. Qed.
Print Assumptions C79_typed.

(** Hence keys which are given back by their strings are exactly those with values of the declared types
    (but for an empty string as first of two fields in last level). *)
Theorem C79_exact : forall c args k,
  plain_sep (c_sep c) = true -> shaped (c_fields c) args -> make_key c args true = Ok k ->
  (unpickle c k = Some k <-> key_of (c_fields c) args /\ ~ empty_then_one args).
Proof.
  intros c args k Hp Hk M. split.
  - intro U. assert (Hd : ~ empty_then_one args).
    { intro Hd. apply make_key_ok in M as (-> & _ & V). destruct (shaped_strings c args false Hk V) as (s & ts & A & B & C & _).
      unfold unpickle, key_str in U. rewrite A in U. rewrite (shaped_read_none c args s Hp Hk Hd) in U by eauto. discriminate. }
    split; auto. destruct (C79_read_back c args k Hp Hk M Hd) as (p & s & _ & _ & _ & R & E). rewrite E in U. apply R in U as (args' & E' & R').
    apply make_key_ok in M as (-> & _). injection E' as <-. eapply reads_key; eauto.
  - intros [K Hd]. destruct (C01_round_trip c args k Hp K M Hd) as (p & s & _ & _ & _ & _ & U). exact U.
Qed.
Print Assumptions C79_exact.

Example ex_C79_exact : shaped (c_fields ex_cls) rt_args /\ unpickle ex_cls (VDC rt_args) = Some (VDC rt_read)
  /\ unpickle ex_cls (VDC rt_read) = Some (VDC rt_read).
Proof. split; [apply ex_C79|]. split; reflexivity. Qed.

(** Datasets written with such a key are found as another one, or not found, when the store is opened
    again. *)
Definition rt_key (year : value) : value := VDC [VStr (lit "france"); year; VDC [VStr (lit "paris"); VInt 7%Z]].
Definition reopened (k : value) : res (list value * list value) :=
  match step ex_cls ex_base ex_st0 (ex_set k) with
  | (st, None) => let* st' := open_store ex_cls ex_base (disk st) in Ok (ps_iter st, ps_iter st')
  | (_, Some e) => Err e
  end.
Theorem C79_reopened_refuted :
  make_key ex_cls [VStr (lit "france"); VStr (lit "20"); VDC [VStr (lit "paris"); VInt 7%Z]] true = Ok (rt_key (VStr (lit "20")))
  /\ reopened (rt_key (VStr (lit "20"))) = Ok ([rt_key (VStr (lit "20"))], [rt_key (VInt 20%Z)])
  /\ make_key ex_cls [VStr (lit "france"); VStr (lit "mmxx"); VDC [VStr (lit "paris"); VInt 7%Z]] true = Ok (rt_key (VStr (lit "mmxx")))
  /\ reopened (rt_key (VStr (lit "mmxx"))) = Ok ([rt_key (VStr (lit "mmxx"))], []).
Proof. split; [reflexivity|]. split; [vm_compute; reflexivity|]. split; [reflexivity|]. vm_compute. reflexivity. Qed.
Print Assumptions C79_reopened_refuted.
