(** Properties of metadata: merge (C24), isolation of keys (C25). *)
Require Import String List ZArith Bool Lia.
Require Import Verif.Common Verif.MetaModel.
Import ListNotations.
Local Open Scope list_scope.

(** * Specification *)
Definition names {V} (d : dict V) : list string := map fst d.
(** A Python dictionary has each name once. *)
Definition is_dict {V} (d : dict V) : Prop := NoDup (names d).

(** Oups metadata of a key after a history, from operations on this key only: metadata waiting to be
    written, metadata written. *)
Fixpoint own (k : nat) (h : list op) (pending written : option (dict json)) : option (dict json) * option (dict json) :=
  match h with
  | [] => (pending, written)
  | Register k' d :: h => own k h (if Nat.eqb k k' then Some d else pending) written
  | Delete k' :: h => own k h pending (if Nat.eqb k k' then None else written)
  | Write k' _ :: h =>
      if Nat.eqb k k' then
        match pending with
        | None => own k h None written
        | Some new => own k h None (Some match written with None => new | Some old => merge_oups old new end)
        end
      else own k h pending written
  end.
(** Dictionaries given by the caller are not shared, and do not have the name kept for oups. *)
Definition fresh (o : op) : Prop :=
  match o with
  | Write _ (MdFresh d) => ~ In OUPS_METADATA_KEY (names d)
  | Write _ (MdVar _) => False
  | _ => True
  end.
(** Operations on a key. *)
Definition about (k : nat) (o : op) : bool := match o with Register k' _ | Write k' _ | Delete k' => Nat.eqb k k' end.

(** * Proofs *)
Lemma get_set : forall {V} k k' (v : V) d, get k (set k' v d) = if String.eqb k k' then Some v else get k d.
Proof.
  intros V k k' v d. induction d as [|[x w] d IH]; simpl; auto. destruct (String.eqb_spec k' x) as [->|N]; simpl.
  - destruct (String.eqb k x); auto.
  - rewrite IH. destruct (String.eqb_spec k x) as [->|N']; auto. destruct (String.eqb_spec x k') as [->|N2]; auto. congruence.
Qed.
Lemma get_none : forall {V} k (d : dict V), get k d = None <-> ~ In k (names d).
Proof.
  intros V k d. induction d as [|[x w] d IH]; simpl; [tauto|]. destruct (String.eqb_spec k x) as [->|N]; [split; [discriminate|tauto]|].
  rewrite IH. intuition.
Qed.
Lemma get_del : forall {V} k k' (d : dict V), is_dict d -> get k (del k' d) = if String.eqb k k' then None else get k d.
Proof.
  intros V k k' d H. induction d as [|[x w] d IH]; simpl; [destruct (String.eqb k k'); auto|]. inversion H as [|? ? H1 H2]; subst.
  destruct (String.eqb_spec k' x) as [->|N]; simpl.
  - destruct (String.eqb_spec k x) as [->|N']; auto. apply get_none. auto.
  - rewrite IH by auto. destruct (String.eqb_spec k x) as [->|N']; auto. destruct (String.eqb_spec x k') as [->|N2]; auto. congruence.
Qed.
Lemma names_set : forall {V} k (v : V) d x, In x (names (set k v d)) -> x = k \/ In x (names d).
Proof.
  intros V k v d x. induction d as [|[y w] d IH]; simpl; [intuition|]. destruct (String.eqb_spec k y) as [->|N]; simpl; intuition.
Qed.
Lemma set_dict : forall {V} k (v : V) d, is_dict d -> is_dict (set k v d).
Proof.
  intros V k v d H. induction d as [|[y w] d IH]; simpl; [repeat constructor; auto|]. inversion H as [|? ? H1 H2]; subst.
  destruct (String.eqb_spec k y) as [->|N]; [constructor; auto|]. constructor; [|apply IH; auto]. intro Q. apply names_set in Q as [Q|Q]; auto.
Qed.
Lemma del_dict : forall {V} k (d : dict V), is_dict d -> is_dict (del k d).
Proof.
  intros V k d H. induction d as [|[y w] d IH]; simpl; auto. inversion H as [|? ? H1 H2]; subst. destruct (String.eqb k y); auto.
  constructor; [|apply IH; auto]. intro Q. apply H1. clear -Q. induction d as [|[z u] d IH]; simpl in *; auto. destruct (String.eqb k z); simpl in *; intuition.
Qed.

Definition merged_value (old : option json) (new : option json) : option json :=
  match new with
  | None => old
  | Some JNone => None
  | Some (JTrue v) => Some (JTrue v)
  | Some (JFalse v) => match old with Some _ => Some (JFalse v) | None => None end
  end.
Lemma merge_item_dict : forall d i, is_dict d -> is_dict (merge_item d i).
Proof.
  intros d [k v] H. unfold merge_item. destruct (get k d); destruct v; auto using set_dict, del_dict.
Qed.
Lemma merge_item_get : forall d k v x, is_dict d -> get x (merge_item d (k, v)) = if String.eqb x k then merged_value (get x d) (Some v) else get x d.
Proof.
  intros d k v x H. unfold merge_item, merged_value. destruct (get k d) as [o|] eqn:E; destruct v; rewrite ?get_set, ?get_del by auto;
    destruct (String.eqb_spec x k) as [->|N]; auto; rewrite E; auto.
Qed.
Lemma merge_get : forall new old x, is_dict old -> is_dict new -> is_dict (merge_oups old new) /\ get x (merge_oups old new) = merged_value (get x old) (get x new).
Proof.
  unfold merge_oups. intros new. induction new as [|[k v] new IH]; intros old x Ho Hn; [simpl; auto|]. inversion Hn as [|? ? H1 H2]; subst.
  cbn [fold_left]. destruct (IH (merge_item old (k, v)) x (merge_item_dict _ _ Ho) H2) as [A B]. split; auto. rewrite B, merge_item_get by auto. cbn [get].
  destruct (String.eqb_spec x k) as [->|N]; auto. apply get_none in H1. rewrite H1. auto.
Qed.

Lemma update_get : forall md kv x, is_dict kv -> is_dict md -> is_dict (update_custom_metadata kv md) /\
  get x (update_custom_metadata kv md) = match get x md with Some o => o | None => get x kv end.
Proof.
  unfold update_custom_metadata. intros md. induction md as [|[k v] md IH]; intros kv x Hk Hm; [simpl; auto|]. inversion Hm as [|? ? H1 H2]; subst.
  cbn [fold_left]. assert (Hd : is_dict (update_item kv (k, v))) by (unfold update_item; destruct v; auto using set_dict, del_dict).
  destruct (IH (update_item kv (k, v)) x Hd H2) as [A B]. split; auto. rewrite B. cbn [get]. destruct (String.eqb_spec x k) as [->|N].
  - apply get_none in H1. rewrite H1. unfold update_item. destruct v; rewrite ?get_set, ?get_del, String.eqb_refl by auto; auto.
  - destruct (get x md); auto. unfold update_item. assert (E : String.eqb x k = false) by (apply String.eqb_neq; auto). destruct v; rewrite ?get_set, ?get_del, E by auto; auto.
Qed.

(** Metadata other than that of oups; oups metadata. *)
Lemma write_metadata_spec : forall kv pending md kv' pending' md', is_dict kv -> match md with Some d => is_dict d | None => True end ->
  write_metadata kv pending md = Ok (kv', pending', md') ->
  pending' = None /\ is_dict kv' /\
  (forall x, x <> OUPS_METADATA_KEY -> get x kv' = match md with None => get x kv | Some d => match get x d with Some o => o | None => get x kv end end) /\
  match pending with
  | None => md' = md /\ get OUPS_METADATA_KEY kv' = match md with None => get OUPS_METADATA_KEY kv | Some d => match get OUPS_METADATA_KEY d with Some o => o | None => get OUPS_METADATA_KEY kv end end
  | Some new => get OUPS_METADATA_KEY kv' = Some (Oups (match get OUPS_METADATA_KEY kv with Some (Oups old) => merge_oups old new | _ => new end))
      /\ (forall v, get OUPS_METADATA_KEY kv <> Some (Text v))
  end.
Proof.
  intros kv pending md kv' pending' md' Hkv Hmd H. unfold write_metadata in H. destruct pending as [new|].
  - remember (match get OUPS_METADATA_KEY kv with Some (Oups existing) => Ok (merge_oups existing new) | Some (Text _) => Err ValueError | None => Ok new end) as m eqn:Em.
    destruct m as [merged|]; cbn [bind] in H; [|discriminate]. cbv zeta in H.
    assert (Hm : merged = match get OUPS_METADATA_KEY kv with Some (Oups old) => merge_oups old new | _ => new end /\ forall v, get OUPS_METADATA_KEY kv <> Some (Text v)).
    { destruct (get OUPS_METADATA_KEY kv) as [[t|old]|]; [discriminate| |]; split; congruence. }
    destruct Hm as [<- Ht].
    assert (G : forall dd, is_dict dd -> get OUPS_METADATA_KEY dd = Some (Some (Oups merged)) -> (forall x, x <> OUPS_METADATA_KEY -> get x dd = match md with None => None | Some d => get x d end) -> kv' = update_custom_metadata kv dd ->
       is_dict kv' /\ (forall x, x <> OUPS_METADATA_KEY -> get x kv' = match md with None => get x kv | Some d => match get x d with Some o => o | None => get x kv end end) /\ get OUPS_METADATA_KEY kv' = Some (Oups merged)).
    { intros dd Hdd E1 E2 ->. split; [apply (update_get dd kv "x"%string); auto|]. split.
      - intros x Hx. destruct (update_get dd kv x Hkv Hdd) as [_ ->]. rewrite (E2 x Hx). destruct md; auto.
      - destruct (update_get dd kv OUPS_METADATA_KEY Hkv Hdd) as [_ ->]. rewrite E1. auto. }
    assert (Single : is_dict [(OUPS_METADATA_KEY, Some (Oups merged))] /\ get OUPS_METADATA_KEY [(OUPS_METADATA_KEY, Some (Oups merged))] = Some (Some (Oups merged)) /\ forall x, x <> OUPS_METADATA_KEY -> get x [(OUPS_METADATA_KEY, Some (Oups merged))] = None).
    { split; [repeat constructor; simpl; auto|]. split; [reflexivity|]. intros x Hx. cbn [get]. apply String.eqb_neq in Hx. rewrite Hx. auto. }
    destruct Single as (S1 & S2 & S3).
    destruct md as [[|i d]|].
    + injection H as <- <- _. destruct (G _ S1 S2 S3 eq_refl) as (A & B & C). auto.
    + injection H as E1 <- _. destruct (G (set OUPS_METADATA_KEY (Some (Oups merged)) (i :: d))) as (A & B & C); auto.
      * apply set_dict. auto.
      * rewrite get_set, String.eqb_refl. auto.
      * intros x Hx. rewrite get_set. apply String.eqb_neq in Hx. rewrite Hx. auto.
    + injection H as <- <- _. destruct (G _ S1 S2 S3 eq_refl) as (A & B & C). auto.
  - injection H as <- <- <-. split; auto. destruct md as [d|].
    + split; [apply (update_get d kv "x"%string); auto|]. split; [intros x _; apply update_get; auto|]. split; auto. apply update_get; auto.
    + auto.
Qed.

(** * C24 *)
(** User defined metadata. *)
Theorem C24_custom : forall kv pending md kv' pending' md' x, is_dict kv -> is_dict md -> write_metadata kv pending (Some md) = Ok (kv', pending', md') -> x <> OUPS_METADATA_KEY ->
  (forall v, get x md = Some (Some v) -> get x kv' = Some v) /\ (get x md = Some None -> get x kv' = None) /\ (get x md = None -> get x kv' = get x kv).
Proof.
  intros kv pending md kv' pending' md' x Hk Hm H Hx. destruct (write_metadata_spec kv pending (Some md) kv' pending' md' Hk Hm H) as (_ & _ & S & _). specialize (S x Hx). cbn in S.
  split; [|split]; intros; rewrite S; destruct (get x md); congruence.
Qed.
Print Assumptions C24_custom.
(** Oups metadata, on a dataset having some. *)
Theorem C24_oups : forall kv old new md kv' pending' md', is_dict kv -> is_dict old -> is_dict new -> match md with Some d => is_dict d | None => True end ->
  get OUPS_METADATA_KEY kv = Some (Oups old) -> write_metadata kv (Some new) md = Ok (kv', pending', md') ->
  exists d, get OUPS_METADATA_KEY kv' = Some (Oups d) /\ forall x,
    (get x new = None -> get x d = get x old) /\
    (get x new = Some JNone -> get x d = None) /\
    (forall v, get x new = Some v -> v <> JNone -> get x old <> None \/ (exists z, v = JTrue z) -> get x d = Some v).
Proof.
  intros kv old new md kv' pending' md' Hk Ho Hn Hm E H. destruct (write_metadata_spec _ _ _ _ _ _ Hk Hm H) as (_ & _ & _ & S & _). rewrite E in S.
  exists (merge_oups old new). split; auto. intro x. destruct (merge_get new old x Ho Hn) as [_ ->]. unfold merged_value. split; [|split].
  - intros ->. auto.
  - intros ->. auto.
  - intros v -> Hv Hc. destruct v; auto; [congruence|]. destruct (get x old); auto. destruct Hc as [Hc|(z & Hc)]; congruence.
Qed.
Print Assumptions C24_oups.
(** On a dataset without oups metadata, all is stored. *)
Theorem C24_first : forall kv new md kv' pending' md', is_dict kv -> match md with Some d => is_dict d | None => True end ->
  get OUPS_METADATA_KEY kv = None -> write_metadata kv (Some new) md = Ok (kv', pending', md') -> get OUPS_METADATA_KEY kv' = Some (Oups new) /\ pending' = None.
Proof. intros kv new md kv' pending' md' Hk Hm E H. destruct (write_metadata_spec _ _ _ _ _ _ Hk Hm H) as (P & _ & _ & S & _). rewrite E in S. auto. Qed.
Print Assumptions C24_first.
(** No oups metadata waiting: that of the dataset is kept. *)
Theorem C24_kept : forall kv md kv' pending' md', is_dict kv -> match md with Some d => is_dict d /\ get OUPS_METADATA_KEY d = None | None => True end ->
  write_metadata kv None md = Ok (kv', pending', md') -> get OUPS_METADATA_KEY kv' = get OUPS_METADATA_KEY kv.
Proof.
  intros kv md kv' pending' md' Hk Hm H. destruct (write_metadata_spec kv None md kv' pending' md' Hk ltac:(destruct md; [apply Hm|auto]) H) as (_ & _ & _ & _ & S).
  destruct md as [d|]; auto. destruct Hm as [_ Hm]. rewrite Hm in S. auto.
Qed.
Print Assumptions C24_kept.
Example ex_C24 : write_metadata [("oups", Oups [("a", JTrue 1); ("b", JTrue 2); ("c", JTrue 3)]); ("x", Text 1)]%string (Some [("a", JNone); ("b", JFalse 0); ("d", JTrue 4)]%string) (Some [("x", None); ("y", Some (Text 2))]%string)
  = Ok ([("oups", Oups [("b", JFalse 0); ("c", JTrue 3); ("d", JTrue 4)]); ("y", Text 2)]%string, None,
        Some [("x", None); ("y", Some (Text 2)); ("oups", Some (Oups [("b", JFalse 0); ("c", JTrue 3); ("d", JTrue 4)]))]%string).
Proof. reflexivity. Qed.
(** A value which is false is not added; [None] is stored in a first write. *)
Theorem C24_falsy_refuted : write_metadata [("oups", Oups [("a", JTrue 1)])]%string (Some [("n", JFalse 0)]%string) None = Ok ([("oups", Oups [("a", JTrue 1)])]%string, None, None).
Proof. reflexivity. Qed.
Print Assumptions C24_falsy_refuted.
Theorem C24_none_refuted : write_metadata [] (Some [("n", JNone)]%string) None = Ok ([("oups", Oups [("n", JNone)])]%string, None, None).
Proof. reflexivity. Qed.
Print Assumptions C24_none_refuted.

(** * C25 *)
Lemma own_app : forall k h h' p w, own k (h ++ h') p w = let '(p', w') := own k h p w in own k h' p' w'.
Proof.
  intros k h h'. induction h as [|[k' d|k' md|k'] h IH]; intros p w; simpl; auto. destruct (Nat.eqb k k'); auto. destruct p; auto.
Qed.
Theorem C25_isolation : forall h v k, Forall fresh h -> (forall k' d, In (Write k' (MdFresh d)) h -> is_dict d) ->
  let s := run (start v) h in
  pendings s k = fst (own k h None None) /\ get OUPS_METADATA_KEY (kvs s k) = option_map Oups (snd (own k h None None)).
Proof.
  intros h v. cbv zeta. assert (G : forall h, Forall fresh h -> (forall k' d, In (Write k' (MdFresh d)) h -> is_dict d) -> forall k,
    pendings (run (start v) h) k = fst (own k h None None) /\ get OUPS_METADATA_KEY (kvs (run (start v) h) k) = option_map Oups (snd (own k h None None)) /\ is_dict (kvs (run (start v) h) k)).
  { clear h. intro h. induction h as [|o h IH] using rev_ind; intros Hf Hd k; [simpl; repeat split; constructor|].
    apply Forall_app in Hf as [Hf Ho]. inversion Ho as [|? ? Ho' _]; subst. assert (IH' := IH Hf ltac:(intros; eapply Hd; apply in_or_app; eauto)). clear IH.
    unfold run in *. rewrite fold_left_app. cbn [fold_left]. set (s := fold_left step h (start v)) in *. rewrite own_app. destruct (IH' k) as (I1 & I2 & I3).
    destruct (own k h None None) as [p w] eqn:E. cbn [fst snd] in *. destruct o as [k' d|k' md|k'].
    - cbn [step kvs pendings own]. unfold upd. destruct (Nat.eqb k k'); auto.
    - cbn [own]. unfold step. set (arg := match md with MdNone => None | MdFresh d => Some d | MdVar x => Some (vars s x) end).
      assert (Harg : match arg with Some d => is_dict d /\ get OUPS_METADATA_KEY d = None | None => True end).
      { unfold arg. destruct md as [|d|x]; auto; [|contradiction]. split; [eapply Hd; apply in_or_app; right; simpl; eauto|]. apply get_none. exact Ho'. }
      destruct (write_metadata (kvs s k') (pendings s k') arg) as [[[kv pending] arg']|e] eqn:W.
      + cbn [kvs pendings]. unfold upd. destruct (Nat.eqb_spec k k') as [<-|N]; auto.
        assert (Harg' : match arg with Some d => is_dict d | None => True end) by (destruct arg; [apply Harg|auto]).
        destruct (write_metadata_spec _ _ _ _ _ _ I3 Harg' W) as (-> & D & _ & S). rewrite I1 in S. destruct p as [new|].
        * cbn [own fst snd]. split; auto. split; auto. destruct S as [S _]. rewrite S, I2. destruct w; auto.
        * cbn [own fst snd]. split; auto. split; auto. destruct S as [_ S]. rewrite S. destruct arg as [d|]; auto. destruct Harg as [_ ->]. auto.
      + (* no error *) exfalso. unfold write_metadata in W. destruct (IH' k') as (J1 & J2 & J3). destruct (pendings s k') as [new|]; [|discriminate].
        rewrite J2 in W. destruct (snd (own k' h None None)) as [d|]; cbn [option_map bind] in W; destruct arg as [[|i dd]|]; discriminate.
    - cbn [step kvs pendings own fst snd]. unfold upd. split; auto. destruct (Nat.eqb k k'); auto. simpl. split; auto. constructor. }
  intros k Hf Hd. destruct (G h Hf Hd k) as (A & B & _). auto.
Qed.
Print Assumptions C25_isolation.
(** Operations on other keys do not matter. *)
Theorem C25_other_keys : forall h v k, Forall fresh h -> (forall k' d, In (Write k' (MdFresh d)) h -> is_dict d) ->
  let s := run (start v) h in
  let s' := run (start v) (filter (about k) h) in
  pendings s k = pendings s' k /\ get OUPS_METADATA_KEY (kvs s k) = get OUPS_METADATA_KEY (kvs s' k).
Proof.
  intros h v k Hf Hd. cbv zeta. destruct (C25_isolation h v k Hf Hd) as [A B].
  assert (Hf' : Forall fresh (filter (about k) h)) by (apply Forall_forall; intros o Ho; apply filter_In in Ho as [Ho _]; rewrite Forall_forall in Hf; auto).
  destruct (C25_isolation (filter (about k) h) v k Hf') as [A' B']; [intros k' d Ho; apply filter_In in Ho as [Ho _]; eauto|].
  assert (E : forall p w, own k (filter (about k) h) p w = own k h p w).
  { clear. induction h as [|[k' d|k' md|k'] h IH]; intros p w; simpl; auto; destruct (Nat.eqb k k') eqn:E; simpl; rewrite ?E; auto. destruct p; auto. }
  rewrite E in *. cbv zeta in *. rewrite A, A', B, B'. auto.
Qed.
Print Assumptions C25_other_keys.
Example ex_C25 : let s := run (start (fun _ => [])) [Register 1 [("n", JTrue 1)]%string; Register 2 [("n", JTrue 2)]%string; Write 2 (MdFresh [("x", Some (Text 7))]%string); Write 1 MdNone; Write 2 MdNone] in
  kvs s 1 = [("oups", Oups [("n", JTrue 1)])]%string /\ kvs s 2 = [("x", Text 7); ("oups", Oups [("n", JTrue 2)])]%string /\ pendings s 1 = None /\ pendings s 2 = None.
Proof. repeat split. Qed.
(** One dictionary used for two keys: the oups metadata of the first one is written to the second one. *)
Theorem C25_shared_refuted : exists h v, Forall (fun o => match o with Register k _ => k = 1%nat | _ => True end) h /\
  (forall x, v x = [("x", Some (Text 7))]%string) /\
  get OUPS_METADATA_KEY (kvs (run (start v) h) 2) = Some (Oups [("n", JTrue 1)]%string).
Proof.
  exists [Register 1 [("n", JTrue 1)]%string; Write 1 (MdVar 0); Write 2 (MdVar 0)], (fun _ => [("x", Some (Text 7))]%string). split; [repeat constructor|]. split; reflexivity.
Qed.
Print Assumptions C25_shared_refuted.
