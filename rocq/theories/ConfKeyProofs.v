(** Proofs about the configuration of AggStream: configuration of one key, then of all keys. *)
Require Import String List Arith ZArith Bool Lia Permutation.
Require Import Verif.Common Verif.SegModel Verif.MetaModel Verif.PropMeta Verif.ConfModel Verif.ConfSpec Verif.ConfProofs.
Import ListNotations.
Local Open Scope string_scope.
Local Open Scope list_scope.

Definition kwargs_ok (p : ConfModel.params) : Prop :=
  dict_ok (p_kwargs p) /\ get "ordered_on" (p_kwargs p) = None /\ (forall name, get name (p_kwargs p) <> None -> In name WRITE_PARAMS).

Lemma default_dict : forall p, is_dict (keys_default p).
Proof.
  intros p. unfold keys_default. apply union_dict. unfold is_dict, names. simpl.
  repeat constructor; simpl; intuition discriminate.
Qed.
Lemma get_default : forall p name, kwargs_ok p -> get name (keys_default p) = default_of p name.
Proof.
  intros p name [H1 [H2 H3]]. unfold keys_default, default_of. rewrite get_union by exact H1.
  assert (Hx : forall x, x = "snap_by" \/ x = "agg" \/ x = "post" \/ x = "ordered_on" \/ x = "max_in_memory_size_b" -> get x (p_kwargs p) = None).
  { intros x Hx. destruct (get x (p_kwargs p)) eqn:E; auto. exfalso.
    assert (Hn : get x (p_kwargs p) <> None) by congruence. apply H3 in Hn.
    destruct Hx as [->|[->|[->|[->| ->]]]]; try congruence; simpl in Hn; intuition discriminate. }
  cbn [get].
  destruct (String.eqb_spec name "snap_by") as [->|N1]; [rewrite Hx by auto; reflexivity|].
  destruct (String.eqb_spec name "agg") as [->|N2]; [rewrite Hx by auto; reflexivity|].
  destruct (String.eqb_spec name "post") as [->|N3]; [rewrite Hx by auto; reflexivity|].
  destruct (String.eqb_spec name "ordered_on") as [->|N4]; [rewrite Hx by auto; reflexivity|].
  destruct (String.eqb_spec name "max_in_memory_size_b") as [->|N5]; [rewrite Hx by auto 6; reflexivity|].
  destruct (get name (p_kwargs p)); reflexivity.
Qed.
Lemma default_none : forall p name, kwargs_ok p -> ~ In name KEY_CONF_IN_PARAMS -> default_of p name = None.
Proof.
  intros p name [H1 [H2 H3]] Hn. unfold default_of.
  repeat match goal with |- context [String.eqb name ?x] =>
    destruct (String.eqb_spec name x) as [->|]; [elim Hn; simpl; tauto|] end.
  destruct (get name (p_kwargs p)) eqn:E; auto. exfalso. apply Hn. right. right. right. right. right. apply H3. congruence.
Qed.

(** ** Dict of a key, once joined with default values *)
Lemma pop_some : forall own by_ own', dict_ok own -> pop_params own = Some (by_, own', true) ->
  get "bin_by" own = Some by_ /\ is_dict own' /\
  (forall v, get "max_in_memory_size" own = Some v -> exists z, v = PNum z) /\
  forall name, get name own' =
    if String.eqb name "bin_by" || String.eqb name "max_in_memory_size" then None
    else if String.eqb name "max_in_memory_size_b" then
      match get "max_in_memory_size" own with Some (PNum z) => Some (PNum (z * MEGABYTES_TO_BYTES)) | _ => get name own end
    else get name own.
Proof.
  intros own by_ own' Hd H. unfold pop_params in H.
  destruct (get "bin_by" own) as [b|] eqn:Eb; [|discriminate].
  assert (Hd1 : is_dict (del "bin_by" own)) by (apply del_dict; exact Hd).
  rewrite get_del in H by exact Hd. cbn [String.eqb Ascii.eqb Bool.eqb] in H.
  destruct (get "max_in_memory_size" own) as [v|] eqn:Em.
  - destruct v as [| | |z| | | |]; try discriminate. injection H as <- <-.
    split; auto. split; [apply set_dict; apply del_dict; exact Hd1|]. split; [intros v Hv; injection Hv as <-; eauto|].
    intros name. rewrite get_set, get_del, get_del by auto.
    destruct (String.eqb_spec name "max_in_memory_size_b") as [->|N1]; [reflexivity|].
    destruct (String.eqb_spec name "max_in_memory_size") as [->|N2]; [reflexivity|].
    destruct (String.eqb_spec name "bin_by") as [->|N3]; reflexivity.
  - injection H as <- <-. split; auto. split; auto. split; [discriminate|].
    intros name. rewrite get_del by auto.
    destruct (String.eqb_spec name "bin_by") as [->|N3]; [reflexivity|].
    destruct (String.eqb_spec name "max_in_memory_size") as [->|N2]; [auto|].
    cbn [orb]. destruct (String.eqb name "max_in_memory_size_b"); reflexivity.
Qed.
Lemma pop_ok : forall own by_, get "bin_by" own = Some by_ -> dict_ok own -> (forall v, get "max_in_memory_size" own = Some v -> exists z, v = PNum z) ->
  exists own', pop_params own = Some (by_, own', true).
Proof.
  intros own by_ H Hd Hm. unfold pop_params. rewrite H. rewrite get_del by exact Hd. cbn [String.eqb Ascii.eqb Bool.eqb].
  destruct (get "max_in_memory_size" own) as [v|] eqn:Em; [|eauto].
  destruct (Hm v eq_refl) as [z ->]. eauto.
Qed.

Lemma get_joined : forall p own by_ own' name, kwargs_ok p -> dict_ok own -> pop_params own = Some (by_, own', true) ->
  get name (union (keys_default p) own') =
    if String.eqb name "bin_by" || String.eqb name "max_in_memory_size" then None
    else if String.eqb name "max_in_memory_size_b" then effective_size p own
    else effective p own name.
Proof.
  intros p own by_ own' name Hk Hd H. destruct (pop_some _ _ _ Hd H) as [_ [Hd' [Hm Hg]]].
  rewrite get_union by auto. rewrite Hg. rewrite get_default by auto.
  destruct (String.eqb_spec name "bin_by") as [->|N1]; cbn [orb].
  { rewrite default_none; auto. simpl. intuition discriminate. }
  destruct (String.eqb_spec name "max_in_memory_size") as [->|N2].
  { rewrite default_none; auto. simpl. intuition discriminate. }
  unfold effective_size, effective, first_given.
  destruct (String.eqb_spec name "max_in_memory_size_b") as [->|N3]; auto.
  destruct (get "max_in_memory_size" own) as [v|] eqn:E; auto.
  destruct (Hm v eq_refl) as [z ->]. reflexivity.
Qed.

Lemma item_get : forall k c v, get k c = Some v -> item k c = v.
Proof. intros k c v H. unfold item. rewrite H. auto. Qed.

Definition eff (p : ConfModel.params) (own : conf) (name : string) : pv := match effective p own name with Some v => v | None => PNone end.

Lemma effective_given : forall p own name, default_of p name <> None -> exists v, effective p own name = Some v.
Proof. intros p own name H. unfold effective, first_given. destruct (get name own); eauto. destruct (default_of p name); eauto; tauto. Qed.

Lemma default_bin_on : forall p, kwargs_ok p -> default_of p "bin_on" = None.
Proof.
  intros p [_ [_ H]]. unfold default_of. cbn [String.eqb Ascii.eqb Bool.eqb].
  destruct (get "bin_on" (p_kwargs p)) eqn:E; auto. exfalso. assert (Hn : get "bin_on" (p_kwargs p) <> None) by congruence.
  apply H in Hn. simpl in Hn. intuition discriminate.
Qed.
Lemma eff_bin_on : forall p own, kwargs_ok p -> effective p own "bin_on" = get "bin_on" own.
Proof. intros p own H. unfold effective, first_given. rewrite default_bin_on by auto. destruct (get "bin_on" own); auto. Qed.
Lemma out_bins : forall p own seg, kwargs_ok p -> out_of (eff p own "bin_on") seg = bins_column own seg.
Proof.
  intros p own seg Hk. unfold eff. rewrite eff_bin_on by auto. unfold out_of, bins_column.
  destruct (get "bin_on" own) as [[]|]; cbn [on_of]; destruct (truthy (cfg_bin_on seg)); auto; destruct b; auto.
Qed.
Lemma on_bins : forall p own n, kwargs_ok p -> (name_of (on_of (eff p own "bin_on")) = Ok n <-> bins_name own = Some n).
Proof.
  intros p own n Hk. unfold eff. rewrite eff_bin_on by auto. unfold bins_name.
  destruct (get "bin_on" own) as [[| |a b| | | | |]|]; cbn [on_of name_of]; try (split; congruence);
    try (split; intros H; injection H as <-; reflexivity).
  destruct a; cbn [name_of]; try (split; congruence); split; intros H; injection H as <-; reflexivity.
Qed.

(** Names in the dict of a key, once joined. *)
Lemma names_joined : forall p own by_ own', kwargs_ok p -> dict_ok own -> pop_params own = Some (by_, own', true) ->
  ((forall x, get x (union (keys_default p) own') <> None -> In x KEY_CONF_IN_PARAMS) <->
   (forall x, get x own <> None -> In x (["bin_by"; "max_in_memory_size"; "bin_on"; "snap_by"; "agg"; "post"; "max_in_memory_size_b"] ++ WRITE_PARAMS))).
Proof.
  intros p own by_ own' Hk Hd H. split.
  - intros Hn x Hx. destruct (String.eqb_spec x "bin_by") as [->|N1]; [left; auto|].
    destruct (String.eqb_spec x "max_in_memory_size") as [->|N2]; [right; left; auto|].
    assert (Hi : In x KEY_CONF_IN_PARAMS).
    { apply Hn. rewrite (get_joined p own by_ own') by auto. apply String.eqb_neq in N1. apply String.eqb_neq in N2. rewrite N1, N2. cbn [orb].
      unfold effective_size, effective, first_given.
      destruct (String.eqb_spec x "max_in_memory_size_b") as [->|N3].
      - destruct (pop_some _ _ _ Hd H) as [_ [_ [Hm _]]]. destruct (get "max_in_memory_size" own) as [v|]; [destruct (Hm v eq_refl) as [z ->]; congruence|].
        destruct (get "max_in_memory_size_b" own); congruence.
      - destruct (get x own); congruence. }
    unfold KEY_CONF_IN_PARAMS in Hi. right. right. exact Hi.
  - intros Hn x Hx. destruct (in_dec string_dec x KEY_CONF_IN_PARAMS) as [Hi|Hi]; auto. exfalso.
    rewrite (get_joined p own by_ own') in Hx by auto.
    destruct (String.eqb_spec x "bin_by") as [E1|N1]; [apply Hx; auto|].
    destruct (String.eqb_spec x "max_in_memory_size") as [E1|N2]; [apply Hx; auto|]. cbn [orb] in Hx.
    destruct (String.eqb_spec x "max_in_memory_size_b") as [E1|N3]; [apply Hi; subst x; simpl; tauto|].
    unfold effective, first_given in Hx. destruct (get x own) eqn:E.
    + assert (Hg : get x own <> None) by congruence. apply Hn in Hg. destruct Hg as [Hg|[Hg|Hg]]; try congruence. apply Hi. exact Hg.
    + apply Hx. apply default_none; auto.
Qed.

(** ** Configuration of one key *)
Lemma joined_item : forall p own by_ own' name, kwargs_ok p -> dict_ok own -> pop_params own = Some (by_, own', true) ->
  name <> "bin_by" -> name <> "max_in_memory_size" -> name <> "max_in_memory_size_b" ->
  item name (union (keys_default p) own') = eff p own name.
Proof.
  intros p own by_ own' name Hk Hd H N1 N2 N3. unfold item, eff. rewrite (get_joined p own by_ own') by auto.
  apply String.eqb_neq in N1. apply String.eqb_neq in N2. apply String.eqb_neq in N3. rewrite N1, N2, N3. reflexivity.
Qed.
Lemma item_del : forall k k' c, is_dict c -> k <> k' -> item k (del k' c) = item k c.
Proof. intros k k' c Hd N. unfold item. rewrite get_del by auto. apply String.eqb_neq in N. rewrite N. reflexivity. Qed.

Lemma init_key_ok : forall p key own c own1, kwargs_ok p -> dict_ok own ->
  init_key (p_ordered_on p) (keys_default p) key own = (own1, Ok c) ->
  valid_key p own /\ configured p key own c /\ get "bin_by" own1 = None.
Proof.
  intros p key own c own1 Hk Hd H. unfold init_key in H.
  destruct (pop_params own) as [[[by_ own'] []]|] eqn:Ep; [|discriminate|discriminate].
  injection H as <- H.
  destruct (pop_some _ _ _ Hd Ep) as [Hby [Hd' [Hm Hg]]].
  apply consolidate_eq in H; [|apply default_dict]. destruct H as [Hn [n [seg [H1 [H2 [H3 H4]]]]]]. cbv zeta in H4.
  set (C := union (keys_default p) own') in *.
  assert (HdC : is_dict C) by (apply union_dict; apply default_dict).
  assert (Ebin : item "bin_on" C = eff p own "bin_on") by (apply (joined_item p own by_); auto; discriminate).
  assert (Esnap : item "snap_by" (del "bin_on" C) = eff p own "snap_by").
  { rewrite item_del by (auto; discriminate). apply (joined_item p own by_); auto; discriminate. }
  assert (Eagg : item "agg" (del "snap_by" (del "bin_on" C)) = eff p own "agg").
  { rewrite item_del by (auto using del_dict; discriminate). rewrite item_del by (auto; discriminate). apply (joined_item p own by_); auto; discriminate. }
  rewrite Ebin in *. rewrite Esnap in *. rewrite Eagg in *. rewrite out_bins in * by auto.
  apply on_bins in H1; auto.
  assert (Hsn : snap_kind_of (eff p own "snap_by") = snapshots p own) by reflexivity. rewrite Hsn in *.
  destruct H3 as [cols [id [E3 Hc]]].
  assert (Hagg : effective p own "agg" = Some (PAgg cols id)).
  { destruct (effective_given p own "agg") as [v Hv]; [unfold default_of; discriminate|]. unfold eff in E3. rewrite Hv in E3 |- *. congruence. }
  split; [|split].
  - exists by_, n, seg, cols, id. split; auto. split; [apply (names_joined p own by_ own'); auto|]. auto.
  - subst c. set (c1 := del "agg" (del "snap_by" (del "bin_on" C))) in *.
    assert (Hd1 : is_dict c1) by (repeat apply del_dict; auto).
    set (c2 := dups c1 (bins_column own seg)) in *.
    assert (Hd2 : is_dict c2).
    { unfold c2, dups. destruct (get "duplicates_on" c1) as [[]|]; auto using set_dict. }
    set (c3 := rows (type_of key seg) c2) in *.
    assert (Hd3 : is_dict c3).
    { unfold c3, rows. destruct (type_of key seg); auto. destruct (get "max_row_group_size" c2) as [[]|]; auto using set_dict. }
    assert (G1 : forall x, get x c1 = if mem x ["bin_on"; "snap_by"; "agg"; "bin_by"; "max_in_memory_size"] then None
                           else if String.eqb x "max_in_memory_size_b" then effective_size p own else effective p own x).
    { intros x. unfold c1. rewrite !get_del by (repeat apply del_dict; auto). unfold C. rewrite (get_joined p own by_ own') by auto. unfold mem. cbn [existsb].
      destruct (String.eqb x "agg"), (String.eqb x "snap_by"), (String.eqb x "bin_on"), (String.eqb x "bin_by"), (String.eqb x "max_in_memory_size"); reflexivity. }
    assert (Etype : type_of key seg = results_of key (snapshots p own)).
    { unfold type_of, results_of. assert (Eks : cfg_snap_kept seg = snap_kept (snapshots p own)).
      { clear -H2. unfold setup_segmentby in H2.
        repeat match goal with
        | H : bind ?x _ = Ok _ |- _ => let E := fresh in destruct x as [?|] eqn:E; cbn [bind] in H; [|discriminate]
        | H : (let '(_, _) := ?x in _) = Ok _ |- _ => destruct x
        end. injection H2 as <-. reflexivity. }
      rewrite Eks. destruct (snapshots p own), key; reflexivity. }
    assert (G2 : forall x, get x c2 = if String.eqb x "duplicates_on" then written_with p key own seg "duplicates_on" else get x c1).
    { intros x. unfold c2, dups.
      assert (Ed : get "duplicates_on" c1 = effective p own "duplicates_on") by (rewrite G1; reflexivity).
      assert (Eo : item "ordered_on" c1 = eff p own "ordered_on") by (unfold item; rewrite G1; reflexivity).
      assert (Eo2 : effective p own "ordered_on" = Some (eff p own "ordered_on")).
      { destruct (effective_given p own "ordered_on") as [v Hv]; [unfold default_of; discriminate|]. unfold eff. rewrite Hv. reflexivity. }
      assert (Edef : Some (if set_name (bins_column own seg) then bins_column own seg else item "ordered_on" c1) =
                     match bins_column own seg with PNone | PName "" => effective p own "ordered_on" | v => Some v end).
      { rewrite Eo, Eo2. destruct (bins_column own seg) as [|s| | | | | |]; try reflexivity. destruct s; reflexivity. }
      unfold written_with. cbn [String.eqb Ascii.eqb Bool.eqb]. rewrite Ed.
      destruct (String.eqb_spec x "duplicates_on") as [->|N].
      - destruct (effective p own "duplicates_on") as [[]|] eqn:E.
        all: try (rewrite get_set, String.eqb_refl; exact Edef).
        all: rewrite Ed; auto.
      - apply String.eqb_neq in N. destruct (effective p own "duplicates_on") as [[]|]; try reflexivity; rewrite get_set, N; reflexivity. }
    assert (G3 : forall x, get x c3 = if String.eqb x "max_row_group_size" then written_with p key own seg "max_row_group_size" else get x c2).
    { intros x. unfold c3, rows.
      assert (Em : get "max_row_group_size" c2 = effective p own "max_row_group_size") by (rewrite G2; cbn [String.eqb Ascii.eqb Bool.eqb]; rewrite G1; reflexivity).
      unfold written_with. cbn [String.eqb Ascii.eqb Bool.eqb]. rewrite Etype, Em.
      destruct (String.eqb_spec x "max_row_group_size") as [->|N].
      - destruct (results_of key (snapshots p own)); auto.
        destruct (effective p own "max_row_group_size") as [[]|] eqn:E; rewrite ?get_set, ?String.eqb_refl; auto.
      - apply String.eqb_neq in N. destruct (results_of key (snapshots p own)); auto.
        destruct (effective p own "max_row_group_size") as [[]|]; rewrite ?get_set, ?N; auto. }
    assert (Hsz : exists v, effective_size p own = Some v).
    { unfold effective_size. destruct (get "max_in_memory_size" own) as [v|] eqn:E.
      - destruct (Hm v eq_refl) as [z ->]. eauto.
      - apply effective_given. unfold default_of. discriminate. }
    assert (Hpost : exists v, effective p own "post" = Some v) by (apply effective_given; unfold default_of; discriminate).
    unfold configured. cbn [kc_seg kc_bin_on_out kc_max kc_post kc_write kc_type kc_agg].
    split; [exists by_, n; auto|]. split; [auto|]. split; [|split; [|split; [|split; [auto|]]]].
    + unfold item. rewrite G3, G2, G1. cbn [String.eqb Ascii.eqb Bool.eqb mem existsb orb]. destruct Hsz as [v ->]. reflexivity.
    + unfold item. rewrite get_del by auto. rewrite G3, G2, G1. cbn [String.eqb Ascii.eqb Bool.eqb mem existsb orb]. destruct Hpost as [v ->]. reflexivity.
    + unfold eff. rewrite Hagg. reflexivity.
    + intros x. rewrite !get_del by auto using del_dict. rewrite G3, G2, G1.
      destruct (String.eqb_spec x "duplicates_on") as [->|N1]; [reflexivity|].
      destruct (String.eqb_spec x "max_row_group_size") as [->|N2]; [reflexivity|].
      unfold written_with. apply String.eqb_neq in N1. apply String.eqb_neq in N2. rewrite N1, N2.
      fold (mem x WRITE_PARAMS).
      destruct (mem x WRITE_PARAMS) eqn:Ew.
      * apply mem_in in Ew. 
        assert (Hx : forall y, mem y WRITE_PARAMS = false -> String.eqb x y = false).
        { intros y Hy. destruct (String.eqb_spec x y) as [->|]; auto. apply mem_in in Ew. congruence. }
        unfold mem. cbn [existsb]. rewrite !Hx by reflexivity. reflexivity.
      * destruct (String.eqb_spec x "post") as [->|N3]; auto. destruct (String.eqb_spec x "max_in_memory_size_b") as [->|N4]; auto.
        destruct (mem x ["bin_on"; "snap_by"; "agg"; "bin_by"; "max_in_memory_size"]) eqn:E; auto.
        assert (Hx : ~ In x KEY_CONF_IN_PARAMS).
        { intro Hi. unfold KEY_CONF_IN_PARAMS in Hi. apply in_app_or in Hi. destruct Hi as [Hi|Hi].
          - simpl in Hi. destruct Hi as [<-|[<-|[<-|[<-|[<-|[]]]]]]; try discriminate; congruence.
          - apply mem_in in Hi. congruence. }
        destruct (effective p own x) eqn:E2; auto. exfalso. apply Hx. apply Hn. unfold C. rewrite (get_joined p own by_ own') by auto.
        assert (Nb : String.eqb x "bin_by" = false /\ String.eqb x "max_in_memory_size" = false).
        { unfold mem in E. cbn [existsb] in E. destruct (String.eqb x "bin_on"), (String.eqb x "snap_by"), (String.eqb x "agg"), (String.eqb x "bin_by"), (String.eqb x "max_in_memory_size"); try discriminate; auto. }
        destruct Nb as [-> ->]. cbn [orb]. apply String.eqb_neq in N4. rewrite N4, E2. congruence.
  - rewrite Hg. reflexivity.
Qed.

Lemma init_key_valid : forall p key own, kwargs_ok p -> key_args_ok p own -> valid_key p own ->
  exists own1 c, init_key (p_ordered_on p) (keys_default p) key own = (own1, Ok c).
Proof.
  intros p key own Hk [Hd [_ [Hm _]]] [by_ [n [seg [cols [id [Hby [Hn [Hb [Hs [Ha Hc]]]]]]]]]].
  destruct (pop_ok own by_ Hby Hd Hm) as [own' Ep]. unfold init_key. rewrite Ep.
  set (C := union (keys_default p) own').
  assert (HdC : is_dict C) by (apply union_dict; apply default_dict).
  assert (Ebin : item "bin_on" C = eff p own "bin_on") by (apply (joined_item p own by_); auto; discriminate).
  assert (Esnap : item "snap_by" (del "bin_on" C) = eff p own "snap_by").
  { rewrite item_del by (auto; discriminate). apply (joined_item p own by_); auto; discriminate. }
  assert (Eagg : item "agg" (del "snap_by" (del "bin_on" C)) = eff p own "agg").
  { rewrite item_del by (auto using del_dict; discriminate). rewrite item_del by (auto; discriminate). apply (joined_item p own by_); auto; discriminate. }
  eexists own', _. f_equal. apply consolidate_eq; [apply default_dict|]. fold C. rewrite Ebin, Esnap, Eagg.
  split; [apply (names_joined p own by_ own'); auto|]. exists n, seg. split; [apply on_bins; auto|]. split; [exact Hs|].
  rewrite out_bins by auto. split; [|reflexivity].
  exists cols, id. split; auto. unfold eff. rewrite Ha. reflexivity.
Qed.

(** ** All keys *)
Lemma init_keys_ok : forall p keys l cs, kwargs_ok p -> Forall (fun kc => dict_ok (snd kc)) keys ->
  init_keys (p_ordered_on p) (keys_default p) keys = (l, Ok cs) ->
  Forall (fun kc => valid_key p (snd kc)) keys /\
  Forall2 (fun kc c => fst c = fst kc /\ configured p (fst kc) (snd kc) (snd c)) keys cs /\
  Forall2 (fun kc c => fst c = fst kc /\ get "bin_by" (snd c) = None) keys l.
Proof.
  intros p keys. induction keys as [|[k own] keys IH]; intros l cs Hk Hd H; cbn [init_keys] in H.
  - injection H as <- <-. repeat constructor.
  - inversion Hd as [|? ? Hd1 Hd2]; subst. cbn [snd] in Hd1.
    destruct (init_key (p_ordered_on p) (keys_default p) k own) as [own1 [c|e]] eqn:E; [|discriminate].
    destruct (init_keys (p_ordered_on p) (keys_default p) keys) as [l' [cs'|e]] eqn:E2; cbn [bind] in H; [|discriminate].
    injection H as <- <-. destruct (IH l' cs' Hk Hd2 eq_refl) as [I1 [I2 I3]].
    apply init_key_ok in E; auto. destruct E as [V [Cf B]]. repeat split; constructor; auto.
Qed.
Lemma init_keys_valid : forall p keys, kwargs_ok p -> Forall (fun kc => key_args_ok p (snd kc)) keys ->
  Forall (fun kc => valid_key p (snd kc)) keys -> exists l cs, init_keys (p_ordered_on p) (keys_default p) keys = (l, Ok cs).
Proof.
  intros p keys. induction keys as [|[k own] keys IH]; intros Hk Ha Hv; cbn [init_keys].
  - eauto.
  - inversion Ha as [|? ? Ha1 Ha2]; subst. inversion Hv as [|? ? Hv1 Hv2]; subst. cbn [snd] in *.
    destruct (init_key_valid p k own Hk Ha1 Hv1) as [own1 [c ->]]. destruct (IH Hk Ha2 Hv2) as [l [cs ->]]. cbn [bind]. eauto.
Qed.

(** A single key: default values are given as those of the key. *)
Definition single (p : ConfModel.params) : conf := [("bin_by", p_bin_by p); ("bin_on", p_bin_on p)].
Definition same_conf (p : ConfModel.params) (a b : conf) : Prop :=
  (forall name, effective p a name = effective p b name) /\
  get "bin_by" a = get "bin_by" b /\ get "bin_on" a = get "bin_on" b /\ get "max_in_memory_size" a = get "max_in_memory_size" b.
Lemma same_configured : forall p k a b c, same_conf p a b -> configured p k a c -> configured p k b c.
Proof.
  intros p k a b c [He [H1 [H2 H3]]] H.
  unfold configured, bins_column, bins_name, snapshots, written_with, bins_column, effective_size, snapshots in *.
  rewrite <- H1, <- H2, <- H3, <- !He. destruct H as [A1 [A2 [A3 [A4 [A5 [A6 A7]]]]]]. repeat (split; [assumption|]).
  intros name. rewrite A7. rewrite <- !He. reflexivity.
Qed.
Lemma single_dict : forall p, is_dict (single p).
Proof. intros p. unfold is_dict, names, single. simpl. repeat constructor; simpl; intuition discriminate. Qed.
Lemma single_get : forall p name, kwargs_ok p ->
  get name (union (keys_default p) (single p)) = effective p (single p) name.
Proof. intros p name H. rewrite get_union by apply single_dict. rewrite get_default by auto. reflexivity. Qed.
Lemma single_same : forall p, kwargs_ok p -> same_conf p (union (keys_default p) (single p)) (single p).
Proof.
  intros p H. split; [|split; [|split]].
  - intros name. unfold effective at 1, first_given. rewrite single_get by auto.
    unfold effective, first_given. destruct (get name (single p)); auto. destruct (default_of p name); auto.
  - rewrite single_get by auto. reflexivity.
  - rewrite single_get by auto. reflexivity.
  - rewrite single_get by auto. unfold effective, first_given. rewrite default_none; [reflexivity|auto|].
    simpl. intuition discriminate.
Qed.
Lemma same_valid : forall p, kwargs_ok p -> (valid_key p (union (keys_default p) (single p)) <-> valid_key p (single p)).
Proof.
  intros p Hk. destruct (single_same p Hk) as [He [H1 [H2 H3]]].
  assert (Hnames : forall name, get name (union (keys_default p) (single p)) <> None ->
    In name (["bin_by"; "max_in_memory_size"; "bin_on"; "snap_by"; "agg"; "post"; "max_in_memory_size_b"] ++ WRITE_PARAMS)).
  { intros name Hn. destruct (in_dec string_dec name KEY_CONF_IN_PARAMS) as [Hi|Hi]; [right; right; exact Hi|].
    rewrite single_get in Hn by auto. unfold effective, first_given in Hn. rewrite (default_none p name) in Hn by auto.
    unfold single in Hn. cbn [get] in Hn. destruct (String.eqb_spec name "bin_by") as [E1|N1]; [left; auto|].
    destruct (String.eqb_spec name "bin_on") as [E1|N2]; [subst name; simpl; tauto|]. congruence. }
  assert (Hnames2 : forall name, get name (single p) <> None ->
    In name (["bin_by"; "max_in_memory_size"; "bin_on"; "snap_by"; "agg"; "post"; "max_in_memory_size_b"] ++ WRITE_PARAMS)).
  { intros name Hn. unfold single in Hn. cbn [get] in Hn. destruct (String.eqb_spec name "bin_by") as [E1|N1]; [left; auto|].
    destruct (String.eqb_spec name "bin_on") as [E1|N2]; [subst name; simpl; tauto|]. congruence. }
  unfold valid_key, bins_name, snapshots, bins_column. rewrite H1, H2, !He.
  split; intros [by_ [n [seg [cols [id [A1 [A2 A3]]]]]]]; exists by_, n, seg, cols, id; auto.
Qed.
Lemma single_args : forall p, kwargs_ok p -> key_args_ok p (single p) -> key_args_ok p (union (keys_default p) (single p)).
Proof.
  intros p Hk [_ [H2 [H3 H4]]]. destruct (single_same p Hk) as [He [E1 [E2 E3]]]. unfold key_args_ok, bins_name in *. rewrite E2, E3, He.
  split; [apply union_dict; apply default_dict|auto].
Qed.

(** ** Filters *)
Lemma enclose_all_ok : forall d, (exists r, enclose_all d = Ok r) <-> (forall id f, In (id, f) d -> exists x l, f = FList (x :: l)).
Proof.
  intros d. induction d as [|[id f] d IH]; cbn [enclose_all].
  - split; [intros _ ? ? []|eauto].
  - split.
    + intros [r H] id' f' [E|Hi].
      * injection E as <- <-. destruct f as [|[|x l]]; try discriminate. eauto.
      * destruct (enclose f); cbn [bind] in H; [|discriminate]. destruct (enclose_all d) as [r'|]; cbn [bind] in H; [|discriminate].
        apply (proj1 IH) with (id := id'); eauto.
    + intros H. destruct (H id f (or_introl eq_refl)) as [x [l ->]].
      destruct (proj2 IH) as [r Hr]; [intros id' f' Hi; apply (H id'); right; auto|]. rewrite Hr.
      destruct x; cbn [enclose bind]; eauto.
Qed.
Lemma enclose_all_names : forall d r, enclose_all d = Ok r -> map fst r = map fst d /\ forall id, ~ In (id, NoFilter) r.
Proof.
  intros d. induction d as [|[id f] d IH]; intros r H; cbn [enclose_all] in H.
  - injection H as <-. split; auto.
  - destruct (enclose f) as [f'|] eqn:E; cbn [bind] in H; [|discriminate]. destruct (enclose_all d) as [r'|]; cbn [bind] in H; [|discriminate].
    injection H as <-. destruct (IH r' eq_refl) as [I1 I2]. cbn [map fst]. rewrite I1. split; auto.
    intros id' [Hi|Hi]; [|apply (I2 id'); auto]. injection Hi as <- ->. destruct f as [|[|[] l]]; discriminate.
Qed.
Lemma get_in : forall {V} k (d : dict V) v, get k d = Some v -> In (k, v) d.
Proof.
  intros V k d v. induction d as [|[x w] d IH]; simpl; [discriminate|]. destruct (String.eqb_spec k x) as [->|N].
  - intros H. injection H as <-. auto.
  - auto.
Qed.
Lemma same_set_iff : forall a b, same_set a b = true <-> forall x, In x a <-> In x b.
Proof.
  intros a b. unfold same_set. rewrite andb_true_iff, !forallb_forall. split.
  - intros [H1 H2] x. split; intro H; [apply H1 in H|apply H2 in H]; apply mem_in; auto.
  - intros H. split; intros x Hx; apply mem_in; apply H; auto.
Qed.
Lemma in_ids : forall {V} (d : dict V) x, In x (ids d) <-> x <> "_" /\ In x (map fst d).
Proof.
  intros V d x. unfold ids. rewrite filter_In. unfold NO_FILTER_ID.
  destruct (String.eqb_spec x "_") as [->|N]; simpl; intuition congruence.
Qed.
Lemma names_set_iff : forall {V} k (v : V) d x, In x (map fst (set k v d)) <-> x = k \/ In x (map fst d).
Proof.
  intros V k v d x. change (In x (names (set k v d)) <-> x = k \/ In x (names d)). rewrite !in_get, get_set.
  destruct (String.eqb_spec x k) as [->|N]; intuition congruence.
Qed.
Lemma check_filters_ok : forall d r l, enclose_all d = Ok r ->
  ((exists f, check_filters (Some r) l = Ok f) <-> ~ In "_" (map fst d) /\ forall id, id <> "_" -> (In id (map fst d) <-> In id (map fst l))).
Proof.
  intros d r l H. destruct (enclose_all_names _ _ H) as [Hn Hnf]. unfold check_filters.
  rewrite <- Hn. clear H Hn d. change NO_FILTER_ID with "_".
  destruct (get "_" r) as [v|] eqn:E.
  - assert (Hi : In "_" (map fst r)) by (apply (in_get r); congruence).
    apply get_in in E. destruct v; [elim (Hnf _ E)| |]; cbn [bind]; split; try (intros [f Hf]; discriminate); intros [Ha _]; elim Ha; auto.
  - assert (Hi : ~ In "_" (map fst r)) by (intro Hi; apply (in_get r) in Hi; congruence).
    cbn [bind].
    assert (Hs : same_set (ids (if mem "_" (map fst l) then set "_" NoFilter r else r)) (ids l) = true <->
                 forall id, id <> "_" -> (In id (map fst r) <-> In id (map fst l))).
    { rewrite same_set_iff. split.
      - intros Hx id Nid. specialize (Hx id). rewrite !in_ids in Hx. destruct (mem "_" (map fst l)).
        + rewrite names_set_iff in Hx. split; intro Hj; [apply Hx; auto|]. destruct (proj2 Hx) as [_ [|]]; auto; congruence.
        + tauto.
      - intros Hx id. rewrite !in_ids. destruct (mem "_" (map fst l)); [rewrite names_set_iff|]; specialize (Hx id); tauto. }
    destruct (same_set _ (ids l)); split.
    + intros _. split; auto. apply Hs; auto.
    + eauto.
    + intros [f Hf]; discriminate.
    + intros [_ Hx]. apply Hs in Hx. discriminate.
Qed.

Lemma ckey_eqb_eq : forall a b, ckey_eqb a b = true <-> a = b.
Proof.
  intros [x|x y] [x'|x' y']; simpl; try (split; discriminate).
  - rewrite Nat.eqb_eq. split; congruence.
  - rewrite andb_true_iff, !Nat.eqb_eq. split; [intros [-> ->]; auto|intros H; injection H; auto].
Qed.
Lemma has_dupes_iff : forall l, has_dupes l = false <-> NoDup l.
Proof.
  intros l. induction l as [|k l IH]; cbn [has_dupes].
  - split; auto. constructor.
  - rewrite orb_false_iff, IH. split.
    + intros [H1 H2]. constructor; auto. intro Hi. assert (existsb (ckey_eqb k) l = true); [|congruence].
      apply existsb_exists. exists k. split; auto. apply ckey_eqb_eq; auto.
    + intros H. inversion H as [|? ? H1 H2]; subst. split; auto. destruct (existsb (ckey_eqb k) l) eqn:E; auto.
      apply existsb_exists in E. destruct E as [x [Hx E]]. apply ckey_eqb_eq in E. subst. tauto.
Qed.

(** ** AggStream *)
Lemma flat_rev : forall {A B} (f : A -> list B) l, Permutation (flat_map f (rev l)) (flat_map f l).
Proof. intros A B f l. apply Permutation_flat_map. symmetry. apply Permutation_rev. Qed.
Lemma flat_fst : forall {A B C} (l : list (A * list (B * C))), flat_map (fun f => map fst (snd f)) l = map fst (flat_map snd l).
Proof. intros A B C l. induction l as [|[a m] l IH]; simpl; auto. rewrite map_app, IH. auto. Qed.
Lemma Forall_perm : forall {A} (P : A -> Prop) l l', Permutation l l' -> Forall P l -> Forall P l'.
Proof. intros A P l l' H. rewrite !Forall_forall. intros Hf x Hx. apply Hf. apply Permutation_in with l'; auto. symmetry; auto. Qed.

(** Keys as they are processed. *)
Definition chained (p : ConfModel.params) : list (string * list (ckey * conf)) :=
  match p_keys p with
  | FilterKeys l => l
  | Keys l => [(NO_FILTER_ID, l)]
  | OneKey k => [(NO_FILTER_ID, [(k, union (keys_default p) (single p))])]
  end.
Definition processed (p : ConfModel.params) : list (ckey * conf) := unchain (chained p).
Definition back (p : ConfModel.params) (l : list (ckey * conf)) : keys_arg :=
  match p_keys p with
  | OneKey k => OneKey k
  | Keys _ => Keys l
  | FilterKeys _ => FilterKeys (rev (rechain (rev (chained p)) l))
  end.

Lemma agg_stream_iff : forall p ks a,
  agg_stream p = (ks, Ok a) <->
  (forall name, get name (p_kwargs p) <> None -> In name WRITE_PARAMS) /\
  NoDup (map fst (flat_map snd (chained p))) /\
  (exists filters, valid_filters p /\
  exists l cs, init_keys (p_ordered_on p) (keys_default p) (processed p) = (l, Ok cs) /\
    ks = back p l /\ a = mkAggstream filters (map (fun f => (fst f, map fst (snd f))) (chained p)) cs /\
    match p_keys p with
    | FilterKeys l => exists d r, p_filters p = Some d /\ enclose_all d = Ok r /\ check_filters (Some r) l = Ok filters
    | _ => filters = [(NO_FILTER_ID, NoFilter)]
    end).
Proof.
  intros p ks a. unfold agg_stream.
  destruct (existsb (fun kv => negb (mem (fst kv) WRITE_PARAMS)) (p_kwargs p)) eqn:E.
  { split; [discriminate|]. intros [H _]. apply all_names in H. congruence. }
  assert (Hn := proj1 (all_names _ _) E). clear E.
  set (en := match p_filters p with None => Ok None | Some d => bind (enclose_all d) (fun d => Ok (Some d)) end).
  assert (Hen : (exists r, en = Ok r) <-> (forall d, p_filters p = Some d -> forall id f, In (id, f) d -> exists x l, f = FList (x :: l))).
  { unfold en. destruct (p_filters p) as [d|].
    - split.
      + intros [r Hr] d' Ed. injection Ed as <-. apply enclose_all_ok. destruct (enclose_all d); cbn [bind] in Hr; [eauto|discriminate].
      + intros H. destruct (proj2 (enclose_all_ok d) (H d eq_refl)) as [r ->]. cbn [bind]. eauto.
    - split; eauto. intros _ d Hd. discriminate. }
  destruct en as [fl|e] eqn:Een.
  2: { split; [discriminate|]. intros [_ [_ [f [[Hv _] _]]]]. apply Hen in Hv. destruct Hv; discriminate. }
  assert (Hv1 := proj1 Hen (ex_intro _ fl eq_refl)).
  set (chk := match p_keys p with
        | FilterKeys [] | Keys [] => Err StopIteration
        | FilterKeys l => let* filters := check_filters fl l in Ok (l, filters)
        | Keys l => Ok ([(NO_FILTER_ID, l)], [(NO_FILTER_ID, NoFilter)])
        | OneKey k => Ok ([(NO_FILTER_ID, [(k, union (keys_default p) [("bin_by", p_bin_by p); ("bin_on", p_bin_on p)])])], [(NO_FILTER_ID, NoFilter)])
        end).
  assert (Hchk : forall r, chk = Ok r <-> exists filters, r = (chained p, filters) /\ valid_filters p /\
    match p_keys p with
    | FilterKeys l => exists d r, p_filters p = Some d /\ enclose_all d = Ok r /\ check_filters (Some r) l = Ok filters
    | _ => filters = [(NO_FILTER_ID, NoFilter)]
    end).
  { intros r. unfold chk, chained, valid_filters. destruct (p_keys p) as [k|l|l].
    - split.
      + intros H. injection H as <-. eexists. split; [reflexivity|]. split; [split; auto|reflexivity].
      + intros [f [-> [_ ->]]]. reflexivity.
    - destruct l as [|x l].
      + split; [discriminate|]. intros [f [_ [[_ H] _]]]. congruence.
      + split.
        * intros H. injection H as <-. eexists. split; [reflexivity|]. split; [split; [auto|congruence]|reflexivity].
        * intros [f [-> [_ ->]]]. reflexivity.
    - destruct l as [|x l].
      + split; [discriminate|]. intros [f [_ [[_ [H _]] _]]]. congruence.
      + split.
        * intros H. destruct (check_filters fl (x :: l)) as [f|] eqn:Ec; cbn [bind] in H; [|discriminate]. injection H as <-.
          exists f. split; auto. unfold en in Een. destruct (p_filters p) as [d|] eqn:Ed.
          -- destruct (enclose_all d) as [r|] eqn:Er; cbn [bind] in Een; [|discriminate]. injection Een as <-.
             split; [|exists d, r; auto]. split; [auto|]. split; [congruence|]. exists d. split; auto. apply (check_filters_ok d r (x :: l)); eauto.
          -- injection Een as <-. discriminate.
        * intros [f [-> [_ [d [r1 [Ed [Er Ec]]]]]]]. unfold en in Een. rewrite Ed, Er in Een. cbn [bind] in Een. injection Een as <-.
          rewrite Ec. reflexivity. }
  destruct chk as [[keys filters]|e].
  2: { split; [discriminate|]. intros [_ [_ [f [Hv [l [cs [_ [_ [_ Hf]]]]]]]]]. exfalso.
       assert (Hx : @Err (list (string * list (ckey * conf)) * dict filt_out) e = Ok (chained p, f)) by (apply Hchk; exists f; auto). discriminate. }
  destruct (proj1 (Hchk (keys, filters)) eq_refl) as [f0 [E0 [Hvf Hf]]]. injection E0 as -> ->.
  match goal with |- context [has_dupes ?x] => destruct (has_dupes x) eqn:Ed end; rewrite flat_fst in Ed.
  { split; [discriminate|]. intros [_ [H _]]. apply has_dupes_iff in H. unfold conf in *. congruence. }
  apply has_dupes_iff in Ed. fold (processed p).
  destruct (init_keys (p_ordered_on p) (keys_default p) (processed p)) as [l [cs|e]] eqn:Ei; cbn [bind].
  - fold (back p l). split.
    + intros H. injection H as <- <-. split; auto. split; auto. exists f0. split; auto. exists l, cs. auto.
    + intros [_ [_ [f [_ [l' [cs' [E1 [-> [-> Hf']]]]]]]]]. injection E1 as <- <-.
      assert (E2 : @Ok (list (string * list (ckey * conf)) * dict filt_out) (chained p, f0) = Ok (chained p, f)) by (apply Hchk; exists f; auto). injection E2 as <-. reflexivity.
  - split; [discriminate|]. intros [_ [_ [f [_ [l' [cs' [E1 _]]]]]]]. discriminate.
Qed.
