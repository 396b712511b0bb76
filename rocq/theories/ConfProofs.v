(** Proofs about the configuration of AggStream. *)
Require Import String List Arith ZArith Bool Lia.
Require Import Verif.Common Verif.SegModel Verif.MetaModel Verif.PropMeta Verif.ConfModel Verif.ConfSpec.
Import ListNotations.
Local Open Scope string_scope.
Local Open Scope list_scope.

(** ** setup_segmentby *)
Lemma truthy_unset : forall n, truthy n = false <-> unset n.
Proof.
  intros [s|]; unfold unset; simpl; [|tauto]. destruct (String.eqb s "") eqn:E; simpl.
  - apply String.eqb_eq in E; subst; tauto.
  - apply String.eqb_neq in E. split; [discriminate|]. intros [H|H]; [discriminate|]. injection H as ->. congruence.
Qed.
Lemma truthy_set : forall n, truthy n = true <-> ~ unset n.
Proof. intros n. rewrite <- truthy_unset. destruct (truthy n); split; congruence. Qed.
Lemma name_eqb_eq : forall a b, SegModel.name_eqb a b = true <-> a = b.
Proof.
  intros [a|] [b|]; simpl; try (split; congruence).
  rewrite String.eqb_eq. split; congruence.
Qed.
Lemma name_eqb_neq : forall a b, SegModel.name_eqb a b = false <-> a <> b.
Proof. intros a b. rewrite <- name_eqb_eq. destruct (SegModel.name_eqb a b); split; congruence. Qed.
Lemma side_eqb_eq : forall a b, side_eqb a b = true <-> a = b.
Proof. intros [] []; simpl; split; congruence. Qed.

Lemma set_some : forall n, ~ unset n -> exists c, n = Some c /\ c <> "".
Proof. intros [c|] H; [|elim H; left; auto]. exists c. split; auto. intros ->. apply H. right; auto. Qed.
Lemma some_set : forall c, c <> "" -> ~ unset (Some c).
Proof. intros c H [E|E]; congruence. Qed.

Ltac names :=
  repeat match goal with
  | H : truthy _ = false |- _ => apply truthy_unset in H
  | H : truthy _ = true |- _ => apply truthy_set in H
  | H : SegModel.name_eqb _ _ = true |- _ => apply name_eqb_eq in H
  | H : SegModel.name_eqb _ _ = false |- _ => apply name_eqb_neq in H
  | H : side_eqb _ _ = true |- _ => apply side_eqb_eq in H
  end.

Definition snap_kept (s : snap_kind) : bool := match s with SnapTG _ _ => true | _ => false end.

Lemma setup_time_ok : forall key cl bin_on ordered_on snap c, time_column key cl bin_on ordered_on snap c ->
  setup_segmentby (BinTG key cl) bin_on ordered_on snap = Ok (mkSegcfg [Some c] (Some c) (Some c) (snap_kept snap)).
Proof.
  intros key cl bin_on ordered_on snap c [Hc [Hg [Hk [Hb [Ho Hs]]]]]. unfold may_be in *. unfold setup_segmentby.
    assert (Hcs : forall u : unit, truthy (Some c) = true) by (intros _; apply truthy_set; apply some_set; auto).
    assert (En : forall x, SegModel.name_eqb x x = true) by (intros x; apply name_eqb_eq; auto).
    assert (Eb : (if truthy key then if truthy bin_on then if SegModel.name_eqb key bin_on then Ok bin_on else Err ValueError else Ok key
               else if negb (truthy bin_on) then Err ValueError else Ok bin_on) = Ok (Some c)).
    { destruct (truthy key) eqn:Ek, (truthy bin_on) eqn:E2; names; cbn [negb].
      - destruct Hk as [| ->]; [tauto|]. destruct Hb as [| ->]; [tauto|]. rewrite En. auto.
      - destruct Hk as [| ->]; [tauto|]. auto.
      - destruct Hb as [| ->]; [tauto|]. auto.
      - exfalso. assert (Hu := some_set c Hc). destruct Hg as [->| ->]; tauto. }
    rewrite Eb. cbn [bind].
    assert (Eo : truthy ordered_on && negb (SegModel.name_eqb ordered_on (Some c)) = false).
    { destruct (truthy ordered_on) eqn:E; auto. names. destruct Ho as [| ->]; [tauto|]. rewrite En. auto. }
    rewrite Eo. cbn [bind].
    assert (Eo' : (if truthy ordered_on then ordered_on else Some c) = Some c).
    { destruct (truthy ordered_on) eqn:E2; auto. names. destruct Ho; tauto. }
    rewrite Eo'.
    destruct snap as [|k s|]; cbn [bind].
    + rewrite (Hcs tt), En. reflexivity.
    + destruct Hs as [Hk2 ->]. assert (Es : forall x, side_eqb x x = true) by (intros x; apply side_eqb_eq; auto).
      destruct (truthy k) eqn:Etk.
      * names. destruct Hk2 as [| ->]; [tauto|]. rewrite En. cbn [bind]. rewrite Es. cbn [bind]. rewrite (Hcs tt), En. reflexivity.
      * cbn [bind]. rewrite Es. cbn [bind]. rewrite (Hcs tt), En. reflexivity.
    + rewrite (Hcs tt). cbn [bind]. rewrite (Hcs tt), En. reflexivity.
Qed.

Lemma setup_time : forall key cl bin_on ordered_on snap cfg,
  setup_segmentby (BinTG key cl) bin_on ordered_on snap = Ok cfg <->
  exists c, time_column key cl bin_on ordered_on snap c /\ cfg = mkSegcfg [Some c] (Some c) (Some c) (snap_kept snap).
Proof.
  intros key cl bin_on ordered_on snap cfg. split.
  2: { intros [c [H ->]]. apply setup_time_ok; auto. }
  intros H. assert (H0 := H). unfold setup_segmentby in H.
    assert (H1 : exists c, c <> "" /\ (key = Some c \/ bin_on = Some c) /\ (unset key \/ key = Some c) /\ (unset bin_on \/ bin_on = Some c) /\
              (if truthy key then if truthy bin_on then if SegModel.name_eqb key bin_on then Ok bin_on else Err ValueError else Ok key
               else if negb (truthy bin_on) then Err ValueError else Ok bin_on) = Ok (Some c)).
    { destruct (truthy key) eqn:Ek, (truthy bin_on) eqn:Eb; simpl in H |- *; try discriminate.
      - destruct (SegModel.name_eqb key bin_on) eqn:E; simpl in H; [|discriminate]. names. subst bin_on.
        destruct (set_some _ Ek) as [c [-> Hc]]. exists c. repeat split; auto.
      - names. destruct (set_some _ Ek) as [c [-> Hc]]. exists c. repeat split; auto.
      - names. destruct (set_some _ Eb) as [c [-> Hc]]. exists c. repeat split; auto. }
    destruct H1 as [c [Hc [Hg [Hk [Hb E]]]]]. rewrite E in H. cbn [bind] in H.
    exists c.
    assert (Ho : unset ordered_on \/ ordered_on = Some c).
    { destruct (truthy ordered_on) eqn:Eo; names; auto. right.
      simpl in H. destruct (SegModel.name_eqb ordered_on (Some c)) eqn:E2; simpl in H; [|discriminate]. names. auto. }
    assert (Eo : truthy ordered_on && negb (SegModel.name_eqb ordered_on (Some c)) = false).
    { destruct (truthy ordered_on && negb (SegModel.name_eqb ordered_on (Some c))); [discriminate|auto]. }
    rewrite Eo in H. cbn [bind] in H.
    assert (Ht : time_column key cl bin_on ordered_on snap c).
    { unfold time_column, may_be. repeat (split; [tauto|]). destruct snap as [|k s|]; auto.
      assert (Eo' : (if truthy ordered_on then ordered_on else Some c) = Some c).
      { destruct (truthy ordered_on) eqn:E2; auto. names. destruct Ho; tauto. }
      rewrite Eo' in H. destruct (truthy k) eqn:Etk.
      - destruct (SegModel.name_eqb k (Some c)) eqn:E2; cbn [bind] in H; [|discriminate].
        destruct (side_eqb s cl) eqn:E3; cbn [bind] in H; [|discriminate]. names. auto.
      - cbn [bind] in H. destruct (side_eqb s cl) eqn:E3; cbn [bind] in H; [|discriminate]. names. auto. }
    split; [auto|]. apply setup_time_ok in Ht. congruence.
Qed.

Lemma columns_cases : forall bin_on o cols,
  cols = (if truthy o && truthy bin_on && negb (SegModel.name_eqb o bin_on) then [bin_on; o] else if truthy bin_on then [bin_on] else [o]) <->
  columns_given bin_on o cols.
Proof.
  intros bin_on o cols. unfold columns_given.
  destruct (truthy o) eqn:E1, (truthy bin_on) eqn:E2, (SegModel.name_eqb o bin_on) eqn:E3; names; simpl; try subst o; try tauto.
  all: split; [intros ->; tauto|]; intros; intuition congruence.
Qed.

Lemma setup_callable : forall bin_on ordered_on snap cfg,
  setup_segmentby BinCallable bin_on ordered_on snap = Ok cfg <->
  exists o cols, (bin_on <> None \/ ordered_on <> None) /\ order_column ordered_on snap o /\ columns_given bin_on o cols /\
                 cfg = mkSegcfg cols o bin_on (snap_kept snap).
Proof.
  intros bin_on ordered_on snap cfg. unfold setup_segmentby.
  assert (Eg : (match bin_on, ordered_on with None, None => Err ValueError | _, _ => Ok (@None side, bin_on, ordered_on) end =
                Ok (None, bin_on, ordered_on) /\ (bin_on <> None \/ ordered_on <> None)) \/
               (bin_on = None /\ ordered_on = None)).
  { destruct bin_on, ordered_on; auto; left; split; auto; [left|left|right]; congruence. }
  destruct Eg as [[Eg Hg]|[-> ->]].
  2: { simpl. split; [discriminate|]. intros [o [cols [[H|H] _]]]; congruence. }
  rewrite Eg. cbn [bind].
  destruct snap as [|k s|]; cbn [bind order_column].
  - split.
    + intros H. injection H as <-. eexists ordered_on, _. split; [auto|]. split; [reflexivity|]. split; [apply columns_cases; reflexivity|reflexivity].
    + intros [o [cols [_ [-> [Hc ->]]]]]. apply columns_cases in Hc. rewrite Hc. reflexivity.
  - destruct (truthy k) eqn:Ek; cbn [bind].
    + names. destruct ordered_on as [c|].
      * destruct (SegModel.name_eqb k (Some c)) eqn:E; cbn [bind]; names.
        -- split.
           ++ intros H. injection H as <-. eexists (Some c), _. split; [auto|]. split; [right; repeat split; auto|]. split; [apply columns_cases; reflexivity|reflexivity].
           ++ intros [o [cols [_ [Ho [Hc ->]]]]]. assert (o = Some c) as -> by (destruct Ho as [[? ?]|[? [? ?]]]; congruence). apply columns_cases in Hc. rewrite Hc. reflexivity.
        -- split; [discriminate|]. intros [o [cols [_ [Ho _]]]]. destruct Ho as [[? ?]|[? [[?|?] ?]]]; try tauto; congruence.
      * cbn [bind]. split.
        -- intros H. injection H as <-. eexists k, _. split; [auto|]. split; [right; repeat split; auto|]. split; [apply columns_cases; reflexivity|reflexivity].
        -- intros [o [cols [_ [Ho [Hc ->]]]]]. assert (o = k) as -> by (destruct Ho as [[? ?]|[? [? ?]]]; tauto). apply columns_cases in Hc. rewrite Hc. reflexivity.
    + names. split.
      * intros H. injection H as <-. eexists ordered_on, _. split; [auto|]. split; [left; auto|]. split; [apply columns_cases; reflexivity|reflexivity].
      * intros [o [cols [_ [Ho [Hc ->]]]]]. assert (o = ordered_on) as -> by (destruct Ho as [[? ?]|[? [? ?]]]; tauto). apply columns_cases in Hc. rewrite Hc. reflexivity.
  - destruct (truthy ordered_on) eqn:E; cbn [bind]; names.
    + split.
      * intros H. injection H as <-. eexists ordered_on, _. split; [auto|]. split; [auto|]. split; [apply columns_cases; reflexivity|reflexivity].
      * intros [o [cols [_ [[-> _] [Hc ->]]]]]. apply columns_cases in Hc. rewrite Hc. reflexivity.
    + split; [discriminate|]. intros [o [cols [_ [[_ Ho] _]]]]. tauto.
Qed.

Lemma setup_errors : forall b bin_on ordered_on snap e, setup_segmentby b bin_on ordered_on snap = Err e -> e = ValueError.
Proof.
  intros b bin_on ordered_on snap e H. unfold setup_segmentby in H.
  repeat match goal with
  | H : Err _ = Err _ |- _ => injection H as <-; reflexivity
  | H : Ok _ = Err _ |- _ => discriminate H
  | H : context [match ?x with _ => _ end] |- _ => destruct x; cbn [bind] in H
  | H : context [if ?x then _ else _] |- _ => destruct x; cbn [bind] in H
  | H : bind ?x _ = Err _ |- _ => let E := fresh in destruct x eqn:E; cbn [bind] in H
  end.
Qed.

(** ** Dicts *)
Lemma union_dict : forall {V} (b a : dict V), is_dict a -> is_dict (union a b).
Proof. intros V b. induction b as [|[k v] b IH]; intros a H; simpl; auto. apply IH. apply set_dict. auto. Qed.
Lemma get_union : forall {V} (b a : dict V) k, is_dict b -> get k (union a b) = match get k b with Some v => Some v | None => get k a end.
Proof.
  intros V b. induction b as [|[k' v] b IH]; intros a k H; simpl; auto.
  inversion H as [|? ? H1 H2]; subst. unfold union in *. simpl. rewrite IH by auto. rewrite get_set.
  destruct (String.eqb_spec k k') as [->|N].
  - assert (E : get k' b = None) by (apply get_none; auto). rewrite E. auto.
  - auto.
Qed.
Lemma in_get : forall {V} (d : dict V) x, In x (names d) <-> get x d <> None.
Proof.
  intros V d x. split.
  - intros H E. apply get_none in E. auto.
  - intros H. destruct (in_dec string_dec x (names d)); auto. elim H. apply get_none. auto.
Qed.
Lemma mem_in : forall s l, mem s l = true <-> In s l.
Proof.
  intros s l. unfold mem. rewrite existsb_exists. split.
  - intros [x [H E]]. apply String.eqb_eq in E. subst; auto.
  - intros H. exists s. split; auto. apply String.eqb_refl.
Qed.
Lemma all_names : forall {V} (d : dict V) l, existsb (fun kv => negb (mem (fst kv) l)) d = false <-> forall x, get x d <> None -> In x l.
Proof.
  intros V d l. split.
  - intros H x Hx. apply in_get in Hx. unfold names in Hx. apply in_map_iff in Hx. destruct Hx as [kv [<- Hk]].
    apply mem_in. destruct (mem (fst kv) l) eqn:E; auto. exfalso.
    assert (existsb (fun kv => negb (mem (fst kv) l)) d = true). { apply existsb_exists. exists kv. rewrite E. auto. } congruence.
  - intros H. destruct (existsb _ d) eqn:E; auto. apply existsb_exists in E. destruct E as [kv [Hk E]]. exfalso.
    assert (In (fst kv) l). { apply H. apply in_get. unfold names. apply in_map. auto. }
    apply mem_in in H0. rewrite H0 in E. discriminate.
Qed.

(** ** Configuration of a key *)
Definition out_of (b : pv) (seg : segcfg) : pv :=
  let o := match b with PPair _ o => o | _ => PNone end in
  if truthy (cfg_bin_on seg) then match o with PNone => of_name (cfg_bin_on seg) | v => v end else o.
Definition on_of (b : pv) : pv := match b with PPair a _ => a | v => v end.
Definition dups (c : conf) (out : pv) : conf :=
  match get "duplicates_on" c with
  | None | Some PNone => set "duplicates_on" (if set_name out then out else item "ordered_on" c) c
  | Some _ => c
  end.
Definition rows (t : res_type) (c : conf) : conf :=
  match t with
  | BOTH => match get "max_row_group_size" c with
            | Some (PPair _ _) => c
            | Some v => set "max_row_group_size" (PPair v v) c
            | None => set "max_row_group_size" (PPair PNone PNone) c
            end
  | _ => c
  end.
Definition type_of (key : ckey) (seg : segcfg) : res_type :=
  if cfg_snap_kept seg then match key with Two _ _ => BOTH | One _ => SNAPS end else BINS.
Definition no_clash (agg out : pv) : Prop :=
  exists cols id, agg = PAgg cols id /\ forall s, out = PName s -> ~ In s cols.

Lemma consolidate_eq : forall ord default key by_ own kc,
  is_dict default -> 
  let c := union default own in
  let c1 := del "snap_by" (del "bin_on" c) in
  (consolidate ord default key by_ own = Ok kc <->
   (forall x, get x c <> None -> In x KEY_CONF_IN_PARAMS) /\
   exists n seg, name_of (on_of (item "bin_on" c)) = Ok n /\
     setup_segmentby (bin_kind_of by_) n (Some ord) (snap_kind_of (item "snap_by" (del "bin_on" c))) = Ok seg /\
     no_clash (item "agg" c1) (out_of (item "bin_on" c) seg) /\
     let w := rows (type_of key seg) (dups (del "agg" c1) (out_of (item "bin_on" c) seg)) in
     kc = mkKcfg seg (out_of (item "bin_on" c) seg) (item "max_in_memory_size_b" w) (item "post" (del "max_in_memory_size_b" w))
            (del "post" (del "max_in_memory_size_b" w)) (type_of key seg) (item "agg" c1)).
Proof.
  intros ord default key by_ own kc Hd c c1. unfold consolidate. fold c.
  destruct (existsb (fun kv => negb (mem (fst kv) KEY_CONF_IN_PARAMS)) c) eqn:E.
  { split; [discriminate|]. intros [H _]. apply all_names in H. congruence. }
  assert (Hn := proj1 (all_names _ _) E). 
  assert (Ep : (match item "bin_on" c with PPair a b => (a, b) | _ => (item "bin_on" c, PNone) end) =
               (on_of (item "bin_on" c), match item "bin_on" c with PPair _ o => o | _ => PNone end)).
  { unfold on_of. destruct (item "bin_on" c); reflexivity. }
  cbv zeta. rewrite Ep. fold c1.
  destruct (name_of (on_of (item "bin_on" c))) as [n|e] eqn:En; cbn [bind].
  2: { split; [discriminate|]. intros [_ [n [seg [H _]]]]. discriminate. }
  destruct (setup_segmentby (bin_kind_of by_) n (Some ord) (snap_kind_of (item "snap_by" (del "bin_on" c)))) as [seg|e] eqn:Es; cbn [bind].
  2: { split; [discriminate|]. intros [_ [n' [seg [H [H1 _]]]]]. injection H as <-. congruence. }
  fold (out_of (item "bin_on" c) seg). fold (type_of key seg).
  fold (dups (del "agg" c1) (out_of (item "bin_on" c) seg)).
  set (out := out_of (item "bin_on" c) seg).
  assert (Hcl : no_clash (item "agg" c1) out <->
    match item "agg" c1, out with
    | PAgg cols _, PName s => if mem s cols then Err ValueError else Ok tt
    | PAgg _ _, _ => Ok tt
    | _, _ => Err TypeError
    end = Ok tt).
  { unfold no_clash. destruct (item "agg" c1) as [| | | | | |cols id|]; try (split; [intros [? [? [? _]]]; discriminate|discriminate]).
    destruct out as [|s| | | | | |]; try (split; [reflexivity|intros _; exists cols, id; split; [reflexivity|discriminate]]).
    destruct (mem s cols) eqn:Em.
    - split; [|discriminate]. intros [cols' [id' [H1 H2]]]. injection H1 as <- <-. elim (H2 s); auto. apply mem_in; auto.
    - split; auto. intros _. exists cols, id. split; auto. intros s' H. injection H as <-. intro Hi. apply mem_in in Hi. congruence. }
  destruct (match item "agg" c1, out with
    | PAgg cols _, PName s => if mem s cols then Err ValueError else Ok tt
    | PAgg _ _, _ => Ok tt
    | _, _ => Err TypeError
    end) as [[]|e]; cbn [bind].
  - split.
    + intros H. injection H as <-. split; auto. exists n, seg. split; auto. split; auto. split; [tauto|reflexivity].
    + intros [_ [n' [seg' [H1 [H2 [_ H3]]]]]]. injection H1 as <-. assert (seg' = seg) as -> by congruence. rewrite H3. reflexivity.
  - split; [discriminate|]. intros [_ [n' [seg' [H1 [H2 [H _]]]]]]. injection H1 as <-. assert (seg' = seg) as -> by congruence. apply Hcl in H. discriminate.
Qed.
