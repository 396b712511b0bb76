(** Properties of indexer classes and keys: C01 to C06. *)
Require Import String List Arith ZArith Bool Lia.
Require Import Verif.Common Verif.IdxModel Verif.IdxSpec Verif.IdxProofs Verif.IdxStrProofs.
Import ListNotations.
Local Open Scope list_scope.

Lemma make_key_ok : forall c args k, make_key c args true = Ok k ->
  k = VDC args /\ length args = length (c_fields c) /\ validate c (VDC args) = Ok tt.
Proof.
  intros c args k H. unfold make_key, construct in H. destruct (length args =? length (c_fields c)) eqn:E; cbn [bind] in H; [|discriminate].
  apply Nat.eqb_eq in E. destruct (validate c (VDC args)) as [[]|] eqn:V; cbn [bind] in H; [|discriminate]. injection H as <-. auto.
Qed.

(** Examples used below: class 'WeatherEntry(country: str, year: int, place: Place(city: str, station: int))'. *)
Definition ex_sub : list ftype := [TStr; TInt].
Definition ex_cls : cls := mkCls minus [TStr; TInt; TDC ex_sub].
Definition ex_args : list value := [VStr (lit "france"); VInt (-20)%Z; VDC [VStr (lit "paris"); VInt 7%Z]].
Definition ex_cls_plus : cls := mkCls 43 [TStr; TInt; TDC ex_sub].
Definition ex_key : value := VDC ex_args.

(** * C01: round trip *)
Theorem C01_round_trip : forall c args k,
  plain_sep (c_sep c) = true -> key_of (c_fields c) args -> make_key c args true = Ok k ->
  ~ empty_then_one args ->
  exists p s, to_path c k = Ok p /\ key_str c k = Ok s
    /\ from_str c p = Some k /\ from_str c s = Some k /\ unpickle c k = Some k.
Proof.
  intros c args k Hp Hk H Hd. apply make_key_ok in H as (-> & _ & V). pose proof (valid_clean _ _ _ Hk V) as Hc.
  destruct (to_from c args true Hp Hk Hc Hd) as (p & A & B). destruct (to_from c args false Hp Hk Hc Hd) as (s & A' & B').
  exists p, s. unfold unpickle, to_path, key_str. rewrite A, A'. auto.
Qed.
Print Assumptions C01_round_trip.

Example ex_C01 : plain_sep (c_sep ex_cls_plus) = true /\ key_of (c_fields ex_cls_plus) ex_args
  /\ make_key ex_cls_plus ex_args true = Ok ex_key /\ ~ empty_then_one ex_args
  /\ to_path ex_cls_plus ex_key = Ok (lit "france+-20/paris+7").
Proof.
  assert (key_of (c_fields ex_cls_plus) ex_args).
  { apply (KNest [TStr; TInt] [_; _] ex_sub); [discriminate|repeat constructor|]. apply KLeaf; [discriminate|]. repeat constructor. }
  repeat (split; try reflexivity; auto).
  intro H0. inversion H0; subst.
  destruct vs as [|v1 [|v2 [|v3 [|]]]]; try discriminate.
  simpl in H1. injection H1 as E1 E2 E3. subst sub. inversion H2. destruct vs as [|? [|? [|]]]; discriminate.
Qed.

(** The only exception: last level with two fields, the first one empty. *)
Theorem C01_exception : forall c args k,
  plain_sep (c_sep c) = true -> key_of (c_fields c) args -> make_key c args true = Ok k ->
  empty_then_one args ->
  exists p s, to_path c k = Ok p /\ key_str c k = Ok s
    /\ from_str c p = None /\ from_str c s = None /\ unpickle c k = None.
Proof.
  intros c args k Hp Hk H Hd. apply make_key_ok in H as (-> & _ & V). pose proof (valid_clean _ _ _ Hk V) as Hc.
  destruct (to_from_degenerate c args true Hp Hk Hc Hd) as (p & A & B). destruct (to_from_degenerate c args false Hp Hk Hc Hd) as (s & A' & B').
  exists p, s. unfold unpickle, to_path, key_str. rewrite A, A'. auto.
Qed.
Print Assumptions C01_exception.

Example ex_C01_exception :
  let args := [VStr (lit "france"); VInt 20%Z; VDC [VStr []; VInt 7%Z]] in
  key_of (c_fields ex_cls) args /\ make_key ex_cls args true = Ok (VDC args) /\ empty_then_one args
  /\ to_path ex_cls (VDC args) = Ok (lit "france-20/7").
Proof.
  cbv zeta. split; [|split; [reflexivity|split; [|reflexivity]]].
  - apply (KNest [TStr; TInt] [_; _] ex_sub); [discriminate|repeat constructor|]. apply KLeaf; [discriminate|]. repeat constructor.
  - apply (ENest [_; _]). constructor. reflexivity.
Qed.

(** A letter as separator does not give back the key: "\d" matches digits. *)
Theorem C01_letter_separator_refuted :
  exists c args k, key_of (c_fields c) args /\ make_key c args true = Ok k /\ ~ empty_then_one args /\ unpickle c k = None.
Proof.
  exists (mkCls 100 [TStr; TInt]), [VStr (lit "a"); VInt 17%Z], (VDC [VStr (lit "a"); VInt 17%Z]).
  split; [apply KLeaf; [discriminate|repeat constructor]|]. split; [reflexivity|]. split; [|reflexivity].
  intro H. inversion H; subst. destruct vs as [|? [|? [|]]]; discriminate.
Qed.
Print Assumptions C01_letter_separator_refuted.

(** * C02: two keys, two paths *)
Theorem C02_injective : forall c args1 args2 k1 k2,
  key_of (c_fields c) args1 -> key_of (c_fields c) args2 ->
  make_key c args1 true = Ok k1 -> make_key c args2 true = Ok k2 -> k1 <> k2 ->
  exists p1 p2 s1 s2, to_path c k1 = Ok p1 /\ to_path c k2 = Ok p2 /\ p1 <> p2
    /\ key_str c k1 = Ok s1 /\ key_str c k2 = Ok s2 /\ s1 <> s2.
Proof.
  intros c a1 a2 k1 k2 K1 K2 M1 M2 Hne. apply make_key_ok in M1 as (-> & _ & V1). apply make_key_ok in M2 as (-> & _ & V2).
  pose proof (valid_clean _ _ _ K1 V1) as C1. pose proof (valid_clean _ _ _ K2 V2) as C2.
  destruct (to_str_ok c a1 true (key_of_ne _ _ K1)) as [p1 E1]. destruct (to_str_ok c a2 true (key_of_ne _ _ K2)) as [p2 E2].
  destruct (to_str_ok c a1 false (key_of_ne _ _ K1)) as [s1 F1]. destruct (to_str_ok c a2 false (key_of_ne _ _ K2)) as [s2 F2].
  exists p1, p2, s1, s2. unfold to_path, key_str. repeat (split; auto).
  - intros ->. apply Hne. f_equal. apply (to_str_inj c _ a1 a2 true p2 K1 K2); auto.
  - intros ->. apply Hne. f_equal. apply (to_str_inj c _ a1 a2 false s2 K1 K2); auto.
Qed.
Print Assumptions C02_injective.

Example ex_C02 : exists k1 k2, make_key ex_cls [VStr (lit "a"); VInt 12%Z; VDC [VStr (lit "3"); VInt 4%Z]] true = Ok k1
  /\ make_key ex_cls [VStr (lit "a"); VInt 1%Z; VDC [VStr (lit "23"); VInt 4%Z]] true = Ok k2 /\ k1 <> k2.
Proof. do 2 eexists. split; [reflexivity|]. split; [reflexivity|]. discriminate. Qed.

(** Different directories too, if no level gives an empty name. *)
Theorem C02_directories : forall c args1 args2 k1 k2 base,
  c_sep c <> slash -> key_of (c_fields c) args1 -> key_of (c_fields c) args2 ->
  make_key c args1 true = Ok k1 -> make_key c args2 true = Ok k2 -> k1 <> k2 ->
  no_empty_level args1 -> no_empty_level args2 ->
  exists p1 p2, to_path c k1 = Ok p1 /\ to_path c k2 = Ok p2
    /\ dir_names (path_join base p1) <> dir_names (path_join base p2).
Proof.
  intros c a1 a2 k1 k2 base Hs K1 K2 M1 M2 Hne N1 N2. apply make_key_ok in M1 as (-> & _ & V1). apply make_key_ok in M2 as (-> & _ & V2).
  pose proof (valid_clean _ _ _ K1 V1) as C1. pose proof (valid_clean _ _ _ K2 V2) as C2.
  destruct (path_levels c _ a1 Hs K1 (proj1 (validate_iff c a1) V1)) as (p1 & n1 & E1 & F1 & _ & _ & G1).
  destruct (path_levels c _ a2 Hs K2 (proj1 (validate_iff c a2) V2)) as (p2 & n2 & E2 & F2 & _ & _ & G2).
  specialize (G1 N1). specialize (G2 N2). rewrite <- F1 in G1. rewrite <- F2 in G2.
  exists p1, p2. repeat (split; auto). 
  destruct (split_nonempty_head p1 G1) as (x1 & s1 & Q1 & X1). destruct (split_nonempty_head p2 G2) as (x2 & s2 & Q2 & X2).
  rewrite !dir_names_join by (try (rewrite Q1); try (rewrite Q2); try discriminate; simpl; apply Nat.eqb_neq; auto).
  intro E. apply app_inv_head in E. rewrite !dir_names_full in E by auto. apply split_slash_inj in E. subst p2.
  apply Hne. f_equal. apply (to_str_inj c _ a1 a2 true p1 K1 K2 C1 C2). exact E1. rewrite E. exact E2.
Qed.
Print Assumptions C02_directories.

Example ex_C02_directories : c_sep ex_cls_plus <> slash /\ key_of (c_fields ex_cls_plus) ex_args /\ no_empty_level ex_args.
Proof.
  split; [discriminate|]. split; [apply ex_C01|].
  apply (NNest [_; _]); [discriminate|repeat constructor|]. constructor; [discriminate|discriminate|repeat constructor].
Qed.

(** Values which are not of the declared type: two keys, one path. *)
Theorem C02_untyped_refuted : exists c k1 k2 p, make_key c [VInt 1%Z] true = Ok k1 /\ make_key c [VStr (lit "1")] true = Ok k2
  /\ k1 <> k2 /\ to_path c k1 = Ok p /\ to_path c k2 = Ok p.
Proof. exists (mkCls minus [TInt]), (VDC [VInt 1%Z]), (VDC [VStr (lit "1")]), (lit "1"). repeat split; try reflexivity. discriminate. Qed.
Print Assumptions C02_untyped_refuted.

(** Empty names: two keys of the declared types, two paths, one directory. *)
Definition empty_cls : cls := mkCls minus [TStr; TDC [TStr; TDC [TStr; TDC [TStr]]]].
Definition empty_key (a b c d : str) : value := VDC [VStr a; VDC [VStr b; VDC [VStr c; VDC [VStr d]]]].
Theorem C02_empty_names_refuted : exists args1 args2 k1 k2 p1 p2,
  key_of (c_fields empty_cls) args1 /\ key_of (c_fields empty_cls) args2
  /\ make_key empty_cls args1 true = Ok k1 /\ make_key empty_cls args2 true = Ok k2 /\ k1 <> k2
  /\ to_path empty_cls k1 = Ok p1 /\ to_path empty_cls k2 = Ok p2
  /\ forall base, dir_names (path_join base p1) = dir_names (path_join base p2).
Proof.
  exists [VStr (lit "a"); VDC [VStr []; VDC [VStr (lit "b"); VDC [VStr (lit "c")]]]],
         [VStr (lit "a"); VDC [VStr (lit "b"); VDC [VStr []; VDC [VStr (lit "c")]]]],
         (empty_key (lit "a") [] (lit "b") (lit "c")), (empty_key (lit "a") (lit "b") [] (lit "c")),
         (lit "a//b/c"), (lit "a/b//c").
  assert (K : forall a b c d, key_of (c_fields empty_cls) [VStr a; VDC [VStr b; VDC [VStr c; VDC [VStr d]]]]).
  { intros. apply (KNest [TStr] [_]); [discriminate|repeat constructor|].
    apply (KNest [TStr] [_]); [discriminate|repeat constructor|].
    apply (KNest [TStr] [_]); [discriminate|repeat constructor|]. apply KLeaf; [discriminate|repeat constructor]. }
  repeat (split; [solve [apply K|reflexivity|discriminate]|]).
  intro base. rewrite !dir_names_join by (reflexivity || discriminate). reflexivity.
Qed.
Print Assumptions C02_empty_names_refuted.

(** * C03: validation *)
Theorem C03_validation : forall c args k,
  make_key c args true = Ok k <-> k = VDC args /\ length args = length (c_fields c) /\ valid_fields c args.
Proof.
  intros c args k. split.
  - intro H. apply make_key_ok in H as (-> & L & V). apply validate_iff in V. auto.
  - intros (-> & L & V). unfold make_key, construct. rewrite L, Nat.eqb_refl. cbn [bind]. apply validate_iff in V. rewrite V. auto.
Qed.
Print Assumptions C03_validation.

Theorem C03_refusals : forall c args e, make_key c args true = Err e -> e = TypeError \/ e = ValueError.
Proof.
  intros c args e H. unfold make_key, construct in H. destruct (_ =? _); cbn [bind] in H; [|injection H as <-; auto].
  destruct (validate c (VDC args)) as [[]|] eqn:V; cbn [bind] in H; [discriminate|]. injection H as <-. eapply validate_errors; eauto.
Qed.
Print Assumptions C03_refusals.

Example ex_C03 : make_key ex_cls_plus ex_args true = Ok ex_key
  /\ make_key ex_cls [VStr (lit "a/b"); VInt 1%Z; VDC [VStr []; VInt 7%Z]] true = Err ValueError
  /\ make_key ex_cls [VStr (lit "a.b"); VInt 1%Z; VDC [VStr []; VInt 7%Z]] true = Err ValueError
  /\ make_key ex_cls ex_args true = Err ValueError
  /\ make_key ex_cls [VStr (lit "a"); VOther (lit "True"); VDC [VStr []; VInt 7%Z]] true = Err TypeError
  /\ make_key ex_cls [VStr (lit "a"); VDC [VStr []; VInt 7%Z]; VInt 1%Z] true = Err TypeError
  /\ make_key (mkCls minus [TDC [TStr]]) [VDC [VStr (lit "a")]] true = Err TypeError.
Proof. repeat split. Qed.

(** * C04: directories below the base path *)
Theorem C04_containment : forall c args k base,
  c_sep c <> slash -> c_sep c <> dot -> key_of (c_fields c) args -> make_key c args true = Ok k -> no_empty_level args ->
  exists p names, to_path c k = Ok p /\ absolute p = false
    /\ dir_names (path_join base p) = dir_names base ++ names
    /\ length names = depth c
    /\ forall n, In n names -> n <> [] /\ (forall x, In x n -> x <> slash) /\ n <> [dot] /\ n <> [dot; dot].
Proof.
  intros c args k base Hs Hd K M N. apply make_key_ok in M as (-> & _ & V).
  destruct (path_levels c _ args Hs K (proj1 (validate_iff c args) V)) as (p & n & E & F & L & Q & G).
  specialize (G N). rewrite <- F in G. destruct (split_nonempty_head p G) as (x & s & Ep & X).
  exists p, n. assert (Ha : absolute p = false) by (rewrite Ep; simpl; apply Nat.eqb_neq; auto).
  repeat (split; auto).
  - rewrite dir_names_join by (auto; intro Q0; rewrite Q0 in Ep; discriminate). rewrite (dir_names_full p) by auto. rewrite F. reflexivity.
  - intros ->. apply G. rewrite F. auto.
  - intros y Hy. apply (Q n0 H y Hy).
  - intros ->. destruct (Q _ H dot) as [_ A]; simpl; auto.
  - intros ->. destruct (Q _ H dot) as [_ A]; simpl; auto.
Qed.
Print Assumptions C04_containment.

Example ex_C04 : c_sep ex_cls_plus <> dot /\ depth ex_cls_plus = 2
  /\ path_join (lit "/data/store") (lit "france+-20/paris+7") = lit "/data/store/france+-20/paris+7"
  /\ dir_names (lit "/data/store/france+-20/paris+7") = dir_names (lit "/data/store") ++ [lit "france+-20"; lit "paris+7"].
Proof. repeat split. discriminate. Qed.

(** An empty first name: the path is absolute and leaves the base path. *)
Theorem C04_escape_refuted : exists c args k p,
  key_of (c_fields c) args /\ make_key c args true = Ok k /\ to_path c k = Ok p
  /\ absolute p = true /\ forall base, path_join base p = p.
Proof.
  exists (mkCls minus [TStr; TDC [TStr]]), [VStr []; VDC [VStr (lit "etc")]], (VDC [VStr []; VDC [VStr (lit "etc")]]), (lit "/etc").
  split; [apply (KNest [TStr] [_]); [discriminate|repeat constructor|apply KLeaf; [discriminate|repeat constructor]]|].
  repeat (split; [reflexivity|]). reflexivity.
Qed.
Print Assumptions C04_escape_refuted.

(** '.' as separator and empty fields: the path is '..'. *)
Theorem C04_dot_separator_refuted : exists c args k,
  c_sep c = dot /\ key_of (c_fields c) args /\ make_key c args true = Ok k /\ to_path c k = Ok [dot; dot].
Proof.
  exists (mkCls dot [TStr; TStr; TStr]), [VStr []; VStr []; VStr []], (VDC [VStr []; VStr []; VStr []]).
  split; auto. split; [apply KLeaf; [discriminate|repeat constructor]|]. split; reflexivity.
Qed.
Print Assumptions C04_dot_separator_refuted.

(** * C05: from directories to keys *)
Theorem C05_canonical : forall c p, plain_sep (c_sep c) = true -> dir_of (c_sep c) (c_fields c) p ->
  exists k, from_str c p = Some k /\ to_path c k = Ok p.
Proof.
  intros c p Hp H. destruct (dir_of_key _ _ _ H) as (vs & K & C & D & E). exists (VDC vs). split; auto.
  destruct (to_from c vs true Hp K C D) as (s & A & B). unfold to_path in E. rewrite E in A. injection A as <-. auto.
Qed.
Print Assumptions C05_canonical.

Example ex_C05 : dir_of minus (c_fields ex_cls) (lit "france-20/paris-7").
Proof.
  assert (forall s x, has_char minus s = false -> has_char slash s = false -> In x s -> x <> minus /\ x <> slash).
  { intros s x A B Hx. split; intros ->; [rewrite <- not_true_iff_false in A; apply A|rewrite <- not_true_iff_false in B; apply B];
      apply existsb_exists; eexists; (split; [eauto|reflexivity]). }
  apply (DNest minus [TStr; TInt] ex_sub [lit "france"; lit "20"]); [discriminate| | |].
  - constructor; [exact I|]. constructor; [exists 20%Z; reflexivity|constructor].
  - intros s x [<-|[<-|[]]] Hx; eapply H; eauto; reflexivity.
  - apply (DLeaf minus ex_sub [lit "paris"; lit "7"]); [discriminate| | |discriminate].
    + constructor; [exact I|]. constructor; [exists 7%Z; reflexivity|constructor].
    + intros s x [<-|[<-|[]]] Hx; eapply H; eauto; reflexivity.
Qed.

(** Without these provisos: '007' is read as 7, leading fields are ignored. *)
Theorem C05_refuted : exists c, plain_sep (c_sep c) = true /\
  (exists k, from_str c (lit "007") = Some k /\ to_path c k = Ok (lit "7")) /\
  (exists k, from_str c (lit "any-thing-7") = Some k /\ to_path c k = Ok (lit "7")) /\
  (exists k, from_str c (lit " +1_000 ") = Some k /\ to_path c k = Ok (lit "1000")).
Proof. exists (mkCls minus [TInt]). split; [reflexivity|]. repeat split; eexists; (split; [reflexivity|reflexivity]). Qed.
Print Assumptions C05_refuted.

(** * C06: what from_path returns *)
Theorem C06_fields : forall c s k, schema (c_fields c) -> plain_sep (c_sep c) = true -> from_str c s = Some k ->
  exists args, k = VDC args /\ key_of (c_fields c) args
    /\ all_str (fun f => forall x, In x f -> x <> c_sep c /\ x <> slash) k.
Proof.
  intros c s k Hs Hp H.
  destruct (from_str_inv (fun f => forall x, In x f -> x <> c_sep c /\ x <> slash) c s k Hs) as (args & E & K & A & _); eauto.
  intros f Hf x Hx. apply split_pieces in Hf. specialize (Hf x Hx). apply orb_false_iff in Hf as [B C].
  rewrite plain_matches in C by auto. apply Nat.eqb_neq in B. apply Nat.eqb_neq in C. auto.
Qed.
Print Assumptions C06_fields.

Example ex_C06 : schema (c_fields ex_cls) /\ from_str ex_cls (lit "a/b-20/c-7")
  = Some (VDC [VStr (lit "b"); VInt 20%Z; VDC [VStr (lit "c"); VInt 7%Z]]).
Proof.
  split; [|reflexivity]. apply (SNest [TStr; TInt]); [discriminate|repeat (apply Forall_cons; [unfold is_leaf_type; auto|]); apply Forall_nil|].
  apply SLeaf; [discriminate|repeat (apply Forall_cons; [unfold is_leaf_type; auto|]); apply Forall_nil].
Qed.

(** '.' is accepted by from_path, not by the constructor. *)
Theorem C06_unconstructible_refuted : exists c s args, schema (c_fields c) /\ plain_sep (c_sep c) = true
  /\ from_str c s = Some (VDC args) /\ make_key c args true = Err ValueError.
Proof.
  exists (mkCls minus [TStr; TInt]), (lit "a.b-7"), [VStr (lit "a.b"); VInt 7%Z].
  split; [|repeat split]. apply SLeaf; [discriminate|repeat (apply Forall_cons; [unfold is_leaf_type; auto|]); apply Forall_nil].
Qed.
Print Assumptions C06_unconstructible_refuted.
