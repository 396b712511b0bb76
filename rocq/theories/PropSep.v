(** Properties of separators of fields of several characters: C78. *)
Require Import String List Arith ZArith Bool Lia.
Require Import Verif.Common Verif.IdxModel Verif.IdxSpec Verif.IdxProofs Verif.IdxStrProofs.
Require Import Verif.SepModel Verif.SepSpec Verif.SepProofs.
Import ListNotations.
Local Open Scope list_scope.

(** Example: class 'Place(country: str, year: int, Station(city: str, number: int))', with '-_' as
    separator. *)
Definition sx_fields : list ftype := [TStr; TInt; TDC [TStr; TInt]].
Definition sx_cls : scls := mkSCls (lit "-_") sx_fields.
Definition sx_args : list value := [VStr (lit "saint-malo-"); VInt (-20)%Z; VDC [VStr (lit "_quay"); VInt 7%Z]].

(** Strings of a key give this key back, if the separator does not end as it starts. *)
Theorem C78_round_trip : forall c args k,
  literal (s_sep c) -> ~ In slash (s_sep c) -> ~ bordered (s_sep c) ->
  key_of (s_fields c) args -> make_key_s c args true = Ok k -> ~ empty_then_one args ->
  exists p s, to_path_s c k = Ok p /\ key_str_s c k = Ok s
    /\ from_str_s c p = Some k /\ from_str_s c s = Some k /\ unpickle_s c k = Some k.
Proof.
  intros c args k Hl Hs Hb Hk H Hd. apply make_key_s_ok in H as (-> & _ & V).
  assert (R : forall b, exists s, to_str_s c (VDC args) b = Ok s /\ from_str_s c s = Some (VDC args)).
  { intro b. destruct (split_to_str_s c _ args Hl Hs Hb Hk V b) as (s & ts & E1 & E2 & E3 & E4).
    exists s. split; auto. eapply from_str_of_fields_s; eauto. eapply tokens_fields; eauto. }
  destruct (R true) as (p & A & B). destruct (R false) as (s & A' & B').
  exists p, s. unfold unpickle_s, to_path_s, key_str_s. rewrite A, A'. auto.
Qed.
Print Assumptions C78_round_trip.

Example ex_C78 : literal (s_sep sx_cls) /\ ~ In slash (s_sep sx_cls) /\ ~ bordered (s_sep sx_cls)
  /\ key_of (s_fields sx_cls) sx_args /\ make_key_s sx_cls sx_args true = Ok (VDC sx_args) /\ ~ empty_then_one sx_args
  /\ to_path_s sx_cls (VDC sx_args) = Ok (lit "saint-malo--_-20/_quay-_7")
  /\ from_str_s sx_cls (lit "saint-malo--_-20-__quay-_7") = Some (VDC sx_args).
Proof.
  split; [split; [reflexivity|]; intros x [<-|[]]; split; [discriminate|]; simpl; intuition discriminate|].
  split; [simpl; intuition discriminate|].
  split. { intros (a & b & c & Ha & Hb & E1 & E2). destruct a as [|a0 [|a1 a]]; [congruence| |].
    - cbn in E1. injection E1 as _ <-. discriminate.
    - cbn in E1. injection E1 as _ _ E1. symmetry in E1. apply app_eq_nil in E1 as [_ E1]. congruence. }
  split. { apply (KNest [TStr; TInt] [_; _] [TStr; TInt]); [discriminate|repeat constructor|]. apply KLeaf; [discriminate|]. repeat constructor. }
  split; [reflexivity|]. split; [|split; reflexivity].
  intro H0. inversion H0; subst. destruct vs as [|v1 [|v2 [|v3 [|]]]]; try discriminate.
  simpl in H. injection H as E1 E2 E3. subst sub. inversion H1. destruct vs as [|? [|? [|]]]; discriminate.
Qed.

(** Distinct keys have distinct paths, and distinct strings. *)
Theorem C78_injective : forall c args1 args2 k1 k2,
  literal (s_sep c) -> ~ In slash (s_sep c) -> ~ bordered (s_sep c) ->
  key_of (s_fields c) args1 -> key_of (s_fields c) args2 ->
  make_key_s c args1 true = Ok k1 -> make_key_s c args2 true = Ok k2 -> k1 <> k2 ->
  exists p1 p2 s1 s2, to_path_s c k1 = Ok p1 /\ to_path_s c k2 = Ok p2 /\ p1 <> p2
    /\ key_str_s c k1 = Ok s1 /\ key_str_s c k2 = Ok s2 /\ s1 <> s2.
Proof.
  intros c a1 a2 k1 k2 Hl Hs Hb K1 K2 M1 M2 Hne. apply make_key_s_ok in M1 as (-> & _ & V1). apply make_key_s_ok in M2 as (-> & _ & V2).
  destruct (split_to_str_s c _ a1 Hl Hs Hb K1 V1 true) as (p1 & t1 & A1 & B1 & _ & D1).
  destruct (split_to_str_s c _ a2 Hl Hs Hb K2 V2 true) as (p2 & t2 & A2 & B2 & _ & D2).
  destruct (split_to_str_s c _ a1 Hl Hs Hb K1 V1 false) as (s1 & t1' & A1' & B1' & _ & D1').
  destruct (split_to_str_s c _ a2 Hl Hs Hb K2 V2 false) as (s2 & t2' & A2' & B2' & _ & D2').
  exists p1, p2, s1, s2. unfold to_path_s, key_str_s. split; [exact A1|]. split; [exact A2|].
  split; [|split; [exact A1'|split; [exact A2'|]]].
  - intros ->. apply Hne. f_equal. apply (tokens_inj _ _ K1 a2 t1 K2 B1). congruence.
  - intros ->. apply Hne. f_equal. apply (tokens_inj _ _ K1 a2 t1' K2 B1'). congruence.
Qed.
Print Assumptions C78_injective.

Example ex_C78_injective : exists k1 k2,
  make_key_s sx_cls sx_args true = Ok k1
  /\ make_key_s sx_cls [VStr (lit "saint-malo"); VInt (-20)%Z; VDC [VStr (lit "_quay"); VInt 7%Z]] true = Ok k2 /\ k1 <> k2.
Proof. do 2 eexists. split; [reflexivity|]. split; [reflexivity|]. discriminate. Qed.

(** What is accepted by the constructor. *)
Theorem C78_validation : forall c args k,
  make_key_s c args true = Ok k <-> k = VDC args /\ length args = length (s_fields c) /\ valid_fields_s (s_sep c) args.
Proof. intros c args k. rewrite make_key_s_ok, validate_iff_s. tauto. Qed.
Print Assumptions C78_validation.

Example ex_C78_validation : make_key_s sx_cls sx_args true = Ok (VDC sx_args)
  /\ make_key_s sx_cls [VStr (lit "a-_b"); VInt 1%Z; VDC [VStr []; VInt 7%Z]] true = Err ValueError
  /\ make_key_s sx_cls [VStr (lit "a/b"); VInt 1%Z; VDC [VStr []; VInt 7%Z]] true = Err ValueError.
Proof. repeat split. Qed.

(** For any separator which ends as it starts, '--' for instance: two keys have the same path and the
    same string, which gives one of them back. *)
Definition two_str (sep : str) : scls := mkSCls sep [TStr; TStr].

Lemma not_longer : forall sep s : str, length s < length sep -> ~ occurs sep s.
Proof. intros sep s H (a & b & ->). rewrite !app_length in H. lia. Qed.

Theorem C78_bordered_refuted : forall sep,
  literal sep -> ~ In slash sep -> ~ In dot sep -> bordered sep ->
  exists args1 args2 p, key_of [TStr; TStr] args1 /\ key_of [TStr; TStr] args2 /\ args1 <> args2
    /\ ~ empty_then_one args1
    /\ make_key_s (two_str sep) args1 true = Ok (VDC args1) /\ make_key_s (two_str sep) args2 true = Ok (VDC args2)
    /\ to_path_s (two_str sep) (VDC args1) = Ok p /\ to_path_s (two_str sep) (VDC args2) = Ok p
    /\ key_str_s (two_str sep) (VDC args1) = Ok p /\ key_str_s (two_str sep) (VDC args2) = Ok p
    /\ unpickle_s (two_str sep) (VDC args1) = Some (VDC args2).
Proof.
  intros sep Hl Hs Hd (a & b & c & Ha & Hb & E1 & E2).
  assert (Hin : forall x, In x a \/ In x c -> x <> slash /\ x <> dot).
  { intros x Hx. assert (In x sep) by (destruct Hx; [rewrite E1|rewrite E2]; apply in_or_app; auto). split; intros ->; auto. }
  assert (La : length a = length c) by (apply (f_equal (@length nat)) in E1; rewrite E2, !app_length in E1; lia).
  assert (Lb : 0 < length b) by (destruct b; [congruence|simpl; lia]).
  assert (Hx : plain_sep 97 = false) by reflexivity.
  assert (Hh : forall s, sep <> 97 :: s) by (intros s E; rewrite E in Hl; destruct Hl as [Hl _]; congruence).
  set (x1 := 97 :: a). set (x2 := [97 : nat]).
  exists [VStr x1; VStr []], [VStr x2; VStr c], (x1 ++ sep).
  assert (K : forall u v, key_of [TStr; TStr] [VStr u; VStr v]) by (intros; apply KLeaf; [discriminate|repeat constructor]).
  assert (Lsep : length sep = length a + length b) by (rewrite E1, app_length; auto).
  assert (OK : forall u v, ~ occurs sep u -> ~ occurs sep v -> (forall x, In x u \/ In x v -> x <> slash /\ x <> dot) ->
    make_key_s (two_str sep) [VStr u; VStr v] true = Ok (VDC [VStr u; VStr v])).
  { intros u v O1 O2 I. apply make_key_s_ok. do 2 (split; [reflexivity|]). apply validate_iff_s. apply SVLeaf. cbn [s_sep two_str].
    constructor; [split; [exact Logic.I|split; auto]|]. constructor; [split; [exact Logic.I|split; auto]|constructor]. }
  assert (O1 : ~ occurs sep x1).
  { intros (u & v & E). apply (f_equal (@length nat)) in E as EL. unfold x1 in EL, E. rewrite !app_length in EL. simpl in EL.
    assert (u = []) by (destruct u; auto; simpl in EL; lia). subst u. assert (v = []) by (destruct v; auto; simpl in EL; lia). subst v.
    rewrite app_nil_r in E. cbn [app] in E. exact (Hh a (eq_sym E)). }
  assert (O2 : ~ occurs sep x2).
  { apply not_longer. rewrite Lsep. cbn [x2 length]. destruct a; [congruence|simpl; lia]. }
  assert (S1 : forall y b0, to_str_s (two_str sep) (VDC [VStr x1; VStr y]) b0 = Ok (x1 ++ sep ++ y)) by reflexivity.
  assert (S2 : forall y b0, to_str_s (two_str sep) (VDC [VStr x2; VStr y]) b0 = Ok (x2 ++ sep ++ y)) by reflexivity.
  assert (E : x2 ++ sep ++ c = x1 ++ sep).
  { unfold x1, x2. cbn [app]. f_equal. rewrite E1 at 1. rewrite E2. rewrite <- app_assoc. reflexivity. }
  split; [apply K|]. split; [apply K|]. split; [intro Q; injection Q as Q _; unfold x1, x2 in Q; congruence|].
  split; [intro Q; inversion Q; destruct vs as [|? [|? [|]]]; discriminate|].
  assert (M2 : make_key_s (two_str sep) [VStr x2; VStr c] true = Ok (VDC [VStr x2; VStr c])).
  { apply OK; auto; [apply not_longer; lia|]. intros x [[<-|[]]|Hx']; [split; discriminate|auto]. }
  split. { apply OK; auto; [apply not_longer; simpl; lia|]. intros x [[<-|Hx']|[]]; [split; discriminate|auto]. }
  split; [exact M2|].
  unfold to_path_s, key_str_s, unpickle_s, key_str_s. rewrite !S1, !S2, app_nil_r, E.
  do 4 (split; [reflexivity|]).
  eapply from_str_of_fields_s; [apply K|apply AfLeaf; repeat constructor|]. cbn [map value_str s_sep two_str].
  rewrite <- E. rewrite split_prepend.
  - rewrite split_at_sep by auto. cbn [prepend]. rewrite app_nil_r. f_equal. apply split_one; auto. split; [apply not_longer; lia|].
    intro Q. destruct (Hin _ (or_intror Q)). congruence.
  - intros [Q|[]]. discriminate.
  - intros u v Ev Hv. destruct u as [|u0 u]; [|destruct u; [simpl in Ev; injection Ev as _ Ev; congruence|discriminate]].
    cbn [app] in Ev. subst v. apply not_true_iff_false. rewrite match_literal by auto. intros (r & Er).
    destruct sep as [|y sep']; [contradiction|]. injection Er as Ey _. subst y. eapply Hh. reflexivity.
Qed.
Print Assumptions C78_bordered_refuted.

Example ex_C78_bordered : bordered (lit "--") /\ literal (lit "--")
  /\ to_path_s (two_str (lit "--")) (VDC [VStr (lit "a-"); VStr (lit "b")]) = Ok (lit "a---b")
  /\ to_path_s (two_str (lit "--")) (VDC [VStr (lit "a"); VStr (lit "-b")]) = Ok (lit "a---b").
Proof.
  split; [exists (lit "-"), (lit "-"), (lit "-"); repeat split; discriminate|].
  split; [split; [reflexivity|]; intros x [<-|[]]; split; [discriminate|]; simpl; intuition discriminate|]. split; reflexivity.
Qed.

(** Hence separators which can be used are known exactly. *)
Theorem C78_exact : forall sep, literal sep -> ~ In slash sep -> ~ In dot sep ->
  (~ bordered sep <->
   forall fs args k, key_of fs args -> make_key_s (mkSCls sep fs) args true = Ok k -> ~ empty_then_one args ->
     unpickle_s (mkSCls sep fs) k = Some k).
Proof.
  intros sep Hl Hs Hd. split.
  - intros Hb fs args k Hk M He. destruct (C78_round_trip (mkSCls sep fs) args k) as (p & s & _ & _ & _ & _ & U); auto.
  - intros H Hb. destruct (C78_bordered_refuted sep Hl Hs Hd Hb) as (a1 & a2 & p & K1 & K2 & Hne & N & M1 & M2 & P1 & P2 & S1 & S2 & U).
    pose proof (H _ _ _ K1 M1 N) as U2. unfold two_str in U. congruence.
Qed.
Print Assumptions C78_exact.

Example ex_C78_exact : literal (lit "->") /\ ~ bordered (lit "->") /\ bordered (lit "-_-").
Proof.
  split; [split; [reflexivity|]; intros x [<-|[]]; split; [discriminate|]; simpl; intuition discriminate|].
  split. { intros (a & b & c & Ha & Hb & E1 & E2). destruct a as [|a0 [|a1 a]]; [congruence| |].
    - cbn in E1. injection E1 as _ <-. discriminate.
    - cbn in E1. injection E1 as _ _ E1. symmetry in E1. apply app_eq_nil in E1 as [_ E1]. congruence. }
  exists (lit "-_"), (lit "-"), (lit "_-"). repeat split; discriminate.
Qed.

(** '.' in the separator, besides its first character, matches any character. *)
Theorem C78_dot_refuted : exists sep args k, ~ bordered sep /\ ~ In slash sep
  /\ key_of [TStr; TStr] args /\ make_key_s (two_str sep) args true = Ok k /\ ~ empty_then_one args
  /\ unpickle_s (two_str sep) k <> Some k.
Proof.
  exists (lit "-."), [VStr (lit "a"); VStr (lit "b-c")], (VDC [VStr (lit "a"); VStr (lit "b-c")]).
  split. { intros (a & b & c & Ha & Hb & E1 & E2). destruct a as [|a0 [|a1 a]]; [congruence| |].
    - cbn in E1. injection E1 as _ <-. discriminate.
    - cbn in E1. injection E1 as _ _ E1. symmetry in E1. apply app_eq_nil in E1 as [_ E1]. congruence. }
  split; [simpl; intuition discriminate|]. split; [apply KLeaf; [discriminate|repeat constructor]|]. split; [reflexivity|].
  split; [intro Q; inversion Q; destruct vs as [|? [|? [|]]]; discriminate|]. vm_compute. discriminate.
Qed.
Print Assumptions C78_dot_refuted.

(** '/' in the separator: a value ending as the separator starts, before a nested level. *)
Theorem C78_slash_refuted : exists sep args k, literal sep /\ ~ bordered sep
  /\ key_of [TStr; TDC [TStr]] args /\ make_key_s (mkSCls sep [TStr; TDC [TStr]]) args true = Ok k /\ ~ empty_then_one args
  /\ exists p, to_path_s (mkSCls sep [TStr; TDC [TStr]]) k = Ok p /\ from_str_s (mkSCls sep [TStr; TDC [TStr]]) p <> Some k.
Proof.
  exists (lit "-/"), [VStr (lit "a-"); VDC [VStr (lit "b")]], (VDC [VStr (lit "a-"); VDC [VStr (lit "b")]]).
  split; [split; [reflexivity|]; intros x [<-|[]]; split; [discriminate|]; simpl; intuition discriminate|].
  split. { intros (a & b & c & Ha & Hb & E1 & E2). destruct a as [|a0 [|a1 a]]; [congruence| |].
    - cbn in E1. injection E1 as _ <-. discriminate.
    - cbn in E1. injection E1 as _ _ E1. symmetry in E1. apply app_eq_nil in E1 as [_ E1]. congruence. }
  split; [apply (KNest [TStr] [_]); [discriminate|repeat constructor|apply KLeaf; [discriminate|repeat constructor]]|]. split; [reflexivity|].
  split; [intro Q; inversion Q; subst; destruct vs as [|? [|? [|]]]; try discriminate; injection H as _ E; subst sub; inversion H0; destruct vs as [|? [|? [|]]]; discriminate|].
  eexists. split; [reflexivity|]. vm_compute. discriminate.
Qed.
Print Assumptions C78_slash_refuted.

(** With an empty separator, no key can be made. *)
Theorem C78_empty : forall fs args k, schema fs -> make_key_s (mkSCls [] fs) args true <> Ok k.
Proof.
  intros fs args k Hs H. apply C78_validation in H as (_ & L & V). cbn [s_sep s_fields] in *.
  assert (N : forall v, ~ leaf_ok_s [] v) by (intros v (_ & O & _); apply O; exists [], (value_str v); reflexivity).
  assert (Hf : fs <> []) by (destruct Hs; [auto|destruct fs; discriminate]).
  inversion V; subst.
  - destruct args as [|v args]; [destruct fs; [congruence|discriminate]|]. inversion H; subst. exact (N _ H2).
  - destruct vs as [|v vs]; [congruence|]. inversion H0; subst. exact (N _ H4).
Qed.
Print Assumptions C78_empty.

Example ex_C78_empty : make_key_s (mkSCls [] [TStr; TInt]) [VStr (lit "a"); VInt 1%Z] true = Err ValueError.
Proof. reflexivity. Qed.

(** A separator of one character is the case of C01 to C06. *)
Theorem C78_one_character : forall x fs,
  (forall args ck, make_key_s (mkSCls [x] fs) args ck = make_key (mkCls x fs) args ck)
  /\ (forall k, to_path_s (mkSCls [x] fs) k = to_path (mkCls x fs) k)
  /\ (forall k, key_str_s (mkSCls [x] fs) k = key_str (mkCls x fs) k)
  /\ (plain_sep x = true -> forall s, from_str_s (mkSCls [x] fs) s = from_str (mkCls x fs) s).
Proof.
  intros x fs. split; [intros; apply validate_single|]. split; [intro; apply to_str_single|]. split; [intro; apply to_str_single|].
  intros Hp s. apply from_single. exact Hp.
Qed.
Print Assumptions C78_one_character.
