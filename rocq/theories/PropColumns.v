(** Properties of column multi-indexes: conformation and check (C28), expansion of names (C29). *)
Require Import String List Arith ZArith Bool Lia.
Require Import Verif.Common Verif.IdxModel Verif.ColumnsModel.
Import ListNotations.
Local Open Scope list_scope.

(** * Specification *)
(** Labels of a level are different, and each column has a label in each level. *)
Definition well_formed (m : midx) : Prop :=
  Forall (@NoDup label) (levels m) /\
  Forall (fun code => length code = length (levels m) /\ forall i c level, nth_error code i = Some c -> nth_error (levels m) i = Some level -> (c < length level)%nat) (codes m).
(** Two labels of a level are not written the same ('1' and 1). *)
Definition no_clash (m : midx) : Prop := forall level a b, In level (levels m) -> In a level -> In b level -> text a = text b -> a = b.
(** What fastparquet accepts. *)
Definition accepted (m : midx) : Prop :=
  (forall n, In n (names m) -> n <> None) /\ forall level l, In level (levels m) -> In l level -> exists s, l = LStr s.
(** A multi-index with one level: names and labels. *)
Definition level1 (name : option str) (l : list label) : midx := mkMidx [name] [l] (map (fun i => [i]) (seq 0 (length l))).

(** * C28 *)
Lemma all_distinct_spec : forall l, all_distinct l = true <-> NoDup l.
Proof.
  assert (E : forall a b, str_eqb a b = true <-> a = b) by (intros a b; unfold str_eqb; destruct (list_eq_dec Nat.eq_dec a b); split; congruence).
  induction l as [|s l IH]; simpl; [split; [constructor|auto]|]. rewrite andb_true_iff, negb_true_iff, IH. split.
  - intros [A B]. constructor; auto. intro Q. assert (X : existsb (str_eqb s) l = true) by (apply existsb_exists; exists s; split; auto; apply E; auto). congruence.
  - intro H. inversion H as [|? ? N H']; subst. split; auto. apply not_true_is_false. intro Q. apply existsb_exists in Q as (x & Hx & Q). apply E in Q. subst. auto.
Qed.
Lemma conform_level_spec : forall level level', conform_level level = Ok level' -> level' = map (fun l => LStr (text l)) level.
Proof.
  intros level level' H. unfold conform_level in H. destruct (forallb is_str level) eqn:E.
  - injection H as <-. rewrite forallb_forall in E. induction level as [|l level IH]; simpl; auto. f_equal; [|apply IH; intros; apply E; simpl; auto].
    specialize (E l (or_introl eq_refl)). destruct l; [auto|discriminate].
  - cbv zeta in H. destruct (all_distinct (map text level)); [|discriminate]. injection H as <-. rewrite map_map. auto.
Qed.
Lemma conform_levels_spec : forall l l', conform_levels l = Ok l' -> l' = map (map (fun x => LStr (text x))) l.
Proof.
  induction l as [|level l IH]; intros l' H; simpl in H; [injection H as <-; reflexivity|]. destruct (conform_level level) as [a|] eqn:E; cbn [bind] in H; [|discriminate].
  destruct (conform_levels l) as [b|]; cbn [bind] in H; [|discriminate]. injection H as <-. simpl. f_equal; auto. apply conform_level_spec. auto.
Qed.
Lemma conform_inv : forall m m', conform_cmidx m = Ok m' -> levels m' = map (map (fun x => LStr (text x))) (levels m) /\ codes m' = codes m /\
  names m' = map (fun n => Some (match n with Some s => s | None => [] end)) (names m).
Proof.
  intros m m' H. unfold conform_cmidx in H. cbv zeta in H. destruct (conform_levels (levels m)) as [l|] eqn:E; cbn [bind] in H; [|discriminate]. injection H as <-. cbn.
  apply conform_levels_spec in E. split; auto. split; auto. apply map_ext. intros []; auto.
Qed.
Theorem C28_conform : forall m m', conform_cmidx m = Ok m' ->
  columns m' = map (map (fun l => LStr (text l))) (columns m) /\
  names m' = map (fun n => Some (match n with Some s => s | None => [] end)) (names m) /\
  check_cmidx m' = Ok tt.
Proof.
  intros m m' H. apply conform_inv in H as (L & C & N). split; [|split; auto].
  - unfold columns. rewrite L, C, map_map. apply map_ext. intro code. generalize (levels m). induction code as [|c code IH]; intros [|level ls]; simpl; auto. f_equal; auto.
    change (LStr []) with ((fun x => LStr (text x)) (LStr [])) at 1. rewrite map_nth. auto.
  - unfold check_cmidx. rewrite N, L. rewrite (not_true_is_false (existsb _ _)).
    + rewrite (proj2 (forallb_forall _ _)); auto. intros level Hl. apply in_map_iff in Hl as (x & <- & _). apply forallb_forall. intros l Hl. apply in_map_iff in Hl as (y & <- & _). auto.
    + intro Q. apply existsb_exists in Q as (x & Hx & Q). apply in_map_iff in Hx as (n & <- & _). discriminate.
Qed.
Print Assumptions C28_conform.
(** It is refused only when two labels of a level would become the same. *)
Theorem C28_refused : forall m, Forall (@NoDup label) (levels m) -> (exists m', conform_cmidx m = Ok m') <-> no_clash m.
Proof.
  intros m W. assert (E : (exists m', conform_cmidx m = Ok m') <-> exists l, conform_levels (levels m) = Ok l).
  { unfold conform_cmidx. cbv zeta. destruct (conform_levels (levels m)); cbn [bind]; split; intros (x & Hx); eauto; discriminate. }
  rewrite E. clear E. unfold no_clash. revert W. generalize (levels m) as ls. intros ls W. clear m.
  assert (G : forall level, NoDup level -> (exists l, conform_level level = Ok l) <-> forall a b, In a level -> In b level -> text a = text b -> a = b).
  { intros level Hn. unfold conform_level. cbv zeta. split.
    - intros (l & H) a b Ha Hb Q. destruct (forallb is_str level) eqn:F.
      + rewrite forallb_forall in F. pose proof (F a Ha). pose proof (F b Hb). destruct a, b; simpl in *; congruence.
      + destruct (all_distinct (map text level)) eqn:D; [|discriminate]. apply all_distinct_spec in D. clear -D Ha Hb Q. induction level as [|x level IH]; [contradiction|]. simpl in D. inversion D as [|? ? N D']; subst.
        destruct Ha as [->|Ha], Hb as [->|Hb]; auto; exfalso; apply N; [rewrite Q|rewrite <- Q]; apply in_map; auto.
    - intro H. destruct (forallb is_str level); eauto. rewrite (proj2 (all_distinct_spec _)); eauto. clear -Hn H. induction Hn as [|x level N Hn IH]; simpl; constructor.
      + intro Q. apply in_map_iff in Q as (y & Q & Hy). assert (y = x) by (apply H; simpl; auto). subst. auto.
      + apply IH. intros; apply H; simpl; auto. }
  induction ls as [|level ls IH]; simpl; [split; [contradiction|eauto]|]. inversion W as [|? ? W1 W2]; subst. specialize (IH W2). specialize (G level W1). split.
  - intros (l & H). destruct (conform_level level) as [x|] eqn:E1; cbn [bind] in H; [|discriminate]. destruct (conform_levels ls) as [y|] eqn:E2; cbn [bind] in H; [|discriminate].
    intros lv a b [<-|Hl]; [apply G; eauto|]. apply IH; eauto.
  - intro H. destruct (proj2 G) as [x Hx]; [intros a b; apply (H level a b); auto|]. rewrite Hx. cbn [bind]. destruct (proj2 IH) as [y Hy]; [intros lv a b Hl; apply (H lv a b); auto|]. rewrite Hy. cbn [bind]. eauto.
Qed.
Print Assumptions C28_refused.
(** Different columns stay different. *)
Theorem C28_distinct : forall m m' i j a b, well_formed m -> conform_cmidx m = Ok m' -> nth_error (columns m') i = Some a -> nth_error (columns m') j = Some b -> a = b -> nth_error (columns m) i = nth_error (columns m) j.
Proof.
  intros m m' i j a b [W1 W2] H Ha Hb <-. assert (Nc : no_clash m) by (apply C28_refused; eauto). destruct (C28_conform _ _ H) as (Ec & _). rewrite Ec in Ha, Hb. rewrite !nth_error_map in Ha, Hb.
  destruct (nth_error (columns m) i) as [x|] eqn:Ei; [|discriminate]. destruct (nth_error (columns m) j) as [y|] eqn:Ej; [|discriminate]. cbn in Ha, Hb. f_equal. assert (E : map (fun l => LStr (text l)) x = map (fun l => LStr (text l)) y) by congruence. clear Ha Hb Ec.
  assert (P : forall k t, nth_error (columns m) k = Some t -> forall q l, nth_error t q = Some l -> exists level, nth_error (levels m) q = Some level /\ In l level).
  { intros k t Hk. unfold columns in Hk. rewrite nth_error_map in Hk. destruct (nth_error (codes m) k) as [code|] eqn:Ek; [|discriminate]. cbn in Hk. injection Hk as <-.
    rewrite Forall_forall in W2. destruct (W2 code (nth_error_In _ _ Ek)) as [Hlen Hin]. revert Hlen Hin. generalize (levels m) as ls. clear. intros ls. revert code.
    induction ls as [|level ls IH]; intros [|c code] Hlen Hin q l Hq; simpl in *; try discriminate; [destruct q; discriminate|]. destruct q as [|q]; simpl in *.
    - injection Hq as <-. exists level. split; auto. apply nth_In. apply (Hin 0%nat c level); auto.
    - eapply IH; [| |exact Hq]; [congruence|]. intros i0 c0 l0 H1 H2. apply (Hin (S i0) c0 l0); auto. }
  pose proof (P _ _ Ei) as Px. pose proof (P _ _ Ej) as Py. clear -Nc E Px Py. unfold no_clash in Nc. revert Nc y E Px Py. generalize (levels m) as ls. induction x as [|l x IH]; intros ls Nc [|l' y] E Px Py; simpl in E; try discriminate; auto.
  injection E as E1 E2. destruct (Px 0%nat l eq_refl) as (lv & A1 & A2). destruct (Py 0%nat l' eq_refl) as (lv' & B1 & B2). assert (lv' = lv) by congruence. subst lv'. f_equal.
  - apply (Nc lv); auto. eapply nth_error_In; eauto.
  - destruct ls as [|lv0 ls]; [discriminate|]. apply (IH ls); auto.
    + intros lv1 a b Hl. apply Nc. simpl. auto.
    + intros q z Hq. apply (Px (S q) z Hq).
    + intros q z Hq. apply (Py (S q) z Hq).
Qed.
Print Assumptions C28_distinct.
Theorem C28_check : forall m, check_cmidx m = Ok tt <-> accepted m.
Proof.
  intro m. unfold check_cmidx, accepted. destruct (existsb (fun n => match n with None => true | Some _ => false end) (names m)) eqn:E.
  - apply existsb_exists in E as (n & Hn & E). destruct n; [discriminate|]. split; [discriminate|]. intros [A _]. exfalso. apply (A None); auto.
  - assert (A : forall n, In n (names m) -> n <> None) by (intros n Hn ->; assert (Q : existsb (fun n => match n with None => true | Some _ => false end) (names m) = true) by (apply existsb_exists; exists None; auto); congruence).
    destruct (forallb (forallb is_str) (levels m)) eqn:F.
    + split; auto. intros _. split; auto. intros level l Hl Hx. rewrite forallb_forall in F. specialize (F level Hl). rewrite forallb_forall in F. specialize (F l Hx). destruct l; [eauto|discriminate].
    + split; [discriminate|]. intros [_ B]. exfalso. assert (Q : forallb (forallb is_str) (levels m) = true); [|congruence]. apply forallb_forall. intros level Hl. apply forallb_forall. intros l Hx. destruct (B level l Hl Hx) as (s & ->). auto.
Qed.
Print Assumptions C28_check.
Theorem C28_errors : forall m, (In None (names m) -> check_cmidx m = Err ValueError) /\ (~ In None (names m) -> ~ accepted m -> check_cmidx m = Err TypeError).
Proof.
  intro m. split.
  - intro H. unfold check_cmidx. rewrite (proj2 (existsb_exists _ _)); eauto.
  - intros H Ha. destruct (check_cmidx m) as [[]|e] eqn:E; [exfalso; apply Ha, C28_check; auto|]. unfold check_cmidx in E. destruct (existsb _ _) eqn:Q; [apply existsb_exists in Q as (n & Hn & Q); destruct n; [discriminate|contradiction]|].
    destruct (forallb _ _); congruence.
Qed.
Print Assumptions C28_errors.
(** An accepted multi-index is left as it is. *)
Theorem C28_unchanged : forall m, accepted m -> conform_cmidx m = Ok m.
Proof.
  intros [n l c] [A B]. unfold conform_cmidx. cbn in *. assert (E : conform_levels l = Ok l).
  { clear A. induction l as [|level l IH]; auto. simpl. assert (F : forallb is_str level = true) by (apply forallb_forall; intros x Hx; destruct (B level x (or_introl eq_refl) Hx) as (s & ->); auto).
    unfold conform_level. rewrite F. cbn [bind]. rewrite IH by (intros; apply (B level0); simpl; auto). auto. }
  rewrite E. cbn [bind]. do 2 f_equal. clear -A. induction n as [|x n IH]; auto. simpl. rewrite IH by (intros; apply A; simpl; auto). destruct x; auto. exfalso. apply (A None); simpl; auto.
Qed.
Print Assumptions C28_unchanged.
(** test_conform_cmidx *)
Example ex_C28 : let m := mkMidx [None; Some (lit "oh"); None] [[LStr (lit "a")]; [LObj 1 (lit "1")]; [LStr (lit "o")]] [[0;0;0]] in
  well_formed m /\ conform_cmidx m = Ok (mkMidx [Some []; Some (lit "oh"); Some []] [[LStr (lit "a")]; [LStr (lit "1")]; [LStr (lit "o")]] [[0;0;0]]).
Proof.
  cbv zeta. split; [|reflexivity]. split; [repeat constructor; simpl; tauto|]. constructor; [|constructor]. split; [reflexivity|]. intros [|[|[|[|i]]]] c level H1 H2; simpl in *; try discriminate; injection H1 as <-; injection H2 as <-; simpl; lia.
Qed.
(** Labels 1 and '1'. *)
Example ex_C28_clash : conform_cmidx (level1 None [LStr (lit "1"); LObj 1 (lit "1")]) = Err ValueError.
Proof. reflexivity. Qed.
(** A label which is no longer used by any column (columns selected in a larger data frame) is checked too. *)
Theorem C28_unused_refuted : exists m, (forall t l, In t (columns m) -> In l t -> exists s, l = LStr s) /\ ~ In None (names m) /\ check_cmidx m = Err TypeError.
Proof.
  exists (mkMidx [Some (lit "n")] [[LStr (lit "a"); LObj 1 (lit "1")]] [[0]]). split; [|split; [|reflexivity]].
  - intros t l [<-|[]] [<-|[]]. eexists. reflexivity.
  - intros [H|[]]. discriminate.
Qed.
Print Assumptions C28_unused_refuted.

(** * C29 *)
(** Tuple of labels read from a name. *)
Definition tuple_of (literal_eval : str -> literal) (name : str) : option (list label) :=
  match literal_eval name with LitSeq t => Some t | LitValueError => Some (characters name) | _ => None end.
Definition is_tuple (literal_eval : str -> literal) (name : str) : Prop := exists t, literal_eval name = LitSeq t.
Lemma width_le : forall {A} (l : list (list A)) k, (k <= fold_left Nat.max (map (@length A) l) k)%nat /\ forall t, In t l -> (length t <= fold_left Nat.max (map (@length A) l) k)%nat.
Proof.
  intros A l. induction l as [|x l IH]; intro k; simpl; [split; [auto|contradiction]|]. destruct (IH (Nat.max k (length x))) as [H1 H2]. split; [lia|]. intros t [<-|Ht]; [lia|auto].
Qed.
Lemma width_eq : forall {A} (l : list (list A)) n k, (k <= n)%nat -> l <> [] -> Forall (fun t => length t = n) l -> fold_left Nat.max (map (@length A) l) k = n.
Proof.
  intros A l n k Hk Hne F. revert k Hk Hne. induction F as [|t l Ht F IH]; intros k Hk Hne; [congruence|]. simpl. destruct l as [|t' l]; [simpl; lia|]. apply IH; [lia|discriminate].
Qed.
Lemma last_repeat : forall {A} (u : list A) x k n d, u <> [] -> u ++ repeat x k = repeat x n -> last u d = x.
Proof.
  intros A u x k n d Hu E. destruct (exists_last Hu) as (v & y & ->). rewrite last_last. apply (repeat_spec n x). rewrite <- E. apply in_or_app. left. apply in_or_app. right. simpl. auto.
Qed.
Section Expansion.
  Variable literal_eval : str -> literal.
  Lemma read_names_spec : forall idx k l m, read_names literal_eval idx k = Ok (l, m) -> map (tuple_of literal_eval) idx = map Some l /\ (k <= m)%nat /\
    (forall name t, In name idx -> literal_eval name = LitSeq t -> length t <= m)%nat /\ (m = k \/ exists name t, In name idx /\ literal_eval name = LitSeq t /\ length t = m).
  Proof.
    induction idx as [|val idx IH]; intros k l m H; simpl in H.
    - injection H as <- <-. repeat split; auto. contradiction.
    - cbn [map]. destruct (literal_eval val) as [tup| | |] eqn:E; try discriminate.
      + destruct (read_names literal_eval idx (Nat.max (length tup) k)) as [[l1 m1]|] eqn:R; cbn [bind] in H; [|discriminate]. injection H as <- <-. apply IH in R as (A & B & C & D). unfold tuple_of at 1. rewrite E. simpl. split; [f_equal; auto|]. split; [lia|]. split.
        * intros name t [<-|Hn] Ht; [rewrite E in Ht; injection Ht as <-; lia|eauto].
        * destruct D as [D|(name & t & D1 & D2 & D3)]; [|right; exists name, t; auto]. destruct (Nat.max_spec (length tup) k) as [[? M]|[? M]]; [left; lia|]. right. exists val, tup. repeat split; auto. lia.
      + destruct (read_names literal_eval idx k) as [[l1 m1]|] eqn:R; cbn [bind] in H; [|discriminate]. injection H as <- <-. apply IH in R as (A & B & C & D). unfold tuple_of at 1. rewrite E. simpl. split; [f_equal; auto|]. split; [lia|]. split.
        * intros name t [<-|Hn] Ht; [congruence|eauto].
        * destruct D as [D|(name & t & D1 & D2 & D3)]; [auto|]. right. exists name, t. auto.
  Qed.
  Lemma to_midx_inv : forall idx given cols names, to_midx literal_eval idx given = Ok (cols, names) -> exists l m, read_names literal_eval idx 0 = Ok (l, m) /\
    names = level_names given m /\ length cols = length idx /\
    (idx <> [] -> width (map (pad m (LStr [])) l) = length names) /\ cols = map (fun t => pad (length names) None (map Some (pad m (LStr []) t))) l.
  Proof.
    intros idx given cols names H. unfold to_midx in H. destruct (read_names literal_eval idx 0) as [[l m]|] eqn:R; cbn [bind] in H; [|discriminate]. exists l, m. split; auto.
    destruct (read_names_spec _ _ _ _ R) as (A & _). assert (Len : length l = length idx) by (apply (f_equal (@length _)) in A; rewrite !map_length in A; auto).
    unfold from_tuples in H. destruct l as [|t l].
    - destruct idx; [|discriminate]. cbn in H. injection H as <- <-. repeat split; auto. congruence.
    - cbn [map] in H. rewrite <- map_cons in H. remember (t :: l) as l0. destruct (width (map (pad m (LStr [])) l0) =? length (level_names given m)) eqn:W; [|discriminate]. apply Nat.eqb_eq in W.
      injection H as <- <-. split; auto. rewrite W. split; [rewrite <- Len, Heql0; cbn [length]; rewrite !map_length; auto|]. split; auto. rewrite Heql0. cbn [map]. rewrite map_map. auto.
  Qed.
  Lemma pad_length : forall {A} n (x : A) l, length (pad n x l) = Nat.max n (length l).
  Proof. intros. unfold pad. rewrite app_length, repeat_length. lia. Qed.

  (** All columns have as many labels as there are names of levels; given names of levels come first. *)
Theorem C29_levels : forall idx given cols names, to_midx literal_eval idx given = Ok (cols, names) ->
    length cols = length idx /\ Forall (fun t => length t = length names) cols /\
    firstn (length (match given with Some g => g | None => [] end)) names = match given with Some g => g | None => [] end /\
    forall i, (length (match given with Some g => g | None => [] end) <= i < length names)%nat -> nth_error names i = Some (lit "l" ++ int_str (Z.of_nat i)).
  Proof.
    intros idx given cols names H. apply to_midx_inv in H as (l & m & R & N & L & W & C). split; auto. split; [|split].
    - subst cols. apply Forall_forall. intros t Ht. apply in_map_iff in Ht as (u & <- & Hu). rewrite pad_length, map_length. assert (idx <> []) by (intro; subst idx; cbn in R; injection R as <- _; contradiction). specialize (W H).
      assert (length (pad m (LStr []) u) <= length names)%nat; [|lia]. rewrite <- W. apply (proj2 (width_le _ 0%nat)). apply in_map. auto.
    - rewrite N. unfold level_names. cbv zeta. rewrite firstn_app, Nat.sub_diag, firstn_all. apply app_nil_r.
    - intros i Hi. rewrite N in *. unfold level_names in *. cbv zeta in *. set (lev := match given with Some g => g | None => [] end) in *. rewrite app_length, map_length, seq_length in Hi.
      rewrite nth_error_app2 by lia. rewrite nth_error_map. rewrite (nth_error_nth' _ 0%nat) by (rewrite seq_length; lia). rewrite seq_nth by lia. cbn. do 4 f_equal. lia.
  Qed.
  (** Columns of which all names are tuples, and not more names of levels than needed. *)
Theorem C29_tuples : forall idx given, Forall (is_tuple literal_eval) idx -> idx <> [] ->
    (exists name t, In name idx /\ literal_eval name = LitSeq t /\ length (match given with Some g => g | None => [] end) <= length t)%nat ->
    exists cols names, to_midx literal_eval idx given = Ok (cols, names) /\
      forall i name t, nth_error idx i = Some name -> literal_eval name = LitSeq t -> nth_error cols i = Some (map Some t ++ repeat (Some (LStr [])) (length names - length t)).
  Proof.
    intros idx given F Hne (name0 & t0 & H0 & E0 & L0). assert (R : forall k, exists l m, read_names literal_eval idx k = Ok (l, m)).
    { clear -F. induction F as [|x idx (t & Hx) F IH]; intro k; simpl; eauto. rewrite Hx. destruct (IH (Nat.max (length t) k)) as (l & m & ->). cbn [bind]. eauto. }
    destruct (R 0%nat) as (l & m & Rl). destruct (read_names_spec _ _ _ _ Rl) as (A & B & C & D). specialize (C _ _ H0 E0) as C0.
    assert (Hl : Forall (fun t => length t <= m)%nat l).
    { apply Forall_forall. intros t Ht. assert (In (Some t) (map (tuple_of literal_eval) idx)) by (rewrite A; apply in_map; auto). apply in_map_iff in H as (x & Hx & Hin).
      rewrite Forall_forall in F. destruct (F x Hin) as (u & Hu). unfold tuple_of in Hx. rewrite Hu in Hx. injection Hx as <-. eauto. }
    assert (Len : length (level_names given m) = m) by (unfold level_names; cbv zeta; rewrite app_length, map_length, seq_length; lia).
    assert (Hlne : l <> []) by (intros ->; destruct idx; [congruence|discriminate]).
    assert (W : width (map (pad m (LStr [])) l) = m).
    { unfold width. apply width_eq; [lia|destruct l; [congruence|discriminate]|]. apply Forall_map. eapply Forall_impl; [|exact Hl]. intros t Ht. simpl in Ht. rewrite pad_length. lia. }
    assert (E : to_midx literal_eval idx given = Ok (map (fun t => pad m None (map Some (pad m (LStr []) t))) l, level_names given m)).
    { unfold to_midx. rewrite Rl. cbn [bind]. unfold from_tuples. destruct l as [|t l]; [congruence|]. cbn [map]. rewrite <- (map_cons (pad m (LStr []))). rewrite W, Len, Nat.eqb_refl. rewrite map_map. auto. }
    eexists. eexists. split; [exact E|]. intros i name t Hi Ht. rewrite nth_error_map. assert (Hn : nth_error l i = Some t).
    { apply (f_equal (fun q => nth_error q i)) in A. rewrite !nth_error_map, Hi in A. cbn in A. unfold tuple_of in A. rewrite Ht in A. destruct (nth_error l i); [|discriminate]. cbn in A. congruence. }
    rewrite Hn. cbn. f_equal. rewrite Forall_forall in Hl. specialize (Hl t (nth_error_In _ _ Hn)). unfold pad at 1. rewrite map_length, pad_length. replace (m - Nat.max m (length t))%nat with 0%nat by lia. rewrite app_nil_r.
    unfold pad. rewrite map_app, Len. f_equal. clear. induction (m - length t)%nat; simpl; congruence.
  Qed.
  (** Tuples which do not end with an empty label stay different. *)
Theorem C29_distinct : forall idx given cols names i j n1 n2 t1 t2, to_midx literal_eval idx given = Ok (cols, names) -> Forall (is_tuple literal_eval) idx ->
    nth_error idx i = Some n1 -> nth_error idx j = Some n2 -> literal_eval n1 = LitSeq t1 -> literal_eval n2 = LitSeq t2 ->
    last t1 (LStr [0]) <> LStr [] -> last t2 (LStr [0]) <> LStr [] -> nth_error cols i = nth_error cols j -> t1 = t2.
  Proof.
    intros idx given cols names i j n1 n2 t1 t2 H F Hi Hj E1 E2 L1 L2 E. apply to_midx_inv in H as (l & m & R & N & L & W & C). destruct (read_names_spec _ _ _ _ R) as (A & B & M & D).
    pose proof (M _ _ (nth_error_In _ _ Hi) E1) as M1. pose proof (M _ _ (nth_error_In _ _ Hj) E2) as M2.
    assert (Hn : forall i n t, nth_error idx i = Some n -> literal_eval n = LitSeq t -> nth_error l i = Some t).
    { intros i0 n t Hi0 Ht. apply (f_equal (fun q => nth_error q i0)) in A. rewrite !nth_error_map, Hi0 in A. cbn in A. unfold tuple_of in A. rewrite Ht in A. destruct (nth_error l i0); [|discriminate]. cbn in A. congruence. }
    rewrite C, !nth_error_map, (Hn _ _ _ Hi E1), (Hn _ _ _ Hj E2) in E. cbn in E. injection E as E.
    assert (E' : map Some (pad m (LStr []) t1) = map Some (pad m (LStr []) t2)).
    { unfold pad at 1 3 in E. apply (f_equal (firstn m)) in E. rewrite !firstn_app in E. rewrite !map_length, !pad_length in E. replace (m - Nat.max m (length t1))%nat with 0%nat in E by lia. replace (m - Nat.max m (length t2))%nat with 0%nat in E by lia.
      rewrite !firstn_O, !app_nil_r in E. rewrite !firstn_all2 in E by (rewrite map_length, pad_length; lia). auto. }
    assert (E3 : pad m (LStr []) t1 = pad m (LStr []) t2).
    { revert E'. generalize (pad m (LStr []) t1) as a, (pad m (LStr []) t2) as b. induction a as [|x a IH]; intros [|y b] Q; simpl in Q; try discriminate; auto. injection Q as -> Q. f_equal. auto. }
    clear -E3 L1 L2. unfold pad in E3. generalize dependent (m - length t1)%nat. generalize (m - length t2)%nat. revert t2 L2. induction t1 as [|x t1 IH]; intros t2 L2 a b E.
    - destruct t2 as [|y t2]; auto. exfalso. apply L2. eapply last_repeat; [discriminate|symmetry; exact E].
    - destruct t2 as [|y t2]; [exfalso; apply L1; eapply last_repeat; [discriminate|exact E]|].
      simpl in E. injection E as <- E. f_equal. destruct t1 as [|x1 t1], t2 as [|y2 t2]; auto.
      + exfalso. apply L2. change (last (x :: y2 :: t2) (LStr [0])) with (last (y2 :: t2) (LStr [0])). eapply last_repeat; [discriminate|symmetry; exact E].
      + exfalso. apply L1. change (last (x :: x1 :: t1) (LStr [0])) with (last (x1 :: t1) (LStr [0])). eapply last_repeat; [discriminate|exact E].
      + eapply IH; eauto.
  Qed.
  (** A name which is not a tuple is split in its characters. *)
Theorem C29_plain : forall idx given cols names i name, to_midx literal_eval idx given = Ok (cols, names) -> nth_error idx i = Some name -> literal_eval name = LitValueError ->
    exists rest, nth_error cols i = Some (map (fun c => Some (LStr [c])) name ++ rest).
  Proof.
    intros idx given cols names i name H Hi E. apply to_midx_inv in H as (l & m & R & N & L & W & C). destruct (read_names_spec _ _ _ _ R) as (A & _).
    assert (Hn : nth_error l i = Some (characters name)).
    { apply (f_equal (fun q => nth_error q i)) in A. rewrite !nth_error_map, Hi in A. cbn in A. unfold tuple_of in A. rewrite E in A. destruct (nth_error l i); [|discriminate]. cbn in A. congruence. }
    rewrite C, nth_error_map, Hn. cbn. unfold pad, characters. rewrite map_app, map_map, <- app_assoc. eauto.
  Qed.
End Expansion.
Print Assumptions C29_levels.
Print Assumptions C29_tuples.
Print Assumptions C29_distinct.
Print Assumptions C29_plain.
(** test_init_idx_expansion_vaex, test_init_idx_expansion_sparse_levels *)
Definition eval (s : str) : literal :=
  if str_eqb s (lit "('lev1-col1','lev2-col1')") then LitSeq [LStr (lit "lev1-col1"); LStr (lit "lev2-col1")]
  else if str_eqb s (lit "('lev1-col2','lev2-col2')") then LitSeq [LStr (lit "lev1-col2"); LStr (lit "lev2-col2")]
  else if str_eqb s (lit "('a',)") then LitSeq [LStr (lit "a")]
  else if str_eqb s (lit "('a','')") then LitSeq [LStr (lit "a"); LStr []]
  else LitValueError.
Example ex_C29 : to_midx eval [lit "('lev1-col1','lev2-col1')"; lit "('lev1-col2','lev2-col2')"] None
  = Ok ([[Some (LStr (lit "lev1-col1")); Some (LStr (lit "lev2-col1"))]; [Some (LStr (lit "lev1-col2")); Some (LStr (lit "lev2-col2"))]], [lit "l0"; lit "l1"]).
Proof. reflexivity. Qed.
Example ex_C29_given : to_midx eval [lit "('lev1-col1','lev2-col1')"; lit "('lev1-col2','lev2-col2')"] (Some [lit "ah"])
  = Ok ([[Some (LStr (lit "lev1-col1")); Some (LStr (lit "lev2-col1"))]; [Some (LStr (lit "lev1-col2")); Some (LStr (lit "lev2-col2"))]], [lit "ah"; lit "l1"]).
Proof. reflexivity. Qed.
Example ex_C29_plain : to_midx eval [lit "('lev1-col1','lev2-col1')"; lit "ts"] None
  = Ok ([[Some (LStr (lit "lev1-col1")); Some (LStr (lit "lev2-col1"))]; [Some (LStr (lit "t")); Some (LStr (lit "s"))]], [lit "l0"; lit "l1"]).
Proof. reflexivity. Qed.
(** Different tuples giving the same column. *)
Theorem C29_padding_refuted : exists t1 t2, eval (lit "('a',)") = LitSeq t1 /\ eval (lit "('a','')") = LitSeq t2 /\ t1 <> t2 /\
  exists c names, to_midx eval [lit "('a',)"; lit "('a','')"] None = Ok ([c; c], names).
Proof. eexists. eexists. split; [reflexivity|]. split; [reflexivity|]. split; [discriminate|]. eexists. eexists. reflexivity. Qed.
Print Assumptions C29_padding_refuted.
(** A plain name with more characters than there are levels is refused. *)
Theorem C29_plain_refuted : to_midx eval [lit "('lev1-col1','lev2-col1')"; lit "timestamp"] None = Err ValueError /\ to_midx eval [lit "timestamp"] None = Err ValueError.
Proof. split; reflexivity. Qed.
Print Assumptions C29_plain_refuted.
