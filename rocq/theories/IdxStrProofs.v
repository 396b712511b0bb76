(** Proofs about keys and their strings: to_path, from_path. *)
Require Import List Arith ZArith Bool Lia.
Require Import Verif.Common Verif.IdxModel Verif.IdxSpec Verif.IdxProofs.
Import ListNotations.

(** * split and join *)
Definition clean (p : nat -> bool) (s : str) : Prop := forall x, In x s -> p x = false.

Lemma split_clean : forall p x, clean p x -> split p x = [x].
Proof.
  induction x as [|c x IH]; intros H; simpl; auto. rewrite (H c) by (simpl; auto).
  rewrite IH; auto. intros y Hy. apply H. simpl; auto.
Qed.

Lemma split_app : forall p x c s, clean p x -> p c = true -> split p (x ++ c :: s) = x :: split p s.
Proof.
  induction x as [|d x IH]; intros c s H Hc; simpl.
  - rewrite Hc. auto.
  - rewrite (H d) by (simpl; auto). rewrite IH; auto. intros y Hy. apply H. simpl; auto.
Qed.

Lemma split_join_app : forall p c c' l s, l <> [] -> (forall x, In x l -> clean p x) -> p c = true -> p c' = true ->
  split p (join [c] l ++ c' :: s) = l ++ split p s.
Proof.
  induction l as [|x l IH]; intros s Hne H Hc Hc'; [congruence|].
  destruct l as [|y l].
  - simpl. apply split_app; auto. apply H. simpl; auto.
  - change (join [c] (x :: y :: l)) with (x ++ [c] ++ join [c] (y :: l)).
    rewrite <- !app_assoc. change ([c] ++ join [c] (y :: l) ++ c' :: s) with (c :: (join [c] (y :: l) ++ c' :: s)).
    rewrite split_app by (auto; apply H; simpl; auto). rewrite IH; auto; [discriminate|]. intros z Hz. apply H. simpl in *; auto.
Qed.

Lemma split_join : forall p c l, l <> [] -> (forall x, In x l -> clean p x) -> p c = true -> split p (join [c] l) = l.
Proof.
  induction l as [|x l IH]; intros Hne H Hc; [congruence|]. destruct l as [|y l].
  - simpl. apply split_clean. apply H. simpl; auto.
  - change (join [c] (x :: y :: l)) with (x ++ c :: join [c] (y :: l)).
    rewrite split_app by (auto; apply H; simpl; auto). rewrite IH; auto; [discriminate|]. intros z Hz. apply H. simpl in *; auto.
Qed.

Lemma split_ne : forall p s, split p s <> [].
Proof. intros p [|c s]; simpl; [discriminate|]. destruct (p c); [discriminate|]. destruct (split p s); discriminate. Qed.

Lemma split_pieces : forall p s x, In x (split p s) -> clean p x.
Proof.
  induction s as [|c s IH]; simpl; intros x Hx.
  - destruct Hx as [<-|[]]. intros y [].
  - destruct (p c) eqn:E.
    + destruct Hx as [<-|Hx]; auto. intros y [].
    + pose proof (split_ne p s). destruct (split p s) as [|z l]; [congruence|]. destruct Hx as [<-|Hx].
      * intros y [<-|Hy]; auto. apply (IH z); simpl; auto.
      * apply IH. simpl; auto.
Qed.

Lemma join_app : forall c a b, a <> [] -> b <> [] -> join [c] (a ++ b) = join [c] a ++ [c] ++ join [c] b.
Proof.
  induction a as [|x a IH]; intros b Ha Hb; [congruence|]. destruct a as [|y a].
  - simpl. destruct b; auto. congruence.
  - change ((x :: y :: a) ++ b) with (x :: (y :: a) ++ b).
    change (join [c] (x :: (y :: a) ++ b)) with (x ++ [c] ++ join [c] ((y :: a) ++ b)).
    rewrite IH by (auto; discriminate). change (join [c] (x :: y :: a)) with (x ++ [c] ++ join [c] (y :: a)).
    rewrite <- !app_assoc. auto.
Qed.

Lemma join_split : forall p c s, (forall x, p x = true -> x = c) -> join [c] (split p s) = s.
Proof.
  intros p c s H. induction s as [|x s IH]; auto. simpl. destruct (p x) eqn:E.
  - apply H in E. subst x. pose proof (split_ne p s). destruct (split p s) as [|y l]; [congruence|].
    change (join [c] ([] :: y :: l)) with ([] ++ [c] ++ join [c] (y :: l)). rewrite IH. auto.
  - pose proof (split_ne p s). destruct (split p s) as [|y l]; [congruence|]. destruct l as [|z l].
    + simpl in *. congruence.
    + change (join [c] ((x :: y) :: z :: l)) with ((x :: y) ++ [c] ++ join [c] (z :: l)).
      change (join [c] (y :: z :: l)) with (y ++ [c] ++ join [c] (z :: l)) in IH. simpl. f_equal. exact IH.
Qed.

Lemma join_nil_inv : forall c l, join [c] l = [] -> l = [] \/ l = [[]].
Proof.
  intros c [|x [|y l]] H; auto.
  - simpl in H. subst. auto.
  - change (join [c] (x :: y :: l)) with (x ++ [c] ++ join [c] (y :: l)) in H. destruct x; discriminate.
Qed.

(** * to_path *)
(** String of the last level: an empty first of two fields is dropped. *)
Definition drops (vs : list value) : bool :=
  match vs with [VStr []; x] => negb (is_dc x) | _ => false end.

Lemma value_str_nil : forall fs vs v, Forall2 leaf_typed fs vs -> In v vs -> value_str v = [] -> v = VStr [].
Proof.
  intros fs vs v H Hv E. induction H; [contradiction|]. destruct Hv as [<-|Hv]; auto.
  destruct H; simpl in E; [exfalso; eapply int_str_ne; eauto|congruence].
Qed.

Lemma last_removelast : forall {A} (l : list A) d, l <> [] -> removelast l ++ [last l d] = l.
Proof. intros. symmetry. apply app_removelast_last. auto. Qed.

Lemma to_str_leaf : forall c fs vs b, fs <> [] -> Forall2 leaf_typed fs vs ->
  to_str c (VDC vs) b = Ok (join [c_sep c] (if drops vs then [value_str (last vs (VStr []))] else map value_str vs)).
Proof.
  intros c fs vs b Hne H. assert (Hvs : vs <> []) by (intro E; subst; inversion H; subst; congruence).
  pose proof (leaf_typed_nodc _ _ H) as Hdc.
  unfold to_str. rewrite value_lists_leaf by auto. cbn [map last]. f_equal. cbn [removelast app].
  set (l := removelast vs). set (x := last vs (VStr [])).
  assert (E : vs = l ++ [x]) by (symmetry; apply last_removelast; auto).
  destruct (join [c_sep c] (map value_str l)) as [|ch tail] eqn:Ej.
  - apply join_nil_inv in Ej as [Ej|Ej].
    + apply map_eq_nil in Ej. rewrite Ej in E. rewrite E. simpl.
      destruct x as [| [|] | |]; auto.
    + destruct l as [|v [|w l']]; try discriminate. simpl in Ej. injection Ej as Ej.
      assert (v = VStr []) by (eapply value_str_nil; [exact H|rewrite E; simpl; auto|exact Ej]). subst v.
      assert (Hx : is_dc x = false) by (rewrite E in Hdc; apply Forall_app in Hdc as [_ Hdc]; inversion Hdc; auto).
      rewrite E. simpl. rewrite Hx. simpl. auto.
  - change (ch :: tail ++ c_sep c :: value_str x) with ((ch :: tail) ++ [c_sep c] ++ value_str x).
    rewrite <- Ej. assert (Hl : l <> []) by (intro Q; rewrite Q in Ej; discriminate).
    replace (drops vs) with false.
    + simpl join at 1. rewrite E, map_app. simpl map. rewrite join_app by (auto; try discriminate; destruct l; simpl; congruence).
      simpl. auto.
    + rewrite E. destruct l as [|v [|w l']]; try congruence.
      * simpl. destruct v as [| [|] | |]; auto. simpl in Ej. discriminate.
      * simpl. destruct v as [| [|] | |]; auto. destruct (l' ++ [x]) eqn:Q; auto. destruct l'; discriminate.
Qed.

Lemma Ok_inj : forall {A} (a b : A), Ok a = Ok b -> a = b.
Proof. congruence. Qed.

Lemma value_lists_ne : forall vs, vs <> [] -> value_lists (VDC vs) <> [].
Proof. intros [|v vs] H; [congruence|]. simpl. discriminate. Qed.

Lemma to_str_ok : forall c vs b, vs <> [] -> exists s, to_str c (VDC vs) b = Ok s.
Proof.
  intros c vs b H. unfold to_str. pose proof (value_lists_ne vs H). destruct (value_lists (VDC vs)); [congruence|]. eauto.
Qed.

Definition body (c : cls) (lv : nat) (lists : list (list value)) : str :=
  let strs := map (fun fields => join [c_sep c] (map value_str (removelast fields))) lists in
  let last_field := value_str (last (last lists []) (VStr [])) in
  join [lv] (removelast strs ++ [match last strs [] with [] => last_field | tail => tail ++ [c_sep c] ++ last_field end]).

Lemma to_str_body : forall c vs b, vs <> [] -> to_str c (VDC vs) b = Ok (body c (if b then slash else c_sep c) (value_lists (VDC vs))).
Proof. intros c vs b H. unfold to_str. pose proof (value_lists_ne vs H). destruct (value_lists (VDC vs)); [congruence|]. reflexivity. Qed.

Lemma body_cons : forall c lv x l0 ls, body c lv (x :: l0 :: ls)
  = join [c_sep c] (map value_str (removelast x)) ++ [lv] ++ body c lv (l0 :: ls).
Proof.
  intros c lv x l0 ls. unfold body. cbv zeta. cbn [map].
  set (g := fun fields : list value => _). set (gx := join [c_sep c] (map value_str (removelast x))).
  set (g0 := join [c_sep c] (map value_str (removelast l0))).
  change (last (x :: l0 :: ls) []) with (last (l0 :: ls) []).
  change (last (gx :: g0 :: map g ls) []) with (last (g0 :: map g ls) []).
  change (removelast (gx :: g0 :: map g ls)) with (gx :: removelast (g0 :: map g ls)).
  set (a := removelast (g0 :: map g ls)). generalize (last (g0 :: map g ls) []) (value_str (last (last (l0 :: ls) []) (VStr []))).
  intros ls1 lf. set (t := match ls1 with [] => lf | _ => _ end).
  change ((gx :: a) ++ [t]) with (gx :: (a ++ [t])). destruct (a ++ [t]) as [|y l] eqn:E; [destruct a; discriminate|]. reflexivity.
Qed.

Lemma to_str_nest : forall c vs sub b s, sub <> [] -> to_str c (VDC sub) b = Ok s ->
  to_str c (VDC (vs ++ [VDC sub])) b
  = Ok (join [c_sep c] (map value_str vs) ++ [if b then slash else c_sep c] ++ s).
Proof.
  intros c vs sub b s Hne H. rewrite to_str_body in * by (auto; destruct vs; discriminate). apply Ok_inj in H. f_equal.
  rewrite value_lists_nest. pose proof (value_lists_ne sub Hne). destruct (value_lists (VDC sub)) as [|l0 ls]; [congruence|].
  rewrite body_cons, removelast_last, H. reflexivity.
Qed.

(** Fields as found in the string of a key. *)
Inductive tokens : list value -> list str -> Prop :=
| TkLeaf vs : Forall (fun v => is_dc v = false) vs ->
    tokens vs (if drops vs then [value_str (last vs (VStr []))] else map value_str vs)
| TkNest vs sub ts : tokens sub ts -> tokens (vs ++ [VDC sub]) (map value_str vs ++ ts).

Definition sep_char (c : cls) (x : nat) : bool := (x =? slash) || (c_sep c =? x).

(** Values without '/' and separator. *)
Definition clean_value (c : cls) (v : value) : Prop := clean (sep_char c) (value_str v).
Inductive clean_key (c : cls) : list value -> Prop :=
| CLeaf vs : Forall (clean_value c) vs -> Forall (fun v => is_dc v = false) vs -> clean_key c vs
| CNest vs sub : Forall (clean_value c) vs -> clean_key c sub -> clean_key c (vs ++ [VDC sub]).

Lemma clean_key_leaf : forall c vs, Forall (fun v => is_dc v = false) vs -> clean_key c vs -> Forall (clean_value c) vs.
Proof. intros c vs H V. inversion V; subst; auto. apply Forall_app in H as [_ H]. inversion H; subst. discriminate. Qed.
Lemma clean_key_nest : forall c vs sub, Forall (fun v => is_dc v = false) vs -> clean_key c (vs ++ [VDC sub]) ->
  Forall (clean_value c) vs /\ clean_key c sub.
Proof.
  intros c vs sub H V. inversion V; subst.
  - apply Forall_app in H1 as [_ H1]. inversion H1; subst. discriminate.
  - apply app_inj_tail in H0 as [-> E]. injection E as ->. auto.
Qed.

Lemma valid_clean : forall c fs vs, key_of fs vs -> validate c (VDC vs) = Ok tt -> clean_key c vs.
Proof.
  assert (L : forall c vs, Forall (leaf_ok c) vs -> Forall (clean_value c) vs).
  { intros c vs H. eapply Forall_impl; [|exact H]. intros v [_ Hv] x Hx. destruct (Hv x Hx) as (A & B & C).
    unfold sep_char. apply orb_false_iff. split; apply Nat.eqb_neq; auto. }
  intros c fs vs H. induction H; intros V.
  - apply CLeaf; [apply L; eapply valid_leaf; eauto|eapply leaf_typed_nodc; eauto].
  - eapply valid_nest in V as [V1 V2]; eauto. apply CNest; auto.
Qed.

(** The string of a key, split at '/' and separators. *)
Lemma split_to_str : forall c fs vs, key_of fs vs -> clean_key c vs -> forall b,
  exists s ts, to_str c (VDC vs) b = Ok s /\ tokens vs ts /\ ts <> [] /\
    split (sep_char c) s = ts /\ (forall t, In t ts -> clean (sep_char c) t).
Proof.
  intros c fs vs H. induction H as [fs vs Hne H|fs vs sub subvs Hne H Hk IH]; intros Hc b.
  - pose proof (leaf_typed_nodc _ _ H) as Hdc. apply clean_key_leaf in Hc; auto.
    assert (Hvs : vs <> []) by (intro E; subst; inversion H; subst; congruence).
    eexists. eexists. split; [eapply to_str_leaf; eauto|]. split; [apply TkLeaf; auto|].
    rewrite Forall_forall in Hc.
    assert (Hcl : forall x, In x (if drops vs then [value_str (last vs (VStr []))] else map value_str vs) -> clean (sep_char c) x).
    { intros x Hx. destruct (drops vs).
      - destruct Hx as [<-|[]]. apply Hc. destruct (@exists_last _ vs Hvs) as (l & y & ->). rewrite last_last. apply in_or_app. simpl; auto.
      - apply in_map_iff in Hx as (v & <- & Hv). apply Hc. auto. }
    assert (Hn : (if drops vs then [value_str (last vs (VStr []))] else map value_str vs) <> []).
    { destruct (drops vs); [discriminate|]. destruct vs; simpl; congruence. }
    split; auto. split; auto. apply split_join; auto. unfold sep_char. rewrite Nat.eqb_refl, orb_true_r. auto.
  - pose proof (leaf_typed_nodc _ _ H) as Hdc. apply clean_key_nest in Hc as [Hc1 Hc2]; auto.
    destruct (IH Hc2 b) as (s & ts & E1 & E2 & E3 & E4 & E5).
    exists (join [c_sep c] (map value_str vs) ++ [if b then slash else c_sep c] ++ s), (map value_str vs ++ ts).
    split; [apply to_str_nest; auto; eapply key_of_ne; eauto|].
    split; [apply TkNest; auto|]. split; [destruct (map value_str vs); simpl; auto; discriminate|].
    rewrite Forall_forall in Hc1.
    assert (Hcl : forall x, In x (map value_str vs) -> clean (sep_char c) x).
    { intros x Hx. apply in_map_iff in Hx as (v & <- & Hv). apply Hc1. auto. }
    split.
    + simpl app. rewrite split_join_app; auto.
      * rewrite E4. auto.
      * intro E. apply map_eq_nil in E. subst. inversion H; subst. congruence.
      * unfold sep_char. rewrite Nat.eqb_refl, orb_true_r. auto.
      * unfold sep_char. destruct b; rewrite Nat.eqb_refl, ?orb_true_r; auto.
    + intros t Ht. apply in_app_or in Ht as [Ht|Ht]; auto.
Qed.

Lemma drops_iff : forall vs, drops vs = true <-> exists x, vs = [VStr []; x] /\ is_dc x = false.
Proof.
  intros vs. split.
  - intro H. destruct vs as [|[|[|]| |] [|x [|]]]; try discriminate. exists x. split; auto. simpl in H. destruct (is_dc x); auto; discriminate.
  - intros (x & -> & H). simpl. rewrite H. auto.
Qed.

Lemma types_dc : forall fs sub, ~ Forall is_leaf_type (fs ++ [TDC sub]).
Proof. intros fs sub H. apply Forall_app in H as [_ H]. inversion H; subst. destruct H2; discriminate. Qed.
Lemma nodc_dc : forall vs sub, ~ Forall (fun v => is_dc v = false) (vs ++ [VDC sub]).
Proof. intros vs sub H. apply Forall_app in H as [_ H]. inversion H; subst. discriminate. Qed.

(** * from_path *)
Lemma convert_leaf : forall t v, leaf_typed t v -> convert t (value_str v) = Ok v.
Proof. intros t v H. destruct H; simpl; auto. rewrite parse_int_str. auto. Qed.

Lemma convert_zip_leaf : forall ts vs, Forall2 leaf_typed ts vs -> convert_zip ts (map value_str vs) = Ok vs.
Proof. intros ts vs H. induction H; simpl; auto. rewrite convert_leaf by auto. cbn [bind]. rewrite IHForall2. auto. Qed.

Lemma last_n_app : forall {A} (a b : list A) n, n = length b -> b <> [] -> last_n n (a ++ b) = b.
Proof.
  intros A a b n -> H. unfold last_n. destruct b as [|x b]; [congruence|]. simpl length at 1. cbn [Nat.eqb].
  rewrite app_length. replace (length a + length (x :: b) - length (x :: b)) with (length a) by lia.
  rewrite skipn_app, skipn_all, Nat.sub_diag. auto.
Qed.
Lemma but_last_n_app : forall {A} (a b : list A) n, n = length b -> b <> [] -> but_last_n n (a ++ b) = a.
Proof.
  intros A a b n -> H. unfold but_last_n. destruct b as [|x b]; [congruence|]. simpl length at 1. cbn [Nat.eqb].
  rewrite app_length. replace (length a + length (x :: b) - length (x :: b)) with (length a) by lia.
  rewrite firstn_app, firstn_all, Nat.sub_diag. apply app_nil_r.
Qed.

Definition from_start (types : list (list ftype)) (strings : list str) : res (list value) :=
  match types with
  | [] => Err IndexError
  | lt :: ts => let* level := convert_zip lt (last_n (length lt) strings) in from_loop ts strings (length lt) level
  end.

(** First level of fields which are not nested instances. *)
Inductive leafs : list value -> list value -> Prop :=
| LfLeaf vs : Forall (fun v => is_dc v = false) vs -> leafs vs vs
| LfNest vs sub : leafs (vs ++ [VDC sub]) vs.

(** All the fields in order. *)
Inductive all_fields : list value -> list str -> Prop :=
| AfLeaf vs : Forall (fun v => is_dc v = false) vs -> all_fields vs (map value_str vs)
| AfNest vs sub ts : all_fields sub ts -> all_fields (vs ++ [VDC sub]) (map value_str vs ++ ts).

Lemma from_start_key : forall fs vs, key_of fs vs -> forall ts, all_fields vs ts -> forall ups pre,
  exists lv, leafs vs lv /\ lv <> [] /\
  from_start (rev (sub_lists (TDC fs)) ++ ups) (pre ++ ts) = from_loop ups (pre ++ map value_str lv) (length lv) vs.
Proof.
  intros fs vs H. induction H as [fs vs Hne H|fs vs sub subvs Hne H Hk IH]; intros ts Ht ups pre.
  - pose proof (leaf_typed_nodc _ _ H) as Hdc. pose proof (Forall2_len _ _ _ H) as HL.
    assert (Hvs : vs <> []) by (intro E; subst; inversion H; subst; congruence).
    assert (ts = map value_str vs).
    { inversion Ht; subst; auto. exfalso; eapply nodc_dc; eauto. }
    subst ts. exists vs. split; [constructor; auto|]. split; auto.
    rewrite sub_lists_leaf by (auto; eapply leaf_typed_types; eauto). simpl app. unfold from_start.
    rewrite last_n_app; [|rewrite map_length; auto|destruct vs; simpl; congruence].
    rewrite convert_zip_leaf by auto. cbn [bind]. rewrite HL. auto.
  - pose proof (leaf_typed_nodc _ _ H) as Hdc. pose proof (Forall2_len _ _ _ H) as HL.
    assert (Hvs : vs <> []) by (intro E; subst; inversion H; subst; congruence).
    assert (exists ts', ts = map value_str vs ++ ts' /\ all_fields subvs ts') as (ts' & -> & Ht').
    { inversion Ht; subst.
      - exfalso; eapply nodc_dc; eauto.
      - apply app_inj_tail in H0 as [-> E]. injection E as ->. eauto. }
    rewrite sub_lists_nest. cbn [rev]. rewrite <- app_assoc. cbn [app].
    destruct (IH ts' Ht' ((fs ++ [TDC sub]) :: ups) (pre ++ map value_str vs)) as (lv & L1 & L2 & E).
    rewrite <- app_assoc in E. rewrite E. exists vs. split; [constructor|]. split; auto.
    cbn [from_loop]. rewrite but_last_n_app; [|rewrite map_length; auto|destruct lv; simpl; congruence].
    rewrite removelast_last, last_last, app_length. simpl length. replace (length fs + 1 - 1) with (length fs) by lia.
    rewrite last_n_app; [|rewrite map_length; auto|destruct vs; simpl; congruence].
    rewrite convert_zip_leaf by auto. cbn [bind instantiate]. unfold construct. rewrite (key_of_length _ _ Hk), Nat.eqb_refl. cbn [bind].
    rewrite HL. auto.
Qed.

Lemma from_str_start : forall c s, from_str c s =
  match (let* level := from_start (rev (type_lists c)) (split (fun x => (x =? slash) || matches (c_sep c) x) s) in make_key c level false) with
  | Ok k => Some k | Err _ => None end.
Proof.
  intros c s. unfold from_str, from_start. destruct (rev (type_lists c)); auto.
  destruct (convert_zip _ _); cbn [bind]; auto.
Qed.

Lemma plain_matches : forall sep x, plain_sep sep = true -> matches sep x = (sep =? x).
Proof.
  intros sep x H. unfold matches. destruct (sep =? 100) eqn:E; auto. apply Nat.eqb_eq in E. subst. discriminate.
Qed.

Lemma split_ext : forall p q s, (forall x, p x = q x) -> split p s = split q s.
Proof. intros p q s H. induction s as [|c s IH]; simpl; auto. rewrite H, IH. auto. Qed.

Lemma from_str_of_fields : forall c vs ts pre s, plain_sep (c_sep c) = true -> key_of (c_fields c) vs -> all_fields vs ts ->
  split (sep_char c) s = pre ++ ts -> from_str c s = Some (VDC vs).
Proof.
  intros c vs ts pre s Hp Hk Ht Hs. rewrite from_str_start. unfold type_lists.
  rewrite (split_ext _ (sep_char c)) by (intro x; rewrite plain_matches by auto; reflexivity). rewrite Hs.
  destruct (from_start_key (c_fields c) vs Hk ts Ht [] pre) as (lv & _ & _ & E). rewrite app_nil_r in E. rewrite E.
  cbn [from_loop bind]. unfold make_key, construct. rewrite (key_of_length _ _ Hk), Nat.eqb_refl. auto.
Qed.

Lemma tokens_fields : forall fs vs ts, key_of fs vs -> tokens vs ts -> ~ empty_then_one vs -> all_fields vs ts.
Proof.
  intros fs vs ts Hk. revert ts. induction Hk as [fs vs Hne H|fs vs sub subvs Hne H Hk IH]; intros ts Ht Hd.
  - pose proof (leaf_typed_nodc _ _ H) as Hdc. inversion Ht; subst.
    + destruct (drops vs) eqn:E; [|constructor; auto]. apply drops_iff in E as (x & -> & Hx). exfalso. apply Hd. constructor. auto.
    + exfalso; eapply nodc_dc; eauto.
  - pose proof (leaf_typed_nodc _ _ H) as Hdc. inversion Ht; subst.
    + exfalso; eapply nodc_dc; eauto.
    + apply app_inj_tail in H0 as [-> E]. injection E as ->. constructor. apply IH; auto. intro Q. apply Hd. apply ENest. auto.
Qed.

(** Round trip. *)
Lemma to_from : forall c vs b, plain_sep (c_sep c) = true -> key_of (c_fields c) vs -> clean_key c vs -> ~ empty_then_one vs ->
  exists s, to_str c (VDC vs) b = Ok s /\ from_str c s = Some (VDC vs).
Proof.
  intros c vs b Hp Hk Hc Hd. destruct (split_to_str c _ vs Hk Hc b) as (s & ts & E1 & E2 & E3 & E4 & E5).
  exists s. split; auto. eapply from_str_of_fields with (pre := []); eauto. eapply tokens_fields; eauto.
Qed.

(** * What from_path returns *)
(** Number of fields of the first level, and of all levels, nested instances not counted. *)
Inductive count : list ftype -> nat -> nat -> Prop :=
| CntLeaf fs : Forall is_leaf_type fs -> count fs (length fs) (length fs)
| CntNest fs sub k t : Forall is_leaf_type fs -> count sub k t -> count (fs ++ [TDC sub]) (length fs) (length fs + t).

Lemma schema_count : forall fs, schema fs -> exists k t, count fs k t.
Proof. intros fs H. induction H as [fs Hne H|fs sub Hne H Hs (k & t & IH)]; [do 2 eexists; constructor; auto|do 2 eexists; eapply CntNest; eauto]. Qed.

Lemma convert_zip_inv : forall (P : str -> Prop) ts ss vs, Forall is_leaf_type ts -> (forall s, In s ss -> P s) -> convert_zip ts ss = Ok vs ->
  length vs = min (length ts) (length ss) /\ Forall (all_str P) vs /\
  (length vs = length ts -> Forall2 leaf_typed ts vs).
Proof.
  intros P ts. induction ts as [|t ts IH]; intros [|s ss] vs Hl HP; simpl; try (intro E; injection E as <-; repeat split; auto; discriminate).
  destruct (convert t s) as [v|] eqn:Ev; cbn [bind]; [|discriminate]. destruct (convert_zip ts ss) as [vs'|] eqn:E; cbn [bind]; [|discriminate].
  intro Q. injection Q as <-. inversion Hl; subst. destruct (IH ss vs') as (A & B & C); auto; [intros; apply HP; simpl; auto|].
  assert (D : leaf_typed t v /\ all_str P v).
  { destruct H1; subst t; simpl in Ev.
    - destruct (parse_int s); [|discriminate]. injection Ev as <-. split; constructor.
    - injection Ev as <-. split; constructor. apply HP. simpl; auto. }
  destruct D as [D1 D2]. simpl. repeat split; auto.
Qed.

Lemma last_n_length : forall {A} n (l : list A), 0 < n -> length (last_n n l) = min n (length l).
Proof. intros A n l H. unfold last_n. destruct (n =? 0) eqn:E; [apply Nat.eqb_eq in E; lia|]. rewrite skipn_length. lia. Qed.
Lemma but_last_n_length : forall {A} n (l : list A), 0 < n -> length (but_last_n n l) = length l - n.
Proof. intros A n l H. unfold but_last_n. destruct (n =? 0) eqn:E; [apply Nat.eqb_eq in E; lia|]. rewrite firstn_length. lia. Qed.
Lemma skipn_incl : forall {A} n (l : list A), incl (skipn n l) l.
Proof. intros A n l x Hx. rewrite <- (firstn_skipn n l). apply in_or_app. auto. Qed.
Lemma firstn_incl : forall {A} n (l : list A), incl (firstn n l) l.
Proof. intros A n l x Hx. rewrite <- (firstn_skipn n l). apply in_or_app. auto. Qed.
Lemma last_n_incl : forall {A} n (l : list A), incl (last_n n l) l.
Proof. intros A n l. unfold last_n. destruct (n =? 0); [apply incl_refl|apply skipn_incl]. Qed.
Lemma but_last_n_incl : forall {A} n (l : list A), incl (but_last_n n l) l.
Proof. intros A n l. unfold but_last_n. destruct (n =? 0); [intros x []|apply firstn_incl]. Qed.

Lemma from_start_inv : forall (P : str -> Prop) fs, schema fs -> forall k t, count fs k t -> forall ups strings r,
  (forall s, In s strings -> P s) -> from_start (rev (sub_lists (TDC fs)) ++ ups) strings = Ok r ->
  exists strings' level, from_loop ups strings' k level = Ok r /\ incl strings' strings /\ 0 < k /\ k <= t /\
    length strings' = length strings - (t - k) /\
    (length strings < t -> length level <> length fs) /\
    (length level = length fs -> key_of fs level /\ Forall (all_str P) level).
Proof.
  intros P fs Hs. induction Hs as [fs Hne Hl|fs sub Hne Hl Hs IH]; intros k t Hc ups strings r HP H.
  - assert (k = length fs /\ t = length fs) as [-> ->].
    { inversion Hc; subst; auto. exfalso; eapply types_dc; eauto. }
    rewrite sub_lists_leaf in H by auto. simpl app in H. unfold from_start in H.
    destruct (convert_zip fs (last_n (length fs) strings)) as [level|] eqn:E; cbn [bind] in H; [|discriminate].
    assert (0 < length fs) by (destruct fs; simpl; [congruence|lia]).
    apply (convert_zip_inv P) in E as (A & B & C); auto; [|intros; apply HP; eapply last_n_incl; eauto].
    rewrite last_n_length in A by auto.
    exists strings, level. repeat split; auto using incl_refl; try lia. constructor; auto.
  - assert (exists k' t', count sub k' t' /\ k = length fs /\ t = length fs + t') as (k' & t' & Hc' & -> & ->).
    { inversion Hc; subst.
      - exfalso; eapply types_dc; eauto.
      - apply app_inj_tail in H0 as [-> E]. injection E as ->. eauto. }
    rewrite sub_lists_nest in H. cbn [rev] in H. rewrite <- app_assoc in H. cbn [app] in H.
    destruct (IH k' t' Hc' _ strings r HP H) as (ss & level & E & Hi & Hk & Hkt & Hn & Hshort & Hfull).
    cbn [from_loop] in E. rewrite removelast_last, last_last, app_length in E. simpl length in E.
    replace (length fs + 1 - 1) with (length fs) in E by lia.
    assert (0 < length fs) by (destruct fs; simpl; [congruence|lia]).
    destruct (convert_zip fs (last_n (length fs) (but_last_n k' ss))) as [first|] eqn:E1; cbn [bind] in E; [|discriminate].
    unfold instantiate, construct in E. destruct (length level =? length sub) eqn:E2; cbn [bind] in E; [|discriminate].
    apply Nat.eqb_eq in E2. destruct (Hfull E2) as [F1 F2].
    assert (Hi' : incl (but_last_n k' ss) strings) by (eapply incl_tran; [apply but_last_n_incl|auto]).
    apply (convert_zip_inv P) in E1 as (A & B & C); auto; [|intros; apply HP, Hi'; eapply last_n_incl; eauto].
    rewrite last_n_length, but_last_n_length in A by auto.
    exists (but_last_n k' ss), (first ++ [VDC level]). rewrite but_last_n_length, !app_length by auto. simpl length.
    repeat split; auto; try lia.
    + apply KNest; auto. apply C. lia.
    + apply Forall_app. split; auto. constructor; auto. constructor. auto.
Qed.

Lemma from_str_inv : forall (P : str -> Prop) c s k, schema (c_fields c) ->
  (forall x, In x (split (fun x => (x =? slash) || matches (c_sep c) x) s) -> P x) ->
  from_str c s = Some k ->
  exists vs, k = VDC vs /\ key_of (c_fields c) vs /\ all_str P k /\
    forall n t, count (c_fields c) n t -> t <= length (split (fun x => (x =? slash) || matches (c_sep c) x) s).
Proof.
  intros P c s k Hs HP H. rewrite from_str_start in H. unfold type_lists in H.
  set (strings := split _ s) in *.
  destruct (from_start (rev (sub_lists (TDC (c_fields c)))) strings) as [r|] eqn:E; cbn [bind] in H; [|discriminate].
  unfold make_key, construct in H. destruct (length r =? length (c_fields c)) eqn:EL; cbn [bind] in H; [|discriminate].
  apply Nat.eqb_eq in EL. injection H as <-. exists r. split; auto.
  rewrite <- (app_nil_r (rev _)) in E.
  destruct (schema_count _ Hs) as (n0 & t0 & Hc0).
  destruct (from_start_inv P _ Hs _ _ Hc0 [] strings r HP E) as (ss & level & E1 & _ & _ & _ & _ & _ & Hfull).
  simpl in E1. injection E1 as ->. destruct (Hfull EL) as [F1 F2]. split; auto. split; [constructor; auto|].
  intros n t Hc. destruct (from_start_inv P _ Hs _ _ Hc [] strings r HP E) as (ss' & level & E1 & _ & _ & _ & _ & Hshort & _).
  simpl in E1. injection E1 as ->. destruct (Nat.lt_ge_cases (length strings) t); auto. exfalso. apply Hshort; auto.
Qed.

Lemma tokens_short : forall fs vs ts, key_of fs vs -> tokens vs ts -> empty_then_one vs -> forall k t, count fs k t -> length ts < t.
Proof.
  intros fs vs ts Hk. revert ts. induction Hk as [fs vs Hne H|fs vs sub subvs Hne H Hk IH]; intros ts Ht Hd k t Hc.
  - pose proof (leaf_typed_nodc _ _ H) as Hdc. pose proof (leaf_typed_types _ _ H) as Hl.
    assert (t = length fs) as ->.
    { inversion Hc; subst; auto. exfalso; eapply types_dc; eauto. }
    apply Forall2_len in H. inversion Hd; subst.
    + inversion Ht; subst.
      * assert (Hx : drops [VStr []; x] = true) by (simpl; rewrite H0; auto). rewrite Hx. rewrite H. simpl. lia.
      * apply (f_equal (@rev value)) in H1. rewrite rev_app_distr in H1. simpl in H1. injection H1 as <- _. discriminate.
    + exfalso; eapply nodc_dc; eauto.
  - pose proof (leaf_typed_nodc _ _ H) as Hdc.
    assert (exists ts', ts = map value_str vs ++ ts' /\ tokens subvs ts') as (ts' & -> & Ht').
    { inversion Ht; subst.
      - exfalso; eapply nodc_dc; eauto.
      - apply app_inj_tail in H0 as [-> E]. injection E as ->. eauto. }
    assert (exists k' t', count sub k' t' /\ t = length fs + t') as (k' & t' & Hc' & ->).
    { inversion Hc; subst.
      - exfalso; eapply types_dc; eauto.
      - apply app_inj_tail in H0 as [-> E]. injection E as ->. eauto. }
    assert (empty_then_one subvs).
    { inversion Hd; subst.
      - destruct vs as [|v [|w vs]]; simpl in H0; try discriminate; injection H0 as Q1 Q2; [subst x; discriminate|destruct vs; discriminate].
      - apply app_inj_tail in H0 as [-> E]. injection E as ->. auto. }
    rewrite app_length, map_length. apply Forall2_len in H. specialize (IH ts' Ht' H0 k' t' Hc'). lia.
Qed.

Lemma to_from_degenerate : forall c vs b, plain_sep (c_sep c) = true -> key_of (c_fields c) vs -> clean_key c vs -> empty_then_one vs ->
  exists s, to_str c (VDC vs) b = Ok s /\ from_str c s = None.
Proof.
  intros c vs b Hp Hk Hc Hd. destruct (split_to_str c _ vs Hk Hc b) as (s & ts & E1 & E2 & E3 & E4 & E5).
  exists s. split; auto. destruct (from_str c s) as [k|] eqn:E; auto. exfalso.
  pose proof (key_of_schema _ _ Hk) as Hs.
  destruct (from_str_inv (fun _ => True) c s k Hs (fun _ _ => I) E) as (ws & _ & _ & _ & Hl).
  destruct (schema_count _ Hs) as (n & t & Hcnt). specialize (Hl n t Hcnt).
  rewrite (split_ext _ (sep_char c)) in Hl by (intro x; rewrite plain_matches by auto; reflexivity). rewrite E4 in Hl.
  pose proof (tokens_short _ _ _ Hk E2 Hd _ _ Hcnt). lia.
Qed.

(** * Injectivity *)
Lemma leaf_str_inj : forall t v w, leaf_typed t v -> leaf_typed t w -> value_str v = value_str w -> v = w.
Proof. intros t v w Hv Hw E. destruct Hv; inversion Hw; subst; simpl in E; [apply int_str_inj in E|]; congruence. Qed.

Lemma leafs_str_inj : forall fs vs ws, Forall2 leaf_typed fs vs -> Forall2 leaf_typed fs ws -> map value_str vs = map value_str ws -> vs = ws.
Proof.
  intros fs vs ws H. revert ws. induction H; intros ws Hw E; inversion Hw; subst; auto.
  simpl in E. injection E as E1 E2. f_equal; eauto using leaf_str_inj.
Qed.

Lemma tokens_leaf_inv : forall vs ts, Forall (fun v => is_dc v = false) vs -> tokens vs ts ->
  ts = if drops vs then [value_str (last vs (VStr []))] else map value_str vs.
Proof. intros vs ts H Ht. inversion Ht; subst; auto. exfalso; eapply nodc_dc; eauto. Qed.
Lemma tokens_nest_inv : forall vs sub ts, tokens (vs ++ [VDC sub]) ts -> exists ts', ts = map value_str vs ++ ts' /\ tokens sub ts'.
Proof.
  intros vs sub ts Ht. inversion Ht; subst.
  - exfalso; eapply nodc_dc; eauto.
  - apply app_inj_tail in H as [-> E]. injection E as ->. eauto.
Qed.

Lemma tokens_inj : forall fs vs, key_of fs vs -> forall ws ts, key_of fs ws -> tokens vs ts -> tokens ws ts -> vs = ws.
Proof.
  intros fs vs Hk. induction Hk as [fs vs Hne H|fs vs sub subvs Hne H Hk IH]; intros ws ts Hw Hv Ht.
  - apply key_of_leaf_inv in Hw; [|eapply leaf_typed_types; eauto].
    apply tokens_leaf_inv in Hv; [|eapply leaf_typed_nodc; eauto]. apply tokens_leaf_inv in Ht; [|eapply leaf_typed_nodc; eauto].
    subst ts. pose proof (Forall2_len _ _ _ H) as L1. pose proof (Forall2_len _ _ _ Hw) as L2.
    destruct (drops vs) eqn:E1; destruct (drops ws) eqn:E2.
    + apply drops_iff in E1 as (x & -> & _). apply drops_iff in E2 as (y & -> & _). simpl in Ht. injection Ht as Ht.
      inversion H; subst. inversion Hw; subst. f_equal. eapply leafs_str_inj; eauto. simpl. congruence.
    + apply drops_iff in E1 as (x & -> & _). apply (f_equal (@length _)) in Ht. rewrite map_length in Ht. simpl in *. lia.
    + apply drops_iff in E2 as (x & -> & _). apply (f_equal (@length _)) in Ht. rewrite map_length in Ht. simpl in *. lia.
    + eapply leafs_str_inj; eauto.
  - apply key_of_nest_inv in Hw as (vs0 & subvs0 & -> & Hw1 & Hw2).
    apply tokens_nest_inv in Hv as (t1 & -> & Hv). apply tokens_nest_inv in Ht as (t2 & E & Ht).
    pose proof (Forall2_len _ _ _ H) as L1. pose proof (Forall2_len _ _ _ Hw1) as L2.
    assert (map value_str vs = map value_str vs0 /\ t1 = t2) as [A ->].
    { clear - E L1 L2. revert vs0 E L2. revert fs L1. induction vs as [|v vs IH]; intros fs L1 [|w ws] E L2; simpl in *; auto; try lia.
      injection E as E1 E2. destruct fs as [|f fs]; simpl in *; [lia|]. destruct (IH fs ltac:(lia) ws E2 ltac:(lia)). split; congruence. }
    assert (vs = vs0) as -> by (eapply leafs_str_inj; eauto). assert (subvs = subvs0) as -> by (eapply IH; eauto). auto.
Qed.

Lemma to_str_inj : forall c fs vs ws b p, key_of fs vs -> key_of fs ws -> clean_key c vs -> clean_key c ws ->
  to_str c (VDC vs) b = Ok p -> to_str c (VDC ws) b = Ok p -> vs = ws.
Proof.
  intros c fs vs ws b p Kv Kw Cv Cw Ev Ew.
  destruct (split_to_str c _ vs Kv Cv b) as (s1 & t1 & A1 & A2 & _ & A4 & _).
  destruct (split_to_str c _ ws Kw Cw b) as (s2 & t2 & B1 & B2 & _ & B4 & _).
  rewrite Ev in A1. rewrite Ew in B1. injection A1 as ->. injection B1 as ->. rewrite A4 in B4. subst t2.
  eapply tokens_inj; eauto.
Qed.

(** * Directories *)
Lemma split_cat : forall p a c b, p c = true -> split p (a ++ c :: b) = split p a ++ split p b.
Proof.
  intros p a c b H. induction a as [|x a IH]; simpl.
  - rewrite H. auto.
  - destruct (p x); [rewrite IH; auto|]. rewrite IH. pose proof (split_ne p a). destruct (split p a); [congruence|]. auto.
Qed.

Lemma join_clean : forall p c l, p c = false -> (forall x, In x l -> clean p x) -> clean p (join [c] l).
Proof.
  intros p c l Hc. induction l as [|x l IH]; intros H y Hy; [contradiction|]. destruct l as [|z l].
  - apply (H x); simpl; auto.
  - change (join [c] (x :: z :: l)) with (x ++ [c] ++ join [c] (z :: l)) in Hy.
    apply in_app_or in Hy as [Hy|[<-|Hy]]; auto; [apply (H x); simpl; auto|]. apply IH; auto. intros; apply H; simpl in *; auto.
Qed.

Lemma join_In : forall c l x, In x (join [c] l) -> x = c \/ exists s, In s l /\ In x s.
Proof.
  intros c l x. induction l as [|y l IH]; intro H; [contradiction|]. destruct l as [|z l].
  - right. exists y. simpl in *. auto.
  - change (join [c] (y :: z :: l)) with (y ++ [c] ++ join [c] (z :: l)) in H.
    apply in_app_or in H as [H|[<-|H]]; auto; [right; exists y; simpl; auto|].
    destruct (IH H) as [E|(s & A & B)]; auto. right. exists s. simpl in *. auto.
Qed.

(** Directory names of a key. *)
Lemma path_levels : forall c fs vs, c_sep c <> slash -> key_of fs vs -> valid_fields c vs ->
  exists p names, to_path c (VDC vs) = Ok p /\ split (Nat.eqb slash) p = names /\
    length names = length (sub_lists (TDC fs)) /\
    (forall n, In n names -> forall x, In x n -> x <> slash /\ (x = dot -> c_sep c = dot)) /\
    (no_empty_level vs -> ~ In [] names).
Proof.
  intros c fs vs Hs Hk. assert (Hcc : (slash =? c_sep c) = false) by (apply Nat.eqb_neq; auto).
  assert (LV : forall ws, Forall (leaf_ok c) ws -> forall l, (forall s, In s l -> exists v, In v ws /\ s = value_str v) ->
            clean (Nat.eqb slash) (join [c_sep c] l) /\ forall x, In x (join [c_sep c] l) -> x <> slash /\ (x = dot -> c_sep c = dot)).
  { intros ws Hok l Hl. rewrite Forall_forall in Hok.
    assert (Q : forall x, In x (join [c_sep c] l) -> x <> slash /\ (x = dot -> c_sep c = dot)).
    { intros x Hx. apply join_In in Hx as [->|(s & A & B)]; auto. destruct (Hl _ A) as (v & Hv & ->).
      destruct (Hok v Hv) as [_ O]. destruct (O x B) as (O1 & O2 & O3). split; auto. congruence. }
    split; auto. intros x Hx. apply Nat.eqb_neq. intro E. destruct (Q x Hx). congruence. }
  induction Hk as [fs vs Hne H|fs vs sub subvs Hne H Hk IH]; intros V.
  - pose proof (leaf_typed_nodc _ _ H) as Hdc. apply valid_fields_leaf_inv in V; auto.
    assert (Hvs : vs <> []) by (intro E; subst; inversion H; subst; congruence).
    set (l := if drops vs then [value_str (last vs (VStr []))] else map value_str vs).
    assert (Hl : forall s, In s l -> exists v, In v vs /\ s = value_str v).
    { subst l. intros s Hs'. destruct (drops vs).
      - destruct Hs' as [<-|[]]. exists (last vs (VStr [])). split; auto. destruct (@exists_last _ vs Hvs) as (l & y & ->). rewrite last_last. apply in_or_app. simpl; auto.
      - apply in_map_iff in Hs' as (v & <- & Hv). eauto. }
    destruct (LV vs V l Hl) as [L1 L2].
    exists (join [c_sep c] l), [join [c_sep c] l]. split; [eapply to_str_leaf; eauto|]. split; [apply split_clean; auto|].
    rewrite sub_lists_leaf by (auto; eapply leaf_typed_types; eauto). split; auto. split; [intros n [<-|[]]; auto|].
    intros Hn [E|[]]. apply join_nil_inv in E. 
    assert (Hn2 : vs <> [VStr []] /\ vs <> [VStr []; VStr []]).
    { inversion Hn; subst; auto. exfalso; eapply nodc_dc; eauto. }
    destruct Hn2 as [N1 N2]. subst l. destruct (drops vs) eqn:Ed.
    + apply drops_iff in Ed as (x & -> & Hx). destruct E as [E|E]; [discriminate|]. simpl in E. injection E as E.
      eapply value_str_nil in E; eauto; [|simpl; auto]. subst. congruence.
    + destruct E as [E|E]; [apply map_eq_nil in E; congruence|].
      destruct vs as [|v [|w vs]]; try discriminate. simpl in E. injection E as E. eapply value_str_nil in E; eauto; [|simpl; auto]. subst. congruence.
  - pose proof (leaf_typed_nodc _ _ H) as Hdc.
    assert (Hvs : vs <> []) by (intro E; subst; inversion H; subst; congruence).
    apply validate_iff in V. eapply valid_nest in V as [V1 V2]; eauto. apply validate_iff in V2.
    destruct (IH V2) as (p & names & E1 & E2 & E3 & E4 & E5).
    destruct (LV vs V1 (map value_str vs)) as [L1 L2].
    { intros s Hs'. apply in_map_iff in Hs' as (v & <- & Hv). eauto. }
    exists (join [c_sep c] (map value_str vs) ++ [slash] ++ p), (join [c_sep c] (map value_str vs) :: names).
    split; [unfold to_path in *; erewrite to_str_nest; [reflexivity|eapply key_of_ne; eauto|eauto]|].
    split; [simpl app; rewrite split_app; [congruence|auto|apply Nat.eqb_refl]|].
    rewrite sub_lists_nest. split; [simpl; auto|]. split; [intros n [<-|Hn']; [exact L2|apply E4; exact Hn']|].
    intros Hn.
    assert (Hn2 : vs <> [VStr []] /\ no_empty_level subvs).
    { inversion Hn; subst.
      - exfalso; eapply nodc_dc; eauto.
      - apply app_inj_tail in H0 as [-> Q]. injection Q as ->. auto. }
    destruct Hn2 as [N1 N2]. intros [E|E]; [|apply E5; auto].
    apply join_nil_inv in E as [E|E]; [apply map_eq_nil in E; congruence|].
    destruct vs as [|v [|w vs]]; try discriminate. simpl in E. injection E as E. eapply value_str_nil in E; eauto; [|simpl; auto]. subst. congruence.
Qed.

Lemma dir_names_full : forall p, ~ In [] (split (Nat.eqb slash) p) -> dir_names p = split (Nat.eqb slash) p.
Proof.
  intros p H. unfold dir_names. induction (split (Nat.eqb slash) p) as [|x l IH]; auto. simpl.
  destruct x; [exfalso; apply H; simpl; auto|]. rewrite IH; auto. intro; apply H; simpl; auto.
Qed.

Lemma split_slash_inj : forall p q, split (Nat.eqb slash) p = split (Nat.eqb slash) q -> p = q.
Proof.
  intros p q H. assert (J : forall s, join [slash] (split (Nat.eqb slash) s) = s).
  { intro s. apply join_split. intros x Hx. apply Nat.eqb_eq in Hx. auto. }
  rewrite <- (J p), <- (J q), H. auto.
Qed.

Lemma split_nonempty_head : forall p, ~ In [] (split (Nat.eqb slash) p) -> exists c s, p = c :: s /\ c <> slash.
Proof.
  intros [|c s] H; [exfalso; apply H; simpl; auto|]. exists c, s. split; auto. intros ->.
  apply H. simpl. auto.
Qed.

Lemma dir_names_cat : forall a b, dir_names (a ++ slash :: b) = dir_names a ++ dir_names b.
Proof. intros a b. unfold dir_names. rewrite split_cat by reflexivity. apply filter_app. Qed.

Lemma dir_names_join : forall base p, absolute p = false -> p <> [] -> dir_names (path_join base p) = dir_names base ++ dir_names p.
Proof.
  intros base [|c s] Ha Hne; [congruence|]. simpl in Ha. unfold path_join. rewrite Ha.
  destruct (rev base) as [|b r] eqn:E.
  - apply (f_equal (@rev nat)) in E. rewrite rev_involutive in E. subst. reflexivity.
  - destruct (b =? slash) eqn:Eb.
    + apply Nat.eqb_eq in Eb. subst b. apply (f_equal (@rev nat)) in E. rewrite rev_involutive in E. simpl in E. subst base.
      rewrite <- app_assoc. simpl app. rewrite !dir_names_cat. rewrite app_nil_r. auto.
    + simpl app. apply dir_names_cat.
Qed.

(** * Directories which are those of a key *)
Lemma canonical_values : forall fs ss, Forall2 canonical fs ss -> exists vs, Forall2 leaf_typed fs vs /\ map value_str vs = ss.
Proof.
  intros fs ss H. induction H as [|t s fs ss H _ (vs & A & B)]; [exists []; auto|].
  destruct t; simpl in H; try contradiction.
  - destruct H as [z ->]. exists (VInt z :: vs). split; [constructor; auto; constructor|simpl; congruence].
  - exists (VStr s :: vs). split; [constructor; auto; constructor|simpl; congruence].
Qed.

Lemma dir_of_key : forall c fs p, dir_of (c_sep c) fs p ->
  exists vs, key_of fs vs /\ clean_key c vs /\ ~ empty_then_one vs /\ to_path c (VDC vs) = Ok p.
Proof.
  intros c fs p H.
  assert (CL : forall vs, (forall s x, In s (map value_str vs) -> In x s -> x <> c_sep c /\ x <> slash) -> Forall (clean_value c) vs).
  { intros vs Hc. apply Forall_forall. intros v Hv x Hx. unfold sep_char. apply orb_false_iff.
    destruct (Hc (value_str v) x (in_map _ _ _ Hv) Hx). split; apply Nat.eqb_neq; auto. }
  induction H as [fs ss Hne H Hc Hd|fs sub ss p Hne H Hc Hs (subvs & K & C & D & E)].
  - destruct (canonical_values _ _ H) as (vs & A & <-). exists vs. pose proof (leaf_typed_nodc _ _ A) as Hdc.
    assert (Hdrop : drops vs = false).
    { destruct (drops vs) eqn:Ed; auto. apply drops_iff in Ed as (x & -> & _). exfalso. eapply Hd. reflexivity. }
    repeat split.
    + constructor; auto.
    + constructor; auto.
    + intro Q. inversion Q; subst; [simpl in Hdrop; rewrite H0 in Hdrop; discriminate|]. exfalso; eapply nodc_dc; eauto.
    + unfold to_path. erewrite to_str_leaf; eauto. rewrite Hdrop. auto.
  - destruct (canonical_values _ _ H) as (vs & A & <-). exists (vs ++ [VDC subvs]). pose proof (leaf_typed_nodc _ _ A) as Hdc.
    repeat split.
    + apply KNest; auto.
    + apply CNest; auto.
    + intro Q. inversion Q; subst.
      * destruct vs as [|v [|w vs]]; simpl in H0; try discriminate; injection H0 as Q1 Q2; [subst x; discriminate|destruct vs; discriminate].
      * apply app_inj_tail in H0 as [-> Q']. injection Q' as ->. auto.
    + unfold to_path in *. erewrite to_str_nest; [reflexivity|eapply key_of_ne; eauto|eauto].
Qed.
