(** Proofs about separators of fields of several characters. *)
Require Import List Arith ZArith Bool Lia.
Require Import Verif.Common Verif.IdxModel Verif.IdxSpec Verif.IdxProofs Verif.IdxStrProofs.
Require Import Verif.SepModel Verif.SepSpec.
Import ListNotations.

(** * Strings *)
Lemma starts_iff : forall sep s, starts_with sep s = true <-> exists b, s = sep ++ b.
Proof.
  induction sep as [|c sep IH]; intros s; simpl; [split; eauto|]. destruct s as [|x s].
  - split; [discriminate|intros (b & E); discriminate].
  - rewrite andb_true_iff, Nat.eqb_eq, IH. split.
    + intros (-> & b & ->). eauto.
    + intros (b & E). injection E as -> ->. eauto.
Qed.

Lemma contains_iff : forall sep s, contains sep s = true <-> occurs sep s.
Proof.
  intros sep s. unfold occurs. induction s as [|x s IH]; cbn [contains]; rewrite orb_true_iff, starts_iff.
  - split; [intros [(b & E)|E]; [exists [], b; auto|discriminate]|].
    intros (a & b & E). left. destruct a; [eauto|discriminate].
  - rewrite IH. split.
    + intros [(b & E)|(a & b & E)]; [exists [], b; auto|exists (x :: a), b; simpl; congruence].
    + intros (a & b & E). destruct a as [|y a]; [eauto|]. injection E as -> E. right. eauto.
Qed.

Lemma contains_char : forall c s, contains [c] s = has_char c s.
Proof.
  intros c s. unfold has_char. induction s as [|x s IH]; [reflexivity|]. cbn [contains starts_with existsb].
  rewrite IH, andb_true_r. auto.
Qed.

Lemma match_literal : forall sep s, literal sep -> (match_sep sep s = true <-> exists b, s = sep ++ b).
Proof.
  intros [|c sep] s L; [contradiction|]. destruct L as [_ L]. unfold match_sep. destruct s as [|x s].
  - split; [discriminate|intros (b & E); discriminate].
  - assert (R : forall r t, (forall y, In y r -> y <> dot /\ ~ In y special) -> match_rest r t = starts_with r t).
    { induction r as [|y r IH]; intros t Hr; auto. destruct t as [|z t]; auto.
      destruct (Hr y) as [Hd _]; [simpl; auto|]. apply Nat.eqb_neq in Hd. cbn [match_rest starts_with]. rewrite Hd. rewrite IH; auto. intros; apply Hr; simpl; auto. }
    rewrite R by auto. rewrite andb_true_iff, Nat.eqb_eq, starts_iff. split.
    + intros (-> & b & ->). exists b. reflexivity.
    + intros (b & E). injection E as -> ->. eauto.
Qed.

Definition prepend (v : str) (l : list str) : list str := match l with x :: l' => (v ++ x) :: l' | [] => [v] end.

Lemma split_sep_ne : forall sep s k, split_sep sep k s <> [].
Proof.
  intros sep s. induction s as [|c s IH]; intros k; simpl; [discriminate|]. destruct k; auto.
  destruct (c =? slash); [discriminate|]. destruct (match_sep _ _); [discriminate|]. specialize (IH 0). destruct (split_sep sep 0 s); discriminate.
Qed.

Lemma split_prepend : forall sep v t, ~ In slash v ->
  (forall a b, v = a ++ b -> b <> [] -> match_sep sep (b ++ t) = false) ->
  split_sep sep 0 (v ++ t) = prepend v (split_sep sep 0 t).
Proof.
  intros sep v t. induction v as [|x v IH]; intros Hs Hm.
  - cbn [app]. pose proof (split_sep_ne sep t 0). destruct (split_sep sep 0 t); [congruence|reflexivity].
  - cbn [app split_sep]. destruct (x =? slash) eqn:E; [apply Nat.eqb_eq in E; exfalso; apply Hs; simpl; auto|].
    change (x :: v ++ t) with ((x :: v) ++ t). rewrite (Hm [] (x :: v)) by (auto; discriminate).
    rewrite IH.
    + destruct (split_sep sep 0 t); reflexivity.
    + intro; apply Hs; simpl; auto.
    + intros a b -> Hb. apply (Hm (x :: a) b); auto.
Qed.

Lemma split_skip : forall sep a s, split_sep sep (length a) (a ++ s) = split_sep sep 0 s.
Proof. intros sep a s. induction a as [|x a IH]; auto. Qed.

Definition clean_s (sep v : str) : Prop := ~ occurs sep v /\ ~ In slash v.

Section Sep.
Variable sep : str.
Hypothesis Hlit : literal sep.
Hypothesis Hsl : ~ In slash sep.

Lemma sep_ne : sep <> [].
Proof. clear Hsl. intro E. rewrite E in Hlit. exact Hlit. Qed.

Lemma no_match : forall b t, (forall r, b ++ t <> sep ++ r) -> match_sep sep (b ++ t) = false.
Proof.
  intros b t H. apply not_true_iff_false. rewrite match_literal by auto. intros (r & E). exact (H r E).
Qed.


Lemma split_at_sep : forall s, split_sep sep 0 (sep ++ s) = [] :: split_sep sep 0 s.
Proof.
  intros s. assert (M : match_sep sep (sep ++ s) = true) by (apply match_literal; eauto).
  pose proof sep_ne as Hne. destruct sep as [|x r] eqn:E; [congruence|]. cbn [app] in *. cbn [split_sep].
  destruct (x =? slash) eqn:Ex; [apply Nat.eqb_eq in Ex; exfalso; apply Hsl; simpl; auto|]. rewrite M. cbn [length].
  replace (S (length r) - 1) with (length r) by lia. rewrite split_skip. auto.
Qed.

Lemma split_at_slash : forall s, split_sep sep 0 (slash :: s) = [] :: split_sep sep 0 s.
Proof. intro s. reflexivity. Qed.

Lemma split_one : forall v, clean_s sep v -> split_sep sep 0 v = [v].
Proof.
  intros v [Ho Hs]. rewrite <- (app_nil_r v) at 1. rewrite split_prepend; auto.
  - cbn. rewrite app_nil_r. auto.
  - intros a b -> _. rewrite app_nil_r. rewrite <- (app_nil_r b). apply no_match. intros r E. apply Ho. exists a, r.
    rewrite app_nil_r in E. subst b. auto.
Qed.

Lemma split_then_slash : forall v s, clean_s sep v -> split_sep sep 0 (v ++ slash :: s) = v :: split_sep sep 0 s.
Proof.
  intros v s [Ho Hs]. rewrite split_prepend; auto.
  - rewrite split_at_slash. simpl. rewrite app_nil_r. auto.
  - intros a b -> _. apply no_match. intros r E.
    assert (Hb : exists w, b = sep ++ w \/ sep = b ++ slash :: w).
    { clear - E. revert r b E. generalize sep as q. induction q as [|x q IH]; intros r b E; [exists b; auto|].
      destruct b as [|y b]; cbn [app] in E; injection E as E1 E2.
      - exists q. right. simpl. congruence.
      - subst y. destruct (IH _ _ E2) as (w & [->| ->]); exists w; auto. }
    destruct Hb as (w & [->|E']).
    + apply Ho. exists a, w. auto.
    + apply Hsl. rewrite E'. apply in_or_app. right. left. auto.
Qed.

Hypothesis Hb : ~ bordered sep.

Lemma split_then_sep : forall v s, clean_s sep v -> split_sep sep 0 (v ++ sep ++ s) = v :: split_sep sep 0 s.
Proof.
  intros v s [Ho Hs]. rewrite split_prepend; auto.
  - rewrite split_at_sep. simpl. rewrite app_nil_r. auto.
  - intros a b -> Hbn. apply no_match. intros r E.
    assert (Q : exists w, b = sep ++ w \/ (sep = b ++ w /\ w <> [])).
    { clear - E. revert E. generalize (sep ++ s) as u. generalize sep as q. intros q u. revert b.
      induction q as [|x q IH]; intros b E; [exists b; auto|].
      destruct b as [|y b]; [exists (x :: q); right; split; [auto|discriminate]|]. cbn [app] in E. injection E as E1 E2.
      subst y. destruct (IH _ E2) as (w & [->|(-> & Hw)]); exists w; auto. }
    destruct Q as (w & [->|(E' & Hw)]).
    + apply Ho. exists a, w. auto.
    + (* sep = b ++ w and sep ++ s = w ++ r: w is a border *)
      rewrite E' in E at 2. rewrite <- app_assoc in E. apply app_inv_head in E.
      assert (exists c, sep = w ++ c) as (c & Ec).
      { assert (L : length w <= length sep) by (rewrite E', app_length; lia).
        exists (skipn (length w) sep). rewrite <- (firstn_skipn (length w) sep) at 1. f_equal.
        apply (f_equal (firstn (length w))) in E. rewrite !firstn_app, firstn_all, Nat.sub_diag in E. cbn [firstn] in E.
        replace (length w - length sep) with 0 in E by lia. cbn [firstn] in E. rewrite !app_nil_r in E. exact E. }
      apply Hb. exists b, w, c. auto.
Qed.

(** * join *)
Lemma sjoin_cons : forall q x y l, join q (x :: y :: l) = x ++ q ++ join q (y :: l).
Proof. reflexivity. Qed.

Lemma split_sjoin_app : forall l t s, l <> [] -> (forall x, In x l -> clean_s sep x) -> t = sep \/ t = [slash] ->
  split_sep sep 0 (join sep l ++ t ++ s) = l ++ split_sep sep 0 s.
Proof.
  induction l as [|x l IH]; intros t s Hne H Ht; [congruence|]. destruct l as [|y l].
  - cbn [join app]. destruct Ht as [->| ->].
    + apply split_then_sep. apply H. simpl; auto.
    + cbn [app]. apply split_then_slash. apply H. simpl; auto.
  - rewrite sjoin_cons, <- !app_assoc. rewrite split_then_sep by (apply H; simpl; auto). cbn [app]. f_equal.
    apply IH; auto; [discriminate|]. intros z Hz. apply H. simpl in *; auto.
Qed.

Lemma split_sjoin : forall l, l <> [] -> (forall x, In x l -> clean_s sep x) -> split_sep sep 0 (join sep l) = l.
Proof.
  induction l as [|x l IH]; intros Hne H; [congruence|]. destruct l as [|y l].
  - cbn [join]. apply split_one. apply H. simpl; auto.
  - rewrite sjoin_cons. rewrite split_then_sep by (apply H; simpl; auto). f_equal. apply IH; [discriminate|].
    intros z Hz. apply H. simpl in *; auto.
Qed.

End Sep.

(** * Keys to strings *)
Lemma sjoin_app : forall q a b, a <> [] -> b <> [] -> join q (a ++ b) = join q a ++ q ++ join q b.
Proof.
  induction a as [|x a IH]; intros b Ha Hb; [congruence|]. destruct a as [|y a].
  - simpl. destruct b; auto. congruence.
  - change ((x :: y :: a) ++ b) with (x :: (y :: a) ++ b).
    change (join q (x :: (y :: a) ++ b)) with (x ++ q ++ join q ((y :: a) ++ b)).
    rewrite IH by (auto; discriminate). rewrite (sjoin_cons q x y a). rewrite <- !app_assoc. auto.
Qed.

Lemma sjoin_nil_inv : forall q l, q <> [] -> join q l = [] -> l = [] \/ l = [[]].
Proof.
  intros q [|x [|y l]] Hq H; auto.
  - simpl in H. subst. auto.
  - rewrite sjoin_cons in H. destruct x; [|discriminate]. destruct q; [congruence|discriminate].
Qed.

Lemma to_str_leaf_s : forall c fs vs b, s_sep c <> [] -> fs <> [] -> Forall2 leaf_typed fs vs ->
  to_str_s c (VDC vs) b = Ok (join (s_sep c) (if drops vs then [value_str (last vs (VStr []))] else map value_str vs)).
Proof.
  intros c fs vs b Hq Hne H. assert (Hvs : vs <> []) by (intro E; subst; inversion H; subst; congruence).
  pose proof (leaf_typed_nodc _ _ H) as Hdc.
  unfold to_str_s. rewrite value_lists_leaf by auto. cbn [map last]. f_equal. cbn [removelast app].
  set (l := removelast vs). set (x := last vs (VStr [])).
  assert (E : vs = l ++ [x]) by (symmetry; apply last_removelast; auto).
  destruct (join (s_sep c) (map value_str l)) as [|ch tail] eqn:Ej.
  - apply sjoin_nil_inv in Ej as [Ej|Ej]; auto.
    + apply map_eq_nil in Ej. rewrite Ej in E. rewrite E. simpl.
      destruct x as [| [|] | |]; auto.
    + destruct l as [|v [|w l']]; try discriminate. simpl in Ej. injection Ej as Ej.
      assert (v = VStr []) by (eapply value_str_nil; [exact H|rewrite E; simpl; auto|exact Ej]). subst v.
      assert (Hx : is_dc x = false) by (rewrite E in Hdc; apply Forall_app in Hdc as [_ Hdc]; inversion Hdc; auto).
      rewrite E. simpl. rewrite Hx. simpl. auto.
  - change (ch :: tail ++ s_sep c ++ value_str x) with ((ch :: tail) ++ s_sep c ++ value_str x).
    rewrite <- Ej. assert (Hl : l <> []) by (intro Q; rewrite Q in Ej; discriminate).
    replace (drops vs) with false.
    + simpl join at 1. rewrite E, map_app. simpl map. rewrite sjoin_app by (auto; try discriminate; destruct l; simpl; congruence).
      simpl. auto.
    + rewrite E. destruct l as [|v [|w l']]; try congruence.
      * simpl. destruct v as [| [|] | |]; auto. simpl in Ej. discriminate.
      * simpl. destruct v as [| [|] | |]; auto. destruct (l' ++ [x]) eqn:Q; auto. destruct l'; discriminate.
Qed.

Definition body_s (c : scls) (lv : str) (lists : list (list value)) : str :=
  let strs := map (fun fields => join (s_sep c) (map value_str (removelast fields))) lists in
  let last_field := value_str (last (last lists []) (VStr [])) in
  join lv (removelast strs ++ [match last strs [] with [] => last_field | tail => tail ++ s_sep c ++ last_field end]).

Lemma to_str_body_s : forall c vs b, vs <> [] -> to_str_s c (VDC vs) b = Ok (body_s c (if b then [slash] else s_sep c) (value_lists (VDC vs))).
Proof. intros c vs b H. unfold to_str_s. pose proof (value_lists_ne vs H). destruct (value_lists (VDC vs)); [congruence|]. reflexivity. Qed.

Lemma body_cons_s : forall c lv x l0 ls, body_s c lv (x :: l0 :: ls)
  = join (s_sep c) (map value_str (removelast x)) ++ lv ++ body_s c lv (l0 :: ls).
Proof.
  intros c lv x l0 ls. unfold body_s. cbv zeta. cbn [map].
  set (g := fun fields : list value => _). set (gx := join (s_sep c) (map value_str (removelast x))).
  set (g0 := join (s_sep c) (map value_str (removelast l0))).
  change (last (x :: l0 :: ls) []) with (last (l0 :: ls) []).
  change (last (gx :: g0 :: map g ls) []) with (last (g0 :: map g ls) []).
  change (removelast (gx :: g0 :: map g ls)) with (gx :: removelast (g0 :: map g ls)).
  set (a := removelast (g0 :: map g ls)). generalize (last (g0 :: map g ls) []) (value_str (last (last (l0 :: ls) []) (VStr []))).
  intros ls1 lf. set (t := match ls1 with [] => lf | _ => _ end).
  change ((gx :: a) ++ [t]) with (gx :: (a ++ [t])). destruct (a ++ [t]) as [|y l] eqn:E; [destruct a; discriminate|]. reflexivity.
Qed.

Lemma to_str_nest_s : forall c vs sub b s, sub <> [] -> to_str_s c (VDC sub) b = Ok s ->
  to_str_s c (VDC (vs ++ [VDC sub])) b
  = Ok (join (s_sep c) (map value_str vs) ++ (if b then [slash] else s_sep c) ++ s).
Proof.
  intros c vs sub b s Hne H. rewrite to_str_body_s in * by (auto; destruct vs; discriminate). apply Ok_inj in H. f_equal.
  rewrite value_lists_nest. pose proof (value_lists_ne sub Hne). destruct (value_lists (VDC sub)) as [|l0 ls]; [congruence|].
  rewrite body_cons_s, removelast_last, H. reflexivity.
Qed.

(** * Validation *)
Lemma validate_leaf_ok_s : forall c v n k, is_dc v = false -> (validate_field_s c n k v = Ok tt <-> leaf_ok_s (s_sep c) v).
Proof.
  intros c v n k Hdc.
  assert (E : forall s, contains (s_sep c) s || contains [slash] s || contains [dot] s = false <->
                (~ occurs (s_sep c) s /\ forall x, In x s -> x <> slash /\ x <> dot)).
  { intro s. rewrite !contains_char. unfold has_char. rewrite !orb_false_iff. rewrite <- !not_true_iff_false, !existsb_exists, contains_iff. split.
    - intros [[A B] C]. split; auto. intros x Hx. repeat split; intro Q; [apply B|apply C]; exists x; split; auto; apply Nat.eqb_eq; auto.
    - intros [O H]. repeat split; auto; intros (x & Hx & Q); apply Nat.eqb_eq in Q; subst; destruct (H _ Hx) as (B & C); congruence. }
  unfold validate_field_s, leaf_ok_s. destruct v; simpl in Hdc; try discriminate; rewrite <- E;
    destruct (contains _ _ || contains _ _ || contains _ _); split; intro H; try discriminate; auto; destruct H; try discriminate; try contradiction; auto.
Qed.

Lemma validate_fields_leaf_s : forall c vs n k, Forall (fun v => is_dc v = false) vs ->
  (validate_fields_s c n k vs = Ok tt <-> Forall (leaf_ok_s (s_sep c)) vs).
Proof.
  induction vs as [|v vs IH]; intros n k H; simpl; [split; auto|]. inversion H; subst.
  pose proof (validate_leaf_ok_s c v n k H2) as A. destruct (validate_field_s c n k v) as [[]|e]; cbn [bind].
  - rewrite IH by auto. split; [intro; constructor; auto; apply A; auto|intro Q; inversion Q; auto].
  - split; [discriminate|]. intro Q. inversion Q; subst. apply A in H4. discriminate.
Qed.

Lemma validate_fields_app_s : forall c vs ws n k,
  validate_fields_s c n k (vs ++ ws) = (let* _ := validate_fields_s c n k vs in validate_fields_s c n (k + length vs) ws).
Proof.
  induction vs as [|v vs IH]; intros ws n k; simpl; [rewrite Nat.add_0_r; auto|].
  destruct (validate_field_s c n k v); cbn [bind]; auto. rewrite IH. replace (S k + length vs) with (k + S (length vs)) by lia. auto.
Qed.

Definition validate_s (c : scls) (obj : value) : res unit := validate_lists_s c (value_lists obj).

Lemma validate_nest_s : forall c vs sub, vs <> [] -> Forall (fun v => is_dc v = false) vs ->
  (validate_s c (VDC (vs ++ [VDC sub])) = Ok tt <-> Forall (leaf_ok_s (s_sep c)) vs /\ validate_s c (VDC sub) = Ok tt).
Proof.
  intros c vs sub Hne Hdc. unfold validate_s. rewrite value_lists_nest. cbn [validate_lists_s].
  rewrite validate_fields_app_s.
  pose proof (validate_fields_leaf_s c vs (length (vs ++ [VDC sub])) 0 Hdc) as A.
  destruct (validate_fields_s c _ 0 vs) as [[]|e]; cbn [bind].
  - simpl validate_fields_s. destruct (length vs =? 0) eqn:E; [apply Nat.eqb_eq in E; destruct vs; simpl in E; [congruence|discriminate]|].
    rewrite app_length. simpl length. rewrite Nat.eqb_refl. cbn [negb bind]. tauto.
  - split; [discriminate|]. intros [Q _]. apply A in Q. discriminate.
Qed.

Lemma validate_leaf_s : forall c vs, Forall (fun v => is_dc v = false) vs ->
  (validate_s c (VDC vs) = Ok tt <-> Forall (leaf_ok_s (s_sep c)) vs).
Proof.
  intros c vs Hdc. destruct vs as [|v vs]; [split; auto; reflexivity|].
  unfold validate_s. rewrite value_lists_leaf by (auto; discriminate). cbn [validate_lists_s].
  rewrite <- (validate_fields_leaf_s c (v :: vs) (length (v :: vs)) 0) by auto.
  destruct (validate_fields_s _ _ _ _) as [[]|]; cbn [bind]; split; auto.
Qed.

Lemma leaf_ok_nodc_s : forall q v, leaf_ok_s q v -> is_dc v = false.
Proof. intros q v [H _]. destruct v; auto; contradiction. Qed.

Lemma validate_iff_s : forall c vs, validate_s c (VDC vs) = Ok tt <-> valid_fields_s (s_sep c) vs.
Proof.
  intros c vs. remember (vsize (VDC vs)) as n eqn:En. revert vs En. induction n as [n IH] using lt_wf_ind. intros vs En.
  destruct (leaf_or_dc vs) as [H|(a & sub & b & -> & H)].
  - rewrite validate_leaf_s by auto. split; [apply SVLeaf|]. intro V. inversion V; subst; auto. exfalso; eapply nodc_dc; eauto.
  - destruct b as [|y b].
    + destruct a as [|x a].
      * split; [discriminate|]. intro V. inversion V; subst.
        -- inversion H0; subst. apply leaf_ok_nodc_s in H3. discriminate.
        -- destruct vs as [|v [|]]; simpl in H0; congruence.
      * rewrite validate_nest_s by (auto; discriminate). rewrite (IH (vsize (VDC sub))).
        -- split.
           ++ intros [A B]. apply SVNest; auto. discriminate.
           ++ intro V. inversion V; subst.
              ** apply Forall_app in H0 as [_ H0]. inversion H0; subst. apply leaf_ok_nodc_s in H3. discriminate.
              ** change (x :: a ++ [VDC sub]) with ((x :: a) ++ [VDC sub]) in H0.
                 apply app_inj_tail in H0 as [-> E]. injection E as ->. auto.
        -- subst n. simpl. rewrite map_app, list_sum_app. simpl. lia.
        -- auto.
    + split.
      * intro V. exfalso. unfold validate_s in V.
        destruct (value_lists (VDC (a ++ VDC sub :: y :: b))) as [|l ls] eqn:EL.
        { destruct a; discriminate. }
        assert (l = a ++ VDC sub :: y :: b) by (destruct a; simpl in EL; injection EL; auto). subst l.
        cbn [validate_lists_s] in V. rewrite validate_fields_app_s in V.
        destruct (validate_fields_s c _ 0 a) as [[]|]; cbn [bind] in V; [|discriminate].
        cbn [validate_fields_s validate_field_s] in V. destruct (0 + length a =? 0); [discriminate|].
        destruct (negb (0 + length a + 1 =? length (a ++ VDC sub :: y :: b))) eqn:E; [discriminate|].
        apply negb_false_iff, Nat.eqb_eq in E. rewrite app_length in E. simpl in E. lia.
      * intro V. exfalso. inversion V; subst.
        -- apply Forall_app in H0 as [_ H0]. inversion H0; subst. apply leaf_ok_nodc_s in H3. discriminate.
        -- destruct (@exists_last _ (y :: b)) as (b' & z & Eb); [discriminate|].
           rewrite Eb in H0. change (VDC sub :: b' ++ [z]) with ((VDC sub :: b') ++ [z]) in H0. rewrite app_assoc in H0.
           apply app_inj_tail in H0 as [-> _]. apply Forall_app in H2 as [_ H2]. inversion H2; subst. apply leaf_ok_nodc_s in H5. discriminate.
Qed.

(** * Keys read from their strings *)
Lemma leaf_clean : forall q vs, Forall (leaf_ok_s q) vs -> forall v, In v vs -> clean_s q (value_str v).
Proof.
  intros q vs H v Hv. rewrite Forall_forall in H. destruct (H v Hv) as (_ & O & S). split; auto. intro Q. destruct (S _ Q). congruence.
Qed.

Lemma split_to_str_s : forall c fs vs, literal (s_sep c) -> ~ In slash (s_sep c) -> ~ bordered (s_sep c) ->
  key_of fs vs -> validate_s c (VDC vs) = Ok tt -> forall b,
  exists s ts, to_str_s c (VDC vs) b = Ok s /\ tokens vs ts /\ ts <> [] /\ split_sep (s_sep c) 0 s = ts.
Proof.
  intros c fs vs Hl Hsl Hb H. pose proof (sep_ne _ Hl) as Hq. induction H as [fs vs Hne H|fs vs sub subvs Hne H Hk IH]; intros Hc b.
  - pose proof (leaf_typed_nodc _ _ H) as Hdc. apply validate_leaf_s in Hc; auto.
    assert (Hvs : vs <> []) by (intro E; subst; inversion H; subst; congruence).
    eexists. eexists. split; [eapply to_str_leaf_s; eauto|]. split; [apply TkLeaf; auto|].
    assert (Hcl : forall x, In x (if drops vs then [value_str (last vs (VStr []))] else map value_str vs) -> clean_s (s_sep c) x).
    { intros x Hx. destruct (drops vs).
      - destruct Hx as [<-|[]]. apply (leaf_clean _ vs Hc). destruct (@exists_last _ vs Hvs) as (l & y & ->). rewrite last_last. apply in_or_app. simpl; auto.
      - apply in_map_iff in Hx as (v & <- & Hv). apply (leaf_clean _ vs Hc). auto. }
    assert (Hn : (if drops vs then [value_str (last vs (VStr []))] else map value_str vs) <> []).
    { destruct (drops vs); [discriminate|]. destruct vs; simpl; congruence. }
    split; auto. apply split_sjoin; auto.
  - pose proof (leaf_typed_nodc _ _ H) as Hdc.
    assert (Hvs : vs <> []) by (intro E; subst; inversion H; subst; congruence).
    apply validate_nest_s in Hc as [Hc1 Hc2]; auto.
    destruct (IH Hc2 b) as (s & ts & E1 & E2 & E3 & E4).
    exists (join (s_sep c) (map value_str vs) ++ (if b then [slash] else s_sep c) ++ s), (map value_str vs ++ ts).
    split; [apply to_str_nest_s; auto; eapply key_of_ne; eauto|].
    split; [apply TkNest; auto|]. split; [destruct (map value_str vs); simpl; auto; discriminate|].
    rewrite split_sjoin_app; auto.
    + rewrite E4. auto.
    + intro E. apply map_eq_nil in E. congruence.
    + intros x Hx. apply in_map_iff in Hx as (v & <- & Hv). apply (leaf_clean _ vs Hc1). auto.
    + destruct b; auto.
Qed.

Lemma from_str_start_s : forall c s, from_str_s c s =
  match (let* level := from_start (rev (sub_lists (TDC (s_fields c)))) (split_sep (s_sep c) 0 s) in make_key_s c level false) with
  | Ok k => Some k | Err _ => None end.
Proof.
  intros c s. unfold from_str_s, from_start. destruct (rev (sub_lists _)); auto.
  destruct (convert_zip _ _); cbn [bind]; auto.
Qed.

Lemma from_str_of_fields_s : forall c vs ts s, key_of (s_fields c) vs -> all_fields vs ts ->
  split_sep (s_sep c) 0 s = ts -> from_str_s c s = Some (VDC vs).
Proof.
  intros c vs ts s Hk Ht Hs. rewrite from_str_start_s. rewrite Hs.
  destruct (from_start_key (s_fields c) vs Hk ts Ht [] []) as (lv & _ & _ & E). rewrite app_nil_r in E. cbn [app] in E. rewrite E.
  cbn [from_loop bind]. unfold make_key_s, construct. rewrite (key_of_length _ _ Hk), Nat.eqb_refl. auto.
Qed.

Lemma make_key_s_ok : forall c args k, make_key_s c args true = Ok k <->
  k = VDC args /\ length args = length (s_fields c) /\ validate_s c (VDC args) = Ok tt.
Proof.
  intros c args k. unfold make_key_s, construct. destruct (length args =? length (s_fields c)) eqn:E; cbn [bind].
  - apply Nat.eqb_eq in E. fold (validate_s c (VDC args)). destruct (validate_s c (VDC args)) as [[]|] eqn:V; cbn [bind].
    + split; [intro H; injection H as <-; auto|intros (-> & _); auto].
    + split; [discriminate|intros (_ & _ & Q); discriminate].
  - apply Nat.eqb_neq in E. split; [discriminate|intros (_ & Q & _); congruence].
Qed.

(** * A separator of one character is the case of 'IdxModel.v' *)
Lemma to_str_single : forall x fs obj b, to_str_s (mkSCls [x] fs) obj b = to_str (mkCls x fs) obj b.
Proof. intros. unfold to_str_s, to_str. cbn [s_sep c_sep]. destruct b; reflexivity. Qed.

Lemma validate_single : forall x fs args ck, make_key_s (mkSCls [x] fs) args ck = make_key (mkCls x fs) args ck.
Proof.
  intros x fs args ck. unfold make_key_s, make_key, validate. cbn [s_fields c_fields].
  destruct (construct fs args) as [obj|]; cbn [bind]; auto. destruct ck; auto.
  replace (validate_lists_s (mkSCls [x] fs) (value_lists obj)) with (validate_lists (mkCls x fs) (value_lists obj)); auto.
  induction (value_lists obj) as [|l ls IH]; cbn [validate_lists validate_lists_s]; auto. rewrite IH.
  replace (validate_fields_s (mkSCls [x] fs) (length l) 0 l) with (validate_fields (mkCls x fs) (length l) 0 l); auto.
  generalize (length l), 0. clear. induction l as [|f l IH]; intros n k; cbn [validate_fields validate_fields_s]; auto. rewrite IH.
  replace (validate_field_s (mkSCls [x] fs) n k f) with (validate_field (mkCls x fs) n k f); auto.
  unfold validate_field, validate_field_s. cbn [s_sep c_sep]. rewrite !contains_char. reflexivity.
Qed.

Lemma split_single : forall x s, plain_sep x = true -> split_sep [x] 0 s = split (fun y => (y =? slash) || matches x y) s.
Proof.
  intros x s Hp. induction s as [|c s IH]; [reflexivity|]. cbn [split_sep split]. destruct (c =? slash) eqn:E; cbn [orb].
  - rewrite IH. auto.
  - unfold match_sep. cbn [match_rest]. rewrite andb_true_r. rewrite plain_matches by auto. cbn [length]. change (1 - 1) with 0. rewrite IH. auto.
Qed.

Lemma from_single : forall x fs s, plain_sep x = true -> from_str_s (mkSCls [x] fs) s = from_str (mkCls x fs) s.
Proof.
  intros x fs s Hp. rewrite from_str_start, from_str_start_s. cbn [s_sep s_fields c_sep]. rewrite split_single by auto.
  unfold type_lists. cbn [c_fields]. destruct (from_start _ _) as [l|]; cbn [bind]; auto.
Qed.
