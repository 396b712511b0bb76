(** Proofs about keys and their strings. *)
Require Import List Arith ZArith Bool Lia DecimalZ DecimalPos.
Require Import Verif.Common Verif.IdxModel Verif.IdxSpec.
Import ListNotations.

(** * Integers *)
Lemma digit_space : forall c d, digit c = Some d -> is_space c = false /\ c <> minus /\ c <> 43.
Proof.
  intros c d H. do 48 (destruct c as [|c]; [discriminate|]).
  do 10 (destruct c as [|c]; [repeat split; try reflexivity; discriminate|]). discriminate.
Qed.

Lemma uint_str_head : forall u c s, uint_str u = c :: s -> exists d, digit c = Some d.
Proof. intros u c s H. destruct u; simpl in H; try discriminate; injection H as <- <-; eexists; reflexivity. Qed.

Lemma uint_str_digits : forall u x, In x (uint_str u) -> exists d, digit x = Some d.
Proof. induction u; simpl; intros x H; try contradiction; destruct H as [<-|H]; eauto; eexists; reflexivity. Qed.

Lemma parse_uint_str : forall u prev, u <> Decimal.Nil \/ prev = true -> parse_digits prev (uint_str u) = Some u.
Proof.
  induction u; intros prev H; simpl; try (rewrite IHu by auto; reflexivity).
  destruct H as [H|H]; [congruence|rewrite H; auto].
Qed.

Lemma to_uint_ne : forall z, match Z.to_int z with Decimal.Pos u | Decimal.Neg u => u <> Decimal.Nil end.
Proof.
  assert (P : forall p, Pos.to_uint p <> Decimal.Nil).
  { intros p E. pose proof (DecimalPos.Unsigned.of_to p) as H. rewrite E in H. discriminate. }
  intros [|p|p]; simpl; auto. discriminate.
Qed.

Lemma lstrip_id : forall s, (forall c s', s = c :: s' -> is_space c = false) -> lstrip s = s.
Proof. intros [|c s] H; simpl; auto. rewrite (H c s); auto. Qed.

Lemma strip_id : forall s, (forall x, In x s -> is_space x = false) -> strip s = s.
Proof.
  intros s H. unfold strip. rewrite (lstrip_id s) by (intros c s' ->; apply H; simpl; auto).
  rewrite (lstrip_id (rev s)); [apply rev_involutive|].
  intros c s' E. apply H. apply in_rev. rewrite E. simpl; auto.
Qed.

Lemma parse_int_str : forall z, parse_int (int_str z) = Some z.
Proof.
  intro z. unfold parse_int. rewrite strip_id.
  2:{ unfold int_str. pose proof (to_uint_ne z). destruct (Z.to_int z) as [u|u]; intros x Hx.
      - destruct (uint_str_digits _ _ Hx) as [d E]. apply (digit_space _ _ E).
      - destruct Hx as [<-|Hx]; [reflexivity|]. destruct (uint_str_digits _ _ Hx) as [d E]. apply (digit_space _ _ E). }
  unfold int_str. pose proof (to_uint_ne z) as Hne. pose proof (DecimalZ.of_to z) as Hz.
  destruct (Z.to_int z) as [u|u].
  - destruct (uint_str u) as [|c s] eqn:E; [destruct u; simpl in E; congruence|].
    destruct (uint_str_head _ _ _ E) as [d Ed]. destruct (digit_space _ _ Ed) as (_ & A & B).
    apply Nat.eqb_neq in A. apply Nat.eqb_neq in B. rewrite A, B. rewrite <- E, parse_uint_str by auto. simpl. f_equal. exact Hz.
  - rewrite Nat.eqb_refl. rewrite parse_uint_str by auto. simpl. f_equal. exact Hz.
Qed.

Lemma int_str_inj : forall a b, int_str a = int_str b -> a = b.
Proof. intros a b H. assert (Some a = Some b) by (rewrite <- !parse_int_str, H; auto). congruence. Qed.

Lemma int_str_ne : forall z, int_str z <> [].
Proof. intros z E. pose proof (parse_int_str z) as H. rewrite E in H. discriminate. Qed.

(** * Levels of nesting *)
Lemma value_lists_leaf : forall vs, vs <> [] -> Forall (fun v => is_dc v = false) vs -> value_lists (VDC vs) = [vs].
Proof.
  intros vs Hne H. destruct vs as [|v0 vs0]; [congruence|]. clear Hne.
  change (value_lists (VDC (v0 :: vs0))) with ((v0 :: vs0) :: (fix of_last (l0 : list value) : list (list value) :=
               match l0 with
               | [] => []
               | [x0] => if is_dc x0 then value_lists x0 else []
               | _ :: l' => of_last l'
               end) (v0 :: vs0)).
  f_equal. induction H as [|x l Hx H IH]; auto. destruct l as [|y l']; [rewrite Hx; auto|]. exact IH.
Qed.

Lemma value_lists_nest : forall vs sub, value_lists (VDC (vs ++ [VDC sub])) = (vs ++ [VDC sub]) :: value_lists (VDC sub).
Proof.
  intros vs sub. destruct (vs ++ [VDC sub]) as [|x l] eqn:E; [destruct vs; discriminate|].
  change (value_lists (VDC (x :: l))) with ((x :: l) :: (fix of_last (l0 : list value) : list (list value) :=
               match l0 with
               | [] => []
               | [x0] => if is_dc x0 then value_lists x0 else []
               | _ :: l' => of_last l'
               end) (x :: l)).
  f_equal. rewrite <- E. clear E x l. induction vs as [|v vs IH]; [reflexivity|].
  change ((v :: vs) ++ [VDC sub]) with (v :: (vs ++ [VDC sub])).
  destruct (vs ++ [VDC sub]) as [|y l] eqn:E; [destruct vs; discriminate|]. exact IH.
Qed.

Lemma sub_lists_leaf : forall fs, fs <> [] -> Forall is_leaf_type fs -> sub_lists (TDC fs) = [fs].
Proof.
  intros fs Hne H. simpl. f_equal. induction H as [|t l Ht H IH]; [congruence|].
  destruct l as [|y l']; [destruct Ht; subst; auto|]. apply IH. discriminate.
Qed.

Lemma sub_lists_nest : forall fs sub, sub_lists (TDC (fs ++ [TDC sub])) = (fs ++ [TDC sub]) :: sub_lists (TDC sub).
Proof.
  intros fs sub. change (sub_lists (TDC (fs ++ [TDC sub]))) with ((fs ++ [TDC sub]) :: (fix of_last (l0 : list ftype) : list (list ftype) :=
               match l0 with
               | [] => []
               | [x0] => sub_lists x0
               | _ :: l' => of_last l'
               end) (fs ++ [TDC sub])).
  f_equal. induction fs as [|v vs IH]; [reflexivity|].
  change ((v :: vs) ++ [TDC sub]) with (v :: (vs ++ [TDC sub])).
  destruct (vs ++ [TDC sub]) as [|y l] eqn:E; [destruct vs; discriminate|]. exact IH.
Qed.

Lemma leaf_typed_types : forall fs vs, Forall2 leaf_typed fs vs -> Forall is_leaf_type fs.
Proof. intros fs vs H. induction H; constructor; auto. destruct H; unfold is_leaf_type; auto. Qed.
Lemma leaf_typed_nodc : forall fs vs, Forall2 leaf_typed fs vs -> Forall (fun v => is_dc v = false) vs.
Proof. intros fs vs H. induction H; constructor; auto. destruct H; auto. Qed.

Lemma Forall2_len : forall {A B} (R : A -> B -> Prop) l m, Forall2 R l m -> length l = length m.
Proof. intros A B R l m H. induction H; simpl; auto. Qed.

Lemma key_of_schema : forall fs vs, key_of fs vs -> schema fs.
Proof. intros fs vs H. induction H; [apply SLeaf|apply SNest]; eauto using leaf_typed_types. Qed.
Lemma key_of_length : forall fs vs, key_of fs vs -> length vs = length fs.
Proof. intros fs vs H. destruct H; rewrite ?app_length; simpl; erewrite <- Forall2_len by eauto; auto. Qed.
Lemma key_of_ne : forall fs vs, key_of fs vs -> vs <> [].
Proof. intros fs vs H E. subst. apply key_of_length in H as H'. inversion H; subst; try (destruct vs; discriminate). simpl in H'. destruct fs; auto. discriminate. Qed.

(** Inversion of what a key is, from its schema. *)
Lemma key_of_leaf_inv : forall fs vs, Forall is_leaf_type fs -> key_of fs vs -> Forall2 leaf_typed fs vs.
Proof.
  intros fs vs Hl H. inversion H; subst; auto. apply Forall_app in Hl as [_ Hl]. inversion Hl; subst. destruct H5; discriminate.
Qed.
Lemma key_of_nest_inv : forall fs sub vs, key_of (fs ++ [TDC sub]) vs ->
  exists vs0 subvs, vs = vs0 ++ [VDC subvs] /\ Forall2 leaf_typed fs vs0 /\ key_of sub subvs.
Proof.
  intros fs sub vs H. inversion H; subst.
  - apply leaf_typed_types in H1. apply Forall_app in H1 as [_ Hl]. inversion Hl; subst. destruct H3; discriminate.
  - apply app_inj_tail in H0 as [-> E]. injection E as ->. eauto.
Qed.

(** * Validation *)
Lemma validate_leaf_ok : forall c v n k, is_dc v = false -> (validate_field c n k v = Ok tt <-> leaf_ok c v).
Proof.
  intros c v n k Hdc.
  assert (E : forall s, has_char (c_sep c) s || has_char slash s || has_char dot s = false <->
                (forall x, In x s -> x <> c_sep c /\ x <> slash /\ x <> dot)).
  { intro s. unfold has_char. rewrite !orb_false_iff. rewrite <- !not_true_iff_false, !existsb_exists. split.
    - intros [[A B] C] x Hx. repeat split; intro Q; [apply A|apply B|apply C]; exists x; split; auto; apply Nat.eqb_eq; auto.
    - intros H. repeat split; intros (x & Hx & Q); apply Nat.eqb_eq in Q; subst; destruct (H _ Hx) as (A & B & C); congruence. }
  unfold validate_field, leaf_ok. destruct v; simpl in Hdc; try discriminate; rewrite <- E;
    destruct (has_char _ _ || has_char _ _ || has_char _ _); split; intro H; try discriminate; auto; destruct H; try discriminate; try contradiction; auto.
Qed.

Lemma validate_fields_leaf : forall c vs n k, Forall (fun v => is_dc v = false) vs ->
  (validate_fields c n k vs = Ok tt <-> Forall (leaf_ok c) vs).
Proof.
  induction vs as [|v vs IH]; intros n k H; simpl; [split; auto|]. inversion H; subst.
  pose proof (validate_leaf_ok c v n k H2) as A. destruct (validate_field c n k v) as [[]|e]; cbn [bind].
  - rewrite IH by auto. split; [intro; constructor; auto; apply A; auto|intro Q; inversion Q; auto].
  - split; [discriminate|]. intro Q. inversion Q; subst. apply A in H4. discriminate.
Qed.

Lemma validate_fields_app : forall c vs ws n k,
  validate_fields c n k (vs ++ ws) = (let* _ := validate_fields c n k vs in validate_fields c n (k + length vs) ws).
Proof.
  induction vs as [|v vs IH]; intros ws n k; simpl; [rewrite Nat.add_0_r; auto|].
  destruct (validate_field c n k v); cbn [bind]; auto. rewrite IH. replace (S k + length vs) with (k + S (length vs)) by lia. auto.
Qed.

Lemma validate_nest : forall c vs sub, vs <> [] -> Forall (fun v => is_dc v = false) vs ->
  (validate c (VDC (vs ++ [VDC sub])) = Ok tt <-> Forall (leaf_ok c) vs /\ validate c (VDC sub) = Ok tt).
Proof.
  intros c vs sub Hne Hdc. unfold validate. rewrite value_lists_nest. cbn [validate_lists].
  rewrite validate_fields_app.
  pose proof (validate_fields_leaf c vs (length (vs ++ [VDC sub])) 0 Hdc) as A.
  destruct (validate_fields c _ 0 vs) as [[]|e]; cbn [bind].
  - simpl validate_fields. destruct (length vs =? 0) eqn:E; [apply Nat.eqb_eq in E; destruct vs; simpl in E; [congruence|discriminate]|].
    rewrite app_length. simpl length. rewrite Nat.eqb_refl. cbn [negb bind]. tauto.
  - split; [discriminate|]. intros [Q _]. apply A in Q. discriminate.
Qed.

Lemma validate_leaf : forall c vs, Forall (fun v => is_dc v = false) vs ->
  (validate c (VDC vs) = Ok tt <-> Forall (leaf_ok c) vs).
Proof.
  intros c vs Hdc. destruct vs as [|v vs]; [split; auto; reflexivity|].
  unfold validate. rewrite value_lists_leaf by (auto; discriminate). cbn [validate_lists].
  rewrite <- (validate_fields_leaf c (v :: vs) (length (v :: vs)) 0) by auto.
  destruct (validate_fields _ _ _ _) as [[]|]; cbn [bind]; split; auto.
Qed.

(** Every list of values is int, str or other values, then possibly a nested instance, or has a
    nested instance which is not last. *)
Lemma leaf_or_dc : forall vs, Forall (fun v => is_dc v = false) vs \/
  exists a sub b, vs = a ++ VDC sub :: b /\ Forall (fun v => is_dc v = false) a.
Proof.
  induction vs as [|v vs IH]; [left; auto|]. destruct (is_dc v) eqn:E.
  - right. destruct v; try discriminate. exists [], fields, vs. split; auto.
  - destruct IH as [IH|(a & sub & b & -> & H)]; [left; auto|right]. exists (v :: a), sub, b. split; auto.
Qed.

Fixpoint vsize (v : value) : nat := match v with VDC vs => S (list_sum (map vsize vs)) | _ => 1 end.

Lemma valid_fields_leaf_inv : forall c vs, Forall (fun v => is_dc v = false) vs -> valid_fields c vs -> Forall (leaf_ok c) vs.
Proof.
  intros c vs H V. inversion V; subst; auto. apply Forall_app in H as [_ H]. inversion H; subst. discriminate.
Qed.

Lemma leaf_ok_nodc : forall c v, leaf_ok c v -> is_dc v = false.
Proof. intros c v [H _]. destruct v; auto; contradiction. Qed.

Lemma validate_iff : forall c vs, validate c (VDC vs) = Ok tt <-> valid_fields c vs.
Proof.
  intros c vs. remember (vsize (VDC vs)) as n eqn:En. revert vs En. induction n as [n IH] using lt_wf_ind. intros vs En.
  destruct (leaf_or_dc vs) as [H|(a & sub & b & -> & H)].
  - rewrite validate_leaf by auto. split; [apply VLeaf|apply valid_fields_leaf_inv; auto].
  - destruct b as [|y b].
    + destruct a as [|x a].
      * split; [discriminate|]. intro V. inversion V; subst.
        -- inversion H0; subst. apply leaf_ok_nodc in H3. discriminate.
        -- destruct vs as [|v [|]]; simpl in H0; congruence.
      * rewrite validate_nest by (auto; discriminate). rewrite (IH (vsize (VDC sub))).
        -- split.
           ++ intros [A B]. apply VNest; auto. discriminate.
           ++ intro V. inversion V; subst.
              ** apply Forall_app in H0 as [_ H0]. inversion H0; subst. apply leaf_ok_nodc in H3. discriminate.
              ** change (x :: a ++ [VDC sub]) with ((x :: a) ++ [VDC sub]) in H0.
                 apply app_inj_tail in H0 as [-> E]. injection E as ->. auto.
        -- subst n. simpl. rewrite map_app, list_sum_app. simpl. lia.
        -- auto.
    + (* a nested instance which is not last *)
      split.
      * intro V. exfalso. unfold validate in V.
        destruct (value_lists (VDC (a ++ VDC sub :: y :: b))) as [|l ls] eqn:EL.
        { destruct a; discriminate. }
        assert (l = a ++ VDC sub :: y :: b) by (destruct a; simpl in EL; injection EL; auto). subst l.
        cbn [validate_lists] in V. rewrite validate_fields_app in V.
        destruct (validate_fields c _ 0 a) as [[]|]; cbn [bind] in V; [|discriminate].
        cbn [validate_fields validate_field] in V. destruct (0 + length a =? 0); [discriminate|].
        destruct (negb (0 + length a + 1 =? length (a ++ VDC sub :: y :: b))) eqn:E; [discriminate|].
        apply negb_false_iff, Nat.eqb_eq in E. rewrite app_length in E. simpl in E. lia.
      * intro V. exfalso. inversion V; subst.
        -- apply Forall_app in H0 as [_ H0]. inversion H0; subst. apply leaf_ok_nodc in H3. discriminate.
        -- destruct (@exists_last _ (y :: b)) as (b' & z & Eb); [discriminate|].
           rewrite Eb in H0. change (VDC sub :: b' ++ [z]) with ((VDC sub :: b') ++ [z]) in H0. rewrite app_assoc in H0.
           apply app_inj_tail in H0 as [-> _]. apply Forall_app in H2 as [_ H2]. inversion H2; subst. apply leaf_ok_nodc in H5. discriminate.
Qed.

Lemma validate_errors : forall c obj e, validate c obj = Err e -> e = TypeError \/ e = ValueError.
Proof.
  intros c obj e. unfold validate. generalize (value_lists obj). induction l as [|fs ls IH]; simpl; [discriminate|].
  destruct (validate_fields c (length fs) 0 fs) as [[]|e'] eqn:E; cbn [bind]; auto. intro Q. injection Q as <-. clear IH.
  revert E. generalize (length fs) at 1, 0. induction fs as [|f fs IH]; intros n k; simpl; [discriminate|].
  destruct (validate_field c n k f) as [[]|e''] eqn:E; cbn [bind]; eauto. intro Q. injection Q as <-.
  unfold validate_field in E. destruct f; try (destruct (_ || _); [injection E as <-; auto|try discriminate; injection E as <-; auto]).
  destruct (k =? 0); [injection E as <-; auto|]. destruct (negb _); [injection E as <-; auto|discriminate].
Qed.

(** Valid keys of the declared types: the two views together. *)
Lemma valid_leaf : forall c fs vs, Forall2 leaf_typed fs vs -> validate c (VDC vs) = Ok tt -> Forall (leaf_ok c) vs.
Proof. intros c fs vs H V. apply validate_leaf in V; auto. eapply leaf_typed_nodc; eauto. Qed.
Lemma valid_nest : forall c fs vs sub, fs <> [] -> Forall2 leaf_typed fs vs -> validate c (VDC (vs ++ [VDC sub])) = Ok tt ->
  Forall (leaf_ok c) vs /\ validate c (VDC sub) = Ok tt.
Proof.
  intros c fs vs sub Hne H V. apply validate_nest in V; auto.
  - intro E. subst. inversion H; subst; auto.
  - eapply leaf_typed_nodc; eauto.
Qed.
