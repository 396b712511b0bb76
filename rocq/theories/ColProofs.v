(** Proofs about the key collection and the disk. *)
Require Import String List Arith ZArith Bool Lia.
Require Import Verif.Common Verif.IdxModel Verif.IdxSpec Verif.IdxProofs Verif.IdxStrProofs Verif.ColModel Verif.ColSpec.
Import ListNotations.
Local Open Scope list_scope.

(** * Order of keys *)
Section Lex.
Context {A : Type} (cmp : A -> A -> comparison).
Lemma lex_eq : forall l m, (forall x y, In x l -> (cmp x y = Eq <-> x = y)) -> (lex cmp l m = Eq <-> l = m).
Proof.
  induction l as [|x l IH]; intros [|y m] H; simpl; try (split; congruence).
  pose proof (H x y (or_introl eq_refl)) as Hxy. destruct (cmp x y) eqn:E.
  - rewrite IH by (intros; apply H; simpl; auto). assert (x = y) by (apply Hxy; auto). subst. split; congruence.
  - split; [discriminate|]. intro Q. injection Q as -> ->. apply Hxy. auto.
  - split; [discriminate|]. intro Q. injection Q as -> ->. apply Hxy. auto.
Qed.
Lemma lex_anti : forall l m, (forall x y, In x l -> cmp y x = CompOpp (cmp x y)) -> lex cmp m l = CompOpp (lex cmp l m).
Proof.
  induction l as [|x l IH]; intros [|y m] H; simpl; auto.
  rewrite (H x y) by (simpl; auto). destruct (cmp x y); simpl; auto. apply IH. intros; apply H; simpl; auto.
Qed.
Lemma lex_trans : forall l m n, (forall x y, In x l -> (cmp x y = Eq <-> x = y)) ->
  (forall x y z, In x l -> cmp x y = Lt -> cmp y z = Lt -> cmp x z = Lt) ->
  (forall x y, In x m -> (cmp x y = Eq <-> x = y)) ->
  lex cmp l m = Lt -> lex cmp m n = Lt -> lex cmp l n = Lt.
Proof.
  induction l as [|x l IH]; intros [|y m] [|z n] He Ht Hm H1 H2; simpl in *; try discriminate; auto.
  destruct (cmp x y) eqn:Exy; try discriminate.
  - apply He in Exy; auto. subst y. destruct (cmp x z) eqn:Exz; try discriminate; auto. apply (IH m n); auto; intros x0 y0 z0; intros; eapply (Ht x0 y0); eauto.
  - destruct (cmp y z) eqn:Eyz; try discriminate.
    + apply Hm in Eyz; auto. subst z. rewrite Exy. auto.
    + rewrite (Ht x y z); auto.
Qed.
End Lex.

Lemma vcompare_dc : forall l m, vcompare (VDC l) (VDC m) = lex vcompare l m.
Proof. intros l. simpl. induction l as [|x l IH]; intros [|y m]; simpl; auto. destruct (vcompare x y); auto. Qed.

Lemma vsize_in : forall x l, In x l -> vsize x < vsize (VDC l).
Proof.
  intros x l H. simpl. apply Nat.lt_succ_r. induction l as [|y l IH]; [contradiction|]. destruct H as [->|H]; simpl; [lia|].
  specialize (IH H). lia.
Qed.

Lemma nat_lex_eq : forall l m, lex Nat.compare l m = Eq <-> l = m.
Proof. intros. apply lex_eq. intros. apply Nat.compare_eq_iff. Qed.

Lemma vcompare_eq : forall a b, vcompare a b = Eq <-> a = b.
Proof.
  intro a. remember (vsize a) as n eqn:En. revert a En. induction n as [n IH] using lt_wf_ind. intros a -> b.
  destruct a as [x|s|r|l], b as [y|t|q|m]; try (simpl; split; congruence).
  - simpl. rewrite Z.compare_eq_iff. split; congruence.
  - simpl. rewrite nat_lex_eq. split; congruence.
  - simpl. rewrite nat_lex_eq. split; congruence.
  - rewrite vcompare_dc, lex_eq; [split; congruence|]. intros x y Hx. apply (IH (vsize x)); auto. apply vsize_in; auto.
Qed.
Lemma vcompare_refl : forall a, vcompare a a = Eq.
Proof. intro a. apply vcompare_eq. auto. Qed.

Lemma vcompare_anti : forall a b, vcompare b a = CompOpp (vcompare a b).
Proof.
  intro a. remember (vsize a) as n eqn:En. revert a En. induction n as [n IH] using lt_wf_ind. intros a -> b.
  destruct a as [x|s|r|l], b as [y|t|q|m]; try reflexivity.
  - simpl. apply Z.compare_antisym.
  - simpl. apply lex_anti. intros. apply Nat.compare_antisym.
  - simpl. apply lex_anti. intros. apply Nat.compare_antisym.
  - rewrite !vcompare_dc. apply lex_anti. intros x y Hx. apply (IH (vsize x)); auto. apply vsize_in; auto.
Qed.

Lemma nat_lex_trans : forall l m n, lex Nat.compare l m = Lt -> lex Nat.compare m n = Lt -> lex Nat.compare l n = Lt.
Proof.
  intros l m n. apply lex_trans; intros; try apply Nat.compare_eq_iff. rewrite !Nat.compare_lt_iff in *. lia.
Qed.

Lemma vcompare_trans : forall a b c, vcompare a b = Lt -> vcompare b c = Lt -> vcompare a c = Lt.
Proof.
  intro a. remember (vsize a) as n eqn:En. revert a En. induction n as [n IH] using lt_wf_ind. intros a -> b c.
  destruct a as [x|s|r|l], b as [y|t|q|m], c as [z|u|v|o]; try (simpl; congruence).
  - simpl. rewrite !Z.compare_lt_iff. lia.
  - simpl. apply nat_lex_trans.
  - simpl. apply nat_lex_trans.
  - rewrite !vcompare_dc. apply lex_trans; try (intros; apply vcompare_eq).
    intros x y z Hx. apply (IH (vsize x)); auto. apply vsize_in; auto.
Qed.

(** * Sorted sets *)
Lemma set_mem_In : forall k l, set_mem k l = true <-> In k l.
Proof.
  intros k l. unfold set_mem. rewrite existsb_exists. split.
  - intros (x & Hx & E). destruct (vcompare k x) eqn:Q; try discriminate. apply vcompare_eq in Q. subst. auto.
  - intro H. exists k. rewrite vcompare_refl. auto.
Qed.
Lemma set_mem_not : forall k l, set_mem k l = false <-> ~ In k l.
Proof. intros k l. rewrite <- set_mem_In, not_true_iff_false. reflexivity. Qed.

Lemma set_add_In : forall k x l, In x (set_add k l) <-> x = k \/ In x l.
Proof.
  intros k x l. induction l as [|y l IH]; simpl; [intuition|].
  destruct (vcompare k y) eqn:E; simpl.
  - apply vcompare_eq in E. subst. intuition.
  - intuition.
  - rewrite IH. intuition.
Qed.
Lemma set_add_increasing : forall k l, increasing l -> increasing (set_add k l).
Proof.
  intros k l H. induction H as [|x l H IH Hx]; simpl; [constructor; [constructor|intros ? []]|].
  destruct (vcompare k x) eqn:E.
  - constructor; auto.
  - constructor; [constructor; auto|]. intros y [<-|Hy]; auto. eapply vcompare_trans; eauto.
  - constructor; auto. intros y Hy. apply set_add_In in Hy as [->|Hy]; auto. rewrite vcompare_anti, E. auto.
Qed.
Lemma set_remove_In : forall k x l, In x (set_remove k l) <-> x <> k /\ In x l.
Proof.
  intros k x l. unfold set_remove. rewrite filter_In. split.
  - intros [A B]. split; auto. intros ->. rewrite vcompare_refl in B. discriminate.
  - intros [A B]. split; auto. destruct (vcompare k x) eqn:E; auto. apply vcompare_eq in E. congruence.
Qed.
Lemma set_remove_increasing : forall k l, increasing l -> increasing (set_remove k l).
Proof.
  intros k l H. induction H as [|x l H IH Hx]; simpl; [constructor|].
  destruct (vcompare k x); auto; constructor; auto; intros y Hy; apply set_remove_In in Hy as [_ Hy]; auto.
Qed.
Lemma sorted_set_spec : forall l, increasing (sorted_set l) /\ forall k, In k (sorted_set l) <-> In k l.
Proof.
  intro l. unfold sorted_set.
  assert (G : forall l s, increasing s -> increasing (fold_left (fun s k => set_add k s) l s) /\
                forall k, In k (fold_left (fun s k => set_add k s) l s) <-> In k s \/ In k l).
  { induction l0 as [|x l0 IH]; intros s Hs; simpl; [split; auto; intuition|].
    destruct (IH (set_add x s) (set_add_increasing x s Hs)) as [A B]. split; auto. intro k. rewrite B, set_add_In. intuition. }
  destruct (G l [] INil) as [A B]. split; auto. intro k. rewrite B. simpl. intuition.
Qed.

Lemma increasing_ext : forall l m, increasing l -> increasing m -> (forall k, In k l <-> In k m) -> l = m.
Proof.
  intros l m H. revert m. induction H as [|x l H IH Hx]; intros m Hm E.
  - destruct m as [|y m]; auto. exfalso. apply (E y). simpl; auto.
  - inversion Hm as [|y m' Hm' Hy]; subst; [exfalso; apply (E x); simpl; auto|].
    assert (x = y).
    { destruct (proj1 (E x) (or_introl eq_refl)) as [Q|Q]; auto. destruct (proj2 (E y) (or_introl eq_refl)) as [Q'|Q']; auto.
      exfalso. pose proof (vcompare_trans x y x (Hx y Q') (Hy x Q)) as T. rewrite vcompare_refl in T. discriminate. }
    subst y. f_equal. apply IH; auto. intro k. split; intro Q.
    + destruct (proj1 (E k) (or_intror Q)) as [<-|]; auto. specialize (Hx _ Q). rewrite vcompare_refl in Hx. discriminate.
    + destruct (proj2 (E k) (or_intror Q)) as [<-|]; auto. specialize (Hy _ Q). rewrite vcompare_refl in Hy. discriminate.
Qed.
Lemma increasing_NoDup : forall l, increasing l -> NoDup l.
Proof. intros l H. induction H; constructor; auto. intro Q. specialize (H0 _ Q). rewrite vcompare_refl in H0. discriminate. Qed.

(** * File system *)
Lemma path_eqb_eq : forall a b, path_eqb a b = true <-> a = b.
Proof. intros a b. unfold path_eqb. match goal with |- context [if ?x then _ else _] => destruct x end; split; congruence. Qed.
Lemma str_eqb_eq : forall a b, str_eqb a b = true <-> a = b.
Proof. intros a b. unfold str_eqb. match goal with |- context [if ?x then _ else _] => destruct x end; split; congruence. Qed.

Lemma prefixb_iff : forall p q, prefixb p q = true <-> prefix p q.
Proof.
  induction p as [|n p IH]; intros q; simpl.
  - split; auto. intros _. exists q. auto.
  - destruct q as [|m q].
    + split; [discriminate|]. intros [r E]. discriminate.
    + rewrite andb_true_iff, str_eqb_eq, IH. split.
      * intros [-> [r ->]]. exists r. auto.
      * intros [r E]. injection E as -> ->. split; auto. exists r. auto.
Qed.

Lemma dict_get_In : forall (f : fs) p k, dict_get path_eqb p f = Some k -> In (p, k) f.
Proof.
  induction f as [|[q k'] f IH]; intros p k H; simpl in H; [discriminate|].
  destruct (path_eqb p q) eqn:E; [apply path_eqb_eq in E; subst; injection H as ->; simpl; auto|simpl; auto].
Qed.
Lemma In_dict_get : forall (f : fs) p k, NoDup (map fst f) -> In (p, k) f -> dict_get path_eqb p f = Some k.
Proof.
  induction f as [|[q k'] f IH]; intros p k Hn H; [contradiction|]. simpl in Hn. inversion Hn; subst. simpl.
  destruct (path_eqb p q) eqn:E.
  - apply path_eqb_eq in E. subst q. destruct H as [H|H]; [congruence|]. exfalso. apply H2. apply in_map_iff. exists (p, k). auto.
  - destruct H as [H|H]; auto. injection H as -> ->. rewrite (proj2 (path_eqb_eq p p) eq_refl) in E. discriminate.
Qed.

Lemma lookup_In : forall f p k, p <> [] -> lookup f p = Some k -> In (p, k) f.
Proof. intros f p k Hp H. destruct p; [congruence|]. apply dict_get_In. auto. Qed.
Lemma In_lookup : forall f p k, wf f -> In (p, k) f -> lookup f p = Some k.
Proof.
  intros f p k [Hn Hw] H. destruct (Hw p k H) as (Hp & _ & _). destruct p; [congruence|]. apply In_dict_get; auto.
Qed.

Lemma lookup_parent : forall f p n k, wf f -> lookup f (p ++ [n]) = Some k -> lookup f p = Some KDir.
Proof.
  intros f p n k Hw H. apply lookup_In in H; [|destruct p; discriminate]. destruct Hw as [_ Hw]. destruct (Hw _ _ H) as (_ & _ & E).
  rewrite removelast_last in E. auto.
Qed.
Lemma lookup_prefix : forall f p q k, wf f -> prefix p q -> p <> q -> lookup f q = Some k -> lookup f p = Some KDir.
Proof.
  intros f p q k Hw [r ->] Hne H. revert k H. induction r as [|n r IH] using rev_ind; intros k H; [rewrite app_nil_r in Hne; congruence|].
  rewrite app_assoc in H. apply lookup_parent in H; auto. destruct r as [|m r]; [rewrite app_nil_r in H; auto|].
  eapply IH; eauto. intro E. apply (f_equal (@length _)) in E. rewrite app_length in E. simpl in E. lia.
Qed.
Lemma lookup_names : forall f p k, wf f -> lookup f p = Some k -> Forall good_name p.
Proof.
  intros f p k Hw H. destruct p as [|n p]; [constructor|]. apply lookup_In in H; [|discriminate]. apply Hw in H. apply H.
Qed.

Lemma children_In : forall f p n k, wf f -> (In (n, k) (children f p) <-> lookup f (p ++ [n]) = Some k).
Proof.
  intros f p n k Hw. unfold children. rewrite in_flat_map. split.
  - intros ((q & k') & Hin & H). cbn [fst snd] in H. destruct q as [|m q]; [contradiction|].
    destruct (path_eqb (removelast (m :: q)) p) eqn:E; [|contradiction]. destruct H as [H|[]]. injection H as H1 H2. subst k'.
    apply path_eqb_eq in E. apply (In_lookup f); auto. rewrite <- E, <- H1.
    assert (Q : m :: q <> []) by discriminate. pose proof (app_removelast_last [] Q) as R.
    match goal with |- In (?a, _) _ => replace a with (m :: q) by exact R end. exact Hin.
  - intro H. apply lookup_In in H; [|destruct p; discriminate]. exists (p ++ [n], k). split; auto. cbn [fst snd].
    destruct (p ++ [n]) eqn:E; [destruct p; discriminate|]. rewrite <- E, removelast_last, last_last.
    rewrite (proj2 (path_eqb_eq p p) eq_refl). simpl; auto.
Qed.

Lemma children_NoDup : forall f p, wf f -> NoDup (map fst (children f p)).
Proof.
  intros f p [Hn Hw]. assert (Hne : forall q k, In (q, k) f -> q <> []) by (intros q k H; apply (Hw q k H)). clear Hw.
  unfold children. induction f as [|[q k] f IH]; [constructor|]. simpl in Hn. inversion Hn; subst.
  assert (IH' := IH H2 (fun q k H => Hne q k (or_intror H))). cbn [flat_map fst snd].
  destruct q as [|m q]; auto. destruct (path_eqb (removelast (m :: q)) p) eqn:E; auto.
  rewrite map_app. cbn [map app fst]. constructor; auto.
  intro Q. apply in_map_iff in Q as ([n k'] & E1 & Q). cbn [fst] in E1. apply in_flat_map in Q as ((q' & k'') & Hin & Q). cbn [fst snd] in Q.
  destruct q' as [|m' q']; [contradiction|]. destruct (path_eqb (removelast (m' :: q')) p) eqn:E2; [|contradiction].
  destruct Q as [Q|[]]. injection Q as Q1 Q2. apply path_eqb_eq in E. apply path_eqb_eq in E2.
  apply H1. apply in_map_iff. exists (m' :: q', k''). split; auto. cbn [fst].
  rewrite (app_removelast_last (l := m' :: q') []), (app_removelast_last (l := m :: q) []) by discriminate.
  rewrite E2, E. f_equal. f_equal. transitivity n; [exact Q1|exact E1].
Qed.

Lemma children_empty : forall f p, wf f -> (children f p = [] <-> forall q k, below p q -> lookup f q <> Some k).
Proof.
  intros f p Hw. split.
  - intros E q k (n & r & ->) H.
    assert (exists k', lookup f (p ++ [n]) = Some k') as [k' Hk'].
    { destruct r as [|m r]; [eauto|]. exists KDir. eapply (lookup_prefix f (p ++ [n]) (p ++ n :: m :: r)); eauto.
      - exists (m :: r). rewrite <- app_assoc. auto.
      - intro Q. apply app_inv_head in Q. discriminate. }
    apply children_In in Hk'; auto. rewrite E in Hk'. contradiction.
  - intro H. destruct (children f p) as [|[n k] l] eqn:E; auto. exfalso.
    assert (In (n, k) (children f p)) by (rewrite E; simpl; auto). apply children_In in H0; auto. eapply H; eauto. exists n, []. auto.
Qed.

(** Removal of what satisfies [q]. *)
Lemma lookup_filter : forall f (g : path -> bool) p, p <> [] -> NoDup (map fst f) ->
  lookup (filter (fun e => g (fst e)) f) p = if g p then lookup f p else None.
Proof.
  intros f g p Hp Hn. destruct p as [|n p]; [congruence|]. set (q := n :: p) in *. unfold lookup.
  change (match q with [] => Some KDir | _ :: _ => dict_get path_eqb q (filter (fun e => g (fst e)) f) end) with (dict_get path_eqb q (filter (fun e => g (fst e)) f)).
  change (match q with [] => Some KDir | _ :: _ => dict_get path_eqb q f end) with (dict_get path_eqb q f).
  clear Hn. induction f as [|[r k] f IH]; simpl; [destruct (g q); auto|].
  destruct (g r) eqn:Er; simpl.
  - destruct (path_eqb q r) eqn:E; auto. apply path_eqb_eq in E. rewrite E, Er. auto.
  - rewrite IH. destruct (path_eqb q r) eqn:E; auto. apply path_eqb_eq in E. rewrite E, Er. auto.
Qed.

Lemma wf_filter : forall f (g : path -> bool), wf f ->
  (forall p n, g (p ++ [n]) = true -> lookup f (p ++ [n]) <> None -> p = [] \/ g p = true) -> wf (filter (fun e => g (fst e)) f).
Proof.
  intros f g [Hn Hw] Hg. split.
  - clear -Hn. induction f as [|[q k] f IH]; simpl; [constructor|]. simpl in Hn. inversion Hn; subst.
    destruct (g q); simpl; auto. constructor; auto. intro Q. apply H1. apply in_map_iff in Q as ([q' k'] & E & Q). simpl in E. subst.
    apply filter_In in Q as [Q _]. apply in_map_iff. exists (q, k'). auto.
  - intros p k H. apply filter_In in H as [H Gp]. simpl in Gp. destruct (Hw p k H) as (A & B & C). split; auto. split; auto.
    destruct (@exists_last _ p A) as (q & n & ->). rewrite removelast_last in *.
    destruct q as [|m q]; [reflexivity|]. rewrite lookup_filter by (auto; discriminate).
    destruct (Hg _ _ Gp) as [Q|Q]; [|discriminate|rewrite Q; auto].
    rewrite (In_lookup f _ k); [discriminate|split; auto|auto].
Qed.

Lemma rmtree_spec : forall f s, wf f -> lookup f (dir_names s) = Some KDir -> dir_names s <> [] ->
  exists f', rmtree f s = Ok f' /\ wf f' /\
    forall p, (prefix (dir_names s) p -> lookup f' p = None) /\ (~ prefix (dir_names s) p -> lookup f' p = lookup f p).
Proof.
  intros f s Hw H Hne. unfold rmtree. rewrite H. eexists. split; [reflexivity|]. set (d := dir_names s) in *.
  set (g := fun q => negb (prefixb d q)).
  change (fun e : path * kind => negb (prefixb d (fst e))) with (fun e : path * kind => g (fst e)).
  split.
  - apply wf_filter; auto. intros p n Hg _. right. unfold g in *. apply negb_true_iff in Hg. apply negb_true_iff.
    apply not_true_iff_false. intro Q. apply not_true_iff_false in Hg. apply Hg. apply prefixb_iff in Q as [r ->]. apply prefixb_iff.
    exists (r ++ [n]). rewrite app_assoc. auto.
  - intro p. destruct p as [|m p].
    + split; [|intros; reflexivity]. intros [r E]. exfalso. destruct d; [congruence|discriminate].
    + rewrite lookup_filter by (auto; try discriminate; apply Hw). unfold g. split; intro Q.
      * apply prefixb_iff in Q. rewrite Q. auto.
      * destruct (prefixb d (m :: p)) eqn:E; auto. apply prefixb_iff in E. contradiction.
Qed.

Lemma rmdir_spec : forall f s, wf f -> lookup f (dir_names s) = Some KDir -> dir_names s <> [] -> children f (dir_names s) = [] ->
  exists f', rmdir f s = Ok f' /\ wf f' /\
    lookup f' (dir_names s) = None /\ (forall p, p <> dir_names s -> lookup f' p = lookup f p).
Proof.
  intros f s Hw H Hne Hc. unfold rmdir. rewrite H, Hc. eexists. split; [reflexivity|]. set (d := dir_names s) in *.
  set (g := fun q => negb (path_eqb d q)).
  change (fun e : path * kind => negb (path_eqb d (fst e))) with (fun e : path * kind => g (fst e)).
  split; [|split].
  - apply wf_filter; auto. intros p n _ Hin. right. unfold g. apply negb_true_iff, not_true_iff_false. intro Q. apply path_eqb_eq in Q. subst p.
    destruct (lookup f (d ++ [n])) as [k|] eqn:E; [|congruence]. apply children_In in E; auto. rewrite Hc in E. contradiction.
  - rewrite lookup_filter by (auto; apply Hw). unfold g. rewrite (proj2 (path_eqb_eq d d) eq_refl). auto.
  - intros p Hp. destruct p as [|m p]; [reflexivity|]. rewrite lookup_filter by (auto; try discriminate; apply Hw). unfold g.
    destruct (path_eqb d (m :: p)) eqn:E; auto. apply path_eqb_eq in E. congruence.
Qed.
