(** Proofs about the directory scan, the opening of a store and the removal of directories. *)
Require Import String List Arith ZArith Bool Lia.
Require Import Verif.Common Verif.IdxModel Verif.IdxSpec Verif.IdxProofs Verif.IdxStrProofs Verif.ColModel Verif.ColSpec Verif.ColProofs.
Import ListNotations.
Local Open Scope list_scope.

(** * Paths *)
Lemma good_name_clean : forall n, good_name n -> clean (Nat.eqb slash) n.
Proof. intros n [_ H] x Hx. apply Nat.eqb_neq. intros E. subst x. auto. Qed.

Lemma dir_names_name : forall n, good_name n -> dir_names n = [n].
Proof.
  intros n H. unfold dir_names. rewrite split_clean by (apply good_name_clean; auto). simpl. destruct n; auto. destruct H. congruence.
Qed.

Lemma path_join_name : forall s n, good_name n ->
  dir_names (path_join s n) = dir_names s ++ [n] /\ path_join s n <> [].
Proof.
  intros s n H. pose proof (good_name_clean n H) as Hc. destruct H as [H1 H2]. destruct n as [|x n]; [congruence|].
  assert (Hx : (x =? slash) = false) by (rewrite Nat.eqb_sym; apply Hc; simpl; auto).
  split.
  - rewrite dir_names_join; [rewrite (dir_names_name (x :: n)); [auto|split; auto]|exact Hx|discriminate].
  - unfold path_join. rewrite Hx. destruct (rev s) as [|b r]; [discriminate|]. destruct (b =? slash); intro E; apply app_eq_nil in E as [_ E]; discriminate.
Qed.

Lemma path_of_names : forall names s, Forall good_name names -> dir_names (path_of s names) = dir_names s ++ names.
Proof.
  induction names as [|n names IH]; intros s H; simpl; [rewrite app_nil_r; auto|]. inversion H; subst.
  unfold path_of in *. simpl. rewrite IH by auto. destruct (path_join_name s n H2) as [-> _]. rewrite <- app_assoc. auto.
Qed.

Lemma join_cons : forall c x l, l <> [] -> join [c] (x :: l) = x ++ c :: join [c] l.
Proof. intros c x [|y l] H; [congruence|]. reflexivity. Qed.

Lemma path_of_join : forall names s, s <> [] -> names <> [] -> Forall good_name names ->
  exists s', path_of s names = s' ++ slash :: join [slash] names.
Proof.
  induction names as [|n names IH]; intros s Hs Hne H; [congruence|]. inversion H; subst.
  assert (A : exists s', path_join s n = s' ++ slash :: n).
  { pose proof (good_name_clean n H2) as Hc. destruct H2 as [Q1 Q2]. destruct n as [|x n]; [congruence|].
    unfold path_join. rewrite Nat.eqb_sym, Hc by (simpl; auto). destruct (rev s) as [|b r] eqn:E.
    - exfalso. apply Hs. apply (f_equal (@rev nat)) in E. rewrite rev_involutive in E. auto.
    - destruct (b =? slash) eqn:Eb.
      + apply Nat.eqb_eq in Eb. subst b. apply (f_equal (@rev nat)) in E. rewrite rev_involutive in E. simpl in E.
        exists (rev r). rewrite E, <- app_assoc. auto.
      + exists s. auto. }
  destruct A as [s' A]. unfold path_of in *. simpl. destruct names as [|m names].
  - exists s'. simpl. auto.
  - destruct (path_join_name s n H2) as [_ Hpj].
    destruct (IH (path_join s n) Hpj) as [s'' E]; [discriminate|auto|].
    (* the first name is still there: go through the shape of the string *)
    rewrite A in *. clear E s''.
    assert (G : forall l t, Forall good_name l -> l <> [] -> last t 0 <> slash -> t <> [] ->
                 fold_left path_join l t = t ++ slash :: join [slash] l).
    { clear. induction l as [|x l IHl]; intros t Hl Hne Ht Htn; [congruence|]. inversion Hl; subst. simpl.
      assert (Ej : path_join t x = t ++ slash :: x).
      { pose proof (good_name_clean x H1) as Hc. destruct H1 as [Q1 Q2]. destruct x as [|y x]; [congruence|].
        unfold path_join. rewrite Nat.eqb_sym, Hc by (simpl; auto).
        destruct (@exists_last _ t Htn) as (t' & z & ->). rewrite last_last in Ht. rewrite rev_app_distr. simpl rev. cbn [app].
        apply Nat.eqb_neq in Ht. rewrite Ht. auto. }
      rewrite Ej. destruct l as [|y l]; [simpl; auto|].
      assert (Hx : last (t ++ slash :: x) 0 <> slash).
      { destruct H1 as [Q1 Q2]. destruct (@exists_last _ x Q1) as (x' & z & ->).
        replace (t ++ slash :: x' ++ [z]) with ((t ++ slash :: x') ++ [z]) by (rewrite <- app_assoc; auto). rewrite last_last.
        intros ->. apply Q2. apply in_or_app. simpl; auto. }
      rewrite IHl; auto; try discriminate.
      - rewrite <- app_assoc. reflexivity.
      - intro E. apply app_eq_nil in E as [_ E]. discriminate. }
    exists s'.
    change (fold_left path_join names (path_join (s' ++ slash :: n) m)) with (fold_left path_join (m :: names) (s' ++ slash :: n)).
    rewrite G; auto; try discriminate.
    + rewrite <- app_assoc. reflexivity.
    + destruct H2 as [Q1 Q2]. destruct (@exists_last _ n Q1) as (x' & z & ->).
      replace (s' ++ slash :: x' ++ [z]) with ((s' ++ slash :: x') ++ [z]) by (rewrite <- app_assoc; auto). rewrite last_last.
      intros ->. apply Q2. apply in_or_app. simpl; auto.
Qed.

Lemma path_tail_join : forall names s, names <> [] -> Forall good_name names ->
  path_tail (length names) (s ++ slash :: join [slash] names) = join [slash] names.
Proof.
  intros names s Hne H. unfold path_tail. rewrite split_cat by reflexivity.
  rewrite (split_join _ slash names) by (auto; intros x Hx; rewrite Forall_forall in H; apply good_name_clean; auto).
  pose proof (split_ne (Nat.eqb slash) s) as Hs. rewrite app_length.
  assert (0 < length (split (Nat.eqb slash) s)) by (destruct (split (Nat.eqb slash) s); simpl; [congruence|lia]).
  rewrite Nat.min_l by lia. replace (length (split (Nat.eqb slash) s) + length names - length names) with (length (split (Nat.eqb slash) s)) by lia.
  rewrite skipn_app, skipn_all, Nat.sub_diag. simpl. auto.
Qed.

(** * Directory scan *)
Lemma scandir_dir : forall f s, s <> [] -> lookup f (dir_names s) = Some KDir -> scandir f s = Ok (children f (dir_names s)).
Proof. intros f [|x s] Hs H; [congruence|]. unfold scandir. rewrite H. auto. Qed.

Lemma files_at_depth_spec : forall f, wf f -> forall d s, s <> [] -> lookup f (dir_names s) = Some KDir ->
  exists l, files_at_depth f s d = Ok l /\ NoDup (map fst l) /\
    forall p files, In (p, files) l <-> exists names, length names = d /\ p = path_of s names /\
       lookup f (dir_names s ++ names) = Some KDir /\ files = file_names f (dir_names s ++ names) /\ files <> [].
Proof.
  intros f Hw. induction d as [|d IH]; intros s Hs H.
  - simpl. rewrite scandir_dir by auto. cbn [bind].
    change (map fst (filter (fun e => negb (is_dir (snd e))) (children f (dir_names s)))) with (file_names f (dir_names s)).
    destruct (file_names f (dir_names s)) as [|x l] eqn:E.
    + exists []. split; auto. split; [constructor|]. intros p files. split; [intros []|].
      intros (names & L & -> & _ & -> & Hne). destruct names; [|discriminate]. rewrite app_nil_r in Hne. congruence.
    + exists [(s, x :: l)]. split; auto. split; [repeat constructor; intros []|]. intros p files. split.
      * intros [Q|[]]. injection Q as <- <-. exists []. rewrite app_nil_r. repeat split; auto. discriminate.
      * intros (names & L & -> & _ & -> & Hne). destruct names; [|discriminate]. rewrite app_nil_r, E. simpl. auto.
  - simpl. rewrite scandir_dir by auto.
    set (dirs := filter (fun e => is_dir (snd e)) (children f (dir_names s))).
    assert (Hd : forall n k, In (n, k) dirs -> k = KDir /\ good_name n /\ lookup f (dir_names s ++ [n]) = Some KDir).
    { intros n k Q. unfold dirs in Q. apply filter_In in Q as [Q1 Q2]. simpl in Q2. destruct k; [|discriminate]. apply children_In in Q1; auto.
      split; auto. split; auto. apply lookup_names in Q1; auto. apply Forall_app in Q1 as [_ Q1]. inversion Q1; auto. }
    assert (Hd' : forall n, lookup f (dir_names s ++ [n]) = Some KDir -> In (n, KDir) dirs).
    { intros n Q. apply filter_In. split; auto. apply children_In; auto. }
    assert (Hn : NoDup (map fst dirs)).
    { unfold dirs. pose proof (children_NoDup f (dir_names s) Hw) as N. revert N. generalize (children f (dir_names s)) as l. clear.
      induction l as [|[n k] l IHl]; simpl; intro N; [constructor|]. inversion N; subst. destruct (is_dir k); simpl; auto. constructor; auto.
      intro Q. apply H1. apply in_map_iff in Q as (e & <- & Q). apply in_map. apply filter_In in Q. apply Q. }
    assert (G : forall ds, (forall e, In e ds -> In e dirs) -> NoDup (map fst ds) ->
       exists l, chain (map (fun p => files_at_depth f p d) (map (fun e => path_join s (fst e)) ds)) = Ok l /\ NoDup (map fst l) /\
         forall p files, In (p, files) l <-> exists n names, In n (map fst ds) /\ length names = d /\ p = path_of s (n :: names) /\
           lookup f (dir_names s ++ n :: names) = Some KDir /\ files = file_names f (dir_names s ++ n :: names) /\ files <> []).
    { induction ds as [|[n k] ds IHd]; intros Hin Hnd.
      - exists []. split; auto. split; [constructor|]. intros p files. split; [intros []|]. intros (n & names & [] & _).
      - simpl in Hnd. inversion Hnd; subst. destruct (IHd (fun e Q => Hin e (or_intror Q)) H3) as (l' & E' & N' & S').
        destruct (Hd n k (Hin _ (or_introl eq_refl))) as (-> & Hgn & Hl). destruct (path_join_name s n Hgn) as [Edn Hpj].
        destruct (IH (path_join s n) Hpj) as (l & E & N & S); [rewrite Edn; auto|].
        exists (l ++ l'). cbn [map fst chain]. rewrite E. cbn [bind]. rewrite E'. cbn [bind]. split; auto. 
        assert (S1 : forall p files, In (p, files) l <-> exists names, length names = d /\ p = path_of s (n :: names) /\
           lookup f (dir_names s ++ n :: names) = Some KDir /\ files = file_names f (dir_names s ++ n :: names) /\ files <> []).
        { intros p files. rewrite S, Edn. split; intros (names & A1 & A2 & A3 & A4 & A5); exists names; rewrite <- app_assoc in *; simpl app in *; auto. }
        split.
        + rewrite map_app. clear -N N' S1 S' H2 Hw. 
          assert (D : forall p, In p (map fst l) -> ~ In p (map fst l')).
          { intros p Q1 Q2. apply in_map_iff in Q1 as ([p1 f1] & <- & Q1). apply in_map_iff in Q2 as ([p2 f2] & E & Q2). simpl in E. subst p2.
            apply S1 in Q1 as (names & L & -> & A & _). apply S' in Q2 as (m & names' & Hm & L' & E & A' & _).
            apply (f_equal dir_names) in E. simpl fst in E. rewrite !path_of_names in E.
            - apply app_inv_head in E. injection E as -> _. contradiction.
            - apply lookup_names in A'; auto. apply Forall_app in A' as [_ A']. auto.
            - apply lookup_names in A; auto. apply Forall_app in A as [_ A]. auto. }
          clear -N N' D. induction l as [|x l IHl]; simpl in *; auto. inversion N; subst. constructor.
          * intro Q. apply in_app_or in Q as [Q|Q]; auto. apply (D (fst x)); auto.
          * apply IHl; auto.
        + intros p files. rewrite in_app_iff, S1, S'. split.
          * intros [(names & Q)|(m & names & Q)]; [exists n, names|exists m, names]; simpl; intuition.
          * intros (m & names & [<-|Q] & R); [left; exists names; auto|right; exists m, names; auto]. }
    destruct (G dirs (fun e Q => Q) Hn) as (l & E & N & S). exists l. split; auto. split; auto. intros p files. rewrite S. split.
    + intros (n & names & _ & L & -> & R). exists (n :: names). simpl. auto.
    + intros (names & L & -> & A & R). destruct names as [|n names]; [discriminate|]. simpl in L. exists n, names.
      split; [|auto]. apply in_map_iff. exists (n, KDir). split; auto. apply Hd'.
      destruct names as [|m names]; auto. eapply (lookup_prefix f _ (dir_names s ++ n :: m :: names)); eauto.
      * exists (m :: names). rewrite <- app_assoc. auto.
      * intro Q. apply app_inv_head in Q. discriminate.
Qed.

Lemma files_at_depth_missing : forall f d s, s = [] \/ lookup f (dir_names s) = None -> files_at_depth f s (S d) = Ok [].
Proof.
  intros f d s H. simpl. assert (E : scandir f s = Err FileNotFound).
  { destruct s; auto. unfold scandir. destruct H as [H|H]; [discriminate|]. rewrite H. auto. }
  rewrite E. auto.
Qed.

Lemma dataset_files : forall f p, wf f -> (dataset f p <-> lookup f p = Some KDir /\ existsb is_parquet_file (file_names f p) = true).
Proof.
  intros f p Hw. unfold dataset. rewrite existsb_exists. split.
  - intros (n & ct & Hp & H). split; [eapply lookup_parent; eauto|]. exists n. split; auto. unfold file_names. apply in_map_iff. exists (n, KFile ct).
    split; auto. apply filter_In. split; auto. apply children_In; auto.
  - intros (_ & n & H & Hp). unfold file_names in H. apply in_map_iff in H as ([m k] & E & H). simpl in E. subst m.
    apply filter_In in H as [H Hk]. simpl in Hk. destruct k as [|ct]; [discriminate|]. apply children_In in H; auto. exists n, ct. auto.
Qed.

Lemma depth_pos : forall c, 0 < depth c.
Proof. intro c. unfold depth, type_lists. simpl. lia. Qed.

(** Keys found at opening. *)
Lemma get_keys_spec : forall c f s, wf f -> s <> [] -> (forall ct, lookup f (dir_names s) <> Some (KFile ct)) ->
  exists ks, get_keys f s c = Ok ks /\ increasing ks /\
    forall k, In k ks <-> exists names, length names = depth c /\ dataset f (dir_names s ++ names) /\ from_str c (join [slash] names) = Some k.
Proof.
  intros c f s Hw Hs Hf. unfold get_keys. pose proof (depth_pos c) as Hd.
  assert (G : exists l, files_at_depth f s (depth c) = Ok l /\
    forall p files, In (p, files) l <-> exists names, length names = depth c /\ p = path_of s names /\
       lookup f (dir_names s ++ names) = Some KDir /\ files = file_names f (dir_names s ++ names) /\ files <> []).
  { destruct (lookup f (dir_names s)) as [[|ct]|] eqn:E.
    - destruct (files_at_depth_spec f Hw (depth c) s Hs E) as (l & A & _ & B). eauto.
    - exfalso. eapply Hf; eauto.
    - exists []. destruct (depth c) as [|d] eqn:Ed; [lia|]. rewrite files_at_depth_missing by auto. split; auto. intros p files. split; [intros []|].
      intros (names & L & _ & A & _). rewrite (lookup_prefix f (dir_names s) (dir_names s ++ names) KDir) in E; auto; [discriminate|exists names; auto|].
      intro Q. rewrite <- (app_nil_r (dir_names s)) in Q at 1. apply app_inv_head in Q. subst. discriminate. }
  destruct G as (l & -> & S). cbn [bind]. eexists. split; [reflexivity|].
  match goal with |- context [sorted_set ?x] => destruct (sorted_set_spec x) as [A B] end. split; auto. intro k. rewrite B, in_flat_map. split.
  - intros ([p files] & Hin & Hk). cbn [fst snd] in Hk. apply S in Hin as (names & L & -> & D & -> & Hne).
    destruct (existsb is_parquet_file _) eqn:E; [|contradiction]. exists names. split; auto. split; [apply dataset_files; auto|].
    assert (Hg : Forall good_name names) by (apply lookup_names in D; auto; apply Forall_app in D as [_ D]; auto).
    assert (Hn : names <> []) by (intro Q; subst; simpl in L; lia).
    destruct (path_of_join names s Hs Hn Hg) as [s' Ep]. rewrite Ep, <- L, path_tail_join in Hk by auto.
    destruct (from_str c (join [slash] names)); [|contradiction]. destruct Hk as [<-|[]]. auto.
  - intros (names & L & D & Hk). apply dataset_files in D as [D E]; auto.
    assert (Hg : Forall good_name names) by (apply lookup_names in D; auto; apply Forall_app in D as [_ D]; auto).
    assert (Hn : names <> []) by (intro Q; subst; simpl in L; lia).
    exists (path_of s names, file_names f (dir_names s ++ names)). split.
    + apply S. exists names. repeat split; auto. intro Q. rewrite Q in E. discriminate.
    + cbn [fst snd]. rewrite E. destruct (path_of_join names s Hs Hn Hg) as [s' Ep]. rewrite Ep, <- L, path_tail_join by auto. rewrite Hk. simpl; auto.
Qed.

(** * Keys and directories *)
Lemma good_key_path : forall c k, c_sep c <> slash -> good_key c k ->
  exists p names, to_path c k = Ok p /\ p = join [slash] names /\ dir_names p = names /\ length names = depth c /\
    Forall good_name names /\ (plain_sep (c_sep c) = true -> from_str c p = Some k) /\ p <> [] /\ absolute p = false /\ names <> [].
Proof.
  intros c k Hs (args & -> & K & M & D & N & _).
  unfold make_key, construct in M. rewrite (key_of_length _ _ K), Nat.eqb_refl in M. cbn [bind] in M.
  destruct (validate c (VDC args)) as [[]|] eqn:V; cbn [bind] in M; [|discriminate].
  destruct (path_levels c _ args Hs K (proj1 (validate_iff c args) V)) as (p & n & E & F & L & Q & G).
  specialize (G N). rewrite <- F in G. destruct (split_nonempty_head p G) as (x & s & Ep & X).
  exists p, n. split; auto. split; [rewrite <- F; symmetry; apply join_split; intros y Hy; apply Nat.eqb_eq in Hy; auto|].
  split; [rewrite dir_names_full; auto|]. split; auto. rewrite F in G.
  split.
  { apply Forall_forall. intros m Hm. split; [intros ->; auto|]. intro Q'. destruct (Q m Hm slash Q') as [W _]. congruence. }
  split.
  { intro Hp. destruct (to_from c args true Hp K (valid_clean _ _ _ K V) D) as (s' & A & B). unfold to_path in E. congruence. }
  split; [rewrite Ep; discriminate|]. split; [rewrite Ep; simpl; apply Nat.eqb_neq; auto|].
  rewrite <- F. apply split_ne.
Qed.

Lemma good_key_inj : forall c k k' p, c_sep c <> slash -> good_key c k -> good_key c k' -> to_path c k = Ok p -> to_path c k' = Ok p -> k = k'.
Proof.
  intros c k k' p Hs (args & -> & K & M & _) (args' & -> & K' & M' & _) E E'.
  unfold make_key, construct in M, M'. rewrite (key_of_length _ _ K), Nat.eqb_refl in M. rewrite (key_of_length _ _ K'), Nat.eqb_refl in M'. cbn [bind] in M, M'.
  destruct (validate c (VDC args)) as [[]|] eqn:V; cbn [bind] in M; [|discriminate].
  destruct (validate c (VDC args')) as [[]|] eqn:V'; cbn [bind] in M'; [|discriminate].
  f_equal. apply (to_str_inj c (c_fields c) args args' true p); auto; eapply valid_clean; eauto.
Qed.

(** * Removal of empty directories *)
Lemma strip_names : forall u v, strip_path_tail u = Some v -> length v < length u.
Proof.
  intros u v H. unfold strip_path_tail in H. destruct (has_char slash u) eqn:E; [|discriminate].
  assert (Hv : v = join [slash] (removelast (split (Nat.eqb slash) u))) by congruence. subst v. clear H.
  assert (J : join [slash] (split (Nat.eqb slash) u) = u) by (apply join_split; intros x Hx; apply Nat.eqb_eq in Hx; auto).
  assert (L : split (Nat.eqb slash) u <> [u]).
  { intro Q. unfold has_char in E. apply existsb_exists in E as (x & Hx & Ex). 
    assert (In u (split (Nat.eqb slash) u)) by (rewrite Q; simpl; auto). apply split_pieces in H. rewrite (H x Hx) in Ex. discriminate. }
  destruct (@exists_last _ (split (Nat.eqb slash) u) (split_ne _ _)) as (l & x & El). rewrite El in J, L |- *. rewrite removelast_last.
  destruct l as [|y l]; [simpl in J; subst; simpl in *; congruence|].
  rewrite join_app in J by discriminate. rewrite <- J, app_length. simpl. lia.
Qed.

(** Whatever the base path, only directories are removed. *)
Lemma prune_files : forall fuel b f u f' e, wf f -> prune fuel b f u = (f', e) ->
  wf f' /\ (forall p ct, lookup f' p = Some (KFile ct) <-> lookup f p = Some (KFile ct)) /\
  (forall p, lookup f' p = Some KDir -> lookup f p = Some KDir).
Proof.
  induction fuel as [|fuel IH]; intros b f u f' e Hw H; simpl in H; [injection H as <- <-; split; [auto|split; [reflexivity|auto]]|].
  assert (TR : forall g, f' = g -> g = f -> wf f' /\ (forall p ct, lookup f' p = Some (KFile ct) <-> lookup f p = Some (KFile ct)) /\ (forall p, lookup f' p = Some KDir -> lookup f p = Some KDir)).
  { intros g -> ->. split; [auto|split; [reflexivity|auto]]. }
  destruct u as [u|].
  - destruct (negb (b_pathlib b) && str_eqb u (b_path b)); [injection H as <- <-; eapply TR; eauto|].
    destruct (scandir f u) as [[|x l]|e'] eqn:Es; [|injection H as <- <-; eapply TR; eauto|injection H as <- <-; eapply TR; eauto].
    destruct (rmdir f u) as [f1|e'] eqn:Er; [|injection H as <- <-; eapply TR; eauto].
    assert (Hc : children f (dir_names u) = [] /\ lookup f (dir_names u) = Some KDir).
    { unfold scandir in Es. destruct u; [discriminate|]. destruct (lookup f _) as [[|]|]; try discriminate. injection Es as Es. auto. }
    destruct Hc as [Hc Hl].
    assert (G : wf f1 /\ (forall p ct, lookup f1 p = Some (KFile ct) <-> lookup f p = Some (KFile ct)) /\ (forall p, lookup f1 p = Some KDir -> lookup f p = Some KDir)).
    { destruct (dir_names u) as [|m q] eqn:Ed.
      - unfold rmdir in Er. rewrite Ed in Er. simpl in Er. rewrite Hc in Er. injection Er as <-.
        rewrite <- Ed in Hc. assert (f = []).
        { destruct f as [|[p k] f]; auto. exfalso. destruct (proj2 Hw p k (or_introl eq_refl)) as (A & _ & _).
          rewrite Ed in Hc. apply (proj1 (children_empty _ [] Hw) Hc p k); [destruct p as [|n p]; [congruence|exists n, p; auto]|].
          apply In_lookup; simpl; auto. }
        subst f. split; [exact Hw|]. split; [reflexivity|auto].
      - rewrite <- Ed in *. destruct (rmdir_spec f u Hw Hl) as (f2 & E2 & W2 & A2 & B2); auto; [rewrite Ed; discriminate|].
        rewrite E2 in Er. injection Er as <-. split; auto. split.
        + intros p ct. destruct (list_eq_dec (list_eq_dec Nat.eq_dec) p (dir_names u)) as [->|Hne]; [rewrite A2, Hl; split; discriminate|].
          rewrite B2 by auto. reflexivity.
        + intros p Q. destruct (list_eq_dec (list_eq_dec Nat.eq_dec) p (dir_names u)) as [->|Hne]; [congruence|]. rewrite B2 in Q; auto. }
    destruct G as (W1 & A1 & B1). destruct (IH b f1 _ f' e W1 H) as (W2 & A2 & B2). split; auto. split; auto.
    intros p ct. rewrite A2. apply A1.
  - destruct (children f []); injection H as <- <-; eapply TR; eauto.
Qed.
