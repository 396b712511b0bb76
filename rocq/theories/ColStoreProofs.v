(** Proofs about histories of operations of a store, and about deletion. *)
Require Import String List Arith ZArith Bool Lia.
Require Import Verif.Common Verif.IdxModel Verif.IdxSpec Verif.IdxProofs Verif.IdxStrProofs Verif.ColModel Verif.ColSpec Verif.ColProofs Verif.ColScanProofs.
Import ListNotations.
Local Open Scope list_scope.

Lemma prefix_refl : forall p, prefix p p.
Proof. intro p. exists []. rewrite app_nil_r. auto. Qed.
Lemma prefix_trans : forall p q r, prefix p q -> prefix q r -> prefix p r.
Proof. intros p q r [a ->] [b ->]. exists (a ++ b). rewrite app_assoc. auto. Qed.
Lemma prefix_same_length : forall p q r, prefix p r -> prefix q r -> length p = length q -> p = q.
Proof.
  intros p q r [a ->] [b E] L. revert q E L. induction p as [|x p IH]; intros [|y q] E L; simpl in *; auto; try lia.
  injection E as -> E. f_equal. apply IH; auto.
Qed.
Lemma prefix_length : forall p q, prefix p q -> length p <= length q.
Proof. intros p q [r ->]. rewrite app_length. lia. Qed.

Section Store.
Variables (c : cls) (b : base).
Hypothesis Hslash : c_sep c <> slash.
Let B := dir_names (b_path b).

(** Directory of a key. *)
Definition dir_is (k : value) (d : path) : Prop := exists p, to_path c k = Ok p /\ d = dir_names (path_join (b_path b) p).

Lemma good_key_dir : forall k, good_key c k -> exists p names, to_path c k = Ok p /\ p = join [slash] names /\
  dir_names (path_join (b_path b) p) = B ++ names /\ length names = depth c /\ Forall good_name names /\ names <> [] /\ dir_names p = names /\
  (plain_sep (c_sep c) = true -> from_str c p = Some k).
Proof.
  intros k Hk. destruct (good_key_path c k Hslash Hk) as (p & names & E1 & E2 & E3 & E4 & E5 & E6 & E7 & E8 & E9).
  exists p, names. repeat (split; auto). rewrite dir_names_join by auto. unfold B. congruence.
Qed.

(** Datasets [depth] levels below the base path. *)
Definition datasets_are (f : fs) (ks : list value) : Prop :=
  (forall k, In k ks -> good_key c k /\ exists p, to_path c k = Ok p /\ dataset f (B ++ dir_names p)) /\
  (forall names, length names = depth c -> dataset f (B ++ names) -> exists k p, In k ks /\ to_path c k = Ok p /\ names = dir_names p).

Record inv (st : store) : Prop := {
  i_wf : wf (disk st);
  i_inc : increasing (keys st);
  i_base : forall ct, lookup (disk st) B <> Some (KFile ct);
  i_data : datasets_are (disk st) (keys st) }.

Lemma open_inv : forall f st, plain_sep (c_sep c) = true -> b_path b <> [] -> wf f -> clean_disk c b f -> open_store c b f = Ok st -> disk st = f /\ inv st.
Proof.
  intros f st Hp Hb Hw Hc H. unfold open_store in H.
  assert (Hf : forall ct, lookup f B <> Some (KFile ct)).
  { intros ct E. unfold get_keys in H. pose proof (depth_pos c). destruct (depth c) as [|d]; [lia|]. simpl in H.
    assert (Es : scandir f (b_path b) = Err OSError) by (unfold B in E; unfold scandir; destruct (b_path b) eqn:Eb; [congruence|]; rewrite E; auto).
    rewrite Es in H. discriminate. }
  destruct (get_keys_spec c f (b_path b) Hw Hb Hf) as (ks & E & I & S). rewrite E in H. cbn [bind] in H. injection H as <-. simpl. split; auto.
  constructor; simpl; auto. split.
  - intros k Hk. apply S in Hk as (names & L & D & Fk). destruct (Hc names L D) as (k' & p & G & Ep & En).
    destruct (good_key_dir k' G) as (p' & names' & E1 & E2 & _ & _ & _ & _ & E3 & E4). rewrite Ep in E1. injection E1 as <-.
    assert (Q : names' = names) by congruence. rewrite Q in E2. rewrite <- E2, (E4 Hp) in Fk. injection Fk as <-. split; auto. exists p. split; auto.
    rewrite En. auto.
  - intros names L D. destruct (Hc names L D) as (k' & p & G & Ep & En). exists k', p. split; auto.
    destruct (good_key_dir k' G) as (p' & names' & E1 & E2 & _ & _ & _ & _ & E3 & E4). rewrite Ep in E1. injection E1 as <-.
    apply S. exists names. split; auto. split; auto. replace (join [slash] names) with p by congruence. auto.
Qed.

Lemma inv_open : forall st, plain_sep (c_sep c) = true -> b_path b <> [] -> inv st -> open_store c b (disk st) = Ok (mkStore (disk st) (keys st)).
Proof.
  intros st Hp Hb [Hw Hi Hf [D1 D2]]. unfold open_store.
  destruct (get_keys_spec c (disk st) (b_path b) Hw Hb Hf) as (ks & E & I & S). rewrite E. cbn [bind]. f_equal. f_equal.
  apply increasing_ext; auto. intro k. rewrite S. split.
  - intros (names & L & D & Fk). destruct (D2 names L D) as (k' & p & Hin & Ep & ->).
    destruct (D1 k' Hin) as (G & _). destruct (good_key_dir k' G) as (p' & names' & E1 & E2 & _ & _ & _ & _ & E3 & E4).
    rewrite Ep in E1. injection E1 as <-. rewrite E3, <- E2, E4 in Fk by auto. congruence.
  - intro Hin. destruct (D1 k Hin) as (G & p & Ep & D). destruct (good_key_dir k G) as (p' & names' & E1 & E2 & _ & E5 & _ & _ & E3 & E4).
    rewrite Ep in E1. injection E1 as <-. exists names'. split; auto. rewrite <- E3. split; auto. rewrite E3, <- E2. auto.
Qed.

Lemma good_dirs_differ : forall k k' p p', good_key c k -> good_key c k' -> to_path c k = Ok p -> to_path c k' = Ok p' ->
  dir_names p = dir_names p' -> k = k'.
Proof.
  intros k k' p p' G G' E E' Q.
  destruct (good_key_dir k G) as (q & n & E1 & E2 & _ & _ & _ & _ & E3 & _). destruct (good_key_dir k' G') as (q' & n' & F1 & F2 & _ & _ & _ & _ & F3 & _).
  assert (P : p = p') by congruence. rewrite <- P in E'. apply (good_key_inj c k k' p Hslash G G' E E').
Qed.

(** Writing. *)
Lemma set_inv : forall st k w st' e, inv st -> good_key c k -> good_writer w ->
  ps_set c b st (Instance k) (DataFrame w) = (st', e) ->
  inv st' /\ (e = None -> forall k', In k' (keys st') <-> k' = k \/ In k' (keys st)) /\ (e <> None -> st' = st).
Proof.
  intros st k w st' e [Hw Hi Hf [D1 D2]] G W H. unfold ps_set in H.
  destruct (good_key_dir k G) as (p & names & Ep & _ & Ed & L & Hgn & Hne & En & _). rewrite Ep in H.
  specialize (W (disk st) (path_join (b_path b) p) Hw). destruct (w (disk st) (path_join (b_path b) p)) as [f [e'|]].
  - injection H as <- <-. subst f. split; [|split; [discriminate|]].
    + constructor; simpl; auto. split; auto.
    + intros _. destruct st; auto.
  - injection H as <- <-. destruct W as [[Wf Wc] Wd]. rewrite Ed in *.
    assert (Hk : forall k', In k' (if set_mem k (keys st) then keys st else set_add k (keys st)) <-> k' = k \/ In k' (keys st)).
    { intro k'. destruct (set_mem k (keys st)) eqn:E; [|apply set_add_In]. apply set_mem_In in E. split; auto. intros [->|]; auto. }
    split; [|split; [intros _; exact Hk|congruence]].
    (* other datasets are the same *)
    assert (Hds : forall ns, length ns = depth c -> ns <> names -> (dataset f (B ++ ns) <-> dataset (disk st) (B ++ ns))).
    { intros ns Ln Hd. unfold dataset.
      assert (Q : forall n ct, lookup f ((B ++ ns) ++ [n]) = Some (KFile ct) <-> lookup (disk st) ((B ++ ns) ++ [n]) = Some (KFile ct)).
      { intros n ct. assert (NP : ~ prefix (B ++ names) ((B ++ ns) ++ [n])).
        { intro P. apply Hd. apply (app_inv_head B). symmetry. eapply (prefix_same_length _ _ ((B ++ ns) ++ [n])); eauto; [exists [n]; auto|].
          rewrite !app_length. lia. }
        destruct (Wc _ NP) as [->|(Pp & _)]; [reflexivity|]. exfalso. apply prefix_length in Pp. rewrite !app_length in Pp. simpl in Pp. lia. }
      split; intros (n & ct & P1 & P2); exists n, ct; split; auto; apply Q; auto. }
    constructor; simpl; auto.
    + destruct (set_mem k (keys st)); auto. apply set_add_increasing; auto.
    + intros ct E. destruct Wd as (n & ct' & _ & P2). rewrite (lookup_prefix f B ((B ++ names) ++ [n]) (KFile ct')) in E; auto; [discriminate| |].
      * exists (names ++ [n]). rewrite app_assoc. auto.
      * intro Q. apply (f_equal (@length _)) in Q. rewrite !app_length in Q. simpl in Q. lia.
    + split.
      * intros k' Hin. apply Hk in Hin as [->|Hin]; [split; auto; exists p; rewrite En; auto|].
        destruct (D1 k' Hin) as (G' & p' & Ep' & Dp'). split; auto. exists p'. split; auto.
        destruct (good_key_dir k' G') as (p'' & names' & Ep'' & _ & _ & L' & _ & _ & En' & _). rewrite Ep' in Ep''. injection Ep'' as <-. rewrite En' in *.
        destruct (list_eq_dec (list_eq_dec Nat.eq_dec) names' names) as [->|Hd]; auto. apply Hds; auto.
      * intros ns Ln Dn. destruct (list_eq_dec (list_eq_dec Nat.eq_dec) ns names) as [->|Hd].
        -- exists k, p. split; [apply Hk; auto|auto].
        -- apply Hds in Dn; auto. destruct (D2 ns Ln Dn) as (k' & p' & Hin & Q). exists k', p'. split; auto. apply Hk. auto.
Qed.

(** Deletion. *)
Lemma inv_dir : forall st k, inv st -> In k (keys st) ->
  wf (disk st) /\ good_key c k /\ forall p, to_path c k = Ok p -> lookup (disk st) (dir_names (path_join (b_path b) p)) = Some KDir.
Proof.
  intros st k [Hw Hi Hf [D1 D2]] Hin. destruct (D1 k Hin) as (G & p & Ep & D). split; auto. split; auto. intros p' Ep'.
  destruct (good_key_dir k G) as (p2 & names & Ep2 & Ej & Ed & L & Hgn & Hne & En & _). 
  replace p' with p2 by congruence. replace p with p2 in D by congruence. rewrite En in D. destruct D as (n & ct & _ & Q). apply lookup_parent in Q; auto. rewrite Ed. auto.
Qed.

Lemma del_step : forall st k, wf (disk st) -> good_key c k -> In k (keys st) ->
  (forall p, to_path c k = Ok p -> lookup (disk st) (dir_names (path_join (b_path b) p)) = Some KDir) ->
  exists p names f, to_path c k = Ok p /\ dir_names p = names /\ length names = depth c /\ Forall good_name names /\ names <> [] /\
    p = join [slash] names /\ dir_names (path_join (b_path b) p) = B ++ names /\
    rmtree (disk st) (path_join (b_path b) p) = Ok f /\ wf f /\
    (forall q, (prefix (B ++ names) q -> lookup f q = None) /\ (~ prefix (B ++ names) q -> lookup f q = lookup (disk st) q)) /\
    lookup (disk st) (B ++ names) = Some KDir /\
    ps_delitem c b st k =
      let '(f', e) := prune (S (length (path_join (b_path b) p))) b f (strip_path_tail (path_join (b_path b) p)) in
      (mkStore f' (set_remove k (keys st)), e).
Proof.
  intros st k Hw G Hin Hd.
  destruct (good_key_dir k G) as (p & names & Ep & Ej & Ed & L & Hgn & Hne & En & _).
  specialize (Hd p Ep). rewrite Ed in Hd. pose proof Hd as Q.
  destruct (rmtree_spec (disk st) (path_join (b_path b) p) Hw) as (f & E & Wf & S); [rewrite Ed; auto|rewrite Ed; destruct B; [auto|discriminate]|].
  rewrite Ed in S. exists p, names, f. repeat (split; auto). unfold ps_delitem. rewrite (proj2 (set_mem_In k (keys st)) Hin), Ep, E. auto.
Qed.

Lemma del_inv : forall st k st' e, inv st -> ps_delitem c b st k = (st', e) ->
  inv st' /\ (forall k', In k' (keys st') <-> k' <> k /\ In k' (keys st)).
Proof.
  intros st k st' e I H. destruct (set_mem k (keys st)) eqn:Ek.
  2:{ unfold ps_delitem in H. rewrite Ek in H. injection H as <- <-. split; auto. apply set_mem_not in Ek.
      intro k'. split; [|intros [_ Q]; auto]. intro Q. split; auto. intros ->. contradiction. }
  apply set_mem_In in Ek. destruct (inv_dir st k I Ek) as (I1 & I2 & I3).
  destruct (del_step st k I1 I2 Ek I3) as (p & names & f & Ep & En & L & Hgn & Hne & _ & Ed & _ & Wf & S & _ & E).
  rewrite H in E. destruct (prune _ b f _) as [f' e'] eqn:Epr. injection E as -> ->.
  destruct (prune_files _ _ _ _ _ _ Wf Epr) as (Wf' & F1 & F2). destruct I as [Hw Hi Hf [D1 D2]].
  assert (Hk : forall k', In k' (set_remove k (keys st)) <-> k' <> k /\ In k' (keys st)) by (intro; apply set_remove_In).
  split; [|exact Hk].
  assert (Hds : forall ns, length ns = depth c -> (dataset f' (B ++ ns) <-> ns <> names /\ dataset (disk st) (B ++ ns))).
  { intros ns Ln. unfold dataset.
    assert (Q : forall n ct, lookup f' ((B ++ ns) ++ [n]) = Some (KFile ct) <-> ns <> names /\ lookup (disk st) ((B ++ ns) ++ [n]) = Some (KFile ct)).
    { intros n ct. rewrite F1. destruct (S ((B ++ ns) ++ [n])) as [S1 S2].
      destruct (list_eq_dec (list_eq_dec Nat.eq_dec) ns names) as [->|Hd].
      - rewrite S1 by (exists [n]; auto). split; [discriminate|]. intros [Q _]; congruence.
      - rewrite S2; [split; [auto|intros [_ Q]; auto]|]. intro P. apply Hd. apply (app_inv_head B). symmetry.
        eapply (prefix_same_length _ _ ((B ++ ns) ++ [n])); eauto; [exists [n]; auto|]. rewrite !app_length. lia. }
    split.
    - intros (n & ct & P1 & P2). apply Q in P2 as [P2 P3]. split; auto. exists n, ct. auto.
    - intros (P2 & n & ct & P1 & P3). exists n, ct. split; auto. apply Q. auto. }
  constructor; simpl; auto.
  - apply set_remove_increasing; auto.
  - intros ct E. apply F1 in E. destruct (S B) as [_ S2]. rewrite S2 in E; [eapply Hf; eauto|].
    intro P. apply prefix_length in P. rewrite app_length in P. assert (0 < length names) by (destruct names; simpl; [congruence|lia]). lia.
  - split.
    + intros k' Hin. apply Hk in Hin as [Hne' Hin]. destruct (D1 k' Hin) as (G' & p' & Ep' & Dp'). split; auto. exists p'. split; auto.
      destruct (good_key_dir k' G') as (p'' & names' & Ep'' & _ & _ & L' & _ & _ & En' & _). rewrite Ep' in Ep''. injection Ep'' as <-. rewrite En' in *.
      apply Hds; auto. split; auto. intros Q. apply Hne'. destruct (D1 k Ek) as (G & _). eapply good_dirs_differ; eauto. congruence.
    + intros ns Ln Dn. apply Hds in Dn as [Hd Dn]; auto. destruct (D2 ns Ln Dn) as (k' & p' & Hin & Ep' & ->). exists k', p'. split; auto.
      apply Hk. split; auto. intros ->. rewrite Ep in Ep'. injection Ep' as <-. congruence.
Qed.

(** Histories. *)
Lemma step_inv : forall st o st' e, plain_sep (c_sep c) = true -> b_path b <> [] -> inv st -> good_op c o -> step c b st o = (st', e) -> inv st'.
Proof.
  intros st o st' e Hp Hb I G H. destruct o as [[k|] [w|]|k|]; simpl in H, G.
  - destruct G as [G1 G2]. eapply set_inv; eauto.
  - injection H as <- <-. auto.
  - injection H as <- <-. auto.
  - injection H as <- <-. auto.
  - eapply del_inv; eauto.
  - rewrite inv_open in H by auto. injection H as <- <-. destruct I; constructor; auto.
Qed.

Lemma history_inv : forall st evs st', plain_sep (c_sep c) = true -> b_path b <> [] -> inv st -> (forall o e, In (o, e) evs -> good_op c o) ->
  history c b st evs st' -> inv st'.
Proof.
  intros st evs st' Hp Hb I G H. induction H; auto. apply IHhistory.
  - eapply step_inv; eauto. eapply G. simpl; auto.
  - intros. eapply G. simpl; eauto.
Qed.

(** ** Pruning, with a base path without trailing slash. *)
Definition below_base (ns : list str) : str := match ns with [] => b_path b | _ => b_path b ++ slash :: join [slash] ns end.

Lemma strip_below : forall ns n, good_name n -> strip_path_tail (below_base (ns ++ [n])) = Some (below_base ns).
Proof.
  intros ns n Hn. pose proof (good_name_clean n Hn) as Hc. unfold below_base. destruct (ns ++ [n]) as [|x l] eqn:E; [destruct ns; discriminate|]. rewrite <- E. clear E x l.
  unfold strip_path_tail.
  assert (Hh : has_char slash (b_path b ++ slash :: join [slash] (ns ++ [n])) = true).
  { unfold has_char. apply existsb_exists. exists slash. split; [apply in_or_app; simpl; auto|apply Nat.eqb_refl]. }
  rewrite Hh. clear Hh.
  assert (J : forall s, join [slash] (split (Nat.eqb slash) s) = s) by (intro s; apply join_split; intros y Hy; apply Nat.eqb_eq in Hy; auto).
  assert (T : forall t, Some (join [slash] (removelast (split (Nat.eqb slash) (t ++ slash :: n)))) = Some t).
  { intro t. f_equal. rewrite split_cat by reflexivity. rewrite (split_clean _ n Hc). rewrite removelast_last. apply J. }
  destruct ns as [|m ns].
  - simpl join. apply T.
  - rewrite join_app by discriminate. 
    replace (b_path b ++ slash :: join [slash] (m :: ns) ++ [slash] ++ join [slash] [n]) with ((b_path b ++ slash :: join [slash] (m :: ns)) ++ slash :: n)
      by (rewrite <- app_assoc; reflexivity).
    apply T.
Qed.

Lemma below_names : forall ns, Forall good_name ns -> dir_names (below_base ns) = B ++ ns.
Proof.
  intros [|n ns] H; [simpl; rewrite app_nil_r; auto|]. unfold below_base. rewrite dir_names_cat. f_equal.
  unfold dir_names. rewrite (split_join _ slash (n :: ns)); auto; [|discriminate|intros x Hx; rewrite Forall_forall in H; apply good_name_clean; auto].
  clear -H. induction (n :: ns) as [|x l IH]; auto. inversion H; subst. simpl. destruct x; [destruct H2; congruence|]. f_equal. auto.
Qed.

Lemma below_ne : forall ns, ns <> [] -> str_eqb (below_base ns) (b_path b) = false.
Proof.
  intros [|n ns] H; [congruence|]. apply not_true_iff_false. intro E. apply str_eqb_eq in E. apply (f_equal (@length _)) in E.
  unfold below_base in E. rewrite app_length in E. simpl in E. lia.
Qed.

(** Removed directories: those on the way to [B ++ ns], below the base path, with nothing else below. *)
Definition removed (f : fs) (ns : list str) (q : path) : Prop :=
  exists ms, prefix ms ns /\ ms <> [] /\ q = B ++ ms /\ forall r, below q r -> lookup f r <> None -> prefix r (B ++ ns).

Lemma below_not_prefix : forall p q, below p q -> ~ prefix q p.
Proof. intros p q (n & r & ->) P. apply prefix_length in P. rewrite app_length in P. simpl in P. lia. Qed.

Lemma prune_exact : forall ns fuel f, b_pathlib b = false -> b_path b <> [] -> wf f -> Forall good_name ns -> length ns < fuel ->
  lookup f (B ++ ns) = Some KDir ->
  exists f', prune fuel b f (Some (below_base ns)) = (f', None) /\ wf f' /\
    (forall q, removed f ns q -> lookup f' q = None) /\ (forall q, ~ removed f ns q -> lookup f' q = lookup f q).
Proof.
  intros ns. induction ns as [|n ns IH] using rev_ind; intros fuel f Hl Hb Hw Hg Hfu Hd.
  - destruct fuel as [|fuel]; [simpl in Hfu; lia|]. simpl. rewrite Hl, (proj2 (str_eqb_eq _ _) eq_refl). simpl. exists f. split; auto. split; auto.
    split; [|auto]. intros q (ms & [r E] & Hne & _). destruct ms; [congruence|discriminate].
  - assert (NE : ns ++ [n] <> []) by (destruct ns; discriminate). set (nn := ns ++ [n]) in *.
    destruct fuel as [|fuel]; [lia|]. cbn [prune]. rewrite below_ne by auto. rewrite andb_false_r.
    assert (Hbb : below_base nn <> []).
    { unfold below_base. destruct nn; [congruence|]. intro Q. apply app_eq_nil in Q as [_ Q]. discriminate. }
    rewrite scandir_dir by (auto; rewrite below_names; auto). rewrite below_names by auto.
    destruct (children f (B ++ nn)) as [|[m k] l] eqn:Ec.
    + destruct (rmdir_spec f (below_base nn) Hw) as (f1 & E1 & W1 & A1 & B1); rewrite ?below_names by auto; auto.
      { destruct B; [auto|discriminate]. }
      rewrite below_names in A1, B1 by auto. rewrite E1. unfold nn at 1.
      apply Forall_app in Hg as Hg'. destruct Hg' as [Hg1 Hg2]. inversion Hg2; subst. rewrite strip_below by auto.
      assert (Hns : lookup f (B ++ ns) = Some KDir).
      { apply (lookup_parent f _ n KDir Hw). rewrite <- app_assoc. auto. }
      assert (Dn : B ++ ns <> B ++ nn).
      { intro Q. apply app_inv_head in Q. apply (f_equal (@length _)) in Q. unfold nn in Q. rewrite app_length in Q. simpl in Q. lia. }
      destruct (IH fuel f1) as (f' & E' & W' & R1 & R2); auto.
      { unfold nn in Hfu. rewrite app_length in Hfu. simpl in Hfu. lia. }
      { rewrite B1; auto. }
      exists f'. split; auto. split; auto.
      (* what is removed *)
      assert (Hlook : forall r, lookup f1 r <> None <-> lookup f r <> None /\ r <> B ++ nn).
      { intro r. destruct (list_eq_dec (list_eq_dec Nat.eq_dec) r (B ++ nn)) as [->|D].
        - rewrite A1. split; [congruence|]. intros [_ Q]; congruence.
        - rewrite B1 by auto. split; [auto|intros [Q _]; auto]. }
      assert (Hpre : forall r, prefix r (B ++ nn) <-> prefix r (B ++ ns) \/ r = B ++ nn).
      { intro r. unfold nn. rewrite app_assoc. split.
        - intros [t E]. destruct t as [|y t] using rev_ind; [right; rewrite app_nil_r in E; auto|left]. rewrite app_assoc in E.
          apply app_inj_tail in E as [E _]. exists t. auto.
        - intros [[t E]| ->]; [exists (t ++ [n]); rewrite app_assoc, <- E; auto|apply prefix_refl]. }
      assert (Hrem : forall q, removed f nn q <-> q = B ++ nn \/ removed f1 ns q).
      { intro q. split.
        - intros (ms & Pm & Hne & -> & Hall). destruct (list_eq_dec (list_eq_dec Nat.eq_dec) ms nn) as [->|D]; auto. right. exists ms.
          split.
          + destruct Pm as [t E]. destruct t as [|y t] using rev_ind; [rewrite app_nil_r in E; congruence|].
            unfold nn in E. rewrite app_assoc in E. apply app_inj_tail in E as [E _]. exists t. auto.
          + split; auto. split; auto. intros r Hr Hl'. apply Hlook in Hl' as [Q1 Q2]. specialize (Hall r Hr Q1). apply Hpre in Hall as [Q|Q]; auto. congruence.
        - intros [->|(ms & Pm & Hne & -> & Hall)].
          + exists nn. split; [apply prefix_refl|]. split; auto. split; auto. intros r Hr Hl'. exfalso.
            destruct (lookup f r) as [k|] eqn:E; [|congruence]. eapply (proj1 (children_empty f (B ++ nn) Hw) Ec); eauto.
          + exists ms. split; [eapply prefix_trans; eauto; exists [n]; auto|]. split; auto. split; auto.
            intros r Hr Hl'. apply Hpre. destruct (list_eq_dec (list_eq_dec Nat.eq_dec) r (B ++ nn)) as [->|D]; auto. left. apply Hall; auto. apply Hlook. auto. }
      assert (NR : ~ removed f1 ns (B ++ nn)).
      { intros (ms & Pm & _ & E & _). apply app_inv_head in E. subst ms. apply prefix_length in Pm. unfold nn in Pm. rewrite app_length in Pm. simpl in Pm. lia. }
      split.
      * intros q Q. apply Hrem in Q as [->|Q]; auto. rewrite R2; auto.
      * intros q Q. rewrite R2; [|intro Q'; apply Q; apply Hrem; auto]. apply B1. intros ->. apply Q. apply Hrem. auto.
    + exists f. split; auto. split; auto. split; [|auto]. intros q (ms & Pm & Hne & -> & Hall). exfalso.
      assert (Q : In (m, k) (children f (B ++ nn))) by (rewrite Ec; simpl; auto). apply children_In in Q; auto.
      destruct Pm as [t Et].
      assert (Hbl : below (B ++ ms) ((B ++ nn) ++ [m])).
      { rewrite Et. destruct t as [|y t]; [exists m, []; rewrite app_nil_r; auto|]. exists y, (t ++ [m]). rewrite <- !app_assoc. auto. }
      specialize (Hall _ Hbl). rewrite Q in Hall. specialize (Hall ltac:(discriminate)). apply prefix_length in Hall. rewrite !app_length in Hall. simpl in Hall. lia.
Qed.

(** Exact effect of a deletion. *)
Lemma del_exact : forall st k, b_pathlib b = false -> b_path b <> [] -> last (b_path b) 0 <> slash -> wf (disk st) -> good_key c k -> In k (keys st) ->
  (forall p, to_path c k = Ok p -> lookup (disk st) (dir_names (path_join (b_path b) p)) = Some KDir) ->
  exists p names st', to_path c k = Ok p /\ dir_names p = names /\ ps_delitem c b st k = (st', None) /\ wf (disk st') /\
    (forall q, (prefix (B ++ names) q \/
                (exists ms, prefix ms names /\ ms <> [] /\ ms <> names /\ q = B ++ ms /\
                   forall r, below q r -> lookup (disk st) r <> None -> prefix r (B ++ names) \/ prefix (B ++ names) r))
               -> lookup (disk st') q = None) /\
    (forall q, ~ prefix (B ++ names) q ->
               ~ (exists ms, prefix ms names /\ ms <> [] /\ ms <> names /\ q = B ++ ms /\
                   forall r, below q r -> lookup (disk st) r <> None -> prefix r (B ++ names) \/ prefix (B ++ names) r)
               -> lookup (disk st') q = lookup (disk st) q).
Proof.
  intros st k Hl Hb Ht Hw Hgk Hin HD. destruct (del_step st k Hw Hgk Hin HD) as (p & names & f & Ep & En & L & Hgn & Hne & Ej & Ed & _ & Wf & S & Hd & E).
  destruct (@exists_last _ names Hne) as (ns & n & Enn).
  assert (Hp : path_join (b_path b) p = below_base names).
  { unfold below_base. destruct names as [|x l] eqn:Ex; [congruence|]. rewrite <- Ex in *. rewrite Ej.
    assert (Hx : exists y s, join [slash] names = y :: s /\ (y =? slash) = false).
    { rewrite Ex in Hgn |- *. inversion Hgn as [|? ? Hgx Hgl]; subst. pose proof (good_name_clean _ Hgx) as Hc. destruct Hgx as [Q1 Q2]. destruct x as [|y x]; [congruence|].
      exists y. destruct l as [|z l]; [exists x; split; auto|eexists; split; [reflexivity|]]; rewrite Nat.eqb_sym; apply Hc; simpl; auto. }
    destruct Hx as (y & s & -> & Hy). unfold path_join. rewrite Hy. destruct (@exists_last _ (b_path b) Hb) as (b' & z & Ez).
    rewrite Ez in *. rewrite rev_app_distr. simpl rev. cbn [app]. rewrite last_last in Ht. apply Nat.eqb_neq in Ht. rewrite Ht. auto. }
  assert (Hg : Forall good_name ns /\ good_name n).
  { rewrite Enn in Hgn. apply Forall_app in Hgn as [A C]. inversion C; auto. }
  destruct Hg as [Hgns Hgn1].
  assert (NP : ~ prefix (B ++ names) (B ++ ns)).
  { intro P. apply prefix_length in P. rewrite Enn, !app_length in P. simpl in P. lia. }
  assert (Hns : lookup f (B ++ ns) = Some KDir).
  { rewrite (proj2 (S (B ++ ns))) by auto. apply (lookup_parent (disk st) _ n KDir Hw). rewrite <- app_assoc, <- Enn. auto. }
  destruct (prune_exact ns (Datatypes.S (length (path_join (b_path b) p))) f Hl Hb Wf Hgns) as (f' & E' & W' & R1 & R2); auto.
  { rewrite Hp, Enn. clear -Hgns. unfold below_base. destruct (ns ++ [n]) as [|x l] eqn:Q; [destruct ns; discriminate|]. rewrite <- Q. clear Q x l.
    rewrite app_length. simpl. assert (length ns <= length (join [slash] (ns ++ [n]))).
    { induction ns as [|x ns IH]; [simpl; lia|]. inversion Hgns; subst. destruct H1 as [Q _]. change ((x :: ns) ++ [n]) with (x :: (ns ++ [n])).
      rewrite join_cons by (destruct ns; discriminate). rewrite app_length. simpl. specialize (IH H2). lia. }
    lia. }
  rewrite Hp in E. rewrite Enn, strip_below in E by auto. rewrite <- Enn, <- Hp, E' in E. 
  exists p, names, (mkStore f' (set_remove k (keys st))). split; auto. split; auto. split; auto. split; auto. simpl disk.
  assert (Hrem : forall q, removed f ns q <->
     exists ms, prefix ms names /\ ms <> [] /\ ms <> names /\ q = B ++ ms /\
                   forall r, below q r -> lookup (disk st) r <> None -> prefix r (B ++ names) \/ prefix (B ++ names) r).
  { intro q. split.
    - intros (ms & Pm & Hm & -> & Hall). exists ms. split; [eapply prefix_trans; eauto; exists [n]; auto|]. split; auto. split.
      + intros ->. apply prefix_length in Pm. rewrite Enn, app_length in Pm. simpl in Pm. lia.
      + split; auto. intros r Hr Hlr. destruct (prefixb (B ++ names) r) eqn:Q; [right; apply prefixb_iff; auto|left].
        assert (NP' : ~ prefix (B ++ names) r) by (rewrite <- prefixb_iff, Q; discriminate).
        eapply prefix_trans; [apply Hall; auto; rewrite (proj2 (S r)); auto|]. exists [n]. rewrite Enn, app_assoc. auto.
    - intros (ms & Pm & Hm & Hmn & -> & Hall). exists ms. split.
      + destruct Pm as [t Et]. destruct t as [|y t] using rev_ind; [rewrite app_nil_r in Et; congruence|].
        rewrite Enn, app_assoc in Et. apply app_inj_tail in Et as [Et _]. exists t. auto.
      + split; auto. split; auto. intros r Hr Hlr.
        destruct (prefixb (B ++ names) r) eqn:Q.
        * apply prefixb_iff in Q. rewrite (proj1 (S r)) in Hlr by auto. congruence.
        * assert (NP' : ~ prefix (B ++ names) r) by (rewrite <- prefixb_iff, Q; discriminate).
          rewrite (proj2 (S r)) in Hlr by auto. destruct (Hall r Hr Hlr) as [P|P]; [|contradiction].
          destruct P as [t Et]. destruct t as [|y t] using rev_ind; [exfalso; apply NP'; rewrite app_nil_r in Et; subst; apply prefix_refl|].
          rewrite Enn, !app_assoc in Et. apply app_inj_tail in Et as [Et _]. exists t. auto. }
  split.
  - intros q [P|P].
    + destruct (lookup f' q) as [k'|] eqn:Q; auto. exfalso.
      assert (removed f ns q \/ ~ removed f ns q) as [D|D].
      { right. intros (ms & Pm & _ & -> & _). apply prefix_length in P. apply prefix_length in Pm. rewrite Enn, !app_length in P. simpl in P. lia. }
      * rewrite R1 in Q; auto. discriminate.
      * rewrite R2, (proj1 (S q)) in Q; auto. discriminate.
    + apply R1. apply Hrem. auto.
  - intros q NPq NR. rewrite R2 by (rewrite Hrem; auto). apply (proj2 (S q)). auto.
Qed.

(** Membership. *)
Lemma stored_ext : forall k evs m m', (m <-> m') -> (stored k m evs <-> stored k m' evs).
Proof.
  intros k evs. induction evs as [|[o e] evs IH]; intros m m' H; simpl; auto.
  destruct o as [[k'|] [w|]|k'|], e; apply IH; rewrite ?H; reflexivity.
Qed.

Lemma history_stored : forall st evs st', plain_sep (c_sep c) = true -> b_pathlib b = false -> b_path b <> [] -> last (b_path b) 0 <> slash ->
  inv st -> (forall o e, In (o, e) evs -> good_op c o) -> history c b st evs st' ->
  (forall k e, In (ODel k, e) evs -> e = None) /\ forall k, In k (keys st') <-> stored k (In k (keys st)) evs.
Proof.
  intros st evs st' Hp Hl Hb Ht I G H. revert I G. induction H as [st|st o st' e evs st'' Hs H IH]; intros I G.
  - split; [intros k e []|reflexivity].
  - assert (Go : good_op c o) by (eapply G; simpl; auto).
    assert (I' : inv st') by (eapply step_inv; eauto).
    destruct (IH I') as [A C]; [intros; eapply G; simpl; eauto|].
    assert (De : forall k, o = ODel k -> e = None).
    { intros k ->. simpl in Hs. destruct (set_mem k (keys st)) eqn:Ek.
      - apply set_mem_In in Ek. destruct (inv_dir st k I Ek) as (I1 & I2 & I3). destruct (del_exact st k Hl Hb Ht I1 I2 Ek I3) as (p & names & st1 & _ & _ & E & _). congruence.
      - unfold ps_delitem in Hs. rewrite Ek in Hs. congruence. }
    split.
    + intros k e' [Q|Q]; [injection Q as Q1 Q2; subst; eapply De; eauto|eauto].
    + intro k. rewrite C. cbn [stored].
      destruct o as [[k'|] [w|]|k'|]; simpl in Hs, Go.
      * destruct Go as [G1 G2]. destruct (set_inv st k' w st' e I G1 G2 Hs) as (_ & S1 & S2). destruct e as [e|].
        -- rewrite (S2 ltac:(discriminate)). reflexivity.
        -- apply stored_ext. apply S1. auto.
      * injection Hs as <- <-. reflexivity.
      * injection Hs as <- <-. reflexivity.
      * injection Hs as <- <-. reflexivity.
      * rewrite (De k' eq_refl) in *. destruct (del_inv st k' st' None I Hs) as (_ & S1). apply stored_ext. apply S1.
      * rewrite inv_open in Hs by auto. injection Hs as <- <-. simpl. reflexivity.
Qed.

(** Other datasets. *)
Lemma set_frame : forall st k w st' e k' p', wf (disk st) -> good_key c k -> good_key c k' -> k <> k' -> confined_writer w ->
  ps_set c b st (Instance k) (DataFrame w) = (st', e) -> to_path c k' = Ok p' ->
  forall q, prefix (B ++ dir_names p') q -> lookup (disk st') q = lookup (disk st) q.
Proof.
  intros st k w st' e k' p' Hw G G' Hne W H Ep' q Pq. unfold ps_set in H.
  destruct (good_key_dir k G) as (p & names & Ep & _ & Ed & L & _ & _ & En & _). rewrite Ep in H.
  specialize (W (disk st) (path_join (b_path b) p) Hw). rewrite Ed in W.
  destruct (good_key_dir k' G') as (p'' & names' & Ep'' & _ & _ & L' & _ & _ & En' & _). rewrite Ep' in Ep''. injection Ep'' as <-.
  assert (D : B ++ names <> B ++ names').
  { intro Q. apply app_inv_head in Q. apply Hne. eapply good_dirs_differ; eauto. congruence. }
  rewrite En' in Pq.
  assert (NP : ~ prefix (B ++ names) q).
  { intro P. apply D. eapply prefix_same_length; eauto. rewrite !app_length. lia. }
  destruct W as [_ W]. specialize (W q NP).
  assert (E : disk st' = fst (w (disk st) (path_join (b_path b) p))) by (destruct (w _ _) as [f [e'|]]; injection H as <- <-; auto).
  rewrite E. destruct W as [W|(P & _)]; auto. exfalso. apply D. apply (prefix_same_length _ _ (B ++ names)).
  - apply prefix_refl.
  - eapply prefix_trans; eauto.
  - rewrite !app_length. lia.
Qed.

Lemma del_frame : forall st k k' p' st' e, wf (disk st) -> good_key c k -> good_key c k' -> k <> k' -> ps_delitem c b st k = (st', e) -> to_path c k' = Ok p' ->
  forall q ct, prefix (B ++ dir_names p') q -> (lookup (disk st') q = Some (KFile ct) <-> lookup (disk st) q = Some (KFile ct)).
Proof.
  intros st k k' p' st' e Hw G G' Hne H Ep' q ct Pq.
  destruct (set_mem k (keys st)) eqn:Hin; [apply set_mem_In in Hin|unfold ps_delitem in H; rewrite Hin in H; injection H as <- <-; reflexivity].
  assert (HD : (forall p, to_path c k = Ok p -> lookup (disk st) (dir_names (path_join (b_path b) p)) = Some KDir) \/ st' = st).
  { destruct (good_key_dir k G) as (p & _ & Ep & _). unfold ps_delitem in H. rewrite (proj2 (set_mem_In k (keys st)) Hin), Ep in H. unfold rmtree in H.
    destruct (lookup (disk st) (dir_names (path_join (b_path b) p))) as [[|ct']|] eqn:El.
    - left. intros p2 Ep2. congruence.
    - right. congruence.
    - right. congruence. }
  destruct HD as [HD| ->]; [|reflexivity].
  destruct (del_step st k Hw G Hin HD) as (p & names & f & Ep & En & L & _ & _ & _ & Ed & _ & Wf & S & _ & E).
  rewrite H in E. destruct (prune _ b f _) as [f' e'] eqn:Epr. injection E as -> ->.
  destruct (prune_files _ _ _ _ _ _ Wf Epr) as (_ & F1 & _). simpl. rewrite F1.
  destruct (good_key_dir k' G') as (p'' & names' & Ep'' & _ & _ & L' & _ & _ & En' & _). rewrite Ep' in Ep''. injection Ep'' as <-.
  rewrite (proj2 (S q)); [reflexivity|]. intro P. rewrite En' in Pq.
  assert (B ++ names = B ++ names') by (eapply prefix_same_length; eauto; rewrite !app_length; lia).
  apply app_inv_head in H0. apply Hne. eapply good_dirs_differ; eauto. congruence.
Qed.
End Store.
