(** Proofs about 'cumsegagg': from positions of chunks to the table of results. *)
Require Import List Arith ZArith Bool Lia Sorted Permutation.
Require Import Verif.Common Verif.AggModel Verif.AggSpec Verif.AggProofs.
Require Import Verif.SegModel Verif.SegSpec Verif.SegProofs Verif.MergeProofs Verif.EventProofs.
Require Import Verif.CsaModel Verif.CsaSpec.
Import ListNotations.
Local Open Scope nat_scope.

(** * Dictionaries *)
Section Dict.
Context {K A : Type} (eqb : K -> K -> bool) (eqb_eq : forall a b, eqb a b = true <-> a = b).

Lemma eqb_refl_ : forall a, eqb a a = true.
Proof. intro. apply eqb_eq. auto. Qed.
Lemma eqb_neq_ : forall a b, a <> b -> eqb a b = false.
Proof. intros a b H. destruct (eqb a b) eqn:E; auto. apply eqb_eq in E. contradiction. Qed.

Lemma dict_get_In : forall k (d : list (K * A)) a, dict_get eqb k d = Some a -> In (k, a) d.
Proof.
  induction d as [|[k' a'] d IH]; intros a H; simpl in H; [discriminate|].
  destruct (eqb k k') eqn:E; [apply eqb_eq in E; injection H as ->; subst; left; auto|right; auto].
Qed.

Lemma dict_get_None : forall k (d : list (K * A)), dict_get eqb k d = None <-> ~ In k (map fst d).
Proof.
  induction d as [|[k' a'] d IH]; simpl; [tauto|].
  destruct (eqb k k') eqn:E.
  - apply eqb_eq in E; subst. split; [discriminate|intros H; destruct H; auto].
  - rewrite IH. split; [intros H [Q|Q]; auto; subst; rewrite eqb_refl_ in E; discriminate|tauto].
Qed.

Lemma In_dict_get : forall k (d : list (K * A)) a, NoDup (map fst d) -> In (k, a) d -> dict_get eqb k d = Some a.
Proof.
  induction d as [|[k' a'] d IH]; intros a Hn Hi; simpl in *; [contradiction|].
  inversion Hn; subst. destruct Hi as [Q|Hi].
  - injection Q as -> ->. rewrite eqb_refl_. auto.
  - destruct (eqb k k') eqn:E; auto. apply eqb_eq in E; subst.
    destruct H1. apply in_map_iff. exists (k', a). auto.
Qed.

Lemma dict_set_same : forall k a (d : list (K * A)), dict_get eqb k (dict_set eqb k a d) = Some a.
Proof.
  induction d as [|[k' a'] d IH]; simpl; [rewrite eqb_refl_; auto|].
  destruct (eqb k k') eqn:E; simpl; rewrite E; auto.
Qed.

Lemma dict_set_other : forall k k2 a (d : list (K * A)), k2 <> k -> dict_get eqb k2 (dict_set eqb k a d) = dict_get eqb k2 d.
Proof.
  induction d as [|[k' a'] d IH]; simpl; intros H.
  - rewrite eqb_neq_; auto.
  - destruct (eqb k k') eqn:E; simpl; auto.
    + apply eqb_eq in E; subst. rewrite !eqb_neq_; auto.
    + rewrite IH; auto.
Qed.

Lemma dict_set_keys : forall k a (d : list (K * A)),
  map fst (dict_set eqb k a d) = if memb eqb k (map fst d) then map fst d else map fst d ++ [k].
Proof.
  induction d as [|[k' a'] d IH]; simpl; auto.
  destruct (eqb k k') eqn:E; simpl; auto. rewrite IH. unfold memb. destruct (existsb (eqb k) (map fst d)); auto.
Qed.

Lemma memb_In : forall k (l : list K), memb eqb k l = true <-> In k l.
Proof.
  intros. unfold memb. rewrite existsb_exists. split.
  - intros (x & Hx & E). apply eqb_eq in E. subst; auto.
  - intros H. exists k. split; auto. apply eqb_refl_.
Qed.

Lemma dict_set_NoDup : forall k a (d : list (K * A)), NoDup (map fst d) -> NoDup (map fst (dict_set eqb k a d)).
Proof.
  intros k a d H. rewrite dict_set_keys. destruct (memb eqb k (map fst d)) eqn:E; auto.
  apply NoDup_app_remove_l with (l := []) || idtac.
  assert (~ In k (map fst d)) by (rewrite <- memb_In; congruence).
  clear E. induction (map fst d) as [|x l IH]; simpl; [constructor; auto; constructor|].
  inversion H; subst. constructor.
  - rewrite in_app_iff. intros [Q|[Q|[]]]; auto. subst. destruct H0; left; auto.
  - apply IH; auto. intro Q; destruct H0; right; auto.
Qed.

Lemma index_of_Some : forall k (l : list K) i, index_of eqb k l = Some i -> nth_error l i = Some k.
Proof.
  induction l as [|x l IH]; intros i H; simpl in H; [discriminate|].
  destruct (eqb k x) eqn:E; [injection H as <-; apply eqb_eq in E; subst; auto|].
  destruct (index_of eqb k l); [|discriminate]. injection H as <-. simpl. auto.
Qed.
Lemma index_of_None : forall k (l : list K), index_of eqb k l = None -> ~ In k l.
Proof.
  induction l as [|x l IH]; intros H; simpl in H; [tauto|].
  destruct (eqb k x) eqn:E; [discriminate|]. destruct (index_of eqb k l); [discriminate|].
  intros [->|Q]; [rewrite eqb_refl_ in E; discriminate|]. apply IH; auto.
Qed.
End Dict.

Lemma dtype_eqb_eq : forall a b, dtype_eqb a b = true <-> a = b.
Proof. intros [] []; simpl; split; congruence. Qed.
Lemma afun_eqb_eq : forall a b, afun_eqb a b = true <-> a = b.
Proof. intros [] []; simpl; split; congruence. Qed.

(** * setup_cumsegagg *)
(** Invariant on the temporary lists: [items] are the (output, (input, function)) met so far. *)
Record tmp_ok (t : tmpcfg) (items : list (cname * (cname * afun))) : Prop := {
  to_out : t_out t = map fst items;
  to_len1 : length (t_cols_data t) = length (t_funs t);
  to_len2 : length (t_cols_res t) = length (t_funs t);
  to_len3 : map (@length nat) (t_cols_data t) = map (@length nat) (t_cols_res t);
  to_perm : Permutation (concat (t_cols_res t)) (seq 0 (length items));
  to_cells : forall k x i, nth_error (combine (nth k (t_cols_data t) []) (nth k (t_cols_res t) [])) x = Some i ->
     exists n f, nth_error (t_funs t) k = Some f /\ nth_error (t_in t) (fst i) = Some n
       /\ exists o, nth_error items (snd i) = Some (o, (n, f)) }.

Lemma nth_update : forall {A} (l : list A) k k' x d, nth k (update l k' x) d = if (k =? k') && (k <? length l) then x else nth k l d.
Proof.
  induction l as [|y l IH]; intros k k' x d; simpl.
  - destruct k; rewrite andb_false_r; auto.
  - destruct k' as [|k']; destruct k as [|k]; simpl; auto. rewrite IH. auto.
Qed.

Lemma map_update : forall {A B} (g : A -> B) l k x, map g (update l k x) = update (map g l) k (g x).
Proof. induction l as [|y l IH]; intros [|k] x; simpl; f_equal; auto. Qed.

Lemma map_nth_d : forall {A B} (g : A -> B) l k d, nth k (map g l) (g d) = g (nth k l d).
Proof. intros. apply map_nth. Qed.

Lemma concat_update_perm : forall (l : list (list nat)) k x, k < length l ->
  Permutation (concat (update l k (nth k l [] ++ [x]))) (concat l ++ [x]).
Proof.
  induction l as [|y l IH]; intros k x Hk; simpl in *; [lia|].
  destruct k as [|k]; simpl.
  - rewrite <- !app_assoc. apply Permutation_app_head. apply Permutation_app_comm.
  - rewrite <- app_assoc. apply Permutation_app_head. apply IH. lia.
Qed.

Lemma combine_snoc : forall {A B} (l : list A) (m : list B) a b, length l = length m ->
  combine (l ++ [a]) (m ++ [b]) = combine l m ++ [(a, b)].
Proof. induction l as [|x l IH]; intros [|y m] a b H; simpl in *; try discriminate; auto. f_equal. apply IH. lia. Qed.

Lemma nth_length_eq : forall (l m : list (list nat)) k, map (@length nat) l = map (@length nat) m ->
  length (nth k l []) = length (nth k m []).
Proof.
  induction l as [|x l IH]; intros [|y m] k H; simpl in *; try discriminate; auto.
  injection H as H1 H2. destruct k; auto.
Qed.

Lemma tmp_add_ok : forall t items out i f, tmp_ok t items ->
  exists t', tmp_add t out i (Some f) = Ok t' /\ tmp_ok t' (items ++ [(out, (i, f))]).
Proof.
  intros t items out i f H. destruct H as [Hout Hl1 Hl2 Hl3 Hp Hc]. unfold tmp_add.
  assert (exists ins in_idx, match index_of Nat.eqb i (t_in t) with
      | Some k => (t_in t, k) | None => (t_in t ++ [i], length (t_in t)) end = (ins, in_idx)
      /\ nth_error ins in_idx = Some i /\ (forall k n, nth_error (t_in t) k = Some n -> nth_error ins k = Some n))
    as (ins & in_idx & -> & Hi1 & Hi2).
  { destruct (index_of Nat.eqb i (t_in t)) eqn:E.
    - eexists _, _. split; [reflexivity|]. split; auto. apply index_of_Some with (eqb := Nat.eqb); auto. apply Nat.eqb_eq.
    - eexists _, _. split; [reflexivity|]. split.
      + rewrite nth_error_app2 by lia. rewrite Nat.sub_diag. auto.
      + intros k n Hk. rewrite nth_error_app1; auto. apply nth_error_Some. congruence. }
  assert (Hlo : length (t_out t) = length items) by (rewrite Hout; apply map_length).
  assert (Hpre : forall k n f0 o, nth_error items k = Some (o, (n, f0)) ->
            nth_error (items ++ [(out, (i, f))]) k = Some (o, (n, f0))).
  { intros. rewrite nth_error_app1; auto. apply nth_error_Some. congruence. }
  assert (Hnew : nth_error (items ++ [(out, (i, f))]) (length items) = Some (out, (i, f))).
  { rewrite nth_error_app2 by lia. rewrite Nat.sub_diag. auto. }
  destruct (index_of afun_eqb f (t_funs t)) as [fi|] eqn:E.
  - apply (index_of_Some afun_eqb afun_eqb_eq) in E.
    assert (fi < length (t_funs t)) by (apply nth_error_Some; congruence).
    destruct (length (t_cols_data t) <=? fi) eqn:G; [apply Nat.leb_le in G; lia|].
    eexists. split; [reflexivity|]. constructor; simpl.
    + rewrite map_app. rewrite Hout. auto.
    + rewrite length_update; auto.
    + rewrite length_update; auto.
    + rewrite !map_update, !app_length. rewrite Hl3. simpl.
      rewrite (nth_length_eq _ _ fi Hl3). auto.
    + rewrite concat_update_perm by lia. rewrite app_length. simpl.
      rewrite Nat.add_1_r, seq_S. simpl. apply Permutation_app; auto. rewrite Hlo. auto.
    + intros k x ij Hx. rewrite !nth_update in Hx. rewrite Hl1, Hl2 in Hx.
      destruct (Nat.eq_dec k fi) as [->|Hne].
      * rewrite Nat.eqb_refl in Hx. rewrite (proj2 (Nat.ltb_lt fi (length (t_funs t)))) in Hx by auto. simpl in Hx.
        rewrite combine_snoc in Hx by (apply nth_length_eq; auto).
        set (cc := combine (nth fi (t_cols_data t) []) (nth fi (t_cols_res t) [])) in *.
        destruct (Nat.lt_ge_cases x (length cc)) as [Hlt|Hge].
        -- rewrite nth_error_app1 in Hx by auto. destruct (Hc fi x ij Hx) as (n & f0 & A & B & o & C).
           exists n, f0. split; auto. split; auto. eauto.
        -- rewrite nth_error_app2 in Hx by auto.
           assert (Hx' : ij = (in_idx, length (t_out t))).
           { destruct (x - length cc) as [|y]; simpl in Hx; [congruence|destruct y; discriminate]. }
           subst ij. simpl. exists i, f. split; auto. split; auto. rewrite Hlo. eauto.
      * rewrite (proj2 (Nat.eqb_neq k fi)) in Hx by auto. simpl in Hx.
        destruct (Hc k x ij Hx) as (n & f0 & A & B & o & C). exists n, f0. split; auto. split; auto. eauto.
  - rewrite Hl1, Nat.leb_refl. eexists. split; [reflexivity|]. constructor; simpl.
    + rewrite map_app. rewrite Hout. auto.
    + rewrite !app_length. simpl. lia.
    + rewrite !app_length. simpl. lia.
    + rewrite !map_app. simpl. rewrite Hl3. auto.
    + rewrite concat_app. simpl. rewrite app_length. simpl. rewrite Nat.add_1_r, seq_S. simpl.
      rewrite Hlo. apply Permutation_app; auto.
    + intros k x ij Hx. destruct (Nat.lt_trichotomy k (length (t_funs t))) as [Hk|[Hk|Hk]].
      * rewrite !app_nth1 in Hx by lia. destruct (Hc k x ij Hx) as (n & f0 & A & B & o & C).
        exists n, f0. split; [rewrite nth_error_app1; auto|]. split; auto. eauto.
      * rewrite !app_nth2 in Hx by lia. rewrite Hl1, Hl2, Hk, Nat.sub_diag in Hx. simpl in Hx.
        assert (ij = (in_idx, length (t_out t))).
        { destruct x as [|x]; simpl in Hx; [congruence|destruct x; discriminate]. }
        subst ij. simpl. exists i, f. split; [rewrite nth_error_app2 by lia; rewrite Hk, Nat.sub_diag; auto|].
        split; auto. rewrite Hlo. eauto.
      * rewrite !nth_overflow in Hx by (rewrite app_length; simpl; lia). simpl in Hx. destruct x; discriminate.
Qed.

(** Items of a dtype. *)
Definition items_of (agg : aggspec) (dtypes : list (cname * dtype)) (d : dtype) : list (cname * (cname * afun)) :=
  flat_map (fun a => match a with
                     | (o, (i, Some f)) =>
                         match dict_get Nat.eqb i dtypes with
                         | Some d' => if dtype_eqb d d' then [(o, (i, f))] else []
                         | None => []
                         end
                     | _ => [] end) agg.

Lemma setup_step1_ok : forall agg dtypes cfg done,
  agg_valid agg dtypes ->
  NoDup (map fst cfg) ->
  (forall d, match dict_get dtype_eqb d cfg with
             | Some t => tmp_ok t (items_of done dtypes d) /\ items_of done dtypes d <> []
             | None => items_of done dtypes d = []
             end) ->
  exists cfg', setup_step1 agg dtypes cfg = Ok cfg' /\ NoDup (map fst cfg') /\
  (forall d, match dict_get dtype_eqb d cfg' with
             | Some t => tmp_ok t (items_of (done ++ agg) dtypes d) /\ items_of (done ++ agg) dtypes d <> []
             | None => items_of (done ++ agg) dtypes d = []
             end).
Proof.
  induction agg as [|[o [i f]] agg IH]; intros dtypes cfg done Hv Hnd Hc; simpl.
  - exists cfg. rewrite app_nil_r. auto.
  - destruct (Hv o i f (or_introl eq_refl)) as [[d Hd] Hf]. rewrite Hd.
    destruct f as [f|]; [|congruence].
    set (tup := match dict_get dtype_eqb d cfg with Some t => t | None => tmp_empty end).
    assert (Ht : tmp_ok tup (items_of done dtypes d)).
    { unfold tup. specialize (Hc d). destruct (dict_get dtype_eqb d cfg); [tauto|]. rewrite Hc.
      constructor; simpl; auto. intros k x ij Hx. destruct k; destruct x; discriminate. }
    destruct (tmp_add_ok tup _ o i f Ht) as (t' & Ha & Ht'). rewrite Ha. cbn [bind].
    destruct (IH dtypes (dict_set dtype_eqb d t' cfg) (done ++ [(o, (i, Some f))])) as (cfg' & H1 & H2 & H3).
    + intros o' i' f' Hin. apply (Hv o' i' f'). right; auto.
    + apply dict_set_NoDup; auto. apply dtype_eqb_eq.
    + intro d'. unfold items_of. rewrite flat_map_app. fold (items_of done dtypes d'). simpl. rewrite Hd.
      destruct (dtype_eqb d' d) eqn:E.
      * apply dtype_eqb_eq in E. subst d'. rewrite dict_set_same by apply dtype_eqb_eq.
        split; auto. intro Q; apply app_eq_nil in Q as [_ Q]; discriminate.
      * assert (d' <> d) by (intro Q; subst; rewrite (proj2 (dtype_eqb_eq d d) eq_refl) in E; discriminate).
        rewrite dict_set_other by (auto; apply dtype_eqb_eq). rewrite app_nil_r. apply Hc.
    + exists cfg'. split; auto. split; auto. rewrite <- app_assoc in H3. exact H3.
Qed.

(** What the configuration has to be. *)
Record cfg_ok (agg : aggspec) (dtypes : list (cname * dtype)) (cfg : list (dtype * acfg)) : Prop := {
  co_nodup : NoDup (map fst cfg);
  co_wf : forall d c, In (d, c) cfg -> wf_aggs (ac_ncols c) (ac_aggs c) /\ ac_ncols c = length (ac_out c);
  co_out : forall d c, In (d, c) cfg -> ac_out c = map fst (items_of agg dtypes d) /\ ac_out c <> [];
  co_all : forall d, items_of agg dtypes d <> [] -> exists c, In (d, c) cfg;
  co_cells : forall d c f i j, In (d, c) cfg -> In (f, i, j) (cells_of (ac_aggs c)) ->
     exists n o, nth_error (ac_in c) i = Some n /\ nth_error (items_of agg dtypes d) j = Some (o, (n, f));
  co_cover : forall d c j o, In (d, c) cfg -> nth_error (ac_out c) j = Some o ->
     exists f i, In (f, i, j) (cells_of (ac_aggs c)) }.

Lemma zip_aggs_res : forall funs cd cr, length cd = length funs -> length cr = length funs ->
  flat_map a_cols_res (zip_aggs funs cd cr) = concat cr.
Proof.
  induction funs as [|f funs IH]; intros [|d cd] [|r cr] H1 H2; simpl in *; try discriminate; auto.
  f_equal. apply IH; lia.
Qed.

Lemma zip_aggs_In : forall funs cd cr a, length cd = length funs -> length cr = length funs ->
  In a (zip_aggs funs cd cr) -> exists k, k < length funs /\ nth_error funs k = Some (a_fun a)
    /\ a_cols_data a = nth k cd [] /\ a_cols_res a = nth k cr [].
Proof.
  induction funs as [|f funs IH]; intros [|d cd] [|r cr] a H1 H2 Ha; simpl in *; try discriminate; try contradiction.
  destruct Ha as [<-|Ha].
  - exists 0. simpl. repeat split; auto. lia.
  - destruct (IH cd cr a) as (k & A & B & C & E); auto. exists (S k). simpl. repeat split; auto. lia.
Qed.

Lemma list_sum_length_concat : forall l : list (list nat), list_sum (map (@length nat) l) = length (concat l).
Proof. induction l as [|x l IH]; simpl; auto. rewrite app_length. rewrite <- IH. reflexivity. Qed.

Lemma dict_get_map : forall {A B} (g : A -> B) d (l : list (dtype * A)),
  dict_get dtype_eqb d (map (fun dt => (fst dt, g (snd dt))) l) = option_map g (dict_get dtype_eqb d l).
Proof. induction l as [|[k a] l IH]; simpl; auto. destruct (dtype_eqb d k); auto. Qed.

Lemma in_res_cell : forall aggs j, (forall a, In a aggs -> length (a_cols_data a) = length (a_cols_res a)) ->
  In j (flat_map a_cols_res aggs) -> exists f i, In (f, i, j) (cells_of aggs).
Proof.
  intros aggs j Hl H. apply in_flat_map in H as (a & Ha & Hj).
  apply In_nth with (d := 0) in Hj as (k & Hk & Hn).
  exists (a_fun a), (nth k (a_cols_data a) 0). unfold cells_of. apply in_flat_map. exists a. split; auto.
  apply in_map_iff. exists (nth k (a_cols_data a) 0, j). split; auto.
  rewrite <- Hn. rewrite <- combine_nth by auto. apply nth_In. rewrite combine_length. rewrite (Hl a Ha). lia.
Qed.

Lemma setup_cumsegagg_ok : forall agg dtypes, agg_valid agg dtypes -> NoDup (map fst agg) ->
  exists cfg, setup_cumsegagg agg dtypes = Ok cfg /\ cfg_ok agg dtypes cfg.
Proof.
  intros agg dtypes Hv Hnd. unfold setup_cumsegagg.
  destruct (setup_step1_ok agg dtypes [] []) as (cfg & H1 & H2 & H3); auto; simpl; try constructor.
  rewrite H1. cbn [bind]. simpl in H3.
  eexists. split; [reflexivity|].
  assert (G : forall d c, In (d, c) (map (fun dt => (fst dt, setup_step2 (snd dt))) cfg) ->
     exists t, c = setup_step2 t /\ tmp_ok t (items_of agg dtypes d) /\ items_of agg dtypes d <> []).
  { intros d c Hin. apply in_map_iff in Hin as ([d' t] & Q & Hin). injection Q as <- <-. exists t. split; auto.
    specialize (H3 d'). rewrite (In_dict_get dtype_eqb dtype_eqb_eq d' cfg t H2 Hin) in H3. auto. }
  constructor.
  - rewrite map_map. simpl. exact H2.
  - intros d c Hin. destruct (G d c Hin) as (t & -> & [T1 T2 T3 T4 T5 T6] & _). simpl.
    rewrite list_sum_length_concat. rewrite T1, map_length.
    assert (length (concat (t_cols_res t)) = length (items_of agg dtypes d)) as L.
    { rewrite (Permutation_length T5). apply seq_length. }
    split; auto. unfold wf_aggs. rewrite zip_aggs_res by auto. split; [|split].
    + apply (Permutation_NoDup (Permutation_sym T5)). apply seq_NoDup.
    + intros a Ha. destruct (zip_aggs_In _ _ _ a T2 T3 Ha) as (k & _ & _ & -> & ->). apply nth_length_eq; auto.
    + intros j Hj. apply (Permutation_in _ T5) in Hj. apply in_seq in Hj. rewrite L. lia.
  - intros d c Hin. destruct (G d c Hin) as (t & -> & [T1 T2 T3 T4 T5 T6] & Hne). simpl. rewrite T1.
    split; auto. destruct (items_of agg dtypes d); [congruence|discriminate].
  - intros d Hne. specialize (H3 d). destruct (dict_get dtype_eqb d cfg) as [t|] eqn:E; [|contradiction].
    exists (setup_step2 t). apply in_map_iff. exists (d, t). split; auto.
    apply (dict_get_In dtype_eqb dtype_eqb_eq); auto.
  - intros d c f i j Hin Hcell. destruct (G d c Hin) as (t & -> & [T1 T2 T3 T4 T5 T6] & Hne). simpl in *.
    unfold cells_of in Hcell. apply in_flat_map in Hcell as (a & Ha & Hcell).
    apply in_map_iff in Hcell as ([i' j'] & Q & Hc). simpl in Q. injection Q as <- <- <-.
    destruct (zip_aggs_In _ _ _ a T2 T3 Ha) as (k & _ & Hf & E1 & E2).
    rewrite E1, E2 in Hc. apply In_nth_error in Hc as (x & Hx).
    destruct (T6 k x _ Hx) as (n & f0 & A & B & o & C). simpl in *.
    rewrite Hf in A. injection A as <-. exists n, o. split; auto.
  - intros d c j o Hin Hj. destruct (G d c Hin) as (t & -> & [T1 T2 T3 T4 T5 T6] & Hne). simpl in *.
    apply in_res_cell.
    + intros a Ha. destruct (zip_aggs_In _ _ _ a T2 T3 Ha) as (k & _ & _ & -> & ->). apply nth_length_eq; auto.
    + rewrite zip_aggs_res by auto. apply (Permutation_in _ (Permutation_sym T5)). apply in_seq.
      assert (j < length (t_out t)) by (apply nth_error_Some; congruence). rewrite T1, map_length in H. lia.
Qed.

Lemma setup_cumsegagg_refused : forall agg dtypes, ~ agg_valid agg dtypes ->
  setup_cumsegagg agg dtypes = Err ValueError.
Proof.
  intros agg dtypes H. unfold setup_cumsegagg.
  assert (G : forall cfg, setup_step1 agg dtypes cfg = Err ValueError).
  { induction agg as [|[o [i f]] agg IH]; intros cfg; simpl.
    - destruct H. intros o i f [].
    - destruct (dict_get Nat.eqb i dtypes) as [d|] eqn:E; auto.
      destruct f as [f|].
      + destruct (tmp_add match dict_get dtype_eqb d cfg with Some t => t | None => tmp_empty end o i (Some f)) eqn:F; cbn [bind].
        * apply IH. intro Q. apply H. intros o' i' f' [Q'|Hin]; [|eapply Q; eauto].
          injection Q' as <- <- <-. split; [eauto|discriminate].
        * unfold tmp_add in F. destruct (match index_of Nat.eqb i _ with Some _ => _ | None => _ end) in F.
          destruct (match index_of afun_eqb f _ with Some _ => _ | None => _ end) in F.
          destruct (_ <=? _) in F; discriminate.
      + unfold tmp_add. destruct (match index_of Nat.eqb i _ with Some _ => _ | None => _ end). auto. }
  rewrite G. auto.
Qed.
