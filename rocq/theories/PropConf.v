(** Properties of the configuration of AggStream: columns of segmentation (C57), configuration of each key (C58), accepted
    parameters (C59). *)
Require Import String List Arith ZArith Bool Lia Permutation.
Require Import Verif.Common Verif.SegModel Verif.MetaModel Verif.PropMeta Verif.ConfModel Verif.ConfSpec Verif.ConfProofs Verif.ConfKeyProofs.
Import ListNotations.
Local Open Scope string_scope.
Local Open Scope list_scope.

(** * C57: columns used by a segmentation *)
(** Bins by time: parameters are accepted exactly when they name a single column, which is then used for everything. *)
Theorem C57_time : forall key closed bin_on ordered_on snap cfg,
  setup_segmentby (BinTG key closed) bin_on ordered_on snap = Ok cfg <->
  exists c, time_column key closed bin_on ordered_on snap c /\
    cfg_on_cols cfg = [Some c] /\ cfg_ordered_on cfg = Some c /\ cfg_bin_on cfg = Some c /\
    (cfg_snap_kept cfg = true <-> exists k s, snap = SnapTG k s).
Proof.
  intros key closed bin_on ordered_on snap cfg. rewrite setup_time. split.
  - intros [c [H ->]]. exists c. split; auto. repeat split; auto; destruct snap; simpl; try congruence; eauto.
    intros [k [s E]]. discriminate. intros [k [s E]]. discriminate.
  - intros [c [H [H1 [H2 [H3 H4]]]]]. exists c. split; auto. destruct cfg as [a b d e]; simpl in *. subst. f_equal.
    destruct snap as [|k s|]; simpl.
    + destruct e; auto. destruct (proj1 H4 eq_refl) as [? [? ?]]; discriminate.
    + apply H4; eauto.
    + destruct e; auto. destruct (proj1 H4 eq_refl) as [? [? ?]]; discriminate.
Qed.
Print Assumptions C57_time.
(** The column is unique. *)
Theorem C57_time_one : forall key closed bin_on ordered_on snap c c',
  time_column key closed bin_on ordered_on snap c -> time_column key closed bin_on ordered_on snap c' -> c = c'.
Proof.
  intros key closed bin_on ordered_on snap c c' [H1 [H2 _]] [H1' [_ [H3 [H4 _]]]].
  destruct H2 as [-> | ->]; [destruct H3 as [[|]|]|destruct H4 as [[|]|]]; congruence.
Qed.
Print Assumptions C57_time_one.
(** Bins by a function. *)
Theorem C57_callable : forall bin_on ordered_on snap cfg,
  setup_segmentby BinCallable bin_on ordered_on snap = Ok cfg <->
  (bin_on <> None \/ ordered_on <> None) /\
  order_column ordered_on snap (cfg_ordered_on cfg) /\ columns_given bin_on (cfg_ordered_on cfg) (cfg_on_cols cfg) /\
  cfg_bin_on cfg = bin_on /\ (cfg_snap_kept cfg = true <-> exists k s, snap = SnapTG k s).
Proof.
  intros bin_on ordered_on snap cfg. rewrite setup_callable. split.
  - intros [o [cols [H1 [H2 [H3 ->]]]]]. simpl. repeat split; auto; destruct snap; simpl; try congruence; eauto.
    intros [k [s E]]. discriminate. intros [k [s E]]. discriminate.
  - intros [H1 [H2 [H3 [H4 H5]]]]. destruct cfg as [a b d e]; simpl in *. exists b, a. repeat split; auto. subst. f_equal.
    destruct snap as [|k s|]; simpl.
    + destruct e; auto. destruct (proj1 H5 eq_refl) as [? [? ?]]; discriminate.
    + apply H5; eauto.
    + destruct e; auto. destruct (proj1 H5 eq_refl) as [? [? ?]]; discriminate.
Qed.
Print Assumptions C57_callable.
(** Anything else is refused, with ValueError. *)
Theorem C57_refused : forall b bin_on ordered_on snap,
  (forall cfg, setup_segmentby BinOther bin_on ordered_on snap <> Ok cfg) /\
  (forall e, setup_segmentby b bin_on ordered_on snap = Err e -> e = ValueError).
Proof. intros b bin_on ordered_on snap. split; [intros cfg; simpl; discriminate|apply setup_errors]. Qed.
Print Assumptions C57_refused.

(** A callable with snapshots by time on no column is accepted when 'ordered_on' is not given either, with [None] as name of
    the column of order: 'data[None]' then fails (segmentby.py:896-898). *)
Theorem C57_order_missing_refuted : exists bin_on snap cfg k s,
  setup_segmentby BinCallable bin_on None snap = Ok cfg /\ snap = SnapTG k s /\ cfg_snap_kept cfg = true /\ cfg_ordered_on cfg = None.
Proof. exists (Some "g"), (SnapTG None SLeft), (mkSegcfg [Some "g"] None (Some "g") true), None, SLeft. repeat split. Qed.
Print Assumptions C57_order_missing_refuted.

Example C57_case :
  time_column (Some "ts") SLeft None (Some "ts") (SnapTG None SLeft) "ts" /\
  setup_segmentby (BinTG (Some "ts") SLeft) None (Some "ts") (SnapTG None SLeft) = Ok (mkSegcfg [Some "ts"] (Some "ts") (Some "ts") true) /\
  setup_segmentby (BinTG (Some "ts") SLeft) (Some "ts2") None SnapNone = Err ValueError /\
  setup_segmentby (BinTG (Some "ts") SLeft) None (Some "ts2") SnapNone = Err ValueError /\
  setup_segmentby (BinTG (Some "ts") SLeft) None None (SnapTG (Some "ts") SRight) = Err ValueError /\
  setup_segmentby BinCallable (Some "g") (Some "ts") (SnapTG (Some "ts") SRight) = Ok (mkSegcfg [Some "g"; Some "ts"] (Some "ts") (Some "g") true).
Proof.
  split; [|repeat split]. unfold time_column, may_be, unset. repeat split; auto. discriminate.
Qed.

(** * C58: configuration of each key *)
Lemma Forall2_in : forall {A B} (R : A -> B -> Prop) l l' x, Forall2 R l l' -> In x l -> exists y, In y l' /\ R x y.
Proof. intros A B R l l' x H. induction H; intros Hi; [destruct Hi|]. destruct Hi as [<-|Hi]; [exists y; split; [left|]; auto|]. destruct IHForall2 as [z [Hz Hr]]; auto. exists z. split; [right|]; auto. Qed.
Lemma Forall2_fst : forall {A B C} (R : A * B -> A * C -> Prop) l l', (forall x y, R x y -> fst y = fst x) -> Forall2 R l l' -> map fst l' = map fst l.
Proof. intros A B C R l l' HR H. induction H; simpl; auto. rewrite IHForall2, (HR _ _ H). auto. Qed.

Lemma kwargs_from : forall p ks a, args_ok p -> agg_stream p = (ks, Ok a) -> kwargs_ok p.
Proof. intros p ks a [H1 [H2 _]] H. apply agg_stream_iff in H. destruct H as [H _]. split; auto. Qed.
Lemma chained_keys : forall p, map fst (flat_map snd (chained p)) = map fst (key_confs p).
Proof. intros p. unfold chained, key_confs. destruct (p_keys p); simpl; rewrite ?app_nil_r; auto. Qed.
Lemma processed_perm : forall p, Permutation (processed p) (flat_map snd (chained p)).
Proof. intros p. apply flat_rev. Qed.
Lemma chained_args : forall p, kwargs_ok p -> args_ok p -> Forall (fun kc => key_args_ok p (snd kc)) (flat_map snd (chained p)).
Proof.
  intros p Hk [_ [_ H]]. unfold chained, key_confs in *. destruct (p_keys p); simpl; rewrite ?app_nil_r; auto.
  constructor; auto. simpl. inversion H; subst. apply single_args; auto.
Qed.
Lemma args_dict : forall p l, Forall (fun kc : ckey * conf => key_args_ok p (snd kc)) l -> Forall (fun kc => dict_ok (snd kc)) l.
Proof. intros p l H. eapply Forall_impl; [|exact H]. intros x [Hd _]. auto. Qed.

(** Every key given is configured, from its own parameters and those of AggStream only, and no other. *)
Theorem C58_configured : forall p ks a, args_ok p -> agg_stream p = (ks, Ok a) ->
  Permutation (map fst (a_keys a)) (map fst (key_confs p)) /\
  forall k own, In (k, own) (key_confs p) -> exists c, In (k, c) (a_keys a) /\ configured p k own c.
Proof.
  intros p ks a Ha H. assert (Hk := kwargs_from _ _ _ Ha H). apply agg_stream_iff in H.
  destruct H as [_ [_ [f [_ [l [cs [Hi [_ [-> _]]]]]]]]]. cbn [a_keys].
  assert (Hd : Forall (fun kc => dict_ok (snd kc)) (processed p)).
  { eapply Forall_perm; [symmetry; apply processed_perm|]. apply args_dict with p. apply chained_args; auto. }
  destruct (init_keys_ok p (processed p) l cs Hk Hd Hi) as [_ [H2 _]].
  split.
  - rewrite (Forall2_fst _ _ _ (fun x y h => proj1 h) H2). rewrite <- chained_keys. apply Permutation_map. apply processed_perm.
  - intros k own Hin. unfold key_confs in Hin.
    assert (Hx : exists own', In (k, own') (processed p) /\ (forall c, configured p k own' c -> configured p k own c)).
    { destruct (p_keys p) as [k0|l0|l0] eqn:Ek.
      - destruct Hin as [E|[]]. injection E as -> <-. exists (union (keys_default p) (single p)). unfold processed, chained. rewrite Ek. simpl. split; auto.
        intros c Hc. apply (same_configured p k (union (keys_default p) (single p))); auto. apply single_same; auto.
      - exists own. unfold processed, chained, unchain. rewrite Ek. simpl. rewrite app_nil_r. auto.
      - exists own. split; auto. apply Permutation_in with (flat_map snd (chained p)); [symmetry; apply processed_perm|].
        unfold chained. rewrite Ek. auto. }
    destruct Hx as [own' [Hin' Hc]]. destruct (Forall2_in _ _ _ _ H2 Hin') as [[k' c] [Hin2 [E2 Hcf]]]. simpl in *. subst k'.
    exists c. auto.
Qed.
Print Assumptions C58_configured.

(** What is given to 'write' for a key. *)
Lemma name_unset : forall p k own seg name, ~ In name WRITE_PARAMS -> written_with p k own seg name = None.
Proof.
  intros p k own seg name H. unfold written_with.
  destruct (String.eqb_spec name "duplicates_on") as [->|N1]; [elim H; simpl; tauto|].
  destruct (String.eqb_spec name "max_row_group_size") as [->|N2]; [elim H; simpl; tauto|].
  fold (mem name WRITE_PARAMS). destruct (mem name WRITE_PARAMS) eqn:E; auto. apply mem_in in E. tauto.
Qed.
(** Results are always written with a column of order and columns for duplicates; column of duplicates is by default the
    column of bins. *)
Theorem C58_duplicates : forall p ks a k own, args_ok p -> agg_stream p = (ks, Ok a) -> In (k, own) (key_confs p) ->
  exists c, In (k, c) (a_keys a) /\
    (exists v, get "duplicates_on" (kc_write c) = Some v /\
       (forall u, effective p own "duplicates_on" = Some u -> u <> PNone -> v = u)) /\
    get "ordered_on" (kc_write c) = effective p own "ordered_on" /\
    (forall name, get name (kc_write c) <> None -> In name WRITE_PARAMS).
Proof.
  intros p ks a k own Ha H Hin. destruct (C58_configured p ks a Ha H) as [_ Hc]. destruct (Hc k own Hin) as [c [Hi Hcf]].
  exists c. split; auto. destruct Hcf as [_ [_ [_ [_ [_ [_ Hw]]]]]].
  split; [|split].
  - rewrite Hw. unfold written_with. cbn [String.eqb Ascii.eqb Bool.eqb].
    destruct (effective p own "duplicates_on") as [u|] eqn:E.
    + destruct u; try (eexists; split; [reflexivity|]; intros u Hu Hn; congruence).
      destruct (effective_given p own "ordered_on") as [v Hv]; [unfold default_of; discriminate|]. rewrite Hv.
      destruct (bins_column own (kc_seg c)) as [|[|]| | | | | |]; eexists; (split; [reflexivity|]); intros u Hu Hn; congruence.
    + destruct (effective_given p own "ordered_on") as [v Hv]; [unfold default_of; discriminate|]. rewrite Hv.
      destruct (bins_column own (kc_seg c)) as [|[|]| | | | | |]; eexists; (split; [reflexivity|]); intros u Hu Hn; congruence.
  - rewrite Hw. reflexivity.
  - intros name Hn. destruct (in_dec string_dec name WRITE_PARAMS) as [|N]; auto. elim Hn. rewrite Hw. apply name_unset; auto.
Qed.
Print Assumptions C58_duplicates.
(** Bins by time, on the column of order of the seed: rows with the same value in this column are duplicates. *)
Theorem C58_time_bins : forall p ks a k own key closed id, args_ok p -> agg_stream p = (ks, Ok a) -> In (k, own) (key_confs p) ->
  p_ordered_on p <> "" -> get "bin_by" own = Some (PGrouper key closed id) ->
  (forall x y, get "bin_on" own <> Some (PPair x y)) -> (effective p own "duplicates_on" = None \/ effective p own "duplicates_on" = Some PNone) ->
  exists c, In (k, c) (a_keys a) /\ kc_bin_on_out c = PName (p_ordered_on p) /\ get "duplicates_on" (kc_write c) = Some (PName (p_ordered_on p)) /\
    cfg_on_cols (kc_seg c) = [Some (p_ordered_on p)].
Proof.
  intros p ks a k own key closed id Ha H Hin Ho Hb Hp Hd. destruct (C58_configured p ks a Ha H) as [_ Hc]. destruct (Hc k own Hin) as [c [Hi Hcf]].
  exists c. split; auto. destruct Hcf as [[by_ [n [E1 [E2 E3]]]] [E4 [_ [_ [_ [_ Hw]]]]]].
  assert (by_ = PGrouper key closed id) as -> by congruence. cbn [bin_kind_of] in E3. apply setup_time in E3. destruct E3 as [col [Ht Es]].
  assert (col = p_ordered_on p) as ->.
  { destruct Ht as [_ [_ [_ [_ [Hm _]]]]]. destruct Hm as [[|Hm]|Hm]; congruence. }
  assert (Eb : bins_column own (kc_seg c) = PName (p_ordered_on p)).
  { unfold bins_column. rewrite Es. cbn [cfg_bin_on]. assert (Et : truthy (Some (p_ordered_on p)) = true) by (apply truthy_set; apply some_set; auto).
    rewrite Et. destruct (get "bin_on" own) as [[| |x y| | | | |]|] eqn:Eg; auto. elim (Hp x y); auto. }
  rewrite E4, Eb. split; auto. rewrite Hw. unfold written_with. cbn [String.eqb Ascii.eqb Bool.eqb]. rewrite Eb, Es. split; auto.
  destruct Hd as [-> | ->]; destruct (p_ordered_on p); auto; congruence.
Qed.
Print Assumptions C58_time_bins.

(** The call of 'write' accepts the parameters, for bins and for snapshots, when none of the names reserved by the store has
    been given. *)
Theorem C58_write_called : forall p ks a k c, args_ok p -> agg_stream p = (ks, Ok a) -> In (k, c) (a_keys a) ->
  (forall own name, In (k, own) (key_confs p) -> In name ["dirpath"; "data"; "md_key"] -> effective p own name = None) ->
  call_write (main_write c) = Ok tt /\ call_write (snap_write c) = Ok tt.
Proof.
  intros p ks a k c Ha H Hin Hres. destruct (C58_configured p ks a Ha H) as [Hp Hc].
  assert (Hnd : NoDup (map fst (key_confs p))).
  { apply agg_stream_iff in H. destruct H as [_ [H _]]. rewrite <- chained_keys. auto. }
  assert (Hk : In k (map fst (key_confs p))). { apply Permutation_in with (map fst (a_keys a)); auto. apply (in_map fst) in Hin. auto. }
  apply in_map_iff in Hk. destruct Hk as [[k' own] [E Hio]]. simpl in E. subst k'.
  destruct (Hc k own Hio) as [c' [Hin' Hcf]].
  assert (c' = c) as ->.
  { assert (Hnd2 : NoDup (map fst (a_keys a))) by (apply Permutation_NoDup with (map fst (key_confs p)); auto; symmetry; auto).
    clear -Hnd2 Hin Hin'. induction (a_keys a) as [|[x y] l IH]; [destruct Hin|]. simpl in Hnd2. inversion Hnd2 as [|? ? N1 N2]; subst.
    destruct Hin as [E|Hin], Hin' as [E'|Hin']; try congruence.
    - injection E as -> ->. elim N1. apply (in_map fst) in Hin'. auto.
    - injection E' as -> ->. elim N1. apply (in_map fst) in Hin. auto.
    - auto. }
  destruct Hcf as [_ [_ [_ [_ [_ [_ Hw]]]]]].
  assert (Hnames : forall name, get name (kc_write c) <> None -> In name WRITE_PARAMS /\ ~ In name ["dirpath"; "data"; "md_key"]).
  { intros name Hn. rewrite Hw in Hn. split.
    - destruct (in_dec string_dec name WRITE_PARAMS) as [|N]; auto. elim Hn. apply name_unset; auto.
    - intros Hr. apply Hn. assert (Hx := Hres own name Hio Hr). unfold written_with.
      destruct Hr as [<-|[<-|[<-|[]]]]; cbn [String.eqb Ascii.eqb Bool.eqb existsb WRITE_PARAMS orb]; auto. }
  assert (Hcall : forall w, (forall name, get name w <> None -> In name WRITE_PARAMS /\ ~ In name ["dirpath"; "data"; "md_key"]) -> call_write w = Ok tt).
  { intros w Hx. unfold call_write.
    destruct (existsb (fun kv => mem (fst kv) ["self"; "key"; "dirpath"; "data"; "md_key"]) w) eqn:E1.
    - exfalso. apply existsb_exists in E1. destruct E1 as [[x v] [Hi E1]]. simpl in E1.
      assert (Hg : get x w <> None) by (apply in_get; apply (in_map fst) in Hi; exact Hi). apply Hx in Hg. destruct Hg as [G1 G2].
      apply (proj1 (mem_in x ["self"; "key"; "dirpath"; "data"; "md_key"])) in E1. destruct E1 as [<-|[<-|[<-|[<-|[<-|[]]]]]].
      + simpl in G1. intuition discriminate.
      + simpl in G1. intuition discriminate.
      + apply G2; simpl; auto.
      + apply G2; simpl; auto.
      + apply G2; simpl; auto.
    - destruct (existsb (fun kv => negb (mem (fst kv) WRITE_PARAMS)) w) eqn:E2; auto.
      assert (E3 : existsb (fun kv => negb (mem (fst kv) WRITE_PARAMS)) w = false) by (apply all_names; intros x Hg; apply Hx; auto). congruence. }
  assert (Hset : forall v, forall name, get name (set "max_row_group_size" v (kc_write c)) <> None -> In name WRITE_PARAMS /\ ~ In name ["dirpath"; "data"; "md_key"]).
  { intros v name Hn. rewrite get_set in Hn. destruct (String.eqb_spec name "max_row_group_size") as [E|N]; auto.
    subst name. split; [simpl; tauto|]. simpl. intuition discriminate. }
  split; apply Hcall; unfold main_write, snap_write; destruct (kc_type c); try exact Hnames;
    destruct (get "max_row_group_size" (kc_write c)) as [[]|]; first [exact Hnames | apply Hset].
Qed.
Print Assumptions C58_write_called.

(** Sizes of row groups of bins and of snapshots; other parameters are the same for both datasets. *)
Theorem C58_sizes : forall p ks a k own, args_ok p -> agg_stream p = (ks, Ok a) -> In (k, own) (key_confs p) ->
  exists c, In (k, c) (a_keys a) /\ forall name,
    let v snaps := if String.eqb name "max_row_group_size" then size_for (results_of k (snapshots p own)) snaps (effective p own name)
      else written_with p k own (kc_seg c) name in
    get name (main_write c) = v false /\ get name (snap_write c) = v true.
Proof.
  intros p ks a k own Ha H Hin. destruct (C58_configured p ks a Ha H) as [_ Hc]. destruct (Hc k own Hin) as [c [Hi Hcf]].
  exists c. split; auto. destruct Hcf as [_ [_ [_ [_ [_ [Ht Hw]]]]]]. intro name. unfold main_write, snap_write.
  assert (Hm := Hw "max_row_group_size"). assert (Hn := Hw name). rewrite Ht in *. clear Hw Ht Hi Hc.
  destruct (String.eqb_spec name "max_row_group_size") as [->|N].
  - cbv zeta. unfold written_with in Hm. cbn [String.eqb Ascii.eqb Bool.eqb] in Hm. rewrite Hm. clear Hn.
    destruct (results_of k (snapshots p own)); cbn [size_for] in *; try (rewrite Hm; auto).
    destruct (effective p own "max_row_group_size") as [[]|]; rewrite !get_set; cbn [String.eqb Ascii.eqb Bool.eqb]; auto.
  - cbv zeta. destruct (results_of k (snapshots p own)); auto. destruct (get "max_row_group_size" (kc_write c)) as [[]|]; auto.
    rewrite !get_set. apply String.eqb_neq in N. rewrite N. auto.
Qed.
Print Assumptions C58_sizes.

(** Filters, and keys of each of them. *)
Theorem C58_filters : forall p ks a, agg_stream p = (ks, Ok a) -> filters_used p a.
Proof.
  intros p ks a H. apply agg_stream_iff in H. destruct H as (_ & _ & f & [Hv Hv'] & l & cs & _ & _ & -> & H). unfold filters_used. cbn [a_filters a_filter_apps].
  destruct (p_keys p) as [k|l0|l0] eqn:Ek.
  - subst f. unfold chained, key_confs. rewrite Ek. auto.
  - subst f. unfold chained, key_confs. rewrite Ek. auto.
  - destruct H as (d & r & Ed & Hr & Hc). unfold chained. rewrite Ek. split; auto.
    assert (G : forall id, match get id d, get id r with Some f, Some f' => groups_of f f' | None, None => True | _, _ => False end).
    { clear - Hr. revert r Hr. induction d as [|[id0 f0] d IH]; intros r Hr id; cbn [enclose_all] in Hr; [injection Hr as <-; exact I|].
      destruct (enclose f0) as [f'|] eqn:Ef; cbn [bind] in Hr; [|discriminate]. destruct (enclose_all d) as [r'|]; cbn [bind] in Hr; [|discriminate]. injection Hr as <-.
      cbn [get]. destruct (String.eqb id id0); [|apply IH; auto]. destruct f0 as [|[|[i|i] l]]; cbn [enclose] in Ef; try discriminate; injection Ef as <-; constructor. }
    destruct (enclose_all_names _ _ Hr) as [_ Hnf]. unfold check_filters in Hc. change NO_FILTER_ID with "_" in Hc.
    destruct (get "_" r) as [v|] eqn:E; [apply get_in in E; destruct v; [elim (Hnf _ E)| |]; discriminate|]. cbn [bind] in Hc.
    set (r1 := if mem "_" (map fst l0) then set "_" NoFilter r else r) in Hc. destruct (same_set (ids r1) (ids l0)); [|discriminate]. injection Hc as <-. split.
    + unfold r1. destruct (mem "_" (map fst l0)) eqn:Em; [apply mem_in in Em; rewrite get_set; cbn; split; auto|].
      rewrite E. split; [|discriminate]. intro Q. apply mem_in in Q. congruence.
    + exists d. split; auto. intros id N. specialize (G id). unfold r1. destruct (mem "_" (map fst l0)); [rewrite get_set; apply String.eqb_neq in N; rewrite N|]; auto.
Qed.
Print Assumptions C58_filters.

Ltac nodup := unfold dict_ok; cbn [map fst]; repeat (constructor; [simpl; intuition discriminate|]); constructor.
Ltac args :=
  split; [nodup|split; [reflexivity|]];
  repeat (apply Forall_cons; [split; [nodup|split; [discriminate|split]];
    [intros v H; first [discriminate H | injection H as <-; eauto] | intros v H; injection H as <-; right; eauto]|]); apply Forall_nil.

(** A configuration for examples: bins of 5 minutes on the column of order of the seed, for two keys, of which one has
    snapshots, its own aggregation and its own size of row groups. *)
Definition ex_params : ConfModel.params :=
  mkParams "ts"
    (Keys [(One 1, [("bin_by", PGrouper (Some "ts") SLeft 5)]);
           (Two 2 3, [("agg", PAgg ["last"] 8); ("bin_by", PCallable 4); ("bin_on", PPair (PName "g") (PName "g_out"));
                      ("snap_by", PGrouper (Some "ts") SLeft 1); ("max_row_group_size", PNum 100); ("max_in_memory_size", PNum 2)])])
    None (PAgg ["sum"; "max"] 7) PNone PNone PNone (PCallable 9) 140 [("max_row_group_size", PNum 50); ("compression", PName "SNAPPY")].
Example ex_params_ok : args_ok ex_params.
Proof.
  args.
Qed.
Example C58_case : exists ks c1 c2,
  agg_stream ex_params = (ks, Ok (mkAggstream [("_", NoFilter)] [("_", [One 1; Two 2 3])] [(One 1, c1); (Two 2 3, c2)])) /\
  kc_type c1 = BINS /\ kc_max c1 = PNum 146800640 /\ kc_agg c1 = PAgg ["sum"; "max"] 7 /\ kc_post c1 = PCallable 9 /\
  kc_write c1 = [("ordered_on", PName "ts"); ("max_row_group_size", PNum 50); ("compression", PName "SNAPPY"); ("duplicates_on", PName "ts")] /\
  kc_type c2 = BOTH /\ kc_max c2 = PNum 2097152 /\ kc_agg c2 = PAgg ["last"] 8 /\ kc_bin_on_out c2 = PName "g_out" /\
  kc_write c2 = [("ordered_on", PName "ts"); ("max_row_group_size", PPair (PNum 100) (PNum 100)); ("compression", PName "SNAPPY");
                 ("duplicates_on", PName "g_out")] /\
  get "max_row_group_size" (snap_write c2) = Some (PNum 100) /\ call_write (main_write c2) = Ok tt.
Proof. eexists _, _, _. split; [vm_compute; reflexivity|]. vm_compute. repeat split. Qed.

(** Sizes of row groups which are not the same for bins and for snapshots; two filters, the first one being a list of conditions. *)
Example C58_sizes_case : exists p ks a c, args_ok p /\ agg_stream p = (ks, Ok a) /\ In (Two 2 3, c) (a_keys a) /\
  get "max_row_group_size" (main_write c) = Some (PNum 100) /\ get "max_row_group_size" (snap_write c) = Some (PNum 30) /\
  a_filters a = [("calls", Enclosed [FTuple 1; FTuple 2]); ("puts", AsIs [FOther 3; FTuple 4]); ("_", NoFilter)] /\
  a_filter_apps a = [("puts", [Two 2 3]); ("_", [One 1]); ("calls", [One 4])].
Proof.
  exists (mkParams "ts" (FilterKeys [("puts", [(Two 2 3, [("bin_by", PGrouper (Some "ts") SLeft 5); ("snap_by", PGrouper (Some "ts") SLeft 1); ("max_row_group_size", PPair (PNum 100) (PNum 30))])]);
      ("_", [(One 1, [("bin_by", PGrouper (Some "ts") SLeft 5)])]); ("calls", [(One 4, [("bin_by", PGrouper (Some "ts") SLeft 5)])])])
    (Some [("calls", FList [FTuple 1; FTuple 2]); ("puts", FList [FOther 3; FTuple 4])]) (PAgg ["sum"] 7) PNone PNone PNone PNone 140 [("max_row_group_size", PNum 50)]).
  eexists _, _, _. split; [args|]. split; [vm_compute; reflexivity|]. split; [right; right; left; reflexivity|]. vm_compute. repeat split.
Qed.

(** Snapshots at given points (a Series or a DatetimeIndex, as documented): only bins are made, whether the key is a single one or a pair. *)
Theorem C58_points : forall p ks a k own v, args_ok p -> agg_stream p = (ks, Ok a) -> In (k, own) (key_confs p) ->
  effective p own "snap_by" = Some v -> (forall key closed id, v <> PGrouper key closed id) ->
  exists c, In (k, c) (a_keys a) /\ kc_type c = BINS.
Proof.
  intros p ks a k own v Ha H Hin Hv Hn. destruct (C58_configured p ks a Ha H) as [_ Hc]. destruct (Hc k own Hin) as [c [Hi Hcf]].
  exists c. split; auto. destruct Hcf as [_ [_ [_ [_ [_ [Ht _]]]]]]. rewrite Ht. unfold snapshots. rewrite Hv.
  destruct v; try reflexivity. edestruct Hn; eauto.
Qed.
Print Assumptions C58_points.
(** So it is false that a pair of keys for which snapshots are asked has both kinds of results. *)
Theorem C58_points_refuted : exists p ks a b s own v c, args_ok p /\ agg_stream p = (ks, Ok a) /\ In (Two b s, own) (key_confs p) /\
  effective p own "snap_by" = Some v /\ v <> PNone /\ In (Two b s, c) (a_keys a) /\ kc_type c = BINS.
Proof.
  exists (mkParams "ts" (Keys [(Two 2 3, [("bin_by", PGrouper (Some "ts") SLeft 5); ("snap_by", PObj 1)])]) None (PAgg ["sum"] 7) PNone PNone PNone PNone 140 []).
  eexists _, _, 2%nat, 3%nat, _, (PObj 1), _. split; [args|]. split; [vm_compute; reflexivity|]. split; [left; reflexivity|]. split; [reflexivity|].
  split; [discriminate|]. split; [left; reflexivity|reflexivity].
Qed.
Print Assumptions C58_points_refuted.

(** Names reserved by the store are accepted as parameters, then every write fails. *)
Theorem C58_reserved_refuted : exists p ks a c, args_ok p /\ agg_stream p = (ks, Ok a) /\ In (One 1, c) (a_keys a) /\
  call_write (main_write c) = Err TypeError.
Proof.
  exists (mkParams "ts" (OneKey (One 1)) None (PAgg ["sum"] 7) (PGrouper (Some "ts") SLeft 5) PNone PNone PNone 140 [("data", PObj 1)]).
  eexists _, _, _. split; [|split; [vm_compute; reflexivity|split; [left; reflexivity|vm_compute; reflexivity]]].
  args.
Qed.
Print Assumptions C58_reserved_refuted.

(** * C59: parameters accepted *)
Theorem C59_accepted : forall p, args_ok p -> ((exists ks a, agg_stream p = (ks, Ok a)) <-> consistent p).
Proof.
  intros p Ha. unfold consistent. split.
  - intros [ks [a H]]. assert (Hk := kwargs_from _ _ _ Ha H). apply agg_stream_iff in H.
    destruct H as [H1 [H2 [f [H3 [l [cs [Hi _]]]]]]]. split; auto. split; auto. rewrite <- chained_keys. split; auto.
    assert (Hd : Forall (fun kc => dict_ok (snd kc)) (processed p)).
    { eapply Forall_perm; [symmetry; apply processed_perm|]. apply args_dict with p. apply chained_args; auto. }
    destruct (init_keys_ok p (processed p) l cs Hk Hd Hi) as [Hv _]. apply (Forall_perm _ _ _ (processed_perm p)) in Hv.
    unfold chained, key_confs in *. destruct (p_keys p); simpl in *; rewrite ?app_nil_r in *; auto.
    inversion Hv; subst. constructor; auto. simpl in *. apply same_valid; auto.
  - intros [H1 [H2 [H3 H4]]].
    assert (Hk : kwargs_ok p). { destruct Ha as [A1 [A2 _]]. split; auto. }
    assert (Hv : Forall (fun kc => valid_key p (snd kc)) (processed p)).
    { eapply Forall_perm; [symmetry; apply processed_perm|].
      unfold chained, key_confs in *. destruct (p_keys p); simpl in *; rewrite ?app_nil_r; auto.
      inversion H4; subst. constructor; auto. simpl in *. apply same_valid; auto. }
    assert (Hg : Forall (fun kc => key_args_ok p (snd kc)) (processed p)).
    { eapply Forall_perm; [symmetry; apply processed_perm|]. apply chained_args; auto. }
    destruct (init_keys_valid p (processed p) Hk Hg Hv) as [l [cs Hi]].
    assert (Hf : exists filters, match p_keys p with
      | FilterKeys l => exists d r, p_filters p = Some d /\ enclose_all d = Ok r /\ check_filters (Some r) l = Ok filters
      | _ => filters = [(NO_FILTER_ID, NoFilter)]
      end).
    { destruct H2 as [F1 F2]. destruct (p_keys p) as [k|l0|l0]; eauto. destruct F2 as [_ [d [Ed Hd]]].
      destruct (proj2 (enclose_all_ok d) (F1 d Ed)) as [r Hr]. destruct (proj2 (check_filters_ok d r l0 Hr) Hd) as [f Hf]. exists f, d, r. auto. }
    destruct Hf as [f Hf].
    eexists _, _. apply agg_stream_iff. split; auto. rewrite chained_keys. split; auto. exists f. split; auto. exists l, cs. auto.
Qed.
Print Assumptions C59_accepted.
Example C59_case : consistent ex_params.
Proof. apply C59_accepted; [apply ex_params_ok|]. destruct C58_case as [ks [c1 [c2 [H _]]]]. eauto. Qed.
(** With filters. *)
Definition ex_filters : ConfModel.params :=
  mkParams "ts"
    (FilterKeys [("_", [(One 1, [("bin_by", PGrouper (Some "ts") SLeft 5)])]); ("calls", [(One 2, [("bin_by", PGrouper None SLeft 5); ("bin_on", PName "ts")])])])
    (Some [("calls", FList [FTuple 1])]) (PAgg ["sum"] 7) PNone PNone PNone PNone 140 [].
Example C59_case_filters : exists ks a, agg_stream ex_filters = (ks, Ok a) /\
  a_filters a = [("calls", Enclosed [FTuple 1]); ("_", NoFilter)] /\ a_filter_apps a = [("_", [One 1]); ("calls", [One 2])].
Proof. eexists _, _. split; [vm_compute; reflexivity|]. vm_compute. split; reflexivity. Qed.

(** Dicts of the user once AggStream has been set: 'bin_by' is lost, and they are refused if used again. *)
Definition with_keys (p : ConfModel.params) (ks : keys_arg) : ConfModel.params :=
  mkParams (p_ordered_on p) ks (p_filters p) (p_agg p) (p_bin_by p) (p_bin_on p) (p_snap_by p) (p_post p) (p_max p) (p_kwargs p).
Lemma rechain_names : forall {A} (m : list (string * list A)) l, map fst (rechain m l) = map fst m.
Proof. intros A m. induction m as [|[f x] m IH]; intros l; simpl; auto. rewrite IH. auto. Qed.
Lemma rechain_flat : forall {A} (m : list (string * list A)) l, length l = length (flat_map snd m) -> flat_map snd (rechain m l) = l.
Proof.
  intros A m. induction m as [|[f x] m IH]; intros l H; simpl in *; [destruct l; auto; discriminate|].
  rewrite app_length in H. rewrite IH; [apply firstn_skipn|]. rewrite skipn_length. lia.
Qed.
Lemma check_filters_names : forall fl (l l' : list (string * list (ckey * conf))), map fst l = map fst l' -> check_filters fl l = check_filters fl l'.
Proof. intros fl l l' H. unfold check_filters, ids. rewrite H. reflexivity. Qed.
Theorem C59_reuse_refuted : forall p ks a, args_ok p -> agg_stream p = (ks, Ok a) -> key_confs p <> [] ->
  match p_keys p with
  | OneKey k => ks = OneKey k
  | _ => exists ks', agg_stream (with_keys p ks) = (ks', Err ValueError)
  end.
Proof.
  intros p ks a Ha H Hne. assert (Hk := kwargs_from _ _ _ Ha H). apply agg_stream_iff in H.
  destruct H as [H1 [H2 [f [H3 [l [cs [Hi [-> [_ Hf]]]]]]]]].
  assert (Hd : Forall (fun kc => dict_ok (snd kc)) (processed p)).
  { eapply Forall_perm; [symmetry; apply processed_perm|]. apply args_dict with p. apply chained_args; auto. }
  destruct (init_keys_ok p (processed p) l cs Hk Hd Hi) as [_ [_ Hl]].
  assert (Hm : map fst l = map fst (processed p)) by (apply (Forall2_fst _ _ _ (fun x y h => proj1 h) Hl)).
  assert (Hbin : forall keys, unchain keys = l -> exists l', init_keys (p_ordered_on p) (keys_default p) (unchain keys) = (l', Err ValueError)).
  { intros keys ->. inversion Hl as [E0 E1|[k own] [k' own'] l1 l2 [E1 E2] Hl2 E3 E4].
    - exfalso. apply Hne. apply map_eq_nil with (f := fst). rewrite <- chained_keys.
      apply Permutation_nil. etransitivity; [|apply Permutation_map; apply processed_perm]. rewrite <- E0. reflexivity.
    - cbn [init_keys]. unfold init_key, pop_params. cbn [snd] in E2. rewrite E2. eauto. }
  assert (Hnd : forall keys, unchain keys = l -> has_dupes (flat_map (fun f => map fst (snd f)) keys) = false).
  { intros keys E. apply has_dupes_iff. rewrite flat_fst. apply Permutation_NoDup with (map fst (flat_map snd (chained p))); auto.
    etransitivity; [symmetry; apply Permutation_map; apply processed_perm|]. rewrite <- Hm, <- E. apply Permutation_map. apply flat_rev. }
  unfold back. destruct (p_keys p) as [k|l0|l0] eqn:Ek; auto.
  - assert (El : unchain [(NO_FILTER_ID, l)] = l) by (unfold unchain; simpl; apply app_nil_r).
    destruct (Hbin _ El) as [l' Hl'].
    unfold agg_stream, with_keys. cbn [p_kwargs p_keys p_filters p_ordered_on p_bin_by p_bin_on].
    rewrite (proj2 (all_names (p_kwargs p) WRITE_PARAMS) H1).
    destruct H3 as [F1 F2].
    assert (Hen : exists r, match p_filters p with None => Ok None | Some d => bind (enclose_all d) (fun d => Ok (Some d)) end = Ok r).
    { destruct (p_filters p) as [d|]; eauto. destruct (proj2 (enclose_all_ok d) (F1 d eq_refl)) as [r ->]. cbn [bind]. eauto. }
    destruct Hen as [r ->].
    assert (Hl0 : exists x l1, l = x :: l1).
    { destruct l as [|x l1]; eauto. exfalso. unfold unchain in Hl'. simpl in Hl'. discriminate. }
    destruct Hl0 as [x [l1 ->]]. assert (Hnd2 := Hnd _ El); unfold conf in *; rewrite Hnd2.
    change (keys_default _) with (keys_default p).
    rewrite Hl'. cbn [bind]. eauto.
  - set (keys2 := rev (rechain (rev (chained p)) l)).
    assert (El : unchain keys2 = l).
    { unfold unchain, keys2. rewrite rev_involutive. apply rechain_flat. apply (f_equal (@length ckey)) in Hm. rewrite !map_length in Hm. exact Hm. }
    assert (En : map fst keys2 = map fst l0).
    { unfold keys2. rewrite map_rev, rechain_names, map_rev, rev_involutive. unfold chained. rewrite Ek. reflexivity. }
    destruct (Hbin _ El) as [l' Hl'].
    unfold agg_stream, with_keys. cbn [p_kwargs p_keys p_filters p_ordered_on p_bin_by p_bin_on].
    rewrite (proj2 (all_names (p_kwargs p) WRITE_PARAMS) H1).
    destruct Hf as [d [r [Ed [Er Ec]]]]. rewrite Ed, Er. cbn [bind].
    assert (Hne2 : exists x l1, keys2 = x :: l1).
    { destruct keys2 as [|x l1]; eauto. destruct H3 as [_ F2]. rewrite Ek in F2. destruct F2 as [F2 _]. destruct l0; [elim F2; auto|discriminate]. }
    destruct Hne2 as [x [l1 Ek2]]. rewrite Ek2. rewrite <- Ek2.
    rewrite (check_filters_names (Some r) keys2 l0 En), Ec. cbn [bind].
    assert (Hnd2 := Hnd _ El); unfold conf in *; rewrite Hnd2. change (keys_default _) with (keys_default p).
    rewrite Hl'. cbn [bind]. eauto.
Qed.
Print Assumptions C59_reuse_refuted.

(** Two keys may name the same dataset: this is not seen when one of them is in a tuple. *)
Theorem C59_same_dataset_refuted : exists p ks a, args_ok p /\ agg_stream p = (ks, Ok a) /\
  map fst (a_keys a) = [One 1; Two 1 2].
Proof.
  exists (mkParams "ts" (Keys [(One 1, [("bin_by", PGrouper (Some "ts") SLeft 5)]);
                               (Two 1 2, [("bin_by", PGrouper (Some "ts") SLeft 5); ("snap_by", PGrouper None SLeft 1)])])
            None (PAgg ["sum"] 7) PNone PNone PNone PNone 140 []).
  eexists _, _. split; [|split; vm_compute; reflexivity].
  args.
Qed.
Print Assumptions C59_same_dataset_refuted.
(** The entry without filter cannot be given in 'filters', not even with None. *)
Theorem C59_no_filter_entry_refuted : forall p d, p_filters p = Some d -> In ("_", FNone) d ->
  forall ks a, agg_stream p <> (ks, Ok a).
Proof.
  intros p d Hd Hi ks a H. apply agg_stream_iff in H. destruct H as [_ [_ [f [[Hv _] _]]]].
  destruct (Hv d Hd "_" FNone Hi) as [x [l E]]. discriminate.
Qed.
Print Assumptions C59_no_filter_entry_refuted.
