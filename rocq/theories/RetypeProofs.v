(** Proofs about keys with values which are not of the declared types. *)
Require Import List Arith ZArith Bool Lia.
Require Import Verif.Common Verif.IdxModel Verif.IdxSpec Verif.IdxProofs Verif.IdxStrProofs Verif.RetypeSpec.
Import ListNotations.

Lemma leaf_value_nodc : forall vs, Forall leaf_value vs -> Forall (fun v => is_dc v = false) vs.
Proof. intros vs H. eapply Forall_impl; [|exact H]. intros [| | |]; simpl; auto; contradiction. Qed.

(** Such values are those of a key of another class. *)
Definition type_of (v : value) : ftype := match v with VInt _ => TInt | _ => TStr end.
Lemma leaf_own_type : forall vs, Forall leaf_value vs -> Forall2 leaf_typed (map type_of vs) vs.
Proof. intros vs H. induction H as [|v vs Hv H IH]; simpl; constructor; auto. destruct v; simpl in *; try contradiction; constructor. Qed.

Lemma shaped_key : forall fs vs, shaped fs vs -> exists fs', key_of fs' vs.
Proof.
  intros fs vs H. induction H as [fs vs Hne Hl Hv L|fs vs sub subvs Hne Hl Hv L H (sub' & IH)].
  - exists (map type_of vs). apply KLeaf; [destruct vs; [destruct fs; [congruence|discriminate]|discriminate]|apply leaf_own_type; auto].
  - exists (map type_of vs ++ [TDC sub']). apply KNest; auto; [destruct vs; [destruct fs; [congruence|discriminate]|discriminate]|apply leaf_own_type; auto].
Qed.

Lemma shaped_length : forall fs vs, shaped fs vs -> length vs = length fs.
Proof. intros fs vs H. destruct H; rewrite ?app_length; simpl; lia. Qed.
Lemma shaped_schema : forall fs vs, shaped fs vs -> schema fs.
Proof. intros fs vs H. induction H; [apply SLeaf|apply SNest]; auto. Qed.

(** * Reading of one value, and of fields *)
Lemma convert_reads : forall t v w, is_leaf_type t -> leaf_value v -> (convert t (value_str v) = Ok w <-> read_as t v w).
Proof.
  intros t v w Ht Hv. destruct Ht as [->| ->]; destruct v; simpl in Hv; try contradiction; simpl.
  - rewrite parse_int_str. split; [intro H; injection H as <-; constructor|intro H; inversion H; auto].
  - destruct (parse_int s) as [z|] eqn:E.
    + split; [intro H; injection H as <-; constructor; auto|intro H; inversion H; congruence].
    + split; [discriminate|intro H; inversion H; congruence].
  - split; [intro H; injection H as <-; constructor|intro H; inversion H; auto].
  - split; [intro H; injection H as <-; constructor|intro H; inversion H; auto].
Qed.

Lemma convert_zip_reads : forall fs vs, Forall is_leaf_type fs -> Forall leaf_value vs -> length vs = length fs ->
  forall ws, convert_zip fs (map value_str vs) = Ok ws <-> reads_fields fs vs ws.
Proof.
  intros fs. induction fs as [|t fs IH]; intros [|v vs] Hl Hv L ws; try discriminate; simpl.
  - split; [intro H; injection H as <-; constructor|intro H; inversion H; auto].
  - inversion Hl; subst. inversion Hv; subst. injection L as L.
    pose proof (fun w => convert_reads t v w H1 H3) as A. destruct (convert t (value_str v)) as [w|] eqn:E; cbn [bind].
    + pose proof (IH vs H2 H4 L) as B. destruct (convert_zip fs (map value_str vs)) as [ws'|] eqn:E'; cbn [bind].
      * split; [intro Q; injection Q as <-; constructor; [apply A; auto|apply B; auto]|].
        intro Q. inversion Q as [|t0 v0 w0 fs0 vs0 ws0 R1 R2]; subst. apply A in R1. apply B in R2. injection R1 as ->. injection R2 as ->. auto.
      * split; [discriminate|]. intro Q. inversion Q as [|t0 v0 w0 fs0 vs0 ws0 R1 R2]; subst. apply B in R2. discriminate.
    + split; [discriminate|]. intro Q. inversion Q as [|t0 v0 w0 fs0 vs0 ws0 R1 R2]; subst. apply A in R1. discriminate.
Qed.

Lemma reads_fields_length : forall fs vs ws, reads_fields fs vs ws -> length ws = length fs.
Proof. intros fs vs ws H. induction H; simpl; auto. Qed.
Lemma reads_length : forall fs vs ws, reads fs vs ws -> length ws = length fs.
Proof. intros fs vs ws H. destruct H; rewrite ?app_length; simpl; erewrite reads_fields_length by eauto; auto. Qed.

Lemma read_as_leaf : forall t v w, read_as t v w -> leaf_typed t w.
Proof. intros t v w H. destruct H; constructor. Qed.
Lemma reads_fields_typed : forall fs vs ws, reads_fields fs vs ws -> Forall2 leaf_typed fs ws.
Proof. intros fs vs ws H. induction H; constructor; eauto using read_as_leaf. Qed.
Lemma reads_key : forall fs vs ws, reads fs vs ws -> key_of fs ws.
Proof. intros fs vs ws H. induction H; [apply KLeaf|apply KNest]; eauto using reads_fields_typed. Qed.

Lemma reads_fields_self : forall fs vs, Forall2 leaf_typed fs vs -> reads_fields fs vs vs.
Proof. intros fs vs H. induction H as [|t v fs vs H]; constructor; auto. destruct H; constructor. Qed.
Lemma key_reads_self : forall fs vs, key_of fs vs -> reads fs vs vs.
Proof. intros fs vs H. induction H; [apply RdLeaf|apply RdNest]; auto using reads_fields_self. Qed.

Lemma read_as_det : forall t v w w', read_as t v w -> read_as t v w' -> w = w'.
Proof. intros t v w w' H H'. destruct H; inversion H'; subst; congruence. Qed.
Lemma reads_fields_det : forall fs vs ws ws', reads_fields fs vs ws -> reads_fields fs vs ws' -> ws = ws'.
Proof. intros fs vs ws ws' H. revert ws'. induction H; intros ws' H'; inversion H'; subst; auto. f_equal; eauto using read_as_det. Qed.
Lemma reads_fields_types : forall fs vs ws, reads_fields fs vs ws -> Forall is_leaf_type fs.
Proof. intros. eapply leaf_typed_types, reads_fields_typed; eauto. Qed.
Lemma reads_det : forall fs vs ws, reads fs vs ws -> forall ws', reads fs vs ws' -> ws = ws'.
Proof.
  intros fs vs ws H. induction H as [fs vs ws Hne H|fs vs ws sub subvs subws Hne H Hs IH]; intros ws' H'.
  - inversion H'; subst; [eauto using reads_fields_det|]. apply reads_fields_types in H. exfalso; eapply types_dc; eauto.
  - inversion H'; subst.
    + apply reads_fields_types in H1. exfalso; eapply types_dc; eauto.
    + apply app_inj_tail in H0 as [-> E]. injection E as ->. apply app_inj_tail in H1 as [-> E]. injection E as ->.
      assert (ws = ws0) as -> by eauto using reads_fields_det. assert (subws = subws0) as -> by eauto. auto.
Qed.

(** * Reading of a key *)
Lemma from_start_shaped : forall fs vs, shaped fs vs -> forall ts, all_fields vs ts -> forall ups pre,
  (exists lv ws, leafs vs lv /\ lv <> [] /\ reads fs vs ws /\
    from_start (rev (sub_lists (TDC fs)) ++ ups) (pre ++ ts) = from_loop ups (pre ++ map value_str lv) (length lv) ws)
  \/ ((forall ws, ~ reads fs vs ws) /\ exists e, from_start (rev (sub_lists (TDC fs)) ++ ups) (pre ++ ts) = Err e).
Proof.
  intros fs vs H. induction H as [fs vs Hne Hl Hv L|fs vs sub subvs Hne Hl Hv L H IH]; intros ts Ht ups pre.
  - pose proof (leaf_value_nodc _ Hv) as Hdc.
    assert (Hvs : vs <> []) by (destruct vs; [destruct fs; [congruence|discriminate]|discriminate]).
    assert (ts = map value_str vs) as -> by (inversion Ht; subst; auto; exfalso; eapply nodc_dc; eauto).
    rewrite sub_lists_leaf by auto. simpl app. unfold from_start.
    rewrite last_n_app; [|rewrite map_length; auto|destruct vs; simpl; congruence].
    pose proof (convert_zip_reads fs vs Hl Hv L) as C. destruct (convert_zip fs (map value_str vs)) as [ws|e] eqn:E; cbn [bind].
    + left. exists vs, ws. split; [constructor; auto|]. split; auto. split; [apply RdLeaf; auto; apply C; auto|]. rewrite L. auto.
    + right. split; [|eauto]. intros ws Q. inversion Q; subst; [apply C in H0; discriminate|]. eapply types_dc; eauto.
  - pose proof (leaf_value_nodc _ Hv) as Hdc.
    assert (Hvs : vs <> []) by (destruct vs; [destruct fs; [congruence|discriminate]|discriminate]).
    assert (exists ts', ts = map value_str vs ++ ts' /\ all_fields subvs ts') as (ts' & -> & Ht').
    { inversion Ht; subst; [exfalso; eapply nodc_dc; eauto|]. apply app_inj_tail in H0 as [-> E]. injection E as ->. eauto. }
    assert (Inv : forall ws, reads (fs ++ [TDC sub]) (vs ++ [VDC subvs]) ws ->
                  exists ws1 ws2, ws = ws1 ++ [VDC ws2] /\ reads_fields fs vs ws1 /\ reads sub subvs ws2).
    { intros ws Q. inversion Q; subst; [apply reads_fields_types in H1; exfalso; eapply types_dc; eauto|].
      apply app_inj_tail in H0 as [-> E]. injection E as ->. apply app_inj_tail in H1 as [-> E]. injection E as ->. eauto. }
    rewrite sub_lists_nest. cbn [rev]. rewrite <- app_assoc. cbn [app].
    destruct (IH ts' Ht' ((fs ++ [TDC sub]) :: ups) (pre ++ map value_str vs)) as [(lv & ws & L1 & L2 & R & E)|(N & e & E)].
    + rewrite <- app_assoc in E. rewrite E.
      cbn [from_loop]. rewrite but_last_n_app; [|rewrite map_length; auto|destruct lv; simpl; congruence].
      rewrite removelast_last, last_last, app_length. simpl length. replace (length fs + 1 - 1) with (length fs) by lia.
      rewrite last_n_app; [|rewrite map_length; auto|destruct vs; simpl; congruence].
      pose proof (convert_zip_reads fs vs Hl Hv L) as C. destruct (convert_zip fs (map value_str vs)) as [ws1|e] eqn:E1; cbn [bind].
      * left. exists vs, (ws1 ++ [VDC ws]). split; [constructor|]. split; auto.
        split; [apply RdNest; auto; apply C; auto|]. cbn [instantiate]. unfold construct. rewrite (reads_length _ _ _ R), Nat.eqb_refl. cbn [bind].
        rewrite L. auto.
      * right. split; [|eauto]. intros ws' Q. apply Inv in Q as (ws1 & ws2 & -> & Q & _). apply C in Q. discriminate.
    + right. rewrite <- app_assoc in E. split; [|eauto]. intros ws' Q. apply Inv in Q as (ws1 & ws2 & -> & _ & Q). eapply N; eauto.
Qed.

Lemma from_str_shaped : forall c vs ts s, plain_sep (c_sep c) = true -> shaped (c_fields c) vs -> all_fields vs ts ->
  split (sep_char c) s = ts ->
  forall k, from_str c s = Some k <-> exists ws, k = VDC ws /\ reads (c_fields c) vs ws.
Proof.
  intros c vs ts s Hp Hk Ht Hs k. rewrite from_str_start. unfold type_lists.
  rewrite (split_ext _ (sep_char c)) by (intro x; rewrite plain_matches by auto; reflexivity). rewrite Hs.
  pose proof (from_start_shaped _ _ Hk ts Ht [] []) as D. rewrite app_nil_r in D. cbn [app] in D.
  destruct D as [(lv & ws & _ & _ & R & E)|(N & e & E)]; rewrite E; cbn [from_loop bind].
  - unfold make_key, construct. rewrite (reads_length _ _ _ R), Nat.eqb_refl. cbn [bind]. split.
    + intro Q. injection Q as <-. eauto.
    + intros (ws' & -> & R'). rewrite (reads_det _ _ _ R _ R'). auto.
  - split; [discriminate|]. intros (ws & _ & R). exfalso. eapply N; eauto.
Qed.

Lemma tokens_short_shaped : forall fs vs, shaped fs vs -> forall ts, tokens vs ts -> empty_then_one vs -> forall k t, count fs k t -> length ts < t.
Proof.
  intros fs vs H. induction H as [fs vs Hne Hl Hv L|fs vs sub subvs Hne Hl Hv L H IH]; intros ts Ht Hd k t Hc.
  - pose proof (leaf_value_nodc _ Hv) as Hdc.
    assert (t = length fs) as -> by (inversion Hc; subst; auto; exfalso; eapply types_dc; eauto).
    inversion Hd; subst; [|exfalso; eapply nodc_dc; eauto].
    apply tokens_leaf_inv in Ht; auto. assert (Hx : drops [VStr []; x] = true) by (simpl; rewrite H; auto). rewrite Hx in Ht. subst ts.
    rewrite <- L. simpl. lia.
  - apply tokens_nest_inv in Ht as (ts' & -> & Ht').
    assert (exists k' t', count sub k' t' /\ t = length fs + t') as (k' & t' & Hc' & ->).
    { inversion Hc; subst; [exfalso; eapply types_dc; eauto|]. apply app_inj_tail in H0 as [-> E]. injection E as ->. eauto. }
    assert (He : empty_then_one subvs).
    { inversion Hd; subst.
      - destruct vs as [|v [|w vs]]; simpl in H0; try discriminate; injection H0 as Q1 Q2; [subst x; discriminate|destruct vs; discriminate].
      - apply app_inj_tail in H0 as [-> E]. injection E as ->. auto. }
    rewrite app_length, map_length. specialize (IH ts' Ht' He k' t' Hc'). lia.
Qed.

(** Strings of a key which is accepted. *)
Lemma shaped_strings : forall c vs b, shaped (c_fields c) vs -> validate c (VDC vs) = Ok tt ->
  exists s ts, to_str c (VDC vs) b = Ok s /\ tokens vs ts /\ split (sep_char c) s = ts /\ (~ empty_then_one vs -> all_fields vs ts).
Proof.
  intros c vs b Hk V. destruct (shaped_key _ _ Hk) as (fs' & K). pose proof (valid_clean c fs' vs K V) as Hc.
  destruct (split_to_str c fs' vs K Hc b) as (s & ts & E1 & E2 & E3 & E4 & E5). exists s, ts. split; auto. split; auto. split; auto.
  intro Hd. eapply tokens_fields; eauto.
Qed.

(** What the constructor accepts, with as many fields and levels as the class. *)
Lemma shaped_read_none : forall c vs s, plain_sep (c_sep c) = true -> shaped (c_fields c) vs -> empty_then_one vs ->
  (exists ts, tokens vs ts /\ split (sep_char c) s = ts) -> from_str c s = None.
Proof.
  intros c vs s Hp Hk Hd (ts & Ht & E). destruct (from_str c s) as [k|] eqn:F; auto. exfalso.
  pose proof (shaped_schema _ _ Hk) as Hs.
  destruct (from_str_inv (fun _ => True) c s k Hs (fun _ _ => I) F) as (ws & _ & _ & _ & Hl).
  destruct (schema_count _ Hs) as (n & t & Hcnt). specialize (Hl n t Hcnt).
  rewrite (split_ext _ (sep_char c)) in Hl by (intro x; rewrite plain_matches by auto; reflexivity). rewrite E in Hl.
  pose proof (tokens_short_shaped _ _ Hk ts Ht Hd _ _ Hcnt). lia.
Qed.
