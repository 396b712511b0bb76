(** Proofs about 'cumsegagg': loop over dtypes and table of results, for given chunks. *)
Require Import List Arith ZArith Bool Lia Sorted Permutation.
Require Import Verif.Common Verif.AggModel Verif.AggSpec Verif.AggProofs.
Require Import Verif.SegModel Verif.SegSpec Verif.SegProofs Verif.MergeProofs Verif.EventProofs.
Require Import Verif.CsaModel Verif.CsaSpec Verif.CsaProofs.
Import ListNotations.
Local Open Scope nat_scope.

(** * jcsagg *)
Definition sev_rows {R} (e : sev R) : list R := match e with EBin r => r | ESnap r => r end.

Lemma spec_last_events : forall R (ts : list (token R)) la acc,
  spec_last la acc ts = fold_left (fun la e => match sev_rows e with [] => la | r => r end) (spec_events acc ts) la.
Proof.
  induction ts as [|[r| |] ts IH]; intros la acc; simpl; auto.
  - rewrite IH. destruct acc; auto.
  - rewrite IH. destruct acc; auto.
Qed.

(** Rows of the last chunk (bin or snapshot) that has rows. *)
Definition lastne {R} (la : list R) (l : list (sev R)) : list R :=
  fold_left (fun la e => match sev_rows e with [] => la | r => r end) l la.

Section J.
Context {V : Type} (N : num V).

Lemma kinds_fst : forall l idx p, map fst (kinds idx p l) = l.
Proof.
  induction l as [|x l IH]; intros idx p; simpl; auto. destruct (is_update idx p). simpl. rewrite IH. auto.
Qed.

Lemma bins_snaps_of : forall cells sevs evs, Forall2 (event_ok N cells) sevs evs ->
  Forall2 (result_ok N cells) (ebins sevs) (bins_of evs) /\
  Forall2 (result_ok N cells) (esnaps sevs) (snaps_of evs).
Proof.
  intros cells sevs evs H. induction H as [|e j sevs evs He H [I1 I2]]; simpl; [split; constructor|].
  destruct e, j; simpl in *; try contradiction; split; auto.
Qed.

Lemma null_indices : forall cells rows os k, Forall2 (result_ok N cells) rows os ->
  nonzero_from k is_none os = nonzero_from k is_nil rows.
Proof.
  intros cells rows os k H. revert k. induction H as [|r o rows os Ho H IH]; intros k; simpl; auto.
  destruct o as [x|]; simpl in *.
  - destruct Ho as [Hr _]. destruct r; [congruence|]. simpl. auto.
  - subst r. simpl. f_equal. auto.
Qed.

Lemma fill_ok : forall cells ncols rows os, Forall2 (result_ok N cells) rows os ->
  Forall2 (fun r o => r <> [] -> aggregates N cells r o) rows (fill N ncols os).
Proof.
  intros cells ncols rows os H. induction H as [|r o rows os Ho H IH]; simpl; constructor; auto.
  destruct o; simpl in *; [tauto|congruence].
Qed.

Lemma nonzero_length : forall {A} (p : A -> bool) l k, length (nonzero_from k p l) = length (filter p l).
Proof. induction l as [|x l IH]; intros k; simpl; auto. destruct (p x); simpl; auto. Qed.

Lemma Forall2_length_ : forall {A B} (P : A -> B -> Prop) l m, Forall2 P l m -> length l = length m.
Proof. intros A B P l m H. induction H; simpl; auto. Qed.

Lemma jcsagg_spec : forall data aggs starts bi preserve chunk0 ncols n_bins n_snaps nb ns acc evs,
  wf_aggs ncols aggs -> length chunk0 = ncols ->
  (preserve = true -> acc <> [] /\ aggregates N (cells_of aggs) acc chunk0) ->
  (preserve = false -> acc = []) ->
  nondecr 0 starts -> (forall p, In p starts -> p <= length data) ->
  kinds 0 (if n_snaps =? 0 then SnapsOff else SnapsOn bi (last bi 0)) starts = evs ->
  let sevs := ev_rows data acc 0 evs in
  n_bins = length (ebins sevs) -> n_snaps = length (esnaps sevs) ->
  length (filter is_nil (ebins sevs)) <= nb -> length (filter is_nil (esnaps sevs)) <= ns ->
  exists o, jcsagg N data aggs starts bi preserve chunk0 ncols n_bins n_snaps nb ns = Ok o
    /\ length (o_chunk_res o) = ncols
    /\ Forall2 (fun r x => r <> [] -> aggregates N (cells_of aggs) r x) (ebins sevs) (o_bin_res o)
    /\ Forall2 (fun r x => r <> [] -> aggregates N (cells_of aggs) r x) (esnaps sevs) (o_snap_res o)
    /\ o_null_bins o = nonzero_from 0 is_nil (ebins sevs)
    /\ o_null_snaps o = nonzero_from 0 is_nil (esnaps sevs)
    /\ (lastne acc sevs <> [] -> aggregates N (cells_of aggs) (lastne acc sevs) (o_chunk_res o)).
Proof.
  intros data aggs starts bi preserve chunk0 ncols n_bins n_snaps nb ns acc evs Hwf Hlen Hp Hnp Hnd Hle Hk sevs Hb Hs Hnb Hns.
  unfold jcsagg. set (p := if n_snaps =? 0 then SnapsOff else SnapsOn bi (last bi 0)) in *.
  set (s0 := mkJ (if preserve then None else Some 0) 0 preserve chunk0).
  pose proof (jrun_spec N data aggs ncols starts 0 p s0 acc acc Hwf) as J. cbv zeta in J.
  destruct (jrun N data aggs 0 p starts s0) as [je cr].
  change (chunk_start s0) with 0 in J. rewrite Hk in J.
  rewrite spec_last_events in J.
  assert (E : spec_events acc (timeline data 0 evs) = sevs).
  { apply spec_events_ev_rows0. rewrite <- Hk, kinds_fst; auto. }
  rewrite E in J.
  destruct J as (J1 & J2 & J3); auto.
  { unfold rep, s0; simpl. split; auto. split; auto. split; [|intros Q; rewrite Q; auto].
    intros Q. rewrite Q. split; auto. }
  { intros Hne. unfold s0; simpl. destruct preserve; [apply Hp; auto|]. rewrite Hnp in Hne by auto. congruence. }
  destruct (bins_snaps_of _ _ _ J1) as [B S].
  assert (LB : length (bins_of je) = n_bins) by (rewrite <- (Forall2_length_ _ _ _ B); auto).
  assert (LS : length (snaps_of je) = n_snaps) by (rewrite <- (Forall2_length_ _ _ _ S); auto).
  rewrite LB, LS, !Nat.leb_refl. rewrite !(null_indices _ _ _ 0 B), !(null_indices _ _ _ 0 S), !nonzero_length.
  rewrite (proj2 (Nat.leb_le _ _) Hnb), (proj2 (Nat.leb_le _ _) Hns). simpl andb. cbv iota.
  rewrite !Nat.sub_diag. simpl repeat. rewrite !app_nil_r.
  eexists. split; [reflexivity|]. simpl. split; auto. split; [apply fill_ok; auto|]. split; [apply fill_ok; auto|].
  split; auto.
Qed.
End J.

(** * Rows as records *)
Definition sev_map {A B} (g : A -> B) (e : sev A) : sev B :=
  match e with EBin r => EBin (map g r) | ESnap r => ESnap (map g r) end.

Lemma ev_rows_sev_map : forall {A B} (g : A -> B) data evs acc bs,
  ev_rows (map g data) (map g acc) bs evs = map (sev_map g) (ev_rows data acc bs evs).
Proof.
  intros A B g data. induction evs as [|[p isb] evs IH]; intros acc bs; simpl; auto.
  assert (E : map g acc ++ slice bs p (map g data) = map g (acc ++ slice bs p data)).
  { rewrite map_app. unfold slice. f_equal. rewrite <- firstn_map, <- skipn_map. auto. }
  destruct isb; simpl; rewrite E; f_equal.
  - apply (IH []).
  - apply IH.
Qed.

Lemma lastne_map : forall {A B} (g : A -> B) l la, lastne (map g la) (map (sev_map g) l) = map g (lastne la l).
Proof.
  intros A B g. unfold lastne. induction l as [|e l IH]; intros la; simpl; auto.
  rewrite <- IH. f_equal. destruct e as [r|r]; destruct r; auto.
Qed.

Lemma ev_rows_map : forall {A B} (g : A -> B) data acc bs evs,
  ebins (ev_rows (map g data) (map g acc) bs evs) = map (map g) (ebins (ev_rows data acc bs evs)) /\
  esnaps (ev_rows (map g data) (map g acc) bs evs) = map (map g) (esnaps (ev_rows data acc bs evs)).
Proof.
  intros A B g data acc bs evs. revert acc bs.
  induction evs as [|[p isb] evs IH]; intros acc bs; simpl; auto.
  assert (E : map g acc ++ slice bs p (map g data) = map g (acc ++ slice bs p data)).
  { rewrite map_app. unfold slice. f_equal. rewrite <- firstn_map, <- skipn_map. auto. }
  destruct isb; simpl.
  - destruct (IH [] p) as [I1 I2]. simpl in *. rewrite E, I1, I2. auto.
  - destruct (IH acc bs) as [I1 I2]. rewrite E, I1, I2. auto.
Qed.

Lemma nth_error_nth_ : forall {A} (l : list A) k x d, nth_error l k = Some x -> nth k l d = x.
Proof. intros. apply nth_error_nth; auto. Qed.

Lemma items_of_In : forall agg dtypes d o n f, In (o, (n, f)) (items_of agg dtypes d) <->
  In (o, (n, Some f)) agg /\ dict_get Nat.eqb n dtypes = Some d.
Proof.
  intros agg dtypes d o n f. unfold items_of. rewrite in_flat_map. split.
  - intros ([o' [n' [f'|]]] & Hin & H); [|contradiction].
    destruct (dict_get Nat.eqb n' dtypes) as [d'|] eqn:E; [|contradiction].
    destruct (dtype_eqb d d') eqn:E2; [|contradiction]. apply dtype_eqb_eq in E2. subst d'.
    destruct H as [Q|[]]. injection Q as <- <- <-. auto.
  - intros [Hin Hd]. exists (o, (n, Some f)). split; auto. rewrite Hd.
    rewrite (proj2 (dtype_eqb_eq d d) eq_refl). left; auto.
Qed.

Lemma NoDup_app_intro : forall {A} (l m : list A), NoDup l -> NoDup m -> (forall x, In x l -> ~ In x m) -> NoDup (l ++ m).
Proof.
  induction l as [|x l IH]; intros m H1 H2 H3; simpl; auto. inversion H1; subst. constructor.
  - rewrite in_app_iff. intros [Q|Q]; [auto|]. apply (H3 x); auto. left; auto.
  - apply IH; auto. intros y Hy. apply H3. right; auto.
Qed.

Lemma NoDup_fst_eq : forall {A B} (l : list (A * B)) a b b', NoDup (map fst l) -> In (a, b) l -> In (a, b') l -> b = b'.
Proof.
  induction l as [|[x y] l IH]; intros a b b' Hn H1 H2; [contradiction|]. simpl in Hn. inversion Hn; subst.
  destruct H1 as [Q1|H1], H2 as [Q2|H2].
  - congruence.
  - injection Q1 as -> ->. destruct H3. apply in_map_iff. exists (a, b'). auto.
  - injection Q2 as -> ->. destruct H3. apply in_map_iff. exists (a, b). auto.
  - eauto.
Qed.

Lemma items_NoDup : forall agg dtypes d, NoDup (map fst agg) -> NoDup (map fst (items_of agg dtypes d)).
Proof.
  induction agg as [|[o [n f]] agg IH]; intros dtypes d H; simpl; [constructor|].
  simpl in H. inversion H; subst. rewrite map_app. apply NoDup_app_intro; auto.
  - destruct f as [f|]; [|constructor]. destruct (dict_get Nat.eqb n dtypes) as [d'|]; [|constructor].
    destruct (dtype_eqb d d'); simpl; constructor; auto. constructor.
  - intros x Hx Hx'. assert (x = o).
    { destruct f as [f|]; [|contradiction]. destruct (dict_get Nat.eqb n dtypes) as [d'|]; [|contradiction].
      destruct (dtype_eqb d d'); [|contradiction]. destruct Hx as [Hx|[]]. auto. }
    subst x. apply in_map_iff in Hx' as ([o' [n' f']] & Q & Hin). simpl in Q. subst o'.
    apply items_of_In in Hin as [Hin _]. apply H2. apply in_map_iff. eexists; split; [|exact Hin]. auto.
Qed.

Lemma cfg_outs_perm : forall agg dtypes cfg, cfg_ok agg dtypes cfg -> agg_valid agg dtypes -> NoDup (map fst agg) ->
  NoDup (flat_map (fun dc => ac_out (snd dc)) cfg) /\
  Permutation (flat_map (fun dc => ac_out (snd dc)) cfg) (map fst agg).
Proof.
  intros agg dtypes cfg H Hv Hn.
  assert (ND : NoDup (flat_map (fun dc => ac_out (snd dc)) cfg)).
  { pose proof (co_nodup _ _ _ H) as Hk. pose proof (co_out _ _ _ H) as Ho. clear H.
    induction cfg as [|[d c] cfg IH]; simpl; [constructor|]. simpl in Hk. inversion Hk; subst.
    apply NoDup_app_intro.
    - destruct (Ho d c (or_introl eq_refl)) as [-> _]. apply items_NoDup; auto.
    - apply IH; auto. intros d' c' Hin. apply Ho. right; auto.
    - intros x Hx Hx'. destruct (Ho d c (or_introl eq_refl)) as [E _]. rewrite E in Hx.
      apply in_flat_map in Hx' as ([d' c'] & Hin & Hx'). simpl in Hx'.
      destruct (Ho d' c' (or_intror Hin)) as [E' _]. rewrite E' in Hx'.
      apply in_map_iff in Hx as ([o [n f]] & Q & Hi). simpl in Q. subst o.
      apply in_map_iff in Hx' as ([o [n' f']] & Q & Hi'). simpl in Q. subst o.
      apply items_of_In in Hi as [Hi Hd]. apply items_of_In in Hi' as [Hi' Hd'].
      assert (Q := NoDup_fst_eq agg x _ _ Hn Hi Hi'). injection Q as <- <-. rewrite Hd in Hd'. injection Hd' as <-.
      apply H1. apply in_map_iff. exists (d, c'). auto. }
  split; auto. apply NoDup_Permutation; auto. intro x. split.
  - intro Hx. apply in_flat_map in Hx as ([d c] & Hin & Hx). simpl in Hx.
    destruct (co_out _ _ _ H d c Hin) as [E _]. rewrite E in Hx.
    apply in_map_iff in Hx as ([o [n f]] & Q & Hi). simpl in Q. subst o.
    apply items_of_In in Hi as [Hi _]. apply in_map_iff. eexists; split; [|exact Hi]; auto.
  - intro Hx. apply in_map_iff in Hx as ([o [n f]] & Q & Hi). simpl in Q. subst o.
    destruct (Hv x n f Hi) as [[d Hd] Hf]. destruct f as [f|]; [|congruence].
    assert (Hit : In (x, (n, f)) (items_of agg dtypes d)) by (apply items_of_In; auto).
    destruct (co_all _ _ _ H d) as (c & Hc); [intro Q; rewrite Q in Hit; contradiction|].
    apply in_flat_map. exists (d, c). split; auto. simpl. destruct (co_out _ _ _ H d c Hc) as [-> _].
    apply in_map_iff. eexists; split; [|exact Hit]; auto.
Qed.

Lemma Forall2_map_l : forall {A B C} (P : B -> C -> Prop) (g : A -> B) l m, Forall2 P (map g l) m <-> Forall2 (fun a c => P (g a) c) l m.
Proof.
  intros A B C P g. induction l as [|x l IH]; intros m; simpl; split; intro H; inversion H; subst; constructor; auto; apply IH; auto.
Qed.
Lemma Forall2_map_r : forall {A B C} (P : A -> C -> Prop) (g : B -> C) l m, Forall2 P l (map g m) <-> Forall2 (fun a b => P a (g b)) l m.
Proof.
  intros A B C P g l m. revert l. induction m as [|x m IH]; intros l; simpl; split; intro H; inversion H; subst; constructor; auto; apply IH; auto.
Qed.
Lemma Forall2_impl_ : forall {A B} (P Q : A -> B -> Prop) l m, (forall a b, P a b -> Q a b) -> Forall2 P l m -> Forall2 Q l m.
Proof. intros A B P Q l m H F. induction F; constructor; auto. Qed.

Section Loop.
Context {D V : Type}.
Variable N : dtype -> num V.
Variable val : D -> cname -> V.

Lemma col_map : forall d (ins : list cname) i n (rows : list D), nth_error ins i = Some n ->
  col (N d) i (map (fun r => map (val r) ins) rows) = map (fun r => val r n) rows.
Proof.
  intros d ins i n rows H. unfold col. rewrite map_map. apply map_ext. intro r.
  apply nth_error_nth. rewrite nth_error_map, H. auto.
Qed.

Lemma lookup_all_ok : forall names d, (forall n, In n names -> exists v : V, dict_get Nat.eqb n d = Some v) ->
  exists vs, lookup_all names d = Ok vs /\ length vs = length names /\
    (forall j n, nth_error names j = Some n -> exists v, nth_error vs j = Some v /\ dict_get Nat.eqb n d = Some v).
Proof.
  induction names as [|n names IH]; intros d H; simpl.
  - exists []. split; auto. split; auto. intros [|j] n Hj; discriminate.
  - destruct (H n (or_introl eq_refl)) as [v Hv]. rewrite Hv.
    destruct (IH d) as (vs & A & B & C); [intros; apply H; right; auto|]. rewrite A. cbn [bind].
    exists (v :: vs). split; auto. split; [simpl; auto|]. intros [|j] n' Hj; simpl in *; [injection Hj as <-; eauto|auto].
Qed.

(** Columns [cols] hold, for each item of dtype [d], the aggregation of each group of rows. *)
Definition cols_ok (d : dtype) (items : list (cname * (cname * afun))) (groups : list (list D))
  (cols : list (cname * list V)) : Prop :=
  forall o n f, In (o, (n, f)) items -> exists c, In (o, c) cols /\
    Forall2 (fun rows v => rows <> [] -> agg_of N val d f n rows = Some v) groups c.

Definition cells_ok (d : dtype) (items : list (cname * (cname * afun))) (rows : list D)
  (cells : list (cname * V)) : Prop :=
  forall o n f, In (o, (n, f)) items -> exists v, In (o, v) cells /\ agg_of N val d f n rows = Some v.

Definition same_nulls (arr : list (option nat)) (n : nat) (idx : list nat) : Prop :=
  length arr = n /\ (arr = repeat None n \/ arr = map Some idx ++ repeat None (n - length idx)).

Lemma write_slots_ok : forall arr n idx, same_nulls arr n idx -> length idx <= n ->
  write_slots arr idx = map Some idx ++ repeat None (n - length idx) /\
  length (write_slots arr idx) = n.
Proof.
  intros arr n idx [Hl H] Hi.
  assert (E : write_slots arr idx = map Some idx ++ repeat None (n - length idx)).
  { unfold write_slots. f_equal. destruct H as [->| ->].
    - clear Hl. revert n Hi. induction idx as [|i idx IH]; intros n Hi; simpl.
      + rewrite Nat.sub_0_r. auto.
      + simpl in Hi. destruct n as [|n]; [lia|]. simpl. apply IH. lia.
    - rewrite skipn_app, map_length, Nat.sub_diag. rewrite skipn_all2 by (rewrite map_length; auto). auto. }
  split; auto. rewrite E. rewrite app_length, map_length, repeat_length. lia.
Qed.

Lemma somes_slots : forall (idx : list nat) n, somes (map Some idx ++ repeat None n) = idx.
Proof.
  induction idx as [|i idx IH]; intros n; simpl.
  - induction n; simpl; auto.
  - f_equal. auto.
Qed.

Lemma combine_seq_nth : forall {A} (l : list A) j x k, nth_error l j = Some x -> In (k + j, x) (combine (seq k (length l)) l).
Proof.
  induction l as [|y l IH]; intros j x k H; [destruct j; discriminate|].
  simpl. destruct j as [|j]; simpl in H.
  - injection H as ->. left. f_equal. lia.
  - right. replace (k + S j) with (S k + j) by lia. auto.
Qed.

Lemma map_snd_combine_seq : forall {A} (l : list A) k, map (fun x => snd x) (combine (seq k (length l)) l) = l.
Proof. induction l as [|x l IH]; intros k; simpl; auto. f_equal. apply IH. Qed.

Variable agg : aggspec.
Variable dtypes : list (cname * dtype).

Lemma csa_dtype_ok : forall cfg data so preserve chunk_prev n_bins n_snaps d c a acc evs,
  cfg_ok agg dtypes cfg -> In (d, c) cfg ->
  (forall n, In n (ac_out c) -> exists v, dict_get Nat.eqb n chunk_prev = Some v) ->
  (preserve = true -> acc <> [] /\ last_is N val agg dtypes acc chunk_prev) ->
  (preserve = false -> acc = []) ->
  nondecr 0 (g_starts so) -> (forall p, In p (g_starts so) -> p <= length data) ->
  kinds 0 (if n_snaps =? 0 then SnapsOff else SnapsOn (g_bin_indices so) (last (g_bin_indices so) 0)) (g_starts so) = evs ->
  let sevs := ev_rows data acc 0 evs in
  n_bins = length (ebins sevs) -> n_snaps = length (esnaps sevs) ->
  length (filter is_nil (ebins sevs)) <= length (c_nullb a) ->
  length (filter is_nil (esnaps sevs)) <= length (c_nulls a) ->
  exists chunk bins snaps,
    csa_dtype N val data so preserve chunk_prev n_bins n_snaps (d, c) a =
    Ok (mkAccu (c_chunk a ++ chunk) (c_bin a ++ bins) (c_snap a ++ snaps)
          (write_slots (c_nullb a) (nonzero_from 0 is_nil (ebins sevs)))
          (write_slots (c_nulls a) (nonzero_from 0 is_nil (esnaps sevs))))
    /\ map fst chunk = ac_out c /\ map fst bins = ac_out c /\ map fst snaps = ac_out c
    /\ cols_ok d (items_of agg dtypes d) (ebins sevs) bins
    /\ cols_ok d (items_of agg dtypes d) (esnaps sevs) snaps
    /\ (lastne acc sevs <> [] -> cells_ok d (items_of agg dtypes d) (lastne acc sevs) chunk).
Proof.
  intros cfg data so preserve chunk_prev n_bins n_snaps d c a acc evs Hcfg Hin Hpres Hp Hnp Hnd Hle Hk sevs Hb Hs Hnb Hns.
  destruct (co_wf _ _ _ Hcfg d c Hin) as [Hwf Hnc].
  destruct (co_out _ _ _ Hcfg d c Hin) as [Ho Hone].
  pose proof (co_cells _ _ _ Hcfg d c) as Hcells. pose proof (co_cover _ _ _ Hcfg d c) as Hcover.
  unfold csa_dtype.
  destruct (lookup_all_ok (ac_out c) chunk_prev Hpres) as (chunk0 & L1 & L2 & L3). rewrite L1. cbn [bind].
  set (g := fun r => map (val r) (ac_in c)).
  destruct (ev_rows_map g data acc 0 evs) as [EB ES]. fold sevs in EB, ES.
  assert (Fil : forall l : list (list D), filter is_nil (map (map g) l) = map (map g) (filter is_nil l)).
  { induction l as [|x l IH]; simpl; auto. destruct x; simpl; rewrite IH; auto. }
  assert (Nz : forall (l : list (list D)) k, nonzero_from k is_nil (map (map g) l) = nonzero_from k is_nil l).
  { induction l as [|x l IH]; intros k; simpl; auto. destruct x; simpl; rewrite IH; auto. }
  (* cell of an item *)
  assert (Hitem : forall j o n f, nth_error (items_of agg dtypes d) j = Some (o, (n, f)) ->
     exists i, In (f, i, j) (cells_of (ac_aggs c)) /\ nth_error (ac_in c) i = Some n /\ nth_error (ac_out c) j = Some o).
  { intros j o n f Hj.
    assert (Hoj : nth_error (ac_out c) j = Some o) by (rewrite Ho, nth_error_map, Hj; auto).
    destruct (Hcover j o Hin Hoj) as (f' & i & Hc). destruct (Hcells f' i j Hin Hc) as (n' & o' & A & B).
    rewrite Hj in B. injection B as <- <- <-. eauto. }
  destruct (jcsagg_spec (N d) (map g data) (ac_aggs c) (g_starts so) (g_bin_indices so) preserve chunk0 (ac_ncols c)
              n_bins n_snaps (length (c_nullb a)) (length (c_nulls a)) (map g acc) evs)
    as (o & J1 & J2 & J3 & J4 & J5 & J6 & J7); auto.
  - rewrite L2, Hnc. auto.
  - intros Q. destruct (Hp Q) as [Hne Hl]. split; [destruct acc; [congruence|discriminate]|].
    intros f i j Hc. destruct (Hcells f i j Hin Hc) as (n & o & A & B).
    unfold g. rewrite (col_map d (ac_in c) i n) by auto.
    destruct (proj1 (items_of_In agg dtypes d o n f) (nth_error_In _ j B)) as [I1 I2].
    destruct (Hl o n f d I1 I2) as (v & V1 & V2).
    destruct (L3 j o) as (v' & V3 & V4); [rewrite Ho, nth_error_map, B; auto|].
    unfold agg_of in V2. rewrite V2. f_equal. rewrite V1 in V4. injection V4 as <-.
    symmetry. apply nth_error_nth; auto.
  - intros Q. rewrite (Hnp Q). auto.
  - intros p Hpn. rewrite map_length. auto.
  - rewrite EB, map_length. auto.
  - rewrite ES, map_length. auto.
  - rewrite EB, Fil, map_length. auto.
  - rewrite ES, Fil, map_length. auto.
  - rewrite EB in J3, J5. rewrite ES in J4, J6. rewrite Nz in J5, J6.
    fold g. rewrite J1. cbn [bind]. rewrite J5, J6.
    eexists _, _, _. split; [reflexivity|].
    assert (Hnames : forall rows, map fst (map (fun jn : nat * cname => (snd jn, column N d (fst jn) rows))
        (combine (seq 0 (length (ac_out c))) (ac_out c))) = ac_out c).
    { intro rows. rewrite map_map. simpl. apply map_snd_combine_seq. }
    split; [|split; [apply Hnames|split; [apply Hnames|]]].
    { assert (H : length (ac_out c) = length (o_chunk_res o)) by congruence. revert H. clear.
      generalize (o_chunk_res o). induction (ac_out c) as [|x l IH]; intros [|y m] H; simpl in *; try discriminate; auto.
      f_equal. apply IH. lia. }
    assert (Hcols : forall groups rows,
       Forall2 (fun r x => r <> [] -> aggregates (N d) (cells_of (ac_aggs c)) r x) (map (map g) groups) rows ->
       cols_ok d (items_of agg dtypes d) groups
         (map (fun jn : nat * cname => (snd jn, column N d (fst jn) rows)) (combine (seq 0 (length (ac_out c))) (ac_out c)))).
    { intros groups rows F o' n f Hit. apply In_nth_error in Hit as (j & Hj).
      destruct (Hitem j o' n f Hj) as (i & C1 & C2 & C3).
      exists (column N d j rows). split.
      - apply in_map_iff. exists (j, o'). split; auto. apply (combine_seq_nth _ j o' 0). auto.
      - unfold column. apply Forall2_map_r. apply Forall2_map_l in F. eapply Forall2_impl_; [|exact F].
        intros rs x H Hne. simpl in H. unfold agg_of.
        rewrite <- (col_map d (ac_in c) i n rs) by auto. apply H; auto. destruct rs; [congruence|discriminate]. }
    split; [apply Hcols; auto|]. split; [apply Hcols; auto|].
    intros Hr o' n f Hit. apply In_nth_error in Hit as (j & Hj).
    destruct (Hitem j o' n f Hj) as (i & C1 & C2 & C3).
    rewrite ev_rows_sev_map, lastne_map in J7. fold sevs in J7.
    assert (Hmr : map g (lastne acc sevs) <> []) by (destruct (lastne acc sevs); [congruence|discriminate]).
    specialize (J7 Hmr f i j C1).
    unfold g in J7. rewrite (col_map d (ac_in c) i n) in J7 by auto.
    exists (nth j (o_chunk_res o) (zero (N d))). split; auto.
    assert (Hjl : j < length (o_chunk_res o)).
    { rewrite J2, Hnc. apply nth_error_Some. congruence. }
    assert (H : nth j (combine (ac_out c) (o_chunk_res o)) (o', zero (N d)) = (o', nth j (o_chunk_res o) (zero (N d)))).
    { rewrite combine_nth by congruence. f_equal. apply nth_error_nth; auto. }
    rewrite <- H. apply nth_In. rewrite combine_length, J2, <- Hnc.
    assert (length (ac_out c) = ac_ncols c) by auto. lia.
Qed.

Lemma cols_ok_app_l : forall d items groups c1 c2, cols_ok d items groups c1 -> cols_ok d items groups (c1 ++ c2).
Proof. intros d items groups c1 c2 H o n f Hin. destruct (H o n f Hin) as (c & A & B). exists c. split; auto. apply in_app_iff; auto. Qed.
Lemma cols_ok_app_r : forall d items groups c1 c2, cols_ok d items groups c2 -> cols_ok d items groups (c1 ++ c2).
Proof. intros d items groups c1 c2 H o n f Hin. destruct (H o n f Hin) as (c & A & B). exists c. split; auto. apply in_app_iff; auto. Qed.
Lemma cells_ok_app_l : forall d items rows c1 c2, cells_ok d items rows c1 -> cells_ok d items rows (c1 ++ c2).
Proof. intros d items rows c1 c2 H o n f Hin. destruct (H o n f Hin) as (c & A & B). exists c. split; auto. apply in_app_iff; auto. Qed.
Lemma cells_ok_app_r : forall d items rows c1 c2, cells_ok d items rows c2 -> cells_ok d items rows (c1 ++ c2).
Proof. intros d items rows c1 c2 H o n f Hin. destruct (H o n f Hin) as (c & A & B). exists c. split; auto. apply in_app_iff; auto. Qed.

Lemma csa_loop_ok : forall cfg data so preserve chunk_prev n_bins n_snaps nb ns acc evs,
  cfg_ok agg dtypes cfg ->
  (forall d c n, In (d, c) cfg -> In n (ac_out c) -> exists v, dict_get Nat.eqb n chunk_prev = Some v) ->
  (preserve = true -> acc <> [] /\ last_is N val agg dtypes acc chunk_prev) ->
  (preserve = false -> acc = []) ->
  nondecr 0 (g_starts so) -> (forall p, In p (g_starts so) -> p <= length data) ->
  kinds 0 (if n_snaps =? 0 then SnapsOff else SnapsOn (g_bin_indices so) (last (g_bin_indices so) 0)) (g_starts so) = evs ->
  let sevs := ev_rows data acc 0 evs in
  n_bins = length (ebins sevs) -> n_snaps = length (esnaps sevs) ->
  length (filter is_nil (ebins sevs)) <= nb ->
  length (filter is_nil (esnaps sevs)) <= ns ->
  forall cs a, incl cs cfg ->
  same_nulls (c_nullb a) nb (nonzero_from 0 is_nil (ebins sevs)) ->
  same_nulls (c_nulls a) ns (nonzero_from 0 is_nil (esnaps sevs)) ->
  exists chunk bins snaps a',
    csa_loop N val data so preserve chunk_prev n_bins n_snaps cs a = Ok a'
    /\ c_chunk a' = c_chunk a ++ chunk /\ c_bin a' = c_bin a ++ bins /\ c_snap a' = c_snap a ++ snaps
    /\ (cs <> [] -> somes (c_nullb a') = nonzero_from 0 is_nil (ebins sevs)
                   /\ somes (c_nulls a') = nonzero_from 0 is_nil (esnaps sevs))
    /\ map fst chunk = flat_map (fun dc => ac_out (snd dc)) cs
    /\ map fst bins = flat_map (fun dc => ac_out (snd dc)) cs
    /\ map fst snaps = flat_map (fun dc => ac_out (snd dc)) cs
    /\ (forall d c, In (d, c) cs -> cols_ok d (items_of agg dtypes d) (ebins sevs) bins
          /\ cols_ok d (items_of agg dtypes d) (esnaps sevs) snaps
          /\ (lastne acc sevs <> [] -> cells_ok d (items_of agg dtypes d) (lastne acc sevs) chunk)).
Proof.
  intros cfg data so preserve chunk_prev n_bins n_snaps nb ns acc evs Hcfg Hpres Hp Hnp Hnd Hle Hk sevs Hb Hs Hnb Hns.
  induction cs as [|[d c] cs IH]; intros a Hincl Sb Ss.
  - exists [], [], [], a. simpl. rewrite !app_nil_r. repeat split; auto; try congruence; contradiction.
  - destruct (csa_dtype_ok cfg data so preserve chunk_prev n_bins n_snaps d c a acc evs) as (ch & bi & sn & E & F1 & F2 & F3 & F4 & F5 & F6); auto.
    { apply Hincl; left; auto. }
    { intros n Hn. apply (Hpres d c n); auto. apply Hincl; left; auto. }
    { destruct Sb as [-> _]. auto. }
    { destruct Ss as [-> _]. auto. }
    cbn [csa_loop]. rewrite E. cbn [bind]. fold sevs.
    destruct (write_slots_ok _ _ _ Sb) as [W1 W2]; [rewrite nonzero_length; auto|].
    destruct (write_slots_ok _ _ _ Ss) as [W3 W4]; [rewrite nonzero_length; auto|].
    match goal with |- context [csa_loop _ _ _ _ _ _ _ _ cs ?a1] => set (a1' := a1) end.
    destruct (IH a1') as (ch' & bi' & sn' & a' & G0 & G1 & G2 & G3 & G4 & G5 & G6 & G7 & G8).
    { intros x Hx. apply Hincl. right; auto. }
    { split; auto. }
    { split; auto. }
    exists (ch ++ ch'), (bi ++ bi'), (sn ++ sn'), a'. split; auto.
    split; [rewrite G1; simpl; rewrite <- app_assoc; auto|].
    split; [rewrite G2; simpl; rewrite <- app_assoc; auto|].
    split; [rewrite G3; simpl; rewrite <- app_assoc; auto|].
    split.
    { intros _. destruct cs as [|dc cs'].
      - simpl in G0. injection G0 as <-. unfold a1'. simpl. rewrite W1, W3, !somes_slots. auto.
      - apply G4. congruence. }
    rewrite !map_app, F1, F2, F3, G5, G6, G7. simpl. split; auto. split; auto. split; auto.
    intros d' c' [Q|Hin].
    + injection Q as <- <-. split; [apply cols_ok_app_l; auto|]. split; [apply cols_ok_app_l; auto|].
      intros Hne. apply cells_ok_app_l. apply F6; auto.
    + destruct (G8 d' c' Hin) as (A & B & C). split; [apply cols_ok_app_r; auto|]. split; [apply cols_ok_app_r; auto|].
      intros Hne. apply cells_ok_app_r. apply C; auto.
Qed.

(** * Null rows *)
Lemma null_labels_filter : forall {A} (groups : list (list A)) (labels pre : list Z),
  length labels = length groups ->
  map (fun i => nth i (pre ++ labels) 0%Z) (nonzero_from (length pre) is_nil groups)
  = map fst (filter (fun lg => is_nil (snd lg)) (combine labels groups)).
Proof.
  induction groups as [|g groups IH]; intros [|l labels] pre H; simpl in *; try discriminate; auto.
  specialize (IH labels (pre ++ [l]) ltac:(lia)). rewrite <- app_assoc in IH. simpl in IH.
  rewrite app_length in IH. simpl in IH. rewrite Nat.add_1_r in IH.
  destruct (is_nil g); simpl; auto. f_equal; auto.
  rewrite app_nth2 by lia. rewrite Nat.sub_diag. auto.
Qed.

Lemma nonzero_from_bound : forall {A} (l : list (list A)) k i, In i (nonzero_from k is_nil l) -> i < k + length l.
Proof.
  induction l as [|x l IH]; intros k i H; simpl in *; [contradiction|].
  destruct (is_nil x); [destruct H as [H|H]; [lia|]|]; apply IH in H; lia.
Qed.

(** Chunks with the same label are all empty or all not empty. *)
Definition label_consistent {A} (lg : list (Z * list A)) : Prop :=
  forall l r1 r2, In (l, r1) lg -> In (l, r2) lg -> is_nil r1 = is_nil r2.

Lemma set_nulls_col : forall d f n (groups : list (list D)) labels c null_labels,
  length labels = length groups -> label_consistent (combine labels groups) ->
  null_labels = map fst (filter (fun lg => is_nil (snd lg)) (combine labels groups)) ->
  Forall2 (fun rows v => rows <> [] -> agg_of N val d f n rows = Some v) groups c ->
  map2 (fun l v => if memb Z.eqb l null_labels then None else Some v) labels c
  = map (agg_of N val d f n) groups.
Proof.
  intros d f n groups labels c null_labels Hl Hc Hnl F.
  assert (M : forall l g, In (l, g) (combine labels groups) -> memb Z.eqb l null_labels = is_nil g).
  { intros l g Hin. destruct (is_nil g) eqn:E.
    - apply (memb_In Z.eqb Z.eqb_eq). rewrite Hnl. apply in_map_iff. exists (l, g). split; auto. apply filter_In; auto.
    - destruct (memb Z.eqb l null_labels) eqn:E2; auto. apply (memb_In Z.eqb Z.eqb_eq) in E2.
      rewrite Hnl in E2. apply in_map_iff in E2 as ([l' g'] & Q & Hin'). simpl in Q. subst l'.
      apply filter_In in Hin' as [Hin' G]. simpl in G. rewrite (Hc l g g' Hin Hin') in E. congruence. }
  clear Hc Hnl. revert labels Hl M. induction F as [|g v groups c Hv F IH]; intros [|l labels] Hl M; simpl in *; try discriminate; auto.
  f_equal.
  - rewrite (M l g) by auto. destruct g as [|r g]; simpl; auto. symmetry. apply Hv. congruence.
  - apply IH; auto.
Qed.

Lemma map_fst_combine_ : forall {A B} (l : list A) (m : list B), length l = length m -> map fst (combine l m) = l.
Proof. induction l as [|x l IH]; intros [|y m] H; simpl in *; try discriminate; auto. f_equal. apply IH. lia. Qed.
Lemma map_snd_combine_ : forall {A B} (l : list A) (m : list B), length l = length m -> map snd (combine l m) = m.
Proof. induction l as [|x l IH]; intros [|y m] H; simpl in *; try discriminate; auto. f_equal. apply IH. lia. Qed.

Hypothesis Hvalid : agg_valid agg dtypes.
Hypothesis Hnodup : NoDup (map fst agg).

Lemma frame_ok : forall cfg labels groups bins,
  cfg_ok agg dtypes cfg -> length labels = length groups -> label_consistent (combine labels groups) ->
  map fst bins = flat_map (fun dc => ac_out (snd dc)) cfg ->
  (forall d c, In (d, c) cfg -> cols_ok d (items_of agg dtypes d) groups bins) ->
  let nl := map fst (filter (fun lg => is_nil (snd lg)) (combine labels groups)) in
  frame_is N val agg dtypes (combine labels groups) (mkFrame labels (set_nulls labels nl bins)).
Proof.
  intros cfg labels groups bins Hcfg Hl Hlc Hn Hc nl.
  destruct (cfg_outs_perm agg dtypes cfg Hcfg Hvalid Hnodup) as [ND P].
  assert (Hfst : map fst (set_nulls labels nl bins) = map fst bins) by (unfold set_nulls; rewrite map_map; auto).
  split; [|split].
  - simpl. symmetry. apply map_fst_combine_; auto.
  - cbn [f_cols]. rewrite Hfst, Hn. auto.
  - intros out i f d Hin Hd. cbn [f_cols].
    assert (Hit : In (out, (i, f)) (items_of agg dtypes d)) by (apply items_of_In; auto).
    destruct (co_all _ _ _ Hcfg d) as (c & Hcc); [intro Q; rewrite Q in Hit; contradiction|].
    destruct (Hc d c Hcc out i f Hit) as (cl & C1 & C2).
    apply (In_dict_get Nat.eqb Nat.eqb_eq); [change (NoDup (map fst (set_nulls labels nl bins))); rewrite Hfst, Hn; auto|].
    unfold set_nulls. apply in_map_iff. exists (out, cl). split; auto. simpl. f_equal.
    rewrite (set_nulls_col d f i groups labels cl nl) by auto.
    rewrite <- (map_map snd (agg_of N val d f i)). rewrite map_snd_combine_ by auto. auto.
Qed.

Lemma out_dtype_ok : forall cfg d c n, cfg_ok agg dtypes cfg -> In (d, c) cfg -> In n (ac_out c) -> out_dtype cfg n = d.
Proof.
  intros cfg d c n Hcfg Hin Hn. unfold out_dtype.
  destruct (find (fun dc => memb Nat.eqb n (ac_out (snd dc))) cfg) as [[d' c']|] eqn:E.
  - apply find_some in E as [Hin' Hm]. simpl in Hm. apply (memb_In Nat.eqb Nat.eqb_eq) in Hm. simpl.
    destruct (co_out _ _ _ Hcfg d c Hin) as [E1 _]. destruct (co_out _ _ _ Hcfg d' c' Hin') as [E2 _].
    rewrite E1 in Hn. rewrite E2 in Hm.
    apply in_map_iff in Hn as ([o [m f]] & Q & Hi). simpl in Q. subst o.
    apply in_map_iff in Hm as ([o [m' f']] & Q & Hi'). simpl in Q. subst o.
    apply items_of_In in Hi as [Hi Hd]. apply items_of_In in Hi' as [Hi' Hd'].
    assert (Q := NoDup_fst_eq agg n _ _ Hnodup Hi Hi'). injection Q as <- <-. congruence.
  - exfalso. apply (find_none _ _ E (d, c)) in Hin. simpl in Hin.
    rewrite (proj2 (memb_In Nat.eqb Nat.eqb_eq n (ac_out c)) Hn) in Hin. discriminate.
Qed.

Lemma has_zero_ok : forall cfg groups fr, cfg_ok agg dtypes cfg -> frame_is N val agg dtypes groups fr ->
  has_zero N (out_dtype cfg) fr = true <-> some_zero N val agg dtypes groups.
Proof.
  intros cfg groups fr Hcfg (F1 & F2 & F3).
  destruct (cfg_outs_perm agg dtypes cfg Hcfg Hvalid Hnodup) as [ND P].
  assert (NDc : NoDup (map fst (f_cols fr))) by (apply (Permutation_NoDup (Permutation_sym F2)); auto).
  assert (Hdt : forall out i f d, In (out, (i, Some f)) agg -> dict_get Nat.eqb i dtypes = Some d -> out_dtype cfg out = d).
  { intros out i f d Hin Hd. assert (Hit : In (out, (i, f)) (items_of agg dtypes d)) by (apply items_of_In; auto).
    destruct (co_all _ _ _ Hcfg d) as (c & Hcc); [intro Q; rewrite Q in Hit; contradiction|].
    apply (out_dtype_ok cfg d c); auto. destruct (co_out _ _ _ Hcfg d c Hcc) as [-> _].
    apply in_map_iff. eexists; split; [|exact Hit]; auto. }
  unfold has_zero. rewrite existsb_exists. split.
  - intros ([out col] & Hin & Hz). simpl in Hz. apply existsb_exists in Hz as ([v|] & Hv & Hz); [|discriminate].
    assert (Ho : In out (map fst agg)).
    { apply (Permutation_in _ F2). apply in_map_iff. exists (out, col). auto. }
    apply in_map_iff in Ho as ([o [i f]] & Q & Hi). simpl in Q. subst o.
    destruct (Hvalid out i f Hi) as [[d Hd] Hf]. destruct f as [f|]; [|congruence].
    specialize (F3 out i f d Hi Hd). rewrite (In_dict_get Nat.eqb Nat.eqb_eq out _ col NDc Hin) in F3.
    injection F3 as ->. apply in_map_iff in Hv as (g & Eg & Hg).
    exists out, i, f, d, g, v. rewrite (Hdt out i f d Hi Hd) in Hz. auto.
  - intros (out & i & f & d & g & v & Hi & Hd & Hg & Ev & Hz).
    specialize (F3 out i f d Hi Hd). apply (dict_get_In Nat.eqb Nat.eqb_eq) in F3.
    eexists. split; [exact F3|]. simpl. apply existsb_exists. exists (Some v). split.
    + rewrite <- Ev. apply (in_map (fun g => agg_of N val d f i (snd g))). auto.
    + rewrite (Hdt out i f d Hi Hd). auto.
Qed.

Lemma last_is_ok : forall cfg rows chunk, cfg_ok agg dtypes cfg ->
  map fst chunk = flat_map (fun dc => ac_out (snd dc)) cfg ->
  (forall d c, In (d, c) cfg -> cells_ok d (items_of agg dtypes d) rows chunk) ->
  last_is N val agg dtypes rows chunk.
Proof.
  intros cfg rows chunk Hcfg Hn Hc out i f d Hin Hd.
  destruct (cfg_outs_perm agg dtypes cfg Hcfg Hvalid Hnodup) as [ND P].
  assert (Hit : In (out, (i, f)) (items_of agg dtypes d)) by (apply items_of_In; auto).
  destruct (co_all _ _ _ Hcfg d) as (c & Hcc); [intro Q; rewrite Q in Hit; contradiction|].
  destruct (Hc d c Hcc out i f Hit) as (v & A & B). exists v. split; auto.
  apply (In_dict_get Nat.eqb Nat.eqb_eq); auto. change (NoDup (map fst chunk)). rewrite Hn. auto.
Qed.

Lemma take_labels_0 : forall labels idx, (forall i, In i idx -> i < length labels) ->
  take_labels 0 labels idx = Ok (map (fun i => nth i labels 0%Z) idx).
Proof.
  induction idx as [|i idx IH]; intros H; simpl; auto. rewrite Nat.sub_0_r.
  destruct (nth_error labels i) eqn:E.
  - cbn [bind]. rewrite IH by (intros; apply H; right; auto). cbn [bind]. f_equal. f_equal.
    symmetry. apply nth_error_nth; auto.
  - apply nth_error_None in E. specialize (H i (or_introl eq_refl)). lia.
Qed.

Lemma setup_chunk_res_has : forall cfg d c n, In (d, c) cfg -> In n (ac_out c) ->
  exists v, dict_get Nat.eqb n (setup_chunk_res N cfg) = Some v.
Proof.
  intros cfg d c n Hin Hn. destruct (dict_get Nat.eqb n (setup_chunk_res N cfg)) as [v|] eqn:E; [eauto|].
  apply (dict_get_None Nat.eqb Nat.eqb_eq) in E. destruct E. unfold setup_chunk_res.
  apply in_map_iff. exists (n, zero (N d)). split; auto. apply in_flat_map. exists (d, c). split; auto.
  simpl. apply in_map_iff. exists n. auto.
Qed.

(** * 'cumsegagg' once the segmentation is known *)
Context {B : Type}.

Lemma cumsegagg_of_seg : forall (bin_by : list D -> option B -> res (seg * option B)) empty ordered snap_by eo data buffer so main' acc evs,
  agg <> [] -> data <> [] ->
  segmentby bin_by empty ordered snap_by data (option_map cb_main buffer) = Ok (so, main') ->
  (* rows of the running bin, from previous pieces *)
  match buffer with
  | None => acc = []
  | Some b =>
      match mb_last_label (cb_main b) with
      | None => acc = [] /\ cb_last b = None
      | Some l => l = hd 0%Z (g_bin_labels so) /\ acc <> [] /\ exists r, cb_last b = Some r /\ last_is N val agg dtypes acc r
      end
  end ->
  (match main' with None => buffer = None | Some _ => buffer <> None end) ->
  (match g_snap_labels so with
   | None => snap_by = None
   | Some (l, off) => snap_by <> None /\ off = 0 end) ->
  nondecr 0 (g_starts so) -> (forall p, In p (g_starts so) -> p <= length data) ->
  let sl := match g_snap_labels so with Some (l, _) => l | None => [] end in
  kinds 0 (if length sl =? 0 then SnapsOff else SnapsOn (g_bin_indices so) (last (g_bin_indices so) 0)) (g_starts so) = evs ->
  let sevs := ev_rows data acc 0 evs in
  length (g_bin_labels so) = length (ebins sevs) -> length sl = length (esnaps sevs) ->
  length (filter is_nil (ebins sevs)) <= g_n_null_bins so ->
  length (filter is_nil (esnaps sevs)) <= g_n_max_null_snaps so ->
  label_consistent (combine (g_bin_labels so) (ebins sevs)) ->
  label_consistent (combine sl (esnaps sevs)) ->
  lastne acc sevs <> [] ->
  let gb := combine (g_bin_labels so) (ebins sevs) in
  let gs := combine sl (esnaps sevs) in
  (eo = true /\ (some_zero N val agg dtypes gb \/ some_zero N val agg dtypes gs) ->
     cumsegagg N val agg dtypes bin_by empty ordered snap_by eo data buffer = Err ValueError) /\
  (~ (eo = true /\ (some_zero N val agg dtypes gb \/ some_zero N val agg dtypes gs)) ->
   exists fb fs buffer',
     cumsegagg N val agg dtypes bin_by empty ordered snap_by eo data buffer = Ok (Some (fb, fs), buffer')
     /\ frame_is N val agg dtypes gb fb
     /\ match fs with
        | None => snap_by = None
        | Some f => snap_by <> None /\ frame_is N val agg dtypes gs f
        end
     /\ match main' with
        | None => buffer' = None
        | Some m => exists r, buffer' = Some (mkCsabuf m (Some r)) /\ last_is N val agg dtypes (lastne acc sevs) r
        end).
Proof.
  intros bin_by empty ordered snap_by eo data buffer so main' acc evs Hagg Hdata Hseg Hbuf Hmain Hsl Hnd Hle sl Hk sevs
    Lb Ls Nb Ns Cb Cs Hlast gb gs.
  destruct (setup_cumsegagg_ok agg dtypes Hvalid Hnodup) as (cfg & Hset & Hcfg).
  assert (Hcfgne : cfg <> []).
  { intro Q. subst cfg. destruct agg as [|[o [i f]] ag] eqn:Ea; [congruence|].
    destruct (Hvalid o i f (or_introl eq_refl)) as [[d Hd] Hf]. destruct f as [f|]; [|congruence].
    destruct (co_all _ _ _ Hcfg d) as (c & []). intro Q.
    assert (Hit : In (o, (i, f)) (items_of ((o, (i, Some f)) :: ag) dtypes d)).
    { apply items_of_In. split; [left; auto|auto]. }
    rewrite Q in Hit. contradiction. }
  set (pres := match buffer, match buffer with Some b => mb_last_label (cb_main b) | None => None end with
               | Some _, Some l => (l =? hd 0 (g_bin_labels so))%Z | _, _ => false end).
  set (chunk_prev := match buffer with
       | Some b => match cb_last b with Some r => r | None => setup_chunk_res N cfg end
       | None => setup_chunk_res N cfg end).
  destruct (csa_loop_ok cfg data so pres chunk_prev (length (g_bin_labels so)) (length sl)
             (g_n_null_bins so) (match snap_by with Some _ => g_n_max_null_snaps so | None => 0 end) acc evs)
    with (cs := cfg) (a := mkAccu [] [] [] (repeat (@None nat) (g_n_null_bins so))
            (repeat (@None nat) (match snap_by with Some _ => g_n_max_null_snaps so | None => 0 end)) : @accu V)
    as (chunk & bins & snaps & a' & G0 & G1 & G2 & G3 & G4 & G5 & G6 & G7 & G8); auto.
  { intros d c n Hin Hn. unfold chunk_prev. destruct buffer as [b|]; [|apply (setup_chunk_res_has cfg d c n); auto].
    destruct (mb_last_label (cb_main b)) as [l|].
    - destruct Hbuf as (_ & _ & r & -> & Hr).
      destruct (co_out _ _ _ Hcfg d c Hin) as [E _]. rewrite E in Hn.
      apply in_map_iff in Hn as ([o [m f]] & Q & Hi). simpl in Q. subst o. apply items_of_In in Hi as [Hi Hd].
      destruct (Hr n m f d Hi Hd) as (v & A & _). eauto.
    - destruct Hbuf as [_ ->]. apply (setup_chunk_res_has cfg d c n); auto. }
  { intro Q. unfold pres, chunk_prev in *. destruct buffer as [b|]; [|discriminate].
    destruct (mb_last_label (cb_main b)) as [l|]; [|discriminate].
    destruct Hbuf as (_ & Hne & r & -> & Hr). auto. }
  { intro Q. unfold pres in *. destruct buffer as [b|]; auto.
    destruct (mb_last_label (cb_main b)) as [l|]; [|tauto].
    destruct Hbuf as (-> & _). rewrite Z.eqb_refl in Q. discriminate. }
  { fold sevs. destruct snap_by; auto. destruct (g_snap_labels so) as [[l off]|] eqn:E; [destruct Hsl; congruence|].
    unfold sl in Ls. simpl in Ls. rewrite <- (firstn_all (esnaps sevs)). rewrite <- Ls. simpl. auto. }
  { apply incl_refl. }
  { split; [apply repeat_length|]. auto. }
  { split; [apply repeat_length|]. auto. }
  simpl in G1, G2, G3. destruct (G4 Hcfgne) as [G4a G4b]. fold sevs in G4a, G4b, G8.
  assert (Fb : frame_is N val agg dtypes gb (mkFrame (g_bin_labels so)
      (set_nulls (g_bin_labels so) (map (fun i => nth i (g_bin_labels so) 0%Z) (somes (c_nullb a'))) (c_bin a')))).
  { rewrite G4a, G2. change (map (fun i => nth i (g_bin_labels so) 0%Z) (nonzero_from 0 is_nil (ebins sevs))) with (map (fun i => nth i ([] ++ g_bin_labels so) 0%Z) (nonzero_from (length (@nil Z)) is_nil (ebins sevs))).
    rewrite (null_labels_filter (ebins sevs) (g_bin_labels so) []) by auto.
    apply (frame_ok cfg); auto. intros d c Hin. apply (G8 d c Hin). }
  assert (Fs : frame_is N val agg dtypes gs (mkFrame sl
      (set_nulls sl (map (fun i => nth i sl 0%Z) (somes (c_nulls a'))) (c_snap a')))).
  { rewrite G4b, G3. change (map (fun i => nth i sl 0%Z) (nonzero_from 0 is_nil (esnaps sevs))) with (map (fun i => nth i ([] ++ sl) 0%Z) (nonzero_from (length (@nil Z)) is_nil (esnaps sevs))).
    rewrite (null_labels_filter (esnaps sevs) sl []) by auto.
    apply (frame_ok cfg); auto. intros d c Hin. apply (G8 d c Hin). }
  assert (Hres : last_is N val agg dtypes (lastne acc sevs) (c_chunk a')).
  { rewrite G1. apply (last_is_ok cfg); auto. intros d c Hin. destruct (G8 d c Hin) as (_ & _ & C). apply C; auto. }
  assert (Htl : match g_snap_labels so with None => True
       | Some (l, off) => take_labels off l (somes (c_nulls a')) = Ok (map (fun i => nth i sl 0%Z) (somes (c_nulls a'))) end).
  { destruct (g_snap_labels so) as [[l off]|] eqn:E; auto. destruct Hsl as [_ ->].
    unfold sl in *. apply take_labels_0. rewrite G4b. intros i Hi. rewrite Ls.
    apply (nonzero_from_bound _ 0); auto. }
  pose proof (has_zero_ok cfg gb _ Hcfg Fb) as Zb. pose proof (has_zero_ok cfg gs _ Hcfg Fs) as Zs.
  assert (Hcs : cumsegagg N val agg dtypes bin_by empty ordered snap_by eo data buffer =
    let bin_res := mkFrame (g_bin_labels so)
      (set_nulls (g_bin_labels so) (map (fun i => nth i (g_bin_labels so) 0%Z) (somes (c_nullb a'))) (c_bin a')) in
    let snap_res := mkFrame sl (set_nulls sl (map (fun i => nth i sl 0%Z) (somes (c_nulls a'))) (c_snap a')) in
    if eo && ((match g_snap_labels so with Some _ => has_zero N (out_dtype cfg) snap_res | None => false end)
              || has_zero N (out_dtype cfg) bin_res)
    then Err ValueError
    else Ok (Some (bin_res, match g_snap_labels so with Some _ => Some snap_res | None => None end),
             match main' with Some m => Some (mkCsabuf m (Some (c_chunk a'))) | None => None end)).
  { unfold cumsegagg. destruct data as [|x0 xs] eqn:Ed; [congruence|]. rewrite <- Ed in *.
    destruct agg as [|a0 as0] eqn:Ea; [congruence|]. rewrite <- Ea in *.
    rewrite Hset. cbn [bind]. unfold cumsegagg_cfg. rewrite Ed. rewrite <- Ed. rewrite Hseg. cbn [bind].
    fold pres chunk_prev.
    replace (match g_snap_labels so with Some (l, _) => length l | None => 0 end) with (length sl)
      by (unfold sl; destruct (g_snap_labels so) as [[? ?]|]; auto).
    rewrite G0. cbn [bind].
    destruct (g_snap_labels so) as [[l off]|] eqn:E.
    - rewrite Htl. unfold sl. cbn [bind]. reflexivity.
    - cbn [bind]. reflexivity. }
  rewrite Hcs. cbv zeta.
  assert (Hgs : g_snap_labels so = None -> ~ some_zero N val agg dtypes gs).
  { intros E (out & i & f & d & g & v & _ & _ & Hg & _). unfold gs, sl in Hg. rewrite E in Hg. contradiction. }
  split.
  - intros [-> Hz]. simpl andb.
    replace (match g_snap_labels so with Some _ => _ | None => false end || _) with true; auto. symmetry.
    apply orb_true_iff. destruct Hz as [Hz|Hz]; [right; apply Zb; auto|].
    left. destruct (g_snap_labels so) eqn:E; [apply Zs; auto|]. exfalso. apply Hgs; auto.
  - intros Hnz.
    match goal with |- context [if ?b then _ else _] => destruct b eqn:E end.
    + exfalso. apply Hnz. apply andb_true_iff in E as [E1 E2]. split; auto.
      apply orb_true_iff in E2 as [E2|E2]; [|left; apply Zb; auto].
      destruct (g_snap_labels so); [right; apply Zs; auto|discriminate].
    + eexists _, _, _. split; [reflexivity|]. split; auto. split.
      * destruct (g_snap_labels so) as [[l off]|]; [destruct Hsl; split; auto|auto].
      * destruct main'; eauto.
Qed.
End Loop.
