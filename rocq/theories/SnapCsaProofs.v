(** 'cumsegagg' with snapshots at given times, in successive calls. *)
Require Import List Arith ZArith Bool Lia Sorted Permutation.
Require Import Verif.Common Verif.AggModel Verif.AggSpec Verif.AggProofs.
Require Import Verif.SegModel Verif.SegSpec Verif.SegProofs Verif.SegRowsProofs Verif.MergeProofs Verif.EventProofs.
Require Import Verif.CsaModel Verif.CsaSpec Verif.CsaProofs Verif.CsaLoopProofs Verif.CsaSegProofs Verif.CsaTimeProofs.
Require Import Verif.CsaPiecesProofs Verif.CsaRowsProofs Verif.SnapValsSpec Verif.SnapValsProofs.
Import ListNotations.

Lemma combine_relabel_ : forall {A} (g : Z -> A) (l : list (Z * Z)), combine (map fst l) (map g (map snd l)) = relabel g l.
Proof. intros A g l. induction l as [|x l IH]; simpl; f_equal; auto. Qed.

Lemma combine_split_ : forall (l : list (Z * Z)), combine (map fst l) (map snd l) = l.
Proof. intros l. induction l as [|[x y] l IH]; simpl; f_equal; auto. Qed.

Section Points.
Context {D V : Type}.
Variable N : dtype -> num V.
Variable val : D -> cname -> V.
Variables (agg : aggspec) (dtypes : list (cname * dtype)).
Hypothesis Hvalid : agg_valid agg dtypes.
Hypothesis Hnodup : NoDup (map fst agg).
Hypothesis Hagg : agg <> [].
Variable t : D -> Z.
Variable les : list (Z * Z).
Hypothesis Hlab : NoDup (map fst les).
Hypothesis Hends : StronglySorted Z.lt (map snd les).
Notation csa := (cumsegagg N val agg dtypes).
Definition points (m : nat) : option byspec := Some (ByVals PIndex (map fst (firstn m les)) (map snd (firstn m les))).

Section Time.
Variable tg : tgrouper.
Hypothesis Hf : (0 < tg_freq tg)%Z.
Hypothesis Hfix : fixed_periods tg.
Let c := tg_closed tg.
Let f := tg_freq tg.
Let a := anchor tg.
Let g (X : list D) (e : Z) := snap_period t c a f e X.

Definition tvinv (m : nat) (H : list D) (b : option (csabuf sbuf V)) : Prop :=
  tinv N val agg dtypes t tg None H b /\
  (H <> [] -> exists cb, b = Some cb /\ mb_snap (cb_main cb) = Some (sbuf_of t c les m H)).

Lemma time_g_stable : forall H p le, sorted (map t (H ++ p)) -> covers t c H le = false -> g (H ++ p) (snd le) = g H (snd le).
Proof.
  intros H p le Hs Hc. unfold g, snap_period. rewrite filter_app. rewrite (filter_none _ p), app_nil_r; auto.
  intros r Hr. apply andb_false_iff. right. eapply passed_later; eauto.
Qed.

Lemma time_points_step : forall eo H p m m' b, p <> [] -> sorted (map t (H ++ p)) -> tvinv m H b -> 0 < m' <= length les ->
  (H <> [] -> 0 < m <= m') -> (forall le, In le (skipn m (firstn m' les)) -> covers t c H le = true) ->
  outcome N val agg dtypes eo (tgb t tg H p) (Some (vgroups t c les g m' H p)) (tvinv m' (H ++ p))
    (csa (time_bins t tg) sbuf_empty (Some t) (points m') eo p b).
Proof.
  intros eo H p m m' b Hne Hsrt [(cb & -> & Hinv) Hsn] Hm' Hm Hnew. pose proof Hsrt as Hsrt0.
  rewrite map_app in Hsrt. apply sorted_app in Hsrt as (HsH & Hsp & Hcross).
  assert (Hmn := map_ne t p Hne).
  assert (HlastA : last (map t (H ++ p)) 0%Z = last (map t p) 0%Z) by (rewrite map_app; apply last_app_ne; auto).
  assert (Hhd : In (hd 0%Z (map t p)) (map t p)) by (destruct (map t p); [congruence|left; auto]).
  set (k0 := first_period t tg a f H p). set (k1 := kappa c a f (last (map t p) 0%Z)).
  assert (HK : (k0 <= kappa c a f (hd 0%Z (map t p)))%Z /\ (forall h, In h H -> (kappa c a f (t h) <= k0)%Z)).
  { unfold k0, first_period. fold c. destruct H as [|h0 H'] eqn:EH; [split; [lia|contradiction]|]. rewrite <- EH in *.
    assert (HmH : map t H <> []) by (subst H; discriminate). split.
    - apply kappa_mono; auto. apply Hcross; auto. apply last_In; auto.
    - intros h Hh. apply kappa_last_ge; auto. apply in_map; auto. }
  destruct HK as [Hk0 HH].
  set (bb := match mb_bin (cb_main cb) with Some x => x | None => sbuf_empty end).
  set (K := match H with [] => None | _ => Some (kappa c a f (last (map t H) 0%Z)) end).
  assert (Hbok : tg_buf_ok c tg bb K).
  { unfold K, bb. destruct H as [|h0 H']; [subst cb; simpl; split; simpl; auto|].
    destruct Hinv as ((sb & -> & Hsb) & _). auto. }
  pose proof (by_scale_tg_fixed tg None (map t p) bb K) as E. cbv zeta in E. cbv iota in E. fold c f a in E.
  replace (match K with Some k => k | None => kappa c a f (hd 0%Z (map t p)) end) with k0 in E
    by (unfold k0, K, first_period; destruct H; auto).
  fold k1 in E. destruct E as [E Hnext]; auto.
  assert (Hrun : running N val agg dtypes (Some cb) (filter (fun r => in_period c a f k0 (t r)) H) (period_label (tg_label tg) a f k0)).
  { unfold running, k0, first_period. fold c. destruct H as [|h0 H'] eqn:EH; [subst cb; simpl; auto|]. rewrite <- EH in *.
    destruct Hinv as (_ & -> & (r & -> & Hr) & _). split; auto. split; [|eauto].
    assert (HmH : map t H <> []) by (subst H; discriminate).
    pose proof (last_In (map t H) 0%Z HmH) as Hin. apply in_map_iff in Hin as (h & Eh & Hh).
    intro Q. assert (In h []) as []. rewrite <- Q. apply filter_In. split; auto. apply in_period_kappa; auto.
    rewrite Eh. auto. }
  destruct (vals_call t c les Hlab Hends m m' H p Hne Hsrt0 Hm' Hm Hnew) as (ss & Es & S1 & S2 & S3 & S4 & S5).
  unfold tgb. rewrite HlastA. fold c a f. fold k0 k1.
  eapply outcome_impl.
  - unfold vgroups. replace (relabel (g (H ++ p)) (vsnaps t c les m' H p))
      with (combine (s_labels ss) (map (fun e => snap_period t c a f e (H ++ p)) (s_ends ss))).
    2:{ rewrite S4, S5. apply combine_relabel_. }
    apply (time_call_snap N val agg dtypes Hvalid Hnodup Hagg t tg _ eo H p (Some cb) (Some (tg_next_buffer c a f (map t p) k0 k1)) a k0 ss
               (Some (sbuf_of t c les m' (H ++ p))) (Some (sbuf_of t c les m H))); auto.
    + intros HneH. unfold k0, first_period. destruct H as [|h0 H'] eqn:EH; [congruence|]. rewrite <- EH in *.
      assert (HmH : map t H <> []) by (subst H; discriminate).
      pose proof (last_In (map t H) 0%Z HmH) as Hin. apply in_map_iff in Hin as (h & Eh & Hh). exists h. rewrite Eh. auto.
    + unfold snap_buffer. destruct H as [|h0 H']; [subst cb; simpl; auto|].
      destruct Hinv as ((sb & -> & _) & _). destruct (Hsn ltac:(discriminate)) as (cb' & Q & Hcb). injection Q as <-. rewrite Hcb. split; auto. congruence.
    + intros h e Hh He. rewrite S5 in He. apply in_map_iff in He as (le & <- & Hle).
      assert (Hin : In le (todo t c les m' H)).
      { unfold vsnaps in Hle. revert Hle. clear. generalize (todo t c les m' H). induction l as [|y l IH]; simpl; auto.
        destruct (covers t c p y); simpl; intuition. }
      unfold todo in Hin. apply filter_In in Hin as [_ Hin]. unfold covers in Hin. rewrite forallb_forall in Hin. auto.
  - intros b' (r & -> & Hr). split.
    + eexists. split; [reflexivity|].
      destruct (H ++ p) as [|x l] eqn:Ex; [apply app_eq_nil in Ex as [_ Ex]; congruence|]. rewrite <- Ex in *.
      cbv zeta. rewrite HlastA. fold c a f. fold k1. simpl. split; [eauto|]. split; auto. split; [eauto|]. discriminate.
    + intros _. eexists. split; [reflexivity|]. auto.
Qed.

Lemma time_points_once : forall eo data, data <> [] -> sorted (map t data) -> les <> [] ->
  outcome N val agg dtypes eo (tgb t tg [] data) (Some (vgroups t c les g (length les) [] data)) (fun b => b = None)
    (csa (time_bins t tg) sbuf_empty (Some t) (points (length les)) eo data None).
Proof.
  intros eo data Hne Hs Hles. assert (Hmn := map_ne t data Hne).
  set (k0 := kappa c a f (hd 0%Z (map t data))). set (k1 := kappa c a f (last (map t data) 0%Z)).
  assert (E : by_scale (map t data) (ByTG tg) None None =
    Ok (mkSeg (pstarts c a f (map t data) k0 k1) (map (period_label (tg_label tg) a f) (zrange k0 k1))
        (n_empty 0 (pstarts c a f (map t data) k0 k1)) c (map (period_end a f) (zrange k0 k1)) false 0, None)).
  { pose proof (by_scale_tg_gen tg None (map t data) (hd 0%Z (map t data)) a k0 None) as E. cbv zeta in E. cbv iota in E.
    fold f c k1 in E. apply E; auto.
    - apply kappa_hd_le; auto; apply last_In; auto.
    - unfold f, c. rewrite gtre_fixed by auto. auto. }
  unfold points. rewrite firstn_all.
  destruct (vals_once t PIndex (map fst les) (map snd les) c data Hne Hs) as (ss & Es & S1 & S2 & S3 & S4); auto.
  { rewrite !map_length; auto. } { intro Q; apply map_eq_nil in Q; auto. } { apply lt_sorted; auto. }
  rewrite combine_split_ in S4.
  unfold tgb. unfold first_period. rewrite app_nil_l. fold c a f. fold k0 k1.
  eapply outcome_impl.
  - unfold vgroups, vsnaps. rewrite todo_nil, firstn_all. rewrite app_nil_l.
    replace (relabel (g data) (take_until (covers t c data) les))
      with (combine (s_labels ss) (map (fun e => snap_period t c a f e ([] ++ data)) (s_ends ss))).
    2:{ unfold covers at 1. rewrite <- S4.
        assert (Q : length (s_labels ss) = length (s_ends ss)) by (destruct S1; congruence). clear -Q.
        revert Q. unfold relabel. generalize (s_labels ss), (s_ends ss). induction l as [|y l IH]; intros [|z mm] Q; simpl in *; try discriminate; auto.
        f_equal. apply IH. lia. }
    apply (time_call_snap N val agg dtypes Hvalid Hnodup Hagg t tg (ByVals PIndex (map fst les) (map snd les)) eo [] data None None a k0 ss None None); auto.
    + apply Z.le_refl.
    + contradiction.
    + congruence.
    + simpl. auto.
    + simpl. auto.
  - simpl. auto.
Qed.

Lemma time_points_calls : forall eo calls, calls <> [] -> sorted (map t (concat (map fst calls))) -> points_in_time t c les [] 0 calls ->
  let call pm b := csa (time_bins t tg) sbuf_empty (Some t) (points (snd pm)) eo (fst pm) b in
  (eo = false -> exists rs b', run_pieces call (Some csabuf_empty) calls = Ok (rs, b')) /\
  (forall rs b', run_pieces call (Some csabuf_empty) calls = Ok (rs, b') ->
   exists fw sw,
     csa (time_bins t tg) sbuf_empty (Some t) (points (length les)) false (concat (map fst calls)) None = Ok (Some (fw, Some sw), None)
     /\ frames_make agg (bin_frames rs) fw
     /\ forall out, In out (map fst agg) -> join_results (map (column_of out) (snap_frames rs)) = column_of out sw).
Proof.
  intros eo calls Hne Hs Hpt call.
  assert (Hinv : tvinv 0 [] (Some csabuf_empty)) by (split; [exists csabuf_empty; split; auto|congruence]).
  assert (Happ : forall H p : list D, sorted (map t (H ++ p)) -> sorted (map t H)).
  { intros H p Q. rewrite map_app in Q. apply sorted_app in Q. tauto. }
  assert (Hstep : forall H p m m' b, p <> [] -> sorted (map t (H ++ p)) -> tvinv m H b -> 0 < m' <= length les ->
    (H <> [] -> 0 < m <= m') -> (forall le, In le (skipn m (firstn m' les)) -> covers t c H le = true) ->
    outcome N val agg dtypes eo (tgb t tg H p) (Some (vgroups t c les g m' H p)) (tvinv m' (H ++ p)) (call (p, m') b)).
  { intros. apply time_points_step with (m := m); auto. }
  assert (Hdata : concat (map fst calls) <> [] /\ les <> []).
  { destruct calls as [|[p m] cs]; [congruence|]. simpl in *. destruct Hpt as (Hp & Hm & Hm' & _). split.
    - intro Q. apply app_eq_nil in Q. tauto.
    - intro Q. rewrite Q in Hm'. simpl in Hm'. lia. }
  split.
  - intros Heo. eapply (calls_total t c les g N val agg dtypes call eo (fun l => sorted (map t l)) tvinv (tgb t tg)) with (H := []); eauto.
    + congruence.
    + intros le r _ [].
  - intros rs b' Hrun.
    pose proof (time_points_once false (concat (map fst calls)) (proj1 Hdata) Hs (proj2 Hdata)) as O.
    destruct (proj2 O) as (fw0 & sw0 & bw0 & E0 & _ & _ & ->); [intros [Q _]; discriminate|].
    destruct (calls_whole t c les Hlab Hends g time_g_stable N val agg dtypes Hvalid call eo (fun l => sorted (map t l)) tvinv (tgb t tg)
      Happ (fun H Q => Q) Hstep (tgb_stitch t tg Hf) calls (Some csabuf_empty) rs b'
      (csa (time_bins t tg) sbuf_empty (Some t) (points (length les)) false (concat (map fst calls)) None))
      as (fw & sw & bw & E & F1 & F2); auto.
    + apply (outcome_impl N val agg dtypes _ _ _ _ _ _ O). auto.
    + rewrite E0 in E. injection E as <- -> <-. eauto.
Qed.
End Time.

Section Rows.
Variable x : nat.
Hypothesis Hx : 0 < x.
Variable c : side.
Let g (X : list D) (e : Z) := snap_of_rows t x c e X.
Definition rvok (l : list D) : Prop := sorted (map t l) /\ (c = SRight -> no_straddle t x l).

Definition rvinv (m : nat) (H : list D) (b : option (csabuf (option xbuf) V)) : Prop :=
  rinv N val agg dtypes t x c None H b /\
  (H <> [] -> exists cb, b = Some cb /\ mb_snap (cb_main cb) = Some (sbuf_of t c les m H)).

Lemma row_g_stable : forall H p le, sorted (map t (H ++ p)) -> covers t c H le = false -> g (H ++ p) (snd le) = g H (snd le).
Proof.
  intros H p le Hs Hc. unfold g, snap_of_rows.
  assert (Hp : forall r, In r p -> before c (snd le) (t r) = false) by (intros r Hr; eapply passed_later; eauto).
  assert (Hp2 : forall r, In r p -> (t r <? snd le)%Z = false).
  { intros r Hr. specialize (Hp r Hr). destruct c; simpl in Hp; auto. apply Z.leb_gt in Hp. apply Z.ltb_ge. lia. }
  rewrite !filter_app. rewrite (filter_none _ p Hp), (filter_none _ p Hp2), !app_nil_r. auto.
Qed.

Lemma row_points_step : forall eo H p m m' b, p <> [] -> rvok (H ++ p) -> rvinv m H b -> 0 < m' <= length les ->
  (H <> [] -> 0 < m <= m') -> (forall le, In le (skipn m (firstn m' les)) -> covers t c H le = true) ->
  outcome N val agg dtypes eo (rgb t x H p) (Some (vgroups t c les g m' H p)) (rvinv m' (H ++ p))
    (csa (row_bins t x c) None (Some t) (points m') eo p b).
Proof.
  intros eo H p m m' b Hne [Hsrt Hstr] [(cb & -> & Hinv) Hsn] Hm' Hm Hnew. assert (Hmn := map_ne t p Hne).
  assert (HL : 0 < length p) by (destruct p; [congruence|simpl; lia]).
  destruct (xb_facts x (length H) (length p) Hx HL) as (F1 & F2 & F3 & F4 & F5 & F6).
  set (ob := match mb_bin (cb_main cb) with Some o => o | None => None end).
  assert (Hbok : xbuf_ok x c (map t H) ob).
  { unfold ob. destruct H as [|h0 H']; [subst cb; simpl; auto|]. destruct Hinv as ((xb & -> & Hb) & _). auto. }
  destruct (by_x_rows_spec x c (map t H) (map t p) ob Hx Hmn Hbok) as (b' & E & Hb'). cbv zeta in E.
  rewrite !map_length in E. rewrite <- map_app in E, Hb'.
  assert (Hready : ready N val agg dtypes t x c H p (Some cb) (Some (Some b'))).
  { split; [exact E|]. unfold running. destruct H as [|h0 H'] eqn:EH; [subst cb; simpl; rewrite row_bin_nil; auto|]. rewrite <- EH in *.
    destruct Hinv as (_ & -> & (r & -> & Hr) & _). specialize (F3 ltac:(subst H; simpl; lia)). split; [|split; [|eauto]].
    - rewrite map_app, app_nth1; auto. rewrite map_length. auto.
    - apply row_bin_ne; auto. }
  assert (Hxb : xb0 x (length (H ++ p)) = xb1 x (length H) (length p)) by (unfold xb0, xb1; rewrite app_length; auto).
  destruct (vals_call t c les Hlab Hends m m' H p Hne Hsrt Hm' Hm Hnew) as (ss & Es & S1 & S2 & S3 & S4 & S5).
  eapply outcome_impl.
  - unfold vgroups. replace (relabel (g (H ++ p)) (vsnaps t c les m' H p))
      with (combine (s_labels ss) (map (fun e => snap_of_rows t x c e (H ++ p)) (s_ends ss))).
    2:{ rewrite S4, S5. apply combine_relabel_. }
    apply (row_call_snap N val agg dtypes Hvalid Hnodup Hagg t x Hx c _ eo H p (Some cb) (Some (Some b')) ss
             (Some (sbuf_of t c les m' (H ++ p))) (Some (sbuf_of t c les m H))); auto.
    + unfold snap_buffer. destruct H as [|h0 H']; [subst cb; simpl; auto|].
      destruct Hinv as ((sb & -> & _) & _). destruct (Hsn ltac:(discriminate)) as (cb' & Q & Hcb). injection Q as <-. rewrite Hcb. split; auto. congruence.
    + intros h e Hh He. rewrite S5 in He. apply in_map_iff in He as (le & <- & Hle).
      assert (Hin : In le (todo t c les m' H)).
      { unfold vsnaps in Hle. revert Hle. clear. generalize (todo t c les m' H). induction l as [|y l IH]; simpl; auto.
        destruct (covers t c p y); simpl; intuition. }
      unfold todo in Hin. apply filter_In in Hin as [_ Hin]. unfold covers in Hin. rewrite forallb_forall in Hin. auto.
  - intros b2 (r & -> & Hr). split.
    + eexists. split; [reflexivity|].
      destruct (H ++ p) as [|y l] eqn:Ex; [apply app_eq_nil in Ex as [_ Ex]; congruence|]. rewrite <- Ex in *. rewrite Hxb.
      cbn [cb_main mb_bin mb_last_label cb_last mb_snap]. split; [eauto|]. split; auto. split; [eauto|]. discriminate.
    + intros _. eexists. split; [reflexivity|]. auto.
Qed.

Lemma row_points_once : forall eo data, data <> [] -> rvok data -> les <> [] ->
  outcome N val agg dtypes eo (rgb t x [] data) (Some (vgroups t c les g (length les) [] data)) (fun b => b = None)
    (csa (row_bins t x c) None (Some t) (points (length les)) eo data None).
Proof.
  intros eo data Hne [Hs Hstr] Hles. unfold points. rewrite firstn_all.
  assert (Hg : row_groups t x 0 (S ((length data - 1) / x)) data = rgb t x [] data).
  { unfold rgb. simpl length. unfold xb0, xb1. rewrite (Nat.div_small (0 - 1)) by lia. rewrite Nat.sub_0_r. auto. }
  rewrite <- Hg.
  pose proof (row_once_vals N val agg dtypes Hvalid Hnodup Hagg t x Hx c PIndex (map fst les) (map snd les) eo data Hne Hs Hstr) as O.
  rewrite combine_split_ in O. unfold vgroups, vsnaps. rewrite todo_nil, firstn_all. rewrite app_nil_l. apply O; auto.
  - rewrite !map_length; auto.
  - intro Q; apply map_eq_nil in Q; auto.
  - apply lt_sorted; auto.
Qed.

Lemma row_points_calls : forall eo calls, calls <> [] -> rvok (concat (map fst calls)) -> points_in_time t c les [] 0 calls ->
  let call pm b := csa (row_bins t x c) None (Some t) (points (snd pm)) eo (fst pm) b in
  (eo = false -> exists rs b', run_pieces call (Some csabuf_empty) calls = Ok (rs, b')) /\
  (forall rs b', run_pieces call (Some csabuf_empty) calls = Ok (rs, b') ->
   exists fw sw,
     csa (row_bins t x c) None (Some t) (points (length les)) false (concat (map fst calls)) None = Ok (Some (fw, Some sw), None)
     /\ frames_make agg (bin_frames rs) fw
     /\ forall out, In out (map fst agg) -> join_results (map (column_of out) (snap_frames rs)) = column_of out sw).
Proof.
  intros eo calls Hne Hs Hpt call.
  assert (Hinv : rvinv 0 [] (Some csabuf_empty)) by (split; [exists csabuf_empty; split; auto|congruence]).
  assert (Happ : forall H p : list D, rvok (H ++ p) -> rvok H).
  { intros H p [A1 A2]. split; [rewrite map_app in A1; apply sorted_app in A1; tauto|].
    intros Ec b Hb Hlt. specialize (A2 Ec b Hb). rewrite app_length in A2. specialize (A2 ltac:(lia)).
    rewrite map_app, !app_nth1 in A2 by (rewrite map_length; lia). auto. }
  assert (Hstep : forall H p m m' b, p <> [] -> rvok (H ++ p) -> rvinv m H b -> 0 < m' <= length les ->
    (H <> [] -> 0 < m <= m') -> (forall le, In le (skipn m (firstn m' les)) -> covers t c H le = true) ->
    outcome N val agg dtypes eo (rgb t x H p) (Some (vgroups t c les g m' H p)) (rvinv m' (H ++ p)) (call (p, m') b)).
  { intros. apply row_points_step with (m := m); auto. }
  assert (Hdata : concat (map fst calls) <> [] /\ les <> []).
  { destruct calls as [|[p m] cs]; [congruence|]. simpl in *. destruct Hpt as (Hp & Hm & Hm' & _). split.
    - intro Q. apply app_eq_nil in Q. tauto.
    - intro Q. rewrite Q in Hm'. simpl in Hm'. lia. }
  split.
  - intros Heo. eapply (calls_total t c les g N val agg dtypes call eo rvok rvinv (rgb t x)) with (H := []); eauto.
    + congruence.
    + intros le r _ [].
  - intros rs b' Hrun.
    pose proof (row_points_once false (concat (map fst calls)) (proj1 Hdata) Hs (proj2 Hdata)) as O.
    destruct (proj2 O) as (fw0 & sw0 & bw0 & E0 & _ & _ & ->); [intros [Q _]; discriminate|].
    destruct (calls_whole t c les Hlab Hends g row_g_stable N val agg dtypes Hvalid call eo rvok rvinv (rgb t x)
      Happ (fun H Q => proj1 Q) Hstep (fun H p A1 A2 _ => rgb_stitch t x Hx H p A1 A2) calls (Some csabuf_empty) rs b'
      (csa (row_bins t x c) None (Some t) (points (length les)) false (concat (map fst calls)) None))
      as (fw & sw & bw & E & F1 & F2); auto.
    + apply (outcome_impl N val agg dtypes _ _ _ _ _ _ O). auto.
    + rewrite E0 in E. injection E as <- -> <-. eauto.
Qed.
End Rows.
End Points.
