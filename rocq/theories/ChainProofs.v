(** Proofs about chained aggregations. *)
Require Import List Arith ZArith Bool Lia Sorting.Sorted.
Require Import Verif.Common Verif.SegSpec Verif.WrModel Verif.WrSpec Verif.WrProofs Verif.StreamModel Verif.RaiseModel Verif.StreamSpec Verif.TableProofs Verif.BatchSpec Verif.LabelProofs Verif.BatchProofs Verif.BatchRunProofs
  Verif.GrowProofs Verif.BatchHoldProofs Verif.ChainSpec Verif.RecordProofs Verif.MdProofs.
Require Verif.IterProofs Verif.SegProofs Verif.BatchKeyProofs.
Import ListNotations.
Local Open Scope Z_scope.

(** ** Histories cut in two *)
Section Cut.
Context {D P SB PB : Type}.
Variables (idx : D -> Z) (truthy : Z -> bool) (usage : frame -> Z).
Variables (pre : option (list D -> P -> list D * P * bool)) (fs : @filters D) (pre0 : P) (seg0 : SB) (post0 : PB).
Lemma run_all_app : forall a b g, run_all idx truthy usage pre fs pre0 seg0 post0 g (a ++ b) = bind (run_all idx truthy usage pre fs pre0 seg0 post0 g a) (fun g => run_all idx truthy usage pre fs pre0 seg0 post0 g b).
Proof.
  induction a as [|r a IH]; intros b g; cbn [app run_all]; auto. destruct (run_once idx truthy usage pre fs pre0 seg0 post0 g r); cbn [bind]; auto.
Qed.
Lemma whole_seed_app : forall (a b : list (@run D)) before, whole_seed before (a ++ b) = whole_seed (whole_seed before a) b.
Proof.
  induction a as [|r a IH]; intros b before; cbn [app].
  - unfold whole_seed at 3. simpl. rewrite app_nil_r. auto.
  - rewrite !(whole_seed_cons r). apply IH.
Qed.
Lemma growing_app : forall (a b : list (@run D)) before, growing idx before (a ++ b) <-> growing idx before a /\ growing idx (whole_seed before a) b.
Proof.
  induction a as [|r a IH]; intros b before; cbn [app growing].
  - unfold whole_seed. simpl. rewrite app_nil_r. tauto.
  - rewrite whole_seed_cons, IH. tauto.
Qed.
Lemma sorted_seed : forall rs before, growing idx before rs -> sorted (map idx before) -> sorted (map idx (whole_seed before rs)).
Proof.
  induction rs as [|r rs IH]; intros before Hg Hs; [unfold whole_seed; simpl; rewrite app_nil_r; auto|]. cbn [growing] in Hg. destruct Hg as (_ & H1 & _ & H2).
  rewrite whole_seed_cons. apply IH; auto.
Qed.
Lemma all_written_app : forall (a b : list (@run D)) w, all_written w (a ++ b) -> all_written w a.
Proof. induction a as [|r a IH]; intros b w H; cbn [app all_written] in *; auto. destruct H as [H1 H2]. split; eauto. Qed.
End Cut.

(** ** Tables *)
(** A table whose last row only is replaced extends the previous one. *)
Lemma table_extends : forall (A B : list row), StronglySorted Z.lt (labels A) -> StronglySorted Z.lt (labels B) -> starts (labels A) (labels B) -> starts (removelast A) B -> extends (col 0) A B.
Proof.
  intros A B SA SB SL SR. destruct A as [|a0 A0].
  - exists B. split; auto. congruence.
  - destruct (exists_last (l := a0 :: A0) ltac:(discriminate)) as (A' & r & EA). rewrite EA in *. clear a0 A0 EA. rewrite removelast_last in SR. destruct SR as [new ->].
    unfold extends. rewrite last_index_last, filter_app. cbn [filter]. rewrite Z.ltb_irrefl, app_nil_r.
    rewrite !map_app in *. apply SS_app in SA as (SA1 & SA2 & SA3). apply SS_app in SB as (SB1 & SB2 & SB3). destruct SL as [q SL]. cbn [map] in SL. rewrite <- app_assoc in SL. apply app_inv_head in SL.
    exists new. split.
    + f_equal. symmetry. apply IterProofs.filter_all. apply forallb_forall. intros y Hy. apply Z.ltb_lt. apply (SA3 (col 0 y) (col 0 r)); [apply in_map; auto|simpl; auto].
    + intros _. destruct new as [|n0 new]; [discriminate|]. cbn [map app] in SL. injection SL as E0 _. split; [discriminate|]. intros y [<-|Hy]; [lia|]. cbn [map] in SB2. inversion SB2 as [|? ? _ F]; subst. rewrite Forall_forall in F.
      specialize (F (col 0 y) (in_map _ _ _ Hy)). lia.
Qed.

Section Chain.
Context {D P SB PB : Type}.
Variables (idx : D -> Z) (truthy : Z -> bool) (usage : frame -> Z).
Notation kconf := (kconf D SB PB).
Notation last_index := (last_index idx).
Variables (fs : @filters D) (gs : list (nat * (D -> bool))).
Hypothesis Hfs : filters_are fs gs.
Variable pre : option (@pre_fun D P).
Hypothesis Hpre : harmless pre.
Variables (pre0 : P) (seg0 : SB) (post0 : PB).
Context {X : Type}.
Variable conf : X -> kconf.
Variable keys : list X.
Variables (T TS : X -> list D -> list row) (Inv : X -> list D -> SB -> Prop) (m ms : X -> row -> row) (kp : X -> D -> bool).
Variable good : X -> list D -> Prop.
Hypothesis good_app : forall x a b, good x (a ++ b) -> good x a.
Hypothesis Htab : forall x, In x keys -> tabular (conf x) seg0 (ok idx good x) (T x) (TS x) (Inv x).
Hypothesis Hpost : forall x, In x keys -> post_is (conf x) (m x) (ms x).
Hypothesis Hpar : forall x, In x keys -> writes_as_labels (conf x) (ok idx good x) (T x) (TS x) (m x) (ms x).
Hypothesis Hkp : forall x, In x keys -> In (k_filter (conf x), kp x) gs.
Notation rows_of := (rows_of idx kp).
Notation Q := (forall i, truthy i = true).
Notation start := (new_stream pre0 seg0 post0 (map conf keys)).
Notation run_all_ := (run_all idx truthy usage pre fs pre0 seg0 post0).
Notation chans_ x := (@chans D P SB PB (conf x) (T x) (TS x) (m x) (ms x)).
Definition fine (rs : list (@run D)) : Prop := (forall x, In x keys -> no_coalescing (conf x)) \/ (Q /\ all_written true rs).

Lemma rows_of_starts : forall x S S', grows idx S S' -> starts (rows_of x S) (rows_of x S').
Proof.
  intros x S S' G. destruct S as [|s S]; [apply starts_nil|]. assert (Hne : s :: S <> []) by discriminate. set (l := s :: S) in *.
  destruct (grows_last _ _ _ G Hne) as [_ L]. pose proof G as (_ & _ & Hs'). unfold BatchRunProofs.rows_of.
  pose proof (IterProofs.split_below idx S' (last_index l) Hs') as Es. exists (filter (fun y => kp x y && (idx y <? last_index S')) (filter (fun y => negb (idx y <? last_index l)) S')).
  assert (Ef : forall f, filter f S' = filter f (filter (fun y => idx y <? last_index l) S') ++ filter f (filter (fun y => negb (idx y <? last_index l)) S')) by (intro f; rewrite <- filter_app, <- Es; auto).
  rewrite Ef. f_equal. rewrite (grows_below idx l S' (last_index l) G Hne) by lia. rewrite IterProofs.filter_filter. apply filter_ext. intro y.
  destruct (idx y <? last_index l) eqn:E; [|rewrite andb_false_r; auto]. simpl. apply Z.ltb_lt in E. replace (idx y <? last_index S') with true by (symmetry; apply Z.ltb_lt; lia). auto.
Qed.
Lemma good_before : forall S S', grows idx S S' -> (forall x, In x keys -> good x (rows_of x S')) -> forall x, In x keys -> good x (rows_of x S).
Proof. intros S S' G H x Hx. destruct (rows_of_starts x S S' G) as [q E]. specialize (H x Hx). rewrite E in H. eapply good_app; eauto. Qed.

(** Results of a key, once written. *)
Lemma stored_rows : forall rs g, growing idx [] rs -> (forall x, In x keys -> good x (rows_of x (whole_seed [] rs))) -> fine rs ->
  run_all_ start rs = Ok g -> rs <> [] -> r_final (last rs (mkRun false false [])) = true ->
  forall i x c, nth_error keys i = Some x -> In c (chans_ x) -> exists b s, nth_error (g_keys g) i = Some (conf x, b, s) /\
    all_rows (c_ds c s) = map (c_map c) (c_tab c (rows_of x (whole_seed [] rs))) /\ filled (c_ds c s).
Proof.
  intros rs g Hg Hgood Hc E Hne Hl i x c Hx Hin.
  pose proof (sorted_seed idx rs [] Hg ltac:(constructor)) as Hs.
  destruct (exists_last Hne) as (rs0 & r & ->). rewrite last_last in Hl.
  assert (Hin' : exists b s, nth_error (g_keys g) i = Some (conf x, b, s)).
  { assert (En : nth_error (map (fun x => fst (fst x)) (g_keys g)) i = Some (conf x)).
    { rewrite (run_all_keys idx truthy usage _ _ _ _ _ _ _ _ E). unfold new_stream. cbn [g_keys]. rewrite map_map. cbn [fst]. rewrite map_id, nth_error_map, Hx. auto. }
    rewrite nth_error_map in En. destruct (nth_error (g_keys g) i) as [[[k b] s]|]; [|discriminate]. cbn in En. injection En as ->. eauto. }
  destruct Hin' as (b & s & Eg). exists b, s. split; auto. set (Sf := whole_seed [] (rs0 ++ [r])) in *.
  destruct (new_mem_inv idx truthy pre0 seg0 post0 conf keys T TS Inv m ms kp good Htab Hpost Hpar Sf) as [M W].
  split.
  - destruct (run_all_batch idx truthy usage fs gs Hfs pre Hpre pre0 seg0 post0 conf keys T TS Inv m ms kp good good_app Htab Hpost Hpar Hkp Sf Hs Hgood (rs0 ++ [r]) [] start g true M (SSorted_nil _) Hg eq_refl) with (i := i) (k := conf x) (b := b) (s := s) as (x' & Ex & Hx' & H); auto.
    + destruct Hc as [Hc|[Tq Hw]]; [left|right; split; [|split]]; auto.
    + rewrite last_last. auto.
    + rewrite Hx in Hx'. injection Hx' as <-. apply H; auto.
  - assert (F : forall rs S g g' w, mem_inv idx truthy conf keys T TS Inv m ms kp Sf S g -> sorted (map idx S) -> growing idx S rs -> Sf = whole_seed S rs -> rs <> [] ->
      ((forall x, In x keys -> no_coalescing (conf x)) \/ (Q /\ all_written w rs /\ (w = true -> written_inv truthy g))) -> run_all_ g rs = Ok g' -> mem_inv idx truthy conf keys T TS Inv m ms kp Sf Sf g').
    { clear - Hfs Hpre good_app Htab Hpost Hpar Hkp Hs Hgood. clearbody Sf. clear r. induction rs as [|r rs IH]; intros S g g' w Hi HS Hg Ef Hne Hc E; [congruence|]. clear Hne. cbn [growing run_all] in *.
      destruct Hg as (En & Hs' & Hch & Hg). pose proof (conj En (conj HS Hs') : grows idx _ _) as G1. destruct (run_once idx truthy usage pre fs pre0 seg0 post0 g r) as [g1|] eqn:E1; cbn [bind] in E; [|discriminate].
      pose proof (growing_starts idx _ _ Hg Hs') as E2. rewrite whole_seed_cons in Ef. rewrite <- Ef in E2.
      destruct (run_step idx truthy usage fs gs Hfs pre Hpre pre0 seg0 post0 conf keys T TS Inv m ms kp good good_app Htab Hpost Hpar Hkp Sf Hs Hgood S g r g1 (or_introl Hi)) as (M & K & W); eauto.
      { destruct Hc as [Hc|(Tq & [A1 A2] & Wr)]; [left; auto|right; split; auto]. }
      destruct rs as [|r' rs].
      - injection E as <-. unfold whole_seed in Ef. simpl in Ef. rewrite app_nil_r in Ef. rewrite <- Ef in M. exact M.
      - apply (IH (concat (r_seed r)) g1 g' (r_final r)); auto; [discriminate|]. destruct Hc as [Hc|(Tq & [A1 A2] & Wr)]; [left; auto|right; split; auto]. }
    destruct (F (rs0 ++ [r]) [] start g true M (SSorted_nil _) Hg eq_refl Hne) as [K _]; auto.
    { destruct Hc as [Hc|[Tq Hw]]; [left|right; split; [|split]]; auto. }
    destruct (K i (conf x) b s Eg) as (x' & _ & Hx' & H & _ & _ & St & _). rewrite Hx in Hx'. injection Hx' as <-. apply (St c Hin).
Qed.

(** Results extend those of the previous step. *)
Lemma results_extend : forall x c S S', In x keys -> In c (chans_ x) -> grows idx S S' -> good x (rows_of x S') ->
  grows (col 0) (map (c_map c) (c_tab c (rows_of x S))) (map (c_map c) (c_tab c (rows_of x S'))).
Proof.
  intros x c S S' Hx Hc G Hg. destruct (chan_facts (conf x) seg0 (ok idx good x) (T x) (TS x) (Inv x) (m x) (ms x) (Htab x Hx) (Hpost x Hx) (Hpar x Hx) c Hc) as (_ & Hm & _ & F1 & F2 & F3).
  destruct (rows_of_starts x S S' G) as [q Eq]. pose proof G as (_ & _ & Hs').
  assert (K' : ok idx good x (rows_of x S')) by (split; auto; apply IterProofs.sorted_filter; auto).
  assert (K : ok idx good x (rows_of x S)) by (rewrite Eq in K'; exact (ok_app idx good good_app x _ _ K')).
  assert (L : forall l, labels (map (c_map c) l) = labels l) by (intro l; rewrite map_map; apply map_ext; auto).
  assert (So : forall l, StronglySorted Z.lt l -> sorted l). { intros l H. induction H as [|a l H IH F]; constructor; auto. eapply Forall_impl; [|exact F]. cbn. intros; lia. }
  split; [|split; rewrite L; apply So; apply F1; auto]. apply table_extends; rewrite ?L; auto.
  - rewrite Eq. apply F2. rewrite <- Eq. auto.
  - rewrite <- BatchKeyProofs.map_removelast_. apply starts_map. rewrite Eq. apply F3. rewrite <- Eq. auto.
Qed.

Context {P' SB' PB' : Type}.
Variables (usage' : frame -> Z) (pre' : option (list row -> P' -> list row * P' * bool)) (fs' : @filters row) (pre0' : P') (seg0' : SB') (post0' : PB').
Variables (i : nat) (snap : bool) (x : X) (c : @chan D P SB PB).
Hypothesis Hx : nth_error keys i = Some x.
Hypothesis Hc : In c (chans_ x).
Hypothesis Hds : forall s, c_ds c s = data_of (if snap then s_snap s else s_main s).
Notation tab S := (map (c_map c) (c_tab c (rows_of x S))).

Lemma chain_runs : forall ls rs0 g g1 g' g1', run_all_ start rs0 = Ok g -> growing idx [] (rs0 ++ runs_of ls) -> (forall y, In y keys -> good y (rows_of y (whole_seed [] (rs0 ++ runs_of ls)))) ->
  fine (rs0 ++ runs_of ls) -> (forall l, In l ls -> link_ok l) ->
  link_all idx truthy usage usage' pre fs pre0 seg0 post0 pre' fs' pre0' seg0' post0' i snap (g, g1) ls = Ok (g', g1') ->
  run_all_ start (rs0 ++ runs_of ls) = Ok g' /\
  (ls <> [] -> exists ds, results_of i snap g' = Ok ds /\ all_rows ds = tab (whole_seed [] (rs0 ++ runs_of ls))) /\
  exists rs, run_all (col 0) truthy usage' pre' fs' pre0' seg0' post0' g1 rs = Ok g1' /\ growing (col 0) (tab (whole_seed [] rs0)) rs /\
    map (fun r => (r_fresh r, r_final r)) rs = map (fun l => (l_fresh l, l_final l)) ls /\ whole_seed (tab (whole_seed [] rs0)) rs = tab (whole_seed [] (rs0 ++ runs_of ls)).
Proof.
  induction ls as [|l ls IH]; intros rs0 g g1 g' g1' E0 Hg Hgood Hf Hok E; cbn [link_all] in E.
  - injection E as <- <-. change (runs_of []) with (@nil (@run D)) in *. rewrite app_nil_r in *. split; auto. split; [congruence|]. exists []. cbn [run_all growing map]. repeat split; auto. unfold whole_seed at 1. simpl. apply app_nil_r.
  - change (runs_of (l :: ls)) with (l_runs l ++ runs_of ls) in *. rewrite app_assoc in *.
    unfold link_once in E. destruct (run_all_ g (l_runs l)) as [g2|] eqn:E1; cbn [bind] in E; [|discriminate].
    destruct (results_of i snap g2) as [ds|] eqn:E2; cbn [bind] in E; [|discriminate].
    destruct (run_once (col 0) truthy usage' pre' fs' pre0' seg0' post0' g1 (mkRun (l_fresh l) (l_final l) (map content ds))) as [g3|] eqn:E3; cbn [bind] in E; [|discriminate].
    assert (E1' : run_all_ start (rs0 ++ l_runs l) = Ok g2) by (rewrite run_all_app, E0; exact E1).
    pose proof Hg as Hg0. apply growing_app in Hg0 as [Hg1 Hg2]. pose proof Hg1 as Hg0. apply growing_app in Hg0 as [Hg3 Hg4].
    assert (S1 : sorted (map idx (whole_seed [] (rs0 ++ l_runs l)))) by (apply sorted_seed; auto; constructor).
    assert (G1 : grows idx (whole_seed [] (rs0 ++ l_runs l)) (whole_seed [] ((rs0 ++ l_runs l) ++ runs_of ls))) by (rewrite (whole_seed_app (rs0 ++ l_runs l)); apply growing_starts; auto).
    assert (G0 : grows idx (whole_seed [] rs0) (whole_seed [] (rs0 ++ l_runs l))) by (rewrite whole_seed_app; apply growing_starts; auto; apply sorted_seed; auto; constructor).
    assert (Good1 : forall y, In y keys -> good y (rows_of y (whole_seed [] (rs0 ++ l_runs l)))) by (eapply good_before; eauto).
    assert (Hf1 : fine (rs0 ++ l_runs l)) by (destruct Hf as [Hf|[Tq Hf]]; [left; auto|right; split; auto; eapply all_written_app; eauto]).
    destruct (Hok l (or_introl eq_refl)) as [L1 L2].
    destruct (stored_rows (rs0 ++ l_runs l) g2 Hg1 Good1 Hf1 E1') with (i := i) (x := x) (c := c) as (b & s & Es & Er & Fl); auto.
    { intro Z0. apply app_eq_nil in Z0 as [_ Z0]. auto. }
    { destruct (exists_last L1) as (a & r & Ea). rewrite Ea in *. rewrite app_assoc, last_last in *. auto. }
    assert (ds = c_ds c s) as -> by (unfold results_of in E2; rewrite Es in E2; injection E2 as <-; symmetry; apply Hds).
    destruct (IH (rs0 ++ l_runs l) g2 g3 g' g1' E1' Hg Hgood Hf (fun y Hy => Hok y (or_intror Hy)) E) as (R1 & R2 & rs & R3 & R4 & R5 & R6).
    split; auto. split.
    { intros _. destruct ls as [|l' ls]; [|apply R2; discriminate]. injection E as <- <-. change (runs_of []) with (@nil (@run D)) in *. rewrite app_nil_r in *. exists (c_ds c s). split; auto. }
    exists (mkRun (l_fresh l) (l_final l) (map content (c_ds c s)) :: rs). cbn [run_all]. rewrite E3. cbn [bind]. split; auto.
    pose proof (results_extend x c _ _ (nth_error_In _ _ Hx) Hc G0 (Good1 x (nth_error_In _ _ Hx))) as (X1 & X2 & X3).
    split; [|split; [cbn [map r_fresh r_final]; congruence|]].
    + cbn [growing r_seed]. rewrite <- all_rows_concat, Er. split; auto. split; auto. split; auto. intros ch Hch. apply filled_content in Fl. rewrite Forall_forall in Fl. auto.
    + rewrite whole_seed_cons. cbn [r_seed]. rewrite <- all_rows_concat, Er. exact R6.
Qed.

Lemma chain_new : forall ls g1 g' g1', growing idx [] (runs_of ls) -> (forall y, In y keys -> good y (rows_of y (whole_seed [] (runs_of ls)))) ->
  fine (runs_of ls) -> (forall l, In l ls -> link_ok l) -> ls <> [] ->
  link_all idx truthy usage usage' pre fs pre0 seg0 post0 pre' fs' pre0' seg0' post0' i snap (start, g1) ls = Ok (g', g1') ->
  run_all_ start (runs_of ls) = Ok g' /\
  exists ds rs, results_of i snap g' = Ok ds /\ run_all (col 0) truthy usage' pre' fs' pre0' seg0' post0' g1 rs = Ok g1' /\ growing (col 0) [] rs /\
    map (fun r => (r_fresh r, r_final r)) rs = map (fun l => (l_fresh l, l_final l)) ls /\ whole_seed [] rs = all_rows ds.
Proof.
  intros ls g1 g' g1' Hg Hgood Hf Hok Hne E. destruct (chain_runs ls [] start g1 g' g1' eq_refl Hg Hgood Hf Hok E) as (R1 & R2 & rs & R3 & R4 & R5 & R6).
  destruct (chan_facts (conf x) seg0 (ok idx good x) (T x) (TS x) (Inv x) (m x) (ms x) (Htab x (nth_error_In _ _ Hx)) (Hpost x (nth_error_In _ _ Hx)) (Hpar x (nth_error_In _ _ Hx)) c Hc) as (_ & _ & F0 & _).
  change (rows_of x (whole_seed [] [])) with (@nil D) in *. rewrite F0 in *. cbn [map app] in *. split; auto. destruct (R2 Hne) as (ds & D1 & D2). exists ds, rs. rewrite D2. auto.
Qed.
(** Steps raise nothing if both streams raise nothing. *)
Lemma results_longer : forall S S', grows idx S S' -> good x (rows_of x S') -> (length (tab S) <= length (tab S'))%nat.
Proof.
  intros S S' G Hg. pose proof (nth_error_In _ _ Hx) as Hx'. destruct (chan_facts (conf x) seg0 (ok idx good x) (T x) (TS x) (Inv x) (m x) (ms x) (Htab x Hx') (Hpost x Hx') (Hpar x Hx') c Hc) as (_ & _ & _ & _ & F2 & _).
  destruct (rows_of_starts x S S' G) as [q Eq]. pose proof G as (_ & _ & Hs').
  assert (K' : ok idx good x (rows_of x S')) by (split; auto; apply IterProofs.sorted_filter; auto).
  assert (F : starts (labels (c_tab c (rows_of x S))) (labels (c_tab c (rows_of x S')))) by (rewrite Eq; apply F2; rewrite <- Eq; auto).
  destruct F as [r F]. apply (f_equal (@length _)) in F. rewrite app_length, !map_length in F. rewrite !map_length. lia.
Qed.
Lemma chain_runs_ok : forall ls rs0 g gf, run_all_ start rs0 = Ok g -> growing idx [] (rs0 ++ runs_of ls) -> (forall y, In y keys -> good y (rows_of y (whole_seed [] (rs0 ++ runs_of ls)))) ->
  fine (rs0 ++ runs_of ls) -> (forall l, In l ls -> link_ok l) -> run_all_ start (rs0 ++ runs_of ls) = Ok gf ->
  (ls <> [] -> exists ds, results_of i snap gf = Ok ds /\ all_rows ds = tab (whole_seed [] (rs0 ++ runs_of ls))) /\
  exists rs, (forall g1, link_all idx truthy usage usage' pre fs pre0 seg0 post0 pre' fs' pre0' seg0' post0' i snap (g, g1) ls = let* g1' := run_all (col 0) truthy usage' pre' fs' pre0' seg0' post0' g1 rs in Ok (gf, g1')) /\
    growing (col 0) (tab (whole_seed [] rs0)) rs /\
    map (fun r => (r_fresh r, r_final r)) rs = map (fun l => (l_fresh l, l_final l)) ls /\ whole_seed (tab (whole_seed [] rs0)) rs = tab (whole_seed [] (rs0 ++ runs_of ls)) /\
    forall r, In r rs -> (length (r_seed r) <= length (tab (whole_seed [] (rs0 ++ runs_of ls))))%nat.
Proof.
  induction ls as [|l ls IH]; intros rs0 g gf E0 Hg Hgood Hf Hok E.
  - change (runs_of []) with (@nil (@run D)) in *. rewrite app_nil_r in *. rewrite E0 in E. injection E as <-. split; [congruence|]. exists []. cbn [run_all growing map link_all bind]. repeat split; auto; [|intros r []].
    unfold whole_seed at 1. simpl. apply app_nil_r.
  - change (runs_of (l :: ls)) with (l_runs l ++ runs_of ls) in *. rewrite app_assoc in *.
    assert (E1' : exists g2, run_all_ start (rs0 ++ l_runs l) = Ok g2) by (rewrite run_all_app in E; destruct (run_all_ start (rs0 ++ l_runs l)); [eauto|discriminate]).
    destruct E1' as [g2 E1']. assert (E1 : run_all_ g (l_runs l) = Ok g2) by (rewrite run_all_app, E0 in E1'; exact E1').
    pose proof Hg as Hg0. apply growing_app in Hg0 as [Hg1 Hg2]. pose proof Hg1 as Hg0. apply growing_app in Hg0 as [Hg3 Hg4].
    assert (S1 : sorted (map idx (whole_seed [] (rs0 ++ l_runs l)))) by (apply sorted_seed; auto; constructor).
    assert (G1 : grows idx (whole_seed [] (rs0 ++ l_runs l)) (whole_seed [] ((rs0 ++ l_runs l) ++ runs_of ls))) by (rewrite (whole_seed_app (rs0 ++ l_runs l)); apply growing_starts; auto).
    assert (G0 : grows idx (whole_seed [] rs0) (whole_seed [] (rs0 ++ l_runs l))) by (rewrite whole_seed_app; apply growing_starts; auto; apply sorted_seed; auto; constructor).
    assert (Good1 : forall y, In y keys -> good y (rows_of y (whole_seed [] (rs0 ++ l_runs l)))) by (eapply good_before; eauto).
    assert (Hf1 : fine (rs0 ++ l_runs l)) by (destruct Hf as [Hf|[Tq Hf]]; [left; auto|right; split; auto; eapply all_written_app; eauto]).
    destruct (Hok l (or_introl eq_refl)) as [L1 L2].
    destruct (stored_rows (rs0 ++ l_runs l) g2 Hg1 Good1 Hf1 E1') with (i := i) (x := x) (c := c) as (b & s & Es & Er & Fl); auto.
    { intro Z0. apply app_eq_nil in Z0 as [_ Z0]. auto. }
    { destruct (exists_last L1) as (a & r & Ea). rewrite Ea in *. rewrite app_assoc, last_last in *. auto. }
    assert (E2 : results_of i snap g2 = Ok (c_ds c s)) by (unfold results_of; rewrite Es, Hds; auto).
    destruct (IH (rs0 ++ l_runs l) g2 gf E1' Hg Hgood Hf (fun y Hy => Hok y (or_intror Hy)) E) as (R2 & rs & R3 & R4 & R5 & R6 & R7).
    split.
    { intros _. destruct ls as [|l' ls]; [|apply R2; discriminate]. change (runs_of []) with (@nil (@run D)) in *. rewrite app_nil_r in *. rewrite E1' in E. injection E as <-. exists (c_ds c s). split; auto. }
    exists (mkRun (l_fresh l) (l_final l) (map content (c_ds c s)) :: rs).
    pose proof (results_extend x c _ _ (nth_error_In _ _ Hx) Hc G0 (Good1 x (nth_error_In _ _ Hx))) as (X1 & X2 & X3).
    split; [|split; [|split; [cbn [map r_fresh r_final]; congruence|split]]].
    + intro g1. cbn [run_all link_all]. unfold link_once. rewrite E1. cbn [bind]. rewrite E2. cbn [bind].
      destruct (run_once (col 0) truthy usage' pre' fs' pre0' seg0' post0' g1 (mkRun (l_fresh l) (l_final l) (map content (c_ds c s)))) as [g3|]; cbn [bind]; auto.
    + cbn [growing r_seed]. rewrite <- all_rows_concat, Er. split; auto. split; auto. split; auto. intros ch Hch. apply filled_content in Fl. rewrite Forall_forall in Fl. auto.
    + rewrite whole_seed_cons. cbn [r_seed]. rewrite <- all_rows_concat, Er. exact R6.
    + intros r [<-|Hr]; [|auto]. cbn [r_seed]. rewrite map_length.
      assert (Lf : (length (c_ds c s) <= length (all_rows (c_ds c s)))%nat).
      { clear - Fl. unfold all_rows. induction Fl as [|g ds Hg H IH]; simpl; auto. rewrite app_length. destruct (content g); [congruence|]. simpl. lia. }
      rewrite Er in Lf. pose proof (results_longer _ _ G1 (Hgood x (nth_error_In _ _ Hx))). lia.
Qed.
Lemma chain_new_ok : forall ls gf, growing idx [] (runs_of ls) -> (forall y, In y keys -> good y (rows_of y (whole_seed [] (runs_of ls)))) ->
  fine (runs_of ls) -> (forall l, In l ls -> link_ok l) -> ls <> [] -> run_all_ start (runs_of ls) = Ok gf ->
  exists ds rs, results_of i snap gf = Ok ds /\
    (forall g1, link_all idx truthy usage usage' pre fs pre0 seg0 post0 pre' fs' pre0' seg0' post0' i snap (start, g1) ls = let* g1' := run_all (col 0) truthy usage' pre' fs' pre0' seg0' post0' g1 rs in Ok (gf, g1')) /\
    growing (col 0) [] rs /\ map (fun r => (r_fresh r, r_final r)) rs = map (fun l => (l_fresh l, l_final l)) ls /\ whole_seed [] rs = all_rows ds /\
    forall r, In r rs -> (length (r_seed r) <= length (all_rows ds))%nat.
Proof.
  intros ls gf Hg Hgood Hf Hok Hne E. destruct (chain_runs_ok ls [] start gf eq_refl Hg Hgood Hf Hok E) as (R2 & rs & R3 & R4 & R5 & R6 & R7).
  destruct (chan_facts (conf x) seg0 (ok idx good x) (T x) (TS x) (Inv x) (m x) (ms x) (Htab x (nth_error_In _ _ Hx)) (Hpost x (nth_error_In _ _ Hx)) (Hpar x (nth_error_In _ _ Hx)) c Hc) as (_ & _ & F0 & _).
  change (rows_of x (whole_seed [] [])) with (@nil D) in *. rewrite F0 in *. cbn [map app] in *. destruct (R2 Hne) as (ds & D1 & D2). exists ds, rs. rewrite D2. auto 8.
Qed.
End Chain.

(** Flags. *)
Lemma links_runs : forall {D D'} (rs : list (@run D')) (ls : list (link D)) w, map (fun r => (r_fresh r, r_final r)) rs = map (fun l => (l_fresh l, l_final l)) ls -> links_written w ls -> all_written w rs.
Proof.
  intros D D' rs. induction rs as [|r rs IH]; intros ls w E H; destruct ls as [|s ls]; try discriminate; cbn [all_written]; auto. cbn [map] in E. injection E as E1 E2 E3. cbn [links_written] in H. destruct H as [H1 H2]. rewrite E1, E2. eauto.
Qed.
Lemma links_final : forall {D D'} (rs : list (@run D')) (ls : list (link D)) s0 r0, map (fun r => (r_fresh r, r_final r)) rs = map (fun l => (l_fresh l, l_final l)) ls -> ls <> [] -> rs <> [] /\ r_final (last rs r0) = l_final (last ls s0).
Proof.
  intros D D' rs ls s0 r0 E Hne. destruct (exists_last Hne) as (ls' & s & ->). destruct rs as [|r1 rs1]; [rewrite map_app in E; destruct ls'; discriminate|]. split; [discriminate|].
  destruct (exists_last (l := r1 :: rs1) ltac:(discriminate)) as (rs' & r & Er). rewrite Er in *. rewrite !last_last, !map_app in *. cbn [map] in E. apply app_inj_tail in E as [_ E]. injection E; auto.
Qed.
