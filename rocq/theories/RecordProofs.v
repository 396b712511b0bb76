(** Rows recorded by keys over any history of runs. *)
Require Import List Arith ZArith Bool Lia Sorted.
Require Import Verif.Common Verif.SegModel Verif.SegSpec Verif.SegProofs Verif.CsaSegProofs Verif.FilterModel Verif.WrModel Verif.StreamModel Verif.StreamSpec Verif.IterProofs Verif.StreamProofs.
Import ListNotations.
Local Open Scope Z_scope.

Section One.
Context {D : Type}.
Variable idx : D -> Z.
Notation last_index := (last_index idx).

(** Rows aggregated so far are the rows of the filter which are before restart index. *)
Definition consistent (S : list D) (R : option Z) (g : D -> bool) (rows : list D) : Prop :=
  match R with
  | None => rows = []
  | Some r => (exists x, In x S /\ r <= idx x) /\ rows = filter (fun x => g x && (idx x <? r)) S
  end.

(** Growing seed data. *)
Definition grows (S S' : list D) : Prop := extends idx S S' /\ sorted (map idx S) /\ sorted (map idx S').
Lemma grows_nil : forall S, sorted (map idx S) -> grows [] S.
Proof. intros S H. split; [|split; [constructor|auto]]. exists S. split; auto. congruence. Qed.
Lemma grows_refl : forall S, sorted (map idx S) -> grows S S.
Proof.
  intros S H. split; [|auto]. exists (filter (fun r => negb (idx r <? last_index S)) S). split; [apply split_below; auto|]. intro Hne. split.
  - destruct (exists_last Hne) as (l & x & ->). rewrite last_index_snoc, filter_app. simpl. rewrite Z.ltb_irrefl. simpl. intro Q. apply app_eq_nil in Q as [_ Q]. discriminate.
  - intros r Hr. apply filter_In in Hr as [_ Hr]. apply negb_true_iff, Z.ltb_ge in Hr. auto.
Qed.
Lemma grows_below : forall S S' v, grows S S' -> S <> [] -> v <= last_index S -> filter (fun r => idx r <? v) S' = filter (fun r => idx r <? v) S.
Proof.
  intros S S' v ((new & -> & H) & _ & _) Hne Hv. destruct (H Hne) as [_ Hn]. rewrite filter_app, filter_filter, (filter_none _ new), app_nil_r.
  - apply filter_ext. intro r. destruct (idx r <? v) eqn:Q; [|apply andb_false_r]. apply Z.ltb_lt in Q. rewrite andb_true_r. apply Z.ltb_lt. lia.
  - intros r Hr. apply Z.ltb_ge. specialize (Hn r Hr). lia.
Qed.
Lemma grows_last : forall S S', grows S S' -> S <> [] -> S' <> [] /\ last_index S <= last_index S'.
Proof.
  intros S S' ((new & -> & H) & _ & _) Hne. destruct (H Hne) as [Hn1 Hn]. split; [destruct new; [congruence|intro Q; apply app_eq_nil in Q as [_ Q]; discriminate]|].
  rewrite last_index_app by auto. destruct (exists_last Hn1) as (l & x & ->). rewrite last_index_snoc. apply Hn. apply in_or_app. right. left. auto.
Qed.
Lemma grows_trans : forall S S' S'', grows S S' -> grows S' S'' -> grows S S''.
Proof.
  intros S S' S'' H1 H2. split; [|split; [apply H1|apply H2]]. destruct S as [|s S]; [exists S''; split; auto; congruence|]. set (l := s :: S) in *.
  assert (Hne : l <> []) by discriminate. destruct (grows_last _ _ H1 Hne) as [Hne' L1]. destruct (grows_last _ _ H2 Hne') as [_ L2].
  exists (filter (fun r => negb (idx r <? last_index l)) S''). rewrite <- (grows_below l S' (last_index l) H1 Hne) by lia.
  rewrite <- (grows_below S' S'' (last_index l) H2 Hne' L1). split; [apply split_below; apply H2|]. intros _. split.
  - destruct (exists_last (proj1 (grows_last _ _ H2 Hne'))) as (a & x & E). rewrite E in *. rewrite last_index_snoc in *. rewrite filter_app. simpl.
    replace (idx x <? last_index l) with false by (symmetry; apply Z.ltb_ge; lia). simpl. intro Q. apply app_eq_nil in Q as [_ Q]. discriminate.
  - intros r Hr. apply filter_In in Hr as [_ Hr]. apply negb_true_iff, Z.ltb_ge in Hr. auto.
Qed.
Lemma grows_app : forall S new, sorted (map idx (S ++ new)) -> grows S (S ++ new).
Proof.
  intros S new H. pose proof (sorted_app_l idx _ _ H) as Hs. split; [|split; auto]. destruct (grows_refl S Hs) as ((n1 & E & Hn) & _).
  exists (n1 ++ new). split; [rewrite app_assoc, <- E; auto|]. intro Hne. destruct (Hn Hne) as [A B]. split; [destruct n1; [congruence|discriminate]|].
  intros r Hr. apply in_app_iff in Hr as [Hr|Hr]; auto. destruct (exists_last Hne) as (l & x & ->). rewrite last_index_snoc.
  apply (sorted_app_le idx (l ++ [x]) new x r H); auto. apply in_or_app. right. left. auto.
Qed.

Lemma consistent_grow : forall S S' R g rows, grows S S' -> consistent S R g rows -> consistent S' R g rows.
Proof.
  intros S S' [r|] g rows Hg H; auto. destruct H as ((x & Hx & Hr) & ->). assert (Hne : S <> []) by (intro Q; rewrite Q in Hx; destruct Hx).
  pose proof (le_last_index idx S x (proj1 (proj2 Hg)) Hx) as HL. destruct (grows_last _ _ Hg Hne) as [Hne' L']. split.
  - destruct (exists_last Hne') as (l & y & E). rewrite E in *. rewrite last_index_snoc in L'. exists y. split; [apply in_or_app; right; left; auto|lia].
  - pose proof (grows_below S S' r Hg Hne ltac:(lia)) as B.
    transitivity (filter (fun x => g x) (filter (fun x => idx x <? r) S)); [rewrite filter_filter; apply filter_ext; intro; apply andb_comm|].
    rewrite <- B, filter_filter. apply filter_ext. intro. apply andb_comm.
Qed.

(** One run. [N] is the restart index it leaves. *)
Lemma consistent_run : forall S R g rows N, sorted (map idx S) -> consistent S R g rows ->
  let W := wanted idx R true true (last_index S) in
  (N = R /\ (forall r, In r S -> g r = true -> W r = true -> False)
   \/ exists n, N = Some n /\ n <= last_index S /\ (exists r, In r S /\ idx r = n) /\ match R with Some R => R <= n | None => True end /\
        forall r, In r S -> g r = true -> W r = true -> idx r < n) ->
  rows ++ filter (fun r => g r && W r) S = filter (fun r => g r && (idx r <? last_index S)) S /\
  consistent S N g (rows ++ filter (fun r => g r && W r) S).
Proof.
  intros S R g rows N Hs Hc W HN.
  assert (E : rows ++ filter (fun r => g r && W r) S = filter (fun r => g r && (idx r <? last_index S)) S).
  { destruct R as [r|]; simpl in Hc.
    - destruct Hc as ((x & Hx & Hr) & ->). pose proof (le_last_index idx S x Hs Hx) as HL.
      pose proof (split_below idx S r Hs) as E. unfold W, wanted, keep.
      rewrite E at 3. rewrite filter_app, !filter_filter. f_equal; apply filter_ext; intro y; destruct (g y), (idx y <? r) eqn:Q; rewrite ?andb_false_r, ?andb_true_r; simpl; auto.
      + symmetry. apply Z.ltb_lt. apply Z.ltb_lt in Q. lia.
      + apply Z.ltb_lt in Q. replace (r <=? idx y) with false; auto. symmetry. apply Z.leb_gt. lia.
      + apply Z.ltb_ge in Q. replace (r <=? idx y) with true; auto. symmetry. apply Z.leb_le. lia.
    - subst rows. auto. }
  split; auto. rewrite E. destruct HN as [[-> Hno]|(n & -> & Hn & Hx & HR & Hlt)].
  - unfold consistent in *. destruct R as [r|].
    + destruct Hc as ((x & Hx & Hr) & Ec). split; [exists x; auto|]. apply filter_ext_in. intros y Hy. destruct (g y) eqn:Eg; auto. simpl.
      pose proof (le_last_index idx S x Hs Hx) as HL. destruct (idx y <? r) eqn:Q.
      * apply Z.ltb_lt in Q. apply Z.ltb_lt. lia.
      * apply Z.ltb_ge in Q. destruct (idx y <? last_index S) eqn:Q2; auto. exfalso. apply (Hno y Hy Eg). unfold W, wanted, keep.
        rewrite Q2. replace (r <=? idx y) with true; auto. symmetry. apply Z.leb_le. lia.
    + apply filter_none. intros y Hy. destruct (g y) eqn:Eg; auto. simpl. destruct (idx y <? last_index S) eqn:Q2; auto.
      exfalso. apply (Hno y Hy Eg). unfold W, wanted, keep. auto.
  - split; [destruct Hx as (x & Hx & <-); exists x; split; auto; lia|]. apply filter_ext_in. intros y Hy. destruct (g y) eqn:Eg; auto. simpl.
    destruct (idx y <? last_index S) eqn:Q2.
    + destruct R as [r|].
      * destruct (idx y <? r) eqn:Q; [apply Z.ltb_lt in Q; symmetry; apply Z.ltb_lt; lia|]. symmetry. apply Z.ltb_lt. apply Hlt; auto.
        unfold W, wanted, keep. rewrite Q2. apply Z.ltb_ge in Q. replace (r <=? idx y) with true; auto. symmetry. apply Z.leb_le. lia.
      * symmetry. apply Z.ltb_lt. apply Hlt; auto.
    + apply Z.ltb_ge in Q2. symmetry. apply Z.ltb_ge. lia.
Qed.
End One.

Section Rec.
Context {D P PB : Type}.
Variable idx : D -> Z.
Variable truthy : Z -> bool.
Variable usage : frame -> Z.
Notation stream := (stream D P (list D) PB).
Notation kconf := (kconf D (list D) PB).
Notation last_index := (last_index idx).
Variables (fs : @filters D) (gs : list (nat * (D -> bool))).
Hypothesis Hfs : filters_are fs gs.
Variable pre : option (@pre_fun D P).
Hypothesis Hpre : harmless pre.
Variables (pre0 : P) (post0 : PB).

Lemma key_run_records : forall chunks (k : kconf) (p : P) b s, records k -> b_bin b = None ->
  exists b', key_run truthy usage k p b s chunks = Ok (b', []) /\ b_bin b' = None /\ b_seg b' = b_seg b ++ concat chunks /\ b_post b' = b_post b.
Proof.
  induction chunks as [|c cs IH]; intros k p b s Hr Hb.
  - exists b. cbn [key_run concat]. rewrite app_nil_r. auto.
  - cbn [key_run]. unfold agg_iter, buffer_results. rewrite Hb. cbn [bind]. rewrite (Hr c (b_seg b)). cbn [bind].
    destruct (IH k p (mkBuf (b_size b) None None (b_bins b) (b_snaps b) (b_seg b ++ c) (b_post b)) (apply_acts s []) Hr eq_refl) as (b' & E & A & B & C).
    rewrite E. cbn [bind app]. exists b'. split; auto. split; auto. cbn [b_seg b_post concat] in *. rewrite app_assoc. auto.
Qed.
Lemma post_n_write_records : forall (k : kconf) (b : kbuf (list D) PB) s r (p : P), b_bin b = None ->
  exists a, post_n_write truthy k b s true r p = Ok (b, a) /\
    a = match r with Some i => if truthy i then [(false, mkEntry (data_of (s_main s)) (Some (mkMd i p (b_seg b) (b_post b))))] else [] | None => [] end.
Proof.
  intros k b s r p Hb. unfold post_n_write, results. rewrite Hb. cbn [bind].
  assert (E : mkBuf (b_size b) None (b_snap b) (b_bins b) (b_snaps b) (b_seg b) (b_post b) = b) by (destruct b; simpl in *; congruence).
  destruct r as [i|]; [destruct (truthy i)|]; cbn [bind]; rewrite E; eexists; split; reflexivity.
Qed.

(** What a key holds in memory, and in store. *)
Definition key_inv (S : list D) (R R0 : option Z) (x : kconf * kbuf (list D) PB * kstore P (list D) PB) : Prop :=
  let '(k, b, s) := x in
  records k /\ b_bin b = None /\
  (forall g, In (k_filter k, g) gs -> consistent idx S R g (b_seg b)) /\
  match R0 with
  | None => s_main s = None /\ True
  | Some r => exists e md, s_main s = Some e /\ e_md e = Some md /\ m_restart md = r /\
                forall g, In (k_filter k, g) gs -> consistent idx S (Some r) g (m_seg md)
  end.
Definition inv (S : list D) (st : stream) : Prop :=
  exists R0, (forall x, In x (g_keys st) -> key_inv S (g_restart st) R0 x).
(** All rows before the last index have been aggregated. *)
Definition complete (S : list D) (st : stream) : Prop :=
  forall k b s g, In (k, b, s) (g_keys st) -> In (k_filter k, g) gs -> b_seg b = filter (fun r => g r && (idx r <? last_index S)) S.

Lemma Forall2_map_fst : forall (l l' : list (kconf * kbuf (list D) PB * kstore P (list D) PB)) j, Forall2 (does j) l l' ->
  map (fun x => fst (fst x)) l' = map (fun x => fst (fst x)) l.
Proof. induction 1; auto. simpl. rewrite IHForall2. f_equal. destruct x as [[k b] s]. destruct H as (b' & a & _ & ->). auto. Qed.

Lemma run_once_inv : forall S S' st r, inv S st -> grows idx S S' -> concat (r_seed r) = S' -> sorted (map idx S') ->
  (forall c, In c (r_seed r) -> c <> []) ->
  exists st', run_once idx truthy usage pre fs pre0 [] post0 st r = Ok st' /\ inv S' st' /\ complete S' st' /\
    map (fun x => fst (fst x)) (g_keys st') = map (fun x => fst (fst x)) (g_keys st).
Proof.
  intros S S' st r [R0 Hinv] Enew Eseed Hs Hne.
  assert (Hinv' : forall x, In x (g_keys st) -> key_inv S' (g_restart st) R0 x).
  { intros [[k b] s] Hx. destruct (Hinv _ Hx) as (A & B & C & E). split; auto. split; auto. split.
    - intros g Hg. apply (consistent_grow idx S); auto.
    - destruct R0; [|auto]. destruct E as (e & md & E1 & E2 & E3 & E4). exists e, md. split; auto. split; auto. split; auto.
      intros g Hg. apply (consistent_grow idx S); auto. }
  clear Hinv Enew S.
  (* initialization *)
  assert (Hi : exists st1, (if r_fresh r then init pre0 [] post0 (map (fun x => let '(k, b, s) := x in (k, s)) (g_keys st)) else Ok st) = Ok st1 /\
    (exists R0, forall x, In x (g_keys st1) -> key_inv S' (g_restart st1) R0 x) /\
    map (fun x => fst (fst x)) (g_keys st1) = map (fun x => fst (fst x)) (g_keys st)).
  { destruct (r_fresh r); [|eauto]. set (ks := map _ (g_keys st)).
    assert (Hks : forall k s, In (k, s) ks -> exists b, In (k, b, s) (g_keys st)).
    { intros k s Hin. unfold ks in Hin. apply in_map_iff in Hin as ([[k' b'] s'] & Q & Hin). injection Q as -> ->. eauto. }
    assert (Hrs : forall z, In z (restarts_of ks) -> R0 = Some z).
    { intros z Hz. unfold restarts_of in Hz. apply in_flat_map in Hz as ([k s] & Hin & Hz). destruct (Hks _ _ Hin) as [b Hb].
      destruct (Hinv' _ Hb) as (_ & _ & _ & E). cbn [snd] in Hz. destruct R0 as [r0|].
      - destruct E as (e & md & E1 & E2 & E3 & _). rewrite E1, E2 in Hz. destruct Hz as [<-|[]]. congruence.
      - destruct E as [E _]. rewrite E in Hz. destruct Hz. }
    destruct (init_ok pre0 [] post0 ks) as [st1 E].
    - intros k s e Hin Es Em. destruct (Hks _ _ Hin) as [b Hb]. destruct (Hinv' _ Hb) as (_ & _ & _ & E). destruct R0.
      + destruct E as (e' & md & E1 & E2 & _). congruence.
      + destruct E. congruence.
    - intros z z' Hz Hz'. apply Hrs in Hz, Hz'. congruence.
    - exists st1. split; auto. destruct (init_inv _ _ _ _ _ E) as [F HR]. split.
      + exists R0. intros [[k b] s] Hx. destruct (Forall2_in_r _ _ _ _ F Hx) as ([k' s'] & Hin & Hf).
        destruct (Hks _ _ Hin) as [b0 Hb]. destruct (Hinv' _ Hb) as (A & _ & _ & E'). cbn [fresh_key] in Hf. destruct R0 as [r0|].
        * destruct E' as (e & md & E1 & E2 & E3 & E4). rewrite E1 in Hf. destruct Hf as (md' & M & Q). rewrite E2 in M. injection M as <-.
          injection Q as -> -> ->. split; auto. split; auto. cbn [b_seg].
          assert (HR' : g_restart st1 = Some r0).
          { assert (Hi : In r0 (restarts_of ks)). { unfold restarts_of. apply in_flat_map. exists (k', s'). split; auto. cbn [snd]. rewrite E1, E2. left. auto. }
            destruct (g_restart st1) as [r1|]; [destruct HR as [_ HR]; rewrite (HR _ Hi); auto|]. rewrite HR in Hi. destruct Hi. }
          rewrite HR'. split; auto. exists e, md. auto.
        * destruct E' as [E' _]. rewrite E' in Hf. injection Hf as -> -> ->. split; auto. split; auto. split; auto.
          assert (HR' : g_restart st1 = None).
          { destruct (g_restart st1) as [r1|]; auto. destruct HR as [HR _]. apply Hrs in HR. discriminate. }
          rewrite HR'. intros g _. reflexivity.
      + clear - F. unfold ks in F. revert F. generalize (g_keys st1). induction (g_keys st) as [|[[k b] s] l IH]; intros l' F; cbn [map] in F; inversion F; subst; auto.
        simpl. rewrite (IH _ H3). f_equal. simpl in H1. destruct (s_main s); [destruct H1 as (md & _ & ->)|rewrite H1]; auto. }
  destruct Hi as (st1 & Ei & [R1 Hinv1] & Ek1). unfold run_once. rewrite Ei. cbn [bind].
  destruct (iter_data_spec idx fs gs Hfs pre Hpre (g_restart st1) true true (r_seed r) (g_pre st1) Hne) as (Ne & Dl & Rs); [rewrite Eseed; auto|].
  fold (ys_of idx fs pre st1 true true (r_seed r)) in Ne, Dl, Rs.
  destruct (agg_ok idx truthy usage fs gs Hfs pre Hpre st1 (r_seed r) true true (r_final r) Hne) as [st' Ea]; [rewrite Eseed; auto| |].
  { intros k b s Hin. destruct (Hinv1 _ Hin) as (A & B & _ & _).
    destruct (key_run_records (chunks_of (k_filter k) (ys_of idx fs pre st1 true true (r_seed r))) k (g_pre st1) b s A B) as (b' & E & B' & _ & _).
    exists b', []. split; auto. intros _ p. edestruct (post_n_write_records k b' (apply_acts s [])) as (a & Ew & _); eauto. }
  destruct (agg_inv idx truthy usage fs gs Hfs pre Hpre st1 st' (r_seed r) true true (r_final r) None Hne) as (_ & Hr & keys & F1 & F2); [rewrite Eseed; auto|auto|].
  rewrite Ea. cbn [bind]. exists st'. split; auto.
  set (ys := ys_of idx fs pre st1 true true (r_seed r)) in *. rewrite Eseed in *.
  (* keys before the final write *)
  assert (K : forall x, In x keys -> key_inv S' (g_restart st') R1 x /\
     (let '(k, b, s) := x in forall g, In (k_filter k, g) gs -> b_seg b = filter (fun r => g r && (idx r <? last_index S')) S')).
  { intros [[k' b'] s'] Hx. destruct (Forall2_in_r _ _ _ _ F1 Hx) as ([[k b] s] & Hin & (b1 & a1 & J & Q)). injection Q as -> -> ->.
    destruct (Hinv1 _ Hin) as (A & B & C & E).
    destruct (key_run_records (chunks_of (k_filter k) ys) k (g_pre st1) b s A B) as (b2 & E2 & B2 & C2 & _).
    fold ys in J. rewrite E2 in J. injection J as <- <-. rewrite <- delivered_chunks in C2.
    assert (Q : forall g, In (k_filter k, g) gs -> b_seg b2 = filter (fun r => g r && (idx r <? last_index S')) S' /\ consistent idx S' (g_restart st') g (b_seg b2)).
    { intros g Hg. rewrite C2, (Dl _ _ Hg), Hr. destruct (consistent_run idx S' (g_restart st1) g (b_seg b) (restart_after (g_restart st1) ys) Hs (C g Hg)) as [Q1 Q2].
      - destruct Rs as [[Rs1 Rs2]|(N & R2 & R3 & R4 & R5 & R6)]; [left; split; auto; intros; eapply Rs2; eauto|].
        right. exists N. split; auto. split; auto. split; auto. split; [destruct (g_restart st1); auto|]. intros r0 Hr0 Hg0 Hw. eapply (R6 _ _ _ Hg); eauto.
      - split; auto. }
    split; [|intros g Hg; apply Q; auto]. split; auto. split; auto. split; [intros g Hg; apply Q; auto|exact E]. }
  assert (G : inv S' st' /\ complete S' st').
  { destruct (r_final r).
    - split.
      + (* metadata of all keys are written, or of none *)
        exists (match g_restart st' with Some i => if truthy i then Some i else R1 | None => R1 end).
        intros [[k' b'] s'] Hx. destruct (Forall2_in_r _ _ _ _ F2 Hx) as ([[k b] s] & Hin & (b1 & a1 & J & Q)). injection Q as -> -> ->.
        destruct (K _ Hin) as [(A & B & C & E) _].
        destruct (post_n_write_records k b s (g_restart st') (g_pre st') B) as (a & Ew & ->). rewrite Ew in J. injection J as <- <-.
        split; auto. split; auto. split; auto. destruct (g_restart st') as [i|] eqn:Ei'; [destruct (truthy i) eqn:Et|]; auto.
        cbn [apply_acts fold_left]. unfold apply_act. cbn [fst snd s_main]. do 2 eexists. split; [reflexivity|]. cbn [e_md m_restart m_seg]. auto.
      + intros k' b' s' g Hx Hg. destruct (Forall2_in_r _ _ _ _ F2 Hx) as ([[k b] s] & Hin & (b1 & a1 & J & Q)). injection Q as -> -> ->.
        destruct (K _ Hin) as [(A & B & C & E) KK].
        destruct (post_n_write_records k b s (g_restart st') (g_pre st') B) as (a & Ew & ->). rewrite Ew in J. injection J as <- <-. auto.
    - split.
      + exists R1. rewrite F2. intros x Hx. apply K. auto.
      + intros k b s g Hx Hg. rewrite F2 in Hx. apply (proj2 (K _ Hx)). auto. }
  destruct G as [G1 G2]. split; auto. split; auto. rewrite <- Ek1.
  transitivity (map (fun x => fst (fst x)) keys); [|eapply Forall2_map_fst; exact F1].
  destruct (r_final r); [eapply Forall2_map_fst; exact F2|rewrite F2; auto].
Qed.

Lemma run_all_inv : forall rs S st, inv S st -> sorted (map idx S) -> growing idx S rs ->
  exists st', run_all idx truthy usage pre fs pre0 [] post0 st rs = Ok st' /\ (rs <> [] -> complete (whole_seed S rs) st') /\
    map (fun x => fst (fst x)) (g_keys st') = map (fun x => fst (fst x)) (g_keys st).
Proof.
  induction rs as [|r rs IH]; intros S st Hi HS Hg.
  - exists st. split; auto. split; auto. congruence.
  - cbn [growing] in Hg. destruct Hg as (Hn & Hs & Hne & Hg). cbn [run_all].
    destruct (run_once_inv S _ st r Hi (conj Hn (conj HS Hs)) eq_refl Hs Hne) as (st1 & E & I & C & K). rewrite E. cbn [bind].
    destruct (IH _ st1 I Hs Hg) as (st' & E' & C' & K'). exists st'. split; auto. split; [|congruence]. intros _.
    destruct rs as [|r' rs'].
    + cbn [run_all] in E'. injection E' as <-. exact C.
    + replace (whole_seed S (r :: r' :: rs')) with (whole_seed (concat (r_seed r)) (r' :: rs')); [apply C'; discriminate|].
      unfold whole_seed. clear. change (last (r :: r' :: rs') (mkRun false false [S])) with (last (r' :: rs') (mkRun false false [S])).
      f_equal. f_equal. revert r'. induction rs' as [|r2 rs' IH]; intro r'; auto.
      change (last (r' :: r2 :: rs')) with (@last (@run D) (r2 :: rs')). apply IH.
Qed.
End Rec.

(** For examples. *)
Lemma extends_by : forall (D : Type) (idx : D -> Z) before seed n, seed = filter (fun r => idx r <? last_index idx before) before ++ skipn n seed ->
  match before with [] => true | _ => match skipn n seed with [] => false | l => forallb (fun r => last_index idx before <=? idx r) l end end = true -> extends idx before seed.
Proof.
  intros D idx before seed n E H. exists (skipn n seed). split; auto. intro Hb. destruct before as [|a b]; [contradiction|]. destruct (skipn n seed) as [|x l]; [discriminate|].
  split; [discriminate|]. rewrite forallb_forall in H. intros r Hr. apply Z.leb_le; auto.
Qed.
Ltac extended := match goal with |- extends ?i ?b ?s => let n := eval vm_compute in (length (filter (fun r => i r <? last_index i b) b)) in apply (extends_by _ i b s n); vm_compute; reflexivity end.
