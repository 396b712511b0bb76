(** Calls to 'agg' which are given new data only: proofs. *)
Require Import List Arith ZArith Bool Lia Sorted.
Require Import Verif.Common Verif.SegModel Verif.SegSpec Verif.WrModel Verif.StreamModel Verif.StreamSpec Verif.KeyModel Verif.BatchSpec Verif.IterProofs Verif.StreamProofs
  Verif.RecordProofs Verif.TableProofs Verif.LabelProofs Verif.BatchProofs Verif.BatchRunProofs Verif.FeedSpec.
Require Verif.SegProofs.
Import ListNotations.
Local Open Scope Z_scope.

Section Feed.
Context {D P SB PB X : Type}.
Variable idx : D -> Z.
Variable truthy : Z -> bool.
Variable usage : frame -> Z.
Notation stream := (stream D P SB PB).
Notation kconf := (kconf D SB PB).
Notation kbuf := (kbuf SB PB).
Notation kstore := (kstore P SB PB).
Variables (fs : @filters D) (gs : list (nat * (D -> bool))).
Hypothesis Hfs : filters_are fs gs.
Variable pre : option (@pre_fun D P).
Hypothesis Hpre : harmless pre.
Variables (pre0 : P) (seg0 : SB) (post0 : PB).
Variable conf : X -> kconf.
Variable keys : list X.
Variables (T TS : X -> list D -> list row) (Inv : X -> list D -> SB -> Prop) (m ms : X -> row -> row) (kp : X -> D -> bool).
Variable good : X -> list D -> Prop.
Hypothesis good_app : forall x a b, good x (a ++ b) -> good x a.
Notation ok := (BatchRunProofs.ok idx good).
Hypothesis Htab : forall x, In x keys -> tabular (conf x) seg0 (ok x) (T x) (TS x) (Inv x).
Hypothesis Hpost : forall x, In x keys -> post_is (conf x) (m x) (ms x).
Hypothesis Hpar : forall x, In x keys -> writes_as_labels (conf x) (ok x) (T x) (TS x) (m x) (ms x).
Hypothesis Hkp : forall x, In x keys -> In (k_filter (conf x), kp x) gs.
(** All rows which are given. *)
Variable Sf : list D.
Hypothesis Hsf : sorted (map idx Sf).
Definition frows (x : X) (S : list D) : list D := filter (kp x) S.
Hypothesis Hgood : forall x, In x keys -> good x (frows x Sf).
Notation Q := (forall i, truthy i = true).
Definition known (S : list D) (r : Z) : Prop := exists y, In y S /\ idx y = r.
Notation kinv_ S x := (kinv (conf x) (T x) (TS x) (Inv x) (m x) (ms x) (frows x Sf) (fun r _ => known S r) Q).

Lemma fok : forall x, In x keys -> ok x (frows x Sf).
Proof. intros x H. split; [apply sorted_filter|]; auto. Qed.
Lemma fok_app : forall x (a b : list D), ok x (a ++ b) -> ok x a.
Proof. intros x a b [H H']. split; [eapply sorted_app_l; eauto|eapply good_app; eauto]. Qed.

Definition fmem (S : list D) (g : stream) : Prop :=
  (forall i k b s, nth_error (g_keys g) i = Some (k, b, s) -> exists x, k = conf x /\ nth_error keys i = Some x /\ kinv_ S x (frows x S) b s /\ (g_restart g = None -> frows x S = [] /\ md_of (s_main s) = None)) /\
  (forall v, g_restart g = Some v -> known S v).
Definition fwritten (g : stream) : Prop :=
  forall k b s, In (k, b, s) (g_keys g) -> b_bin b = None /\ (Q -> g_restart g <> None -> md_of (s_main s) <> None).

Lemma kinv_known : forall S S' x H b (s : kstore), incl S S' -> kinv_ S x H b s -> kinv_ S' x H b s.
Proof.
  intros S S' x H b s Hi (A & B & C & R). split; auto. split; auto. split; auto. intros md E. destruct (R md E) as (Hrec & rest & R1 & (y & R2 & R2') & R3).
  exists Hrec, rest. split; auto. split; auto. exists y. auto.
Qed.

(** A new instance. *)
Lemma fresh_fmem : forall S g g1, fmem S g -> fwritten g -> Q -> init pre0 seg0 post0 (stores g) = Ok g1 -> fmem S g1 /\ fwritten g1.
Proof.
  intros S g g1 [A B] W Tq E. destruct (init_inv _ _ _ _ _ E) as [F HR].
  assert (Rs : forall i k s e md, nth_error (stores g) i = Some (k, s) -> s_main s = Some e -> e_md e = Some md -> In (m_restart md) (restarts_of (stores g))).
  { intros i k s e md Hk Es Em. unfold restarts_of. apply in_flat_map. exists (k, s). split; [eapply nth_error_In; eauto|]. cbn [snd]. rewrite Es, Em. left. auto. }
  assert (Rk : forall r, In r (restarts_of (stores g)) -> exists i k b s md, nth_error (g_keys g) i = Some (k, b, s) /\ md_of (s_main s) = Some md /\ m_restart md = r).
  { intros r Hr. unfold restarts_of in Hr. apply in_flat_map in Hr as ([k2 s2] & Hin2 & Hr). cbn [snd] in Hr. apply In_nth_error in Hin2 as [j Hj]. destruct (stores_nth _ _ _ _ Hj) as (b2 & Hg2).
    destruct (s_main s2) as [e2|] eqn:Es; [|destruct Hr]. destruct (e_md e2) as [md2|] eqn:Em; [|destruct Hr]. destruct Hr as [<-|[]]. exists j, k2, b2, s2, md2. rewrite Es. auto. }
  assert (G : forall i k b s, nth_error (g_keys g1) i = Some (k, b, s) -> b_bin b = None /\ (g_restart g1 <> None -> md_of (s_main s) <> None) /\
     exists x, k = conf x /\ nth_error keys i = Some x /\ kinv_ S x (frows x S) b s /\ (g_restart g1 = None -> frows x S = [] /\ md_of (s_main s) = None)).
  { intros i k b s Hin. destruct (Forall2_nth_r _ _ _ _ _ F Hin) as ([k' s'] & Hks & Hf). unfold fresh_key in Hf.
    destruct (stores_nth _ _ _ _ Hks) as (b0 & Hg). destruct (A i k' b0 s' Hg) as (x & Ex & Hx & HK & Hn). destruct (W k' b0 s' (nth_error_In _ _ Hg)) as [W1 W2]. specialize (W2 Tq).
    pose proof (nth_error_In _ _ Hx) as Hk. destruct HK as (K1 & K2 & (K3 & K4 & K5) & K6). rewrite W1 in K5.
    assert (Z0 : forall c, In c (chans (P := P) (conf x) (T x) (TS x) (m x) (ms x)) -> forall seg post, idle (frows x Sf) c (frows x S) (mkBuf 0 None None [] [] seg post) s').
    { intros c Hc seg post. destruct (K5 c Hc) as (_ & _ & I3 & I4). split; [|split; [|split; auto]];
        unfold chans in Hc; destruct (k_type (conf x)); simpl in Hc; destruct Hc as [<-|Hc]; try (destruct Hc as [<-|[]]); try contradiction; auto. }
    destruct (s_main s') as [e|] eqn:Es.
    - destruct Hf as (md & Em & Q0). injection Q0 as -> -> ->. cbn [b_bin]. split; auto. rewrite Es. cbn [md_of]. split; [intros _; congruence|].
      destruct (K6 md ltac:(rewrite Es; exact Em)) as (Hrec & rest & R1 & R2 & R3 & _ & R5 & R6). rewrite (R5 Tq W1), app_nil_r in R1. subst Hrec.
      exists x. split; auto. split; auto. split.
      + split; auto. split; auto. split; [split; [exact R3|split; [auto|intros c Hc; apply Z0; auto]]|].
        intros md' Em'. rewrite Es in Em'. cbn [md_of] in Em'. assert (md' = md) as -> by congruence. exists (frows x S), []. rewrite app_nil_r. split; [auto|split; [auto|split; [auto|split; [cbn [b_bin]; congruence|split; [auto|exact R6]]]]].
      + intro Q0. exfalso. rewrite Q0 in HR. pose proof (Rs i k' s' e md Hks Es Em) as Hi. rewrite HR in Hi. destruct Hi.
    - injection Hf as -> -> ->. assert (Hg0 : g_restart g = None).
      { destruct (g_restart g); auto. exfalso. apply W2; [discriminate|]. reflexivity. }
      destruct (Hn Hg0) as [Hn1 Hn2]. cbn [b_bin]. split; auto. split; [|exists x; split; auto; split; auto; split].
      + intro Hr. exfalso. destruct (g_restart g1) as [r1|]; [|congruence]. destruct HR as [HR _]. destruct (Rk r1 HR) as (j & k2 & b2 & s2 & md2 & Hg2 & Em2 & _).
        destruct (A j k2 b2 s2 Hg2) as (x2 & _ & _ & _ & Q2). destruct (Q2 Hg0). congruence.
      + rewrite Hn1 in *. split; auto. split; auto. split; [split; [apply (tab_start _ _ _ _ _ _ (Htab x Hk))|split; [auto|intros c Hc; apply Z0; auto]]|].
        intros md Em. rewrite Es in Em. discriminate.
      + rewrite Es. auto. }
  split; [split|].
  - intros i k b s Hin. destruct (G i k b s Hin) as (_ & _ & R). exact R.
  - intros v Hv. rewrite Hv in HR. destruct HR as [HR _]. destruct (Rk v HR) as (j & k2 & b2 & s2 & md2 & Hg2 & Em2 & <-).
    destruct (A j k2 b2 s2 Hg2) as (x2 & _ & _ & (_ & _ & _ & R2) & _). destruct (R2 md2 Em2) as (_ & _ & _ & R & _). exact R.
  - intros k b s Hin. apply In_nth_error in Hin as [i Hin]. destruct (G i k b s Hin) as (R1 & R2 & _). auto.
Qed.

(** There are no results without rows. *)
Lemma no_results : forall S x b (s : kstore), In x keys -> kinv_ S x [] b s -> b_bin b = None.
Proof.
  intros S x b s Hk (_ & _ & (_ & _ & Mc) & _). destruct (b_bin b) as [f|]; auto. exfalso. destruct Mc as [_ Mc].
  assert (Nz : forall c : @chan D P SB PB, In c (chans (conf x) (T x) (TS x) (m x) (ms x)) -> False).
  { intros c Hc. destruct (Mc c Hc) as (f0 & A & _ & Hf0 & ET & _).
    destruct (chan_facts (conf x) seg0 (ok x) (T x) (TS x) (Inv x) (m x) (ms x) (Htab x Hk) (Hpost x Hk) (Hpar x Hk) c Hc) as (_ & _ & ET0 & _).
    rewrite ET0 in ET. symmetry in ET. apply app_eq_nil in ET as [_ ET]. apply app_eq_nil in ET as [_ ET]. auto. }
  unfold chans in Nz. destruct (k_type (conf x)); eapply Nz; left; reflexivity.
Qed.

(** A call to 'agg'. *)
Lemma feed_step : forall S g g' seed trim final ex rest, fmem S g -> Sf = S ++ concat seed ++ rest -> (forall c, In c seed -> c <> []) ->
  agg idx truthy usage pre fs g seed trim false final = Ok (g', ex) ->
  ex = None /\ fmem (S ++ concat seed) g' /\ (final = true -> fwritten g').
Proof.
  intros S g g' seed trim final ex rest [A B] ES Hne E. set (S' := concat seed) in *.
  pose proof Hsf as Hs. rewrite ES, map_app, SegProofs.sorted_app in Hs. destruct Hs as (_ & Hs & Hlt). rewrite map_app, SegProofs.sorted_app in Hs. destruct Hs as (Hs & _ & _).
  destruct (iter_data_spec idx fs gs Hfs pre Hpre (g_restart g) trim false seed (g_pre g) Hne Hs) as (Ne & Dl & Rs). fold S' in Dl, Rs.
  fold (ys_of idx fs pre g trim false seed) in Ne, Dl, Rs. fold S' in Hs.
  destruct (agg_log idx truthy usage fs gs Hfs pre Hpre g g' seed trim false final ex Hne Hs E) as (-> & Hr & L & EL & Ln & LL).
  assert (Rw : forall id c, In c (chunks_of id (ys_of idx fs pre g trim false seed)) -> c <> []).
  { intros id c. apply chunks_rows. unfold ys_of, iter_data. destruct (g_restart g); apply (iter_rows idx fs gs Hfs). }
  set (ys := ys_of idx fs pre g trim false seed) in *.
  assert (Wt : forall r, In r S' -> wanted idx (g_restart g) trim false (last_index idx S') r = true).
  { intros r Hin. unfold wanted, IterProofs.keep. destruct (g_restart g) as [v|] eqn:Ev; auto. rewrite andb_true_r. destruct trim; auto. apply Z.leb_le.
    destruct (B v eq_refl) as (y & Hy & <-). apply Hlt; [apply in_map; auto|]. rewrite map_app. apply in_or_app. left. apply in_map. auto. }
  assert (Fr : forall x, In x keys -> delivered (k_filter (conf x)) ys = frows x S').
  { intros x Hk. rewrite (Dl _ _ (Hkp x Hk)). unfold frows. apply filter_ext_in. intros r Hin. rewrite Wt by auto. apply andb_true_r. }
  assert (Kn : forall v, g_restart g' = Some v -> known (S ++ S') v).
  { intros v Ev. rewrite Hr in Ev. destruct Rs as [[Rs _]|(N & R1 & _ & (y & Hy & Ey) & _)].
    - rewrite Rs in Ev. destruct (B v Ev) as (y & Hy & Ey). exists y. split; auto. apply in_or_app. auto.
    - rewrite R1 in Ev. injection Ev as <-. exists y. split; auto. apply in_or_app. auto. }
  assert (Nn : g_restart g' = None -> g_restart g = None /\ forall x, In x keys -> frows x S' = []).
  { intro En. rewrite Hr in En. destruct Rs as [[Rs1 Rs2]|(N & R1 & _)]; [|congruence]. split; [congruence|]. intros x Hk. unfold frows.
    destruct (filter (kp x) S') as [|r l] eqn:Er; auto. exfalso. assert (Hin : In r (filter (kp x) S')) by (rewrite Er; left; auto). apply filter_In in Hin as [Hin Hkr].
    eapply Rs2; eauto. }
  assert (K : forall i k b s, nth_error (g_keys g') i = Some (k, b, s) -> exists x, k = conf x /\ nth_error keys i = Some x /\ kinv_ (S ++ S') x (frows x (S ++ S')) b s /\
     (g_restart g' = None -> frows x (S ++ S') = [] /\ md_of (s_main s) = None) /\ (final = true -> b_bin b = None /\ (Q -> g_restart g' <> None -> md_of (s_main s) <> None))).
  { intros i k' b' s' N2. assert (Hi : (i < length (g_keys g))%nat) by (rewrite <- Ln; apply nth_error_Some; congruence).
    apply nth_error_Some in Hi. destruct (nth_error (g_keys g) i) as [[[k b] s]|] eqn:N1; [|congruence]. clear Hi.
    destruct (LL i k b s N1) as (b0 & a & (b1 & a1 & a2 & Kr & Ea & Fw) & N3 & _). rewrite N2 in N3. injection N3 as -> -> ->.
    destruct (A i k b s N1) as (x & Ex & Hx & HK & Hn). exists x. split; auto. split; auto. subst k. pose proof (nth_error_In _ _ Hx) as Hk.
    assert (Ef : frows x S ++ concat (chunks_of (k_filter (conf x)) ys) = frows x (S ++ S')).
    { rewrite <- delivered_chunks, (Fr x Hk). unfold frows. rewrite filter_app. auto. }
    destruct (key_run_inv truthy usage (conf x) seg0 (ok x) (T x) (TS x) (Inv x) (m x) (ms x) (Htab x Hk) (Hpost x Hk) (Hpar x Hk) (frows x Sf) (fok x Hk) (fok_app x) _ Q
      _ (frows x S) b s (g_pre g) b1 a1 (kinv_known S (S ++ S') x _ b s (incl_appl _ (incl_refl _)) HK) (fun c => Rw (k_filter (conf x)) c)) as (K1 & K2 & K3 & K4); auto.
    { rewrite Ef, ES, app_assoc. unfold frows. rewrite (filter_app (kp x) (S ++ S')). eexists. reflexivity. }
    rewrite Ef in K1. assert (Hn' : g_restart g' = None -> frows x (S ++ S') = []).
    { intro En. destruct (Nn En) as [N4 N5]. unfold frows. rewrite filter_app. fold (frows x S) (frows x S'). rewrite (N5 x Hk), (proj1 (Hn N4)). auto. }
    destruct final.
    - destruct (final_inv truthy usage (conf x) seg0 (ok x) (T x) (TS x) (Inv x) (m x) (ms x) (Htab x Hk) (Hpost x Hk) (Hpar x Hk) (frows x Sf) (fok x Hk) (fok_app x) _ Q
        (frows x (S ++ S')) b1 (apply_acts s a1) (g_restart g') (g_pre g') b0 a2 K1) as (F1 & F2 & F3 & F4 & F5); auto.
      { intro Hb. destruct (g_restart g') as [j|]; [exists j; auto|]. exfalso. rewrite (Hn' eq_refl) in K1. apply Hb. eapply no_results; eauto. }
      subst a. rewrite apply_acts_app. split; auto. split.
      + intro En. split; auto. rewrite En in F5. destruct (Nn En) as [N4 _]. destruct (Hn N4) as [_ N5]. destruct F5 as [F5|F5], K4 as [K4|K4]; congruence.
      + intros _. split; auto. intros Tq Hj. destruct (g_restart g') as [j|]; [|congruence]. rewrite (Tq j) in F5. destruct F5 as (md & F5 & _). congruence.
    - destruct Fw as [-> ->]. rewrite app_nil_r in Ea. subst a. split; auto. split; [|discriminate]. intro En. split; auto. destruct (Nn En) as [N4 _]. destruct (Hn N4) as [_ N5]. destruct K4; congruence. }
  split; auto. split; [split; auto|].
  - intros i k b s N. destruct (K i k b s N) as (x & K1 & K2 & K3 & K4 & _). exists x. auto.
  - intros Ef k b s Hin. apply In_nth_error in Hin as [i Hin]. destruct (K i k b s Hin) as (x & _ & _ & _ & _ & K5). auto.
Qed.

Definition fholds (i : nat) (k : kconf) (s : kstore) : Prop :=
  exists x, k = conf x /\ nth_error keys i = Some x /\ forall c, In c (chans (conf x) (T x) (TS x) (m x) (ms x)) -> all_rows (c_ds c s) = map (c_map c) (c_tab c (frows x Sf)).

Lemma feed_all_holds : forall cs S g g' w, fmem S g -> (w = true -> fwritten g) -> Sf = S ++ fed cs -> (forall c, In c cs -> forall ch, In ch (f_seed c) -> ch <> []) ->
  written_first w cs -> (Q \/ forall c, In c cs -> f_fresh c = false) ->
  feed_all idx truthy usage pre fs pre0 seg0 post0 g cs = Ok g' -> cs <> [] -> f_final (last cs (mkCall false false false [])) = true ->
  forall i k b s, nth_error (g_keys g') i = Some (k, b, s) -> fholds i k s.
Proof.
  induction cs as [|c cs IH]; intros S g g' w Hm Hw ES Hch Hwf Hq E Hne Hl; [congruence|]. destruct Hwf as [Hf Hw']. clear Hne. cbn [feed_all] in E.
  destruct (feed_once idx truthy usage pre fs pre0 seg0 post0 g c) as [g1|] eqn:E1; cbn [bind] in E; [|discriminate]. unfold feed_once in E1.
  match type of E1 with bind ?X _ = _ => destruct X as [g0|] eqn:E0 end; cbn [bind] in E1; [|discriminate].
  destruct (agg idx truthy usage pre fs g0 (f_seed c) (f_trim c) false (f_final c)) as [[g2 ex]|] eqn:E2; cbn [bind] in E1; [|discriminate].
  assert (M0 : fmem S g0).
  { destruct (f_fresh c) eqn:Ef; [|injection E0 as <-; auto]. destruct Hq as [Tq|Hq]; [|rewrite (Hq c) in Ef by (left; auto); discriminate].
    destruct (fresh_fmem S g g0) as [M _]; auto. }
  unfold fed in ES. cbn [map concat] in ES. fold (fed cs) in ES.
  destruct (feed_step S g0 g2 (f_seed c) (f_trim c) (f_final c) ex (fed cs) M0 ES (Hch c (or_introl eq_refl)) E2) as (-> & M & W). injection E1 as ->.
  destruct cs as [|c' cs].
  - injection E as <-. cbn [last] in Hl. intros i k b s Hin. destruct (W Hl k b s (nth_error_In _ _ Hin)) as [Hb _]. destruct M as [M _]. destruct (M i k b s Hin) as (x & Ex & Hx & HK & _).
    exists x. split; auto. split; auto. intros ch Hc. pose proof (nth_error_In _ _ Hx). unfold fed in ES. cbn [map concat] in ES. rewrite app_nil_r in ES. rewrite <- ES in HK. eapply kinv_final; eauto.
  - apply (IH (S ++ concat (f_seed c)) g1 g' (f_final c)); auto.
    + rewrite ES, app_assoc. auto.
    + intros c0 Hc0. apply Hch. right. auto.
    + destruct Hq as [Hq|Hq]; [left; auto|right; intros c0 Hc0; apply Hq; right; auto].
    + discriminate.
Qed.

Lemma new_fmem : fmem [] (new_stream pre0 seg0 post0 (map conf keys)) /\ fwritten (new_stream pre0 seg0 post0 (map conf keys)).
Proof.
  unfold new_stream. split; [split; [|discriminate]|].
  - intros i k b s Hin. cbn [g_keys] in Hin. rewrite map_map, nth_error_map in Hin. destruct (nth_error keys i) as [x|] eqn:Ex; [|discriminate]. injection Hin as <- <- <-. pose proof (nth_error_In _ _ Ex) as Hin.
    exists x. split; auto. split; auto. split; [|split; reflexivity]. split; [apply starts_nil|]. split; [|split].
    + intros c Hc. unfold chans in Hc. destruct (k_type (conf x)); simpl in Hc; destruct Hc as [<-|Hc]; try (destruct Hc as [<-|[]]); try contradiction; (split; [constructor|split; [apply starts_nil|intros ? []]]).
    + split; [apply (tab_start _ _ _ _ _ _ (Htab x Hin))|]. split; auto. cbn [b_bin]. intros c Hc.
      destruct (chan_facts (conf x) seg0 (ok x) (T x) (TS x) (Inv x) (m x) (ms x) (Htab x Hin) (Hpost x Hin) (Hpar x Hin) c Hc) as (_ & _ & ET & _).
      assert (Z0 : c_cur c (mkBuf 0 None None [] [] seg0 post0) = None /\ c_bufs c (mkBuf 0 None None [] [] seg0 post0) = [] /\ c_ds c (mkStore None None) = []).
      { unfold chans in Hc. destruct (k_type (conf x)); simpl in Hc; destruct Hc as [<-|Hc]; try (destruct Hc as [<-|[]]); try contradiction; auto. }
      destruct Z0 as (Z1 & Z2 & Z3). unfold idle, at_rest, tight. cbn [frows filter]. rewrite Z1, Z2, Z3, ET. split; auto. split; auto. split; [left; apply starts_nil|right; auto].
    + intros md Em. discriminate.
  - intros k b s Hin. cbn [g_keys] in Hin. apply in_map_iff in Hin as (k' & Q0 & Hin). injection Q0 as <- <- <-. split; [reflexivity|]. cbn [g_restart]. congruence.
Qed.
End Feed.
