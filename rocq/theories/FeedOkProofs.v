(** Calls to 'agg' which are given new data only are accepted: proofs. *)
Require Import List Arith ZArith Bool Lia Sorted.
Require Import Verif.Common Verif.SegModel Verif.SegSpec Verif.FilterModel Verif.WrModel Verif.WrSpec Verif.WrHistProofs Verif.StreamModel Verif.StreamSpec Verif.KeyModel Verif.BatchSpec Verif.IterProofs Verif.StreamProofs
  Verif.RecordProofs Verif.TableProofs Verif.LabelProofs Verif.BatchProofs Verif.BatchRunProofs Verif.BatchOkProofs Verif.FeedSpec Verif.FeedProofs.
Require Verif.SegProofs.
Import ListNotations.
Local Open Scope Z_scope.

Section FeedOk.
Context {D P SB PB X : Type}.
Variable idx : D -> Z.
Variable truthy : Z -> bool.
Variable usage : frame -> Z.
Notation stream := (stream D P SB PB).
Notation kconf := (kconf D SB PB).
Notation kbuf := (kbuf SB PB).
Notation kstore := (kstore P SB PB).
Variables (fs : @filters D) (gs : list (nat * (D -> bool))).
Hypothesis Hfs : filters_are fs gs.
Variable pre : option (@pre_fun D P).
Hypothesis Hpre : harmless pre.
Variables (pre0 : P) (seg0 : SB) (post0 : PB).
Variable conf : X -> kconf.
Variable keys : list X.
Variables (T TS : X -> list D -> list row) (Inv : X -> list D -> SB -> Prop) (m ms : X -> row -> row) (kp : X -> D -> bool).
Variable good : X -> list D -> Prop.
Hypothesis good_app : forall x a b, good x (a ++ b) -> good x a.
Notation ok := (BatchRunProofs.ok idx good).
Hypothesis Htab : forall x, In x keys -> tabular (conf x) seg0 (ok x) (T x) (TS x) (Inv x).
Hypothesis Hpost : forall x, In x keys -> post_is (conf x) (m x) (ms x).
Hypothesis Hpar : forall x, In x keys -> writes_as_labels (conf x) (ok x) (T x) (TS x) (m x) (ms x).
Hypothesis Hkp : forall x, In x keys -> In (k_filter (conf x), kp x) gs.
Variable Sf : list D.
Hypothesis Hsf : sorted (map idx Sf).
Notation frows := (FeedProofs.frows kp).
Hypothesis Hgood : forall x, In x keys -> good x (frows x Sf).
Hypothesis Q : forall i, truthy i = true.
Notation kinv_ S x := (kinv (conf x) (T x) (TS x) (Inv x) (m x) (ms x) (frows x Sf) (fun r _ => known idx S r) (forall i, truthy i = true)).
Notation fmem := (fmem idx truthy conf keys T TS Inv m ms kp Sf).
Notation fwritten := (@fwritten D P SB PB truthy).
(** Conditions for calls to be accepted. *)
Hypothesis Hagg : forall x H p b, In x keys -> p <> [] -> starts (H ++ p) (frows x Sf) -> Inv x H b ->
  exists f sn b', k_agg (conf x) p b = Ok (Some (f, sn), b') /\ wide (conf x) f /\ (forall s, sn = Some s -> wide (conf x) s).
Hypothesis Hwide : forall x, In x keys -> post_wide (conf x).
Hypothesis Hsize : forall x, In x keys -> positive_size (max_row_group_size (k_write (conf x))) /\ (k_type (conf x) = BOTH -> positive_size (max_row_group_size (k_write_snap (conf x)))).
Hypothesis Hnc : forall x, In x keys -> no_coalescing (conf x).
Variable w : Z.
Hypothesis Hw : 0 <= w.
Hypothesis Husage : forall f, usage f <= w * Z.of_nat (S (length (rows f))).
Variable n_max : nat.
Hypothesis Hlim : forall x, In x keys -> match k_type (conf x) with
  | BINS => 4 * w * Z.of_nat n_max <= k_max (conf x)
  | _ => 2 * w * Z.of_nat (4 * n_max + length (T x (frows x Sf)) + length (TS x (frows x Sf))) <= k_max (conf x)
  end.
Definition fsmalls (n : nat) (S : list D) (g : stream) : Prop :=
  forall i k b s x, nth_error (g_keys g) i = Some (k, b, s) -> nth_error keys i = Some x -> small (conf x) (T x) (TS x) w n (frows x S) b.

Lemma fmem_grows : forall S S' x H b (s : kstore), kinv_ S x H b s -> kinv_ (S ++ S') x H b s.
Proof using Type. intros S S' x H b s. apply (kinv_known idx truthy conf T TS Inv m ms kp Sf). apply incl_appl, incl_refl. Qed.

(** A call to 'agg'. *)
Lemma feed_ok : forall S (g : stream) seed trim final n rest, fmem S g -> fsmalls n S g -> unborn g -> (n + length seed <= n_max)%nat ->
  Sf = S ++ concat seed ++ rest -> (forall c, In c seed -> c <> []) ->
  exists g', agg idx truthy usage pre fs g seed trim false final = Ok (g', None) /\
    fsmalls (if final then 0 else n + length seed) (S ++ concat seed) g' /\ unborn g' /\ (final = true -> restartable g').
Proof using All.
  intros S g seed trim final n rest Hm Hsm Hub Hn ES Hne. set (S' := concat seed) in *.
  pose proof Hsf as Hs. rewrite ES, map_app, SegProofs.sorted_app in Hs. destruct Hs as (_ & Hs & Hlt). rewrite map_app, SegProofs.sorted_app in Hs. destruct Hs as (Hs & _ & _).
  destruct (iter_data_spec idx fs gs Hfs pre Hpre (g_restart g) trim false seed (g_pre g) Hne Hs) as (Ne & Dl & Rs). fold S' in Dl, Rs.
  fold (ys_of idx fs pre g trim false seed) in Ne, Dl, Rs. fold S' in Hs.
  assert (Rw : forall id c, In c (chunks_of id (ys_of idx fs pre g trim false seed)) -> c <> []).
  { intros id c. apply chunks_rows. unfold ys_of, iter_data. destruct (g_restart g); apply (iter_rows idx fs gs Hfs). }
  assert (Lc : forall id, (length (chunks_of id (ys_of idx fs pre g trim false seed)) <= length seed)%nat).
  { intro id. unfold ys_of, iter_data. destruct (g_restart g); apply (iter_count idx fs gs Hfs). }
  assert (Wt : forall r, In r S' -> wanted idx (g_restart g) trim false (last_index idx S') r = true).
  { intros r Hin. unfold wanted, IterProofs.keep. destruct (g_restart g) as [v|] eqn:Ev; auto. rewrite andb_true_r. destruct trim; auto. apply Z.leb_le.
    destruct (proj2 Hm v Ev) as (y & Hy & <-). apply Hlt; [apply in_map; auto|]. rewrite map_app. apply in_or_app. left. apply in_map. auto. }
  assert (Fr : forall x, In x keys -> delivered (k_filter (conf x)) (ys_of idx fs pre g trim false seed) = frows x S').
  { intros x Hk. rewrite (Dl _ _ (Hkp x Hk)). unfold FeedProofs.frows. apply filter_ext_in. intros r Hin. rewrite Wt by auto. apply andb_true_r. }
  set (R' := restart_after (g_restart g) (ys_of idx fs pre g trim false seed)) in *.
  assert (KR : forall i k b s, nth_error (g_keys g) i = Some (k, b, s) -> exists x b1 a1, k = conf x /\ nth_error keys i = Some x /\
     key_run truthy usage k (g_pre g) b s (chunks_of (k_filter k) (ys_of idx fs pre g trim false seed)) = Ok (b1, a1) /\
     kinv_ (S ++ S') x (frows x (S ++ S')) b1 (apply_acts s a1) /\ small (conf x) (T x) (TS x) w (n + length seed) (frows x (S ++ S')) b1).
  { intros i k b s Hin. destruct (proj1 Hm i k b s Hin) as (x & Ex & Hk0 & HK & Hn0). pose proof (Hsm i k b s x Hin Hk0) as Sm. subst k. pose proof (nth_error_In _ _ Hk0) as Hk.
    apply (fmem_grows S S') in HK.
    assert (Ef : frows x S ++ concat (chunks_of (k_filter (conf x)) (ys_of idx fs pre g trim false seed)) = frows x (S ++ S')).
    { rewrite <- delivered_chunks, (Fr x Hk). unfold FeedProofs.frows. rewrite filter_app. auto. }
    assert (St : starts (frows x S ++ concat (chunks_of (k_filter (conf x)) (ys_of idx fs pre g trim false seed))) (frows x Sf)).
    { rewrite Ef, ES, app_assoc. unfold FeedProofs.frows. rewrite (filter_app (kp x) (S ++ S')). eexists. reflexivity. }
    destruct (key_run_small truthy usage (conf x) seg0 (ok x) (T x) (TS x) (Inv x) (m x) (ms x) (Htab x Hk) (Hpost x Hk) (Hpar x Hk) (frows x Sf) (fok idx keys kp good Sf Hsf Hgood x Hk) (fok_app idx good good_app x)
      (fun r _ => known idx (S ++ S') r) (forall i, truthy i = true) (fun H p b => Hagg x H p b Hk) (Hwide x Hk) (Hsize x Hk) (Hnc x Hk) w Hw Husage n_max (Hlim x Hk)
      (chunks_of (k_filter (conf x)) (ys_of idx fs pre g trim false seed)) n (frows x S) b s (g_pre g) HK Sm) as (b1 & a1 & E1 & S1).
    - specialize (Lc (k_filter (conf x))). lia.
    - apply Rw.
    - auto.
    - exists x, b1, a1. split; auto. split; auto. split; auto.
      destruct (key_run_inv truthy usage (conf x) seg0 (ok x) (T x) (TS x) (Inv x) (m x) (ms x) (Htab x Hk) (Hpost x Hk) (Hpar x Hk) (frows x Sf) (fok idx keys kp good Sf Hsf Hgood x Hk) (fok_app idx good good_app x) _ (forall i, truthy i = true)
        _ (frows x S) b s (g_pre g) b1 a1 HK (fun c => Rw (k_filter (conf x)) c) St E1) as (K1 & _).
      rewrite Ef in *. split; auto. destruct S1 as ((M1 & M2 & M3 & M4 & M5 & M6) & S2). split; auto. specialize (Lc (k_filter (conf x))).
      split; auto. split; auto. split; auto. split; [lia|]. split; [lia|]. auto. }
  assert (Ex : exists g' ex, agg idx truthy usage pre fs g seed trim false final = Ok (g', ex)).
  { unfold agg.
    assert (C : exists g1, match seed with [] => Ok (g, None) | _ :: _ => let '(ys, p) := iter_data idx (g_restart g) pre fs trim false (g_pre g) seed in let* '(g0, ex) := consume truthy usage g ys in Ok (mkStream (g_restart g0) p (g_keys g0) (g_log g0), ex) end = Ok (g1, None) /\
       g_restart g1 = R' /\ forall k b s, In (k, b, s) (g_keys g1) -> exists x, k = conf x /\ In x keys /\ kinv_ (S ++ S') x (frows x (S ++ S')) b s /\ small (conf x) (T x) (TS x) w (n + length seed) (frows x (S ++ S')) b).
    { destruct seed as [|c0 seed0].
      - exists g. split; auto. split; [unfold R', ys_of, iter_data; destruct (g_restart g); auto|]. intros k b s Hin. apply In_nth_error in Hin as [i Hin].
        destruct (KR i k b s Hin) as (x & b1 & a1 & E1 & E2 & E3 & E4 & E5). exists x. split; auto. split; [eapply nth_error_In; eauto|].
        assert (Z : chunks_of (k_filter k) (ys_of idx fs pre g trim false []) = []) by (unfold ys_of, iter_data; destruct (g_restart g); auto). rewrite Z in E3. injection E3 as <- <-. auto.
      - unfold ys_of in *. destruct (iter_data idx (g_restart g) pre fs trim false (g_pre g) (c0 :: seed0)) as [ys p]. cbn [fst] in *.
        destruct (consume_ok truthy usage ys g Ne) as [g1 E1].
        { intros k b s Hin. apply In_nth_error in Hin as [i Hin]. destruct (KR i k b s Hin) as (x & b1 & a1 & _ & _ & E3 & _). eauto. }
        rewrite E1. cbn [bind]. eexists. split; [reflexivity|]. cbn [g_restart g_keys].
        destruct (consume_inv _ _ _ _ _ _ E1 Ne) as (_ & A & _). split; [auto|].
        destruct (consume_log _ _ _ _ _ _ E1 Ne) as (L & _ & Ln & LL). intros k b s Hin. apply In_nth_error in Hin as [i Hin].
        assert (Hi : (i < length (g_keys g))%nat) by (rewrite <- Ln; apply nth_error_Some; congruence). apply nth_error_Some in Hi.
        destruct (nth_error (g_keys g) i) as [[[k0 b0] s0]|] eqn:En; [|congruence].
        destruct (LL i k0 b0 s0 En) as (b1 & a1 & A1 & B1 & _). rewrite Hin in B1. injection B1 as -> -> ->.
        destruct (KR i k0 b0 s0 En) as (x & b2 & a2 & E2 & E3 & E4 & E5 & E6). rewrite A1 in E4. injection E4 as <- <-. exists x. split; auto. split; [eapply nth_error_In; eauto|]. auto. }
    destruct C as (g1 & -> & Hr & Hk1). cbn [bind]. destruct final; cbn [bind]; [|eauto].
    unfold final_write. match goal with |- context [run_jobs ?j 0 (g_keys g1)] => destruct (run_jobs_ok j (g_keys g1) 0) as (l & log & E) end.
    { intros k b s Hin. destruct (Hk1 k b s Hin) as (x & -> & Hx & K1 & S1).
      destruct (final_small truthy usage (conf x) seg0 (ok x) (T x) (TS x) (Inv x) (m x) (ms x) (Htab x Hx) (Hpost x Hx) (Hpar x Hx) (frows x Sf) (fok idx keys kp good Sf Hsf Hgood x Hx) (fok_app idx good good_app x)
        (fun r _ => known idx (S ++ S') r) (forall i, truthy i = true) (fun H p b => Hagg x H p b Hx) (Hwide x Hx) (Hsize x Hx) (Hnc x Hx) w Hw Husage n_max (Hlim x Hx)
        (n + length seed) (frows x (S ++ S')) b s (g_restart g1) (g_pre g1) K1 S1) as (b' & acts & E & _). eauto. }
    rewrite E. cbn [bind]. eauto. }
  destruct Ex as (g' & ex & E). exists g'.
  destruct (agg_log idx truthy usage fs gs Hfs pre Hpre g g' seed trim false final ex Hne Hs E) as (-> & Hr & L & EL & Ln & LL). fold R' in Hr.
  destruct (feed_step idx truthy usage fs gs Hfs pre Hpre seg0 conf keys T TS Inv m ms kp good good_app Htab Hpost Hpar Hkp Sf Hsf Hgood S g g' seed trim final None rest Hm ES Hne E) as (_ & [Hm1 Hm2] & Hw').
  fold S' in Hm1, Hm2. split; auto.
  assert (Back : forall i k b' s', nth_error (g_keys g') i = Some (k, b', s') -> exists b s x b1 a1 a2, nth_error (g_keys g) i = Some (k, b, s) /\ k = conf x /\ nth_error keys i = Some x /\
     key_run truthy usage k (g_pre g) b s (chunks_of (k_filter k) (ys_of idx fs pre g trim false seed)) = Ok (b1, a1) /\
     s' = apply_acts (apply_acts s a1) a2 /\ kinv_ (S ++ S') x (frows x (S ++ S')) b1 (apply_acts s a1) /\ small (conf x) (T x) (TS x) w (n + length seed) (frows x (S ++ S')) b1 /\
     if final then post_n_write truthy k b1 (apply_acts s a1) true R' (g_pre g') = Ok (b', a2) else b' = b1 /\ a2 = []).
  { intros i k b' s' Hin. assert (Hi : (i < length (g_keys g))%nat) by (rewrite <- Ln; apply nth_error_Some; congruence). apply nth_error_Some in Hi.
    destruct (nth_error (g_keys g) i) as [[[k0 b0] s0]|] eqn:En; [|congruence]. destruct (LL i k0 b0 s0 En) as (b2 & a & (b1 & a1 & a2 & A1 & -> & A2) & B1 & _). rewrite Hin in B1. injection B1 as -> -> ->.
    destruct (KR i k0 b0 s0 En) as (x & b3 & a3 & E2 & E3 & E4 & E5 & E6). rewrite A1 in E4. injection E4 as <- <-. rewrite Hr in A2.
    exists b0, s0, x, b1, a1, a2. rewrite apply_acts_app. do 7 (split; [auto|]). auto. }
  assert (Unb : R' = None -> forall i k b' s', nth_error (g_keys g') i = Some (k, b', s') -> s_main s' = None).
  { intros Rn i k b' s' Hin. destruct (Back i k b' s' Hin) as (b & s & x & b1 & a1 & a2 & B1 & B2 & B3 & B4 & -> & B5 & B6 & B8).
    destruct (restart_none _ _ Rn Ne) as [Rn1 Rn2]. rewrite Rn2 in B4. cbn [chunks_of flat_map key_run] in B4. injection B4 as <- <-. change (apply_acts s []) with s in *.
    assert (A2 : a2 = []).
    { destruct final; [|apply B8]. rewrite Hr in Hm1. destruct (Hm1 i k b' _ Hin) as (x1 & _ & Hx1 & _ & Hz). rewrite B3 in Hx1. injection Hx1 as <-. destruct (Hz Rn) as [Hz1 _]. rewrite Hz1 in B5.
      assert (Eb : b_bin b = None) by (eapply (no_results (P := P) idx truthy seg0 conf keys T TS Inv m ms kp good Htab Hpost Hpar Sf); [exact (nth_error_In _ _ B3)|exact B5]).
      unfold post_n_write, results in B8. rewrite Eb in B8. rewrite Rn in B8. cbn [bind] in B8. injection B8 as _ <-. auto. }
    subst a2. change (apply_acts s []) with s. apply (Hub Rn1 k b s). eapply nth_error_In; eauto. }
  split; [|split].
  - intros i k b' s' x Hin Hx. destruct (Back i k b' s' Hin) as (b & s & x' & b1 & a1 & a2 & B1 & -> & B3 & B4 & -> & B5 & B6 & B8).
    rewrite Hx in B3. injection B3 as <-. pose proof (nth_error_In _ _ Hx) as Hk. destruct final.
    + destruct (final_small truthy usage (conf x) seg0 (ok x) (T x) (TS x) (Inv x) (m x) (ms x) (Htab x Hk) (Hpost x Hk) (Hpar x Hk) (frows x Sf) (fok idx keys kp good Sf Hsf Hgood x Hk) (fok_app idx good good_app x)
        (fun r _ => known idx (S ++ S') r) (forall i, truthy i = true) (fun H p b => Hagg x H p b Hk) (Hwide x Hk) (Hsize x Hk) (Hnc x Hk) w Hw Husage n_max (Hlim x Hk)
        (n + length seed) (frows x (S ++ S')) b1 (apply_acts s a1) R' (g_pre g') B5 B6) as (b2 & acts & E2 & S2). rewrite B8 in E2. injection E2 as <- <-. auto.
    + destruct B8 as [-> _]. auto.
  - intros Rn k b s Hin. rewrite Hr in Rn. apply In_nth_error in Hin as [i Hin]. eapply Unb; eauto.
  - intros ->. destruct R' as [r|] eqn:ER; [right; exists r|left; intros k b s Hin; apply In_nth_error in Hin as [i Hin]; eapply Unb; eauto].
    intros k b' s' Hin. apply In_nth_error in Hin as [i Hin]. destruct (Back i k b' s' Hin) as (b & s & x & b1 & a1 & a2 & B1 & -> & B3 & B4 & -> & B5 & B6 & B8).
    pose proof (nth_error_In _ _ B3) as Hk.
    destruct (final_inv truthy usage (conf x) seg0 (ok x) (T x) (TS x) (Inv x) (m x) (ms x) (Htab x Hk) (Hpost x Hk) (Hpar x Hk) (frows x Sf) (fok idx keys kp good Sf Hsf Hgood x Hk) (fok_app idx good good_app x) _ (forall i, truthy i = true)
      (frows x (S ++ S')) b1 (apply_acts s a1) (Some r) (g_pre g') b' a2 B5) as (_ & _ & _ & _ & F5); auto.
    { intros j Ej. injection Ej as <-. apply Hm2. auto. }
    { intros _. exists r. auto. }
    rewrite (Q r) in F5. auto.
Qed.
(** A new instance. *)
Lemma fresh_ok : forall S (g : stream) n, fmem S g -> fwritten g -> restartable g ->
  exists g1, init pre0 seg0 post0 (map (fun x => let '(k, b, s) := x in (k, s)) (g_keys g)) = Ok g1 /\ fmem S g1 /\ fsmalls n S g1 /\ unborn g1.
Proof using All.
  intros S g n Hm Hwr Hr. set (ks := map (fun x : kconf * kbuf * kstore => let '(k, b, s) := x in (k, s)) (g_keys g)).
  assert (Hks : forall k s, In (k, s) ks -> exists b, In (k, b, s) (g_keys g)).
  { intros k s Hin. apply in_map_iff in Hin as ([[k' b] s'] & E & Hin). injection E as <- <-. eauto. }
  assert (Hrs : forall z, In z (restarts_of ks) -> exists k b s e md, In (k, b, s) (g_keys g) /\ s_main s = Some e /\ e_md e = Some md /\ m_restart md = z).
  { intros z Hz. unfold restarts_of in Hz. apply in_flat_map in Hz as ([k s] & Hin & Hz). cbn [snd] in Hz. destruct (s_main s) as [e|] eqn:Es; [|destruct Hz].
    destruct (e_md e) as [md|] eqn:Em; [|destruct Hz]. destruct Hz as [Hz|[]]. destruct (Hks k s Hin) as [b Hb]. exists k, b, s, e, md. auto. }
  destruct (init_ok pre0 seg0 post0 ks) as [g1 E1].
  - intros k s e Hin Es. destruct (Hks k s Hin) as [b Hb]. destruct Hr as [Hr|[i Hr]]; [rewrite (Hr k b s Hb) in Es; discriminate|].
    destruct (Hr k b s Hb) as (md & Em & _). rewrite Es in Em. cbn [md_of] in Em. congruence.
  - intros z z' Hz Hz'. destruct (Hrs z Hz) as (k & b & s & e & md & A & B & C & <-). destruct (Hrs z' Hz') as (k' & b' & s' & e' & md' & A' & B' & C' & <-).
    destruct Hr as [Hr|[i Hr]]; [rewrite (Hr k b s A) in B; discriminate|]. destruct (Hr k b s A) as (m1 & M1 & <-). destruct (Hr k' b' s' A') as (m2 & M2 & M3).
    rewrite B in M1. rewrite B' in M2. cbn [md_of] in M1, M2. congruence.
  - exists g1. split; auto.
    destruct (fresh_fmem idx truthy pre0 seg0 post0 conf keys T TS Inv m ms kp good Htab Sf S g g1 Hm Hwr Q E1) as [M W].
    split; auto. destruct (init_inv _ _ _ _ _ E1) as [F HR]. split.
    + intros i k b s x Hin Hx. apply small_mono. destruct (Forall2_nth_r _ _ _ _ _ F Hin) as ([k' s'] & Hks0 & Hf). unfold fresh_key in Hf.
      destruct (s_main s'); [destruct Hf as (md & _ & Q0)|rename Hf into Q0]; injection Q0 as -> -> ->; apply small_fresh; auto.
    + intros Rn k b s Hin. rewrite Rn in HR. apply In_nth_error in Hin as [j Hin]. destruct (Forall2_nth_r _ _ _ _ _ F Hin) as ([k' s'] & Hks0 & Hf). unfold fresh_key in Hf.
      destruct (s_main s') as [e|] eqn:Es; [destruct Hf as (md & Em & Q0)|rename Hf into Q0]; injection Q0 as -> -> ->; auto. exfalso.
      assert (Hz : In (m_restart md) (restarts_of ks)).
      { unfold restarts_of. apply in_flat_map. exists (k', s'). split; [eapply nth_error_In; eauto|]. cbn [snd]. rewrite Es, Em. left. auto. }
      rewrite HR in Hz. destruct Hz.
Qed.

Lemma feed_all_ok : forall cs S (g : stream) n wr, fmem S g -> fsmalls n S g -> unborn g -> (wr = true -> fwritten g /\ restartable g) ->
  Sf = S ++ fed cs -> (forall c, In c cs -> forall ch, In ch (f_seed c) -> ch <> []) -> written_first wr cs -> (calls_between n cs <= n_max)%nat ->
  exists g', feed_all idx truthy usage pre fs pre0 seg0 post0 g cs = Ok g'.
Proof using All.
  induction cs as [|c cs IH]; intros S g n wr Hm Hsm Hub Hr ES Hch Hwf Hn; [simpl; eauto|]. cbn [feed_all written_first calls_between] in *. destruct Hwf as [Hf1 Hwf].
  unfold fed in ES. cbn [map concat] in ES. fold (fed cs) in ES. unfold feed_once.
  assert (G : exists g1, (if f_fresh c then init pre0 seg0 post0 (map (fun x => let '(k, b, s) := x in (k, s)) (g_keys g)) else Ok g) = Ok g1 /\ fmem S g1 /\ fsmalls n S g1 /\ unborn g1).
  { destruct (f_fresh c); [|eauto]. destruct (Hr (Hf1 eq_refl)) as [R1 R2]. apply fresh_ok; auto. }
  destruct G as (g1 & E1 & M1 & S1 & U1). rewrite E1. cbn [bind].
  destruct (feed_ok S g1 (f_seed c) (f_trim c) (f_final c) n (fed cs) M1 S1 U1 ltac:(lia) ES (Hch c (or_introl eq_refl))) as (g2 & E & S2 & U2 & R2). rewrite E. cbn [bind].
  destruct (feed_step idx truthy usage fs gs Hfs pre Hpre seg0 conf keys T TS Inv m ms kp good good_app Htab Hpost Hpar Hkp Sf Hsf Hgood S g1 g2 (f_seed c) (f_trim c) (f_final c) None (fed cs) M1 ES (Hch c (or_introl eq_refl)) E) as (_ & M2 & W2).
  apply (IH (S ++ concat (f_seed c)) g2 (if f_final c then 0%nat else (n + length (f_seed c))%nat) (f_final c)); auto.
  - rewrite ES, app_assoc. auto.
  - intros c0 Hc0. apply Hch. right. auto.
  - lia.
Qed.

Lemma new_fok : fsmalls 0 [] (new_stream pre0 seg0 post0 (map conf keys)).
Proof using Hw.
  intros i k b s x Hin _. apply nth_error_In in Hin. unfold new_stream in Hin. cbn [g_keys] in Hin. apply in_map_iff in Hin as (k' & E & _). injection E as <- <- <-. apply small_fresh; auto.
Qed.
End FeedOk.
