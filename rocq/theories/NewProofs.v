(** Results of keys over calls which are given new data only. *)
Require Import List Arith ZArith Bool Lia Sorting.Sorted.
Require Import Verif.Common Verif.SegModel Verif.SegSpec Verif.FilterModel Verif.WrModel Verif.StreamModel Verif.StreamSpec Verif.IterProofs Verif.StreamProofs Verif.RecordProofs
  Verif.TableProofs Verif.BatchSpec Verif.LabelProofs Verif.BatchProofs Verif.BatchRunProofs Verif.NewSpec.
Import ListNotations.
Local Open Scope Z_scope.

Section Calls.
Context {D P SB PB : Type}.
Variable idx : D -> Z.
Variable truthy : Z -> bool.
Variable usage : frame -> Z.
Notation stream := (stream D P SB PB).
Notation kconf := (kconf D SB PB).
Notation kbuf := (kbuf SB PB).
Notation kstore := (kstore P SB PB).
Notation last_index := (last_index idx).
Variables (fs : @filters D) (gs : list (nat * (D -> bool))).
Hypothesis Hfs : filters_are fs gs.
Variable pre : option (@pre_fun D P).
Hypothesis Hpre : harmless pre.
Variables (pre0 : P) (seg0 : SB) (post0 : PB).
Context {X : Type}.
Variable conf : X -> kconf.
Variable keys : list X.
Variables (T TS : X -> list D -> list row) (Inv : X -> list D -> SB -> Prop) (m ms : X -> row -> row) (kp : X -> D -> bool).
Variable good : X -> list D -> Prop.
Hypothesis good_app : forall x a b, good x (a ++ b) -> good x a.
Notation ok := (BatchRunProofs.ok idx good).
Hypothesis Htab : forall x, In x keys -> tabular (conf x) seg0 (ok x) (T x) (TS x) (Inv x).
Hypothesis Hpost : forall x, In x keys -> post_is (conf x) (m x) (ms x).
Hypothesis Hpar : forall x, In x keys -> writes_as_labels (conf x) (ok x) (T x) (TS x) (m x) (ms x).
Hypothesis Hkp : forall x, In x keys -> In (k_filter (conf x), kp x) gs.
(** Rows taken, in the end. *)
Variable Tf : list D.
Hypothesis Htf : sorted (map idx Tf).
Hypothesis Hgood : forall x, In x keys -> good x (filter (kp x) Tf).
Notation Q := (forall i, truthy i = true).
Definition below (S : list D) (r : Z) : Prop := exists y, In y S /\ r <= idx y.
Notation kinv_ S k := (kinv (conf k) (T k) (TS k) (Inv k) (m k) (ms k) (filter (kp k) Tf) (fun r (_ : list D) => below S r) Q).

Lemma Hokt : forall x, In x keys -> ok x (filter (kp x) Tf).
Proof. intros x H. split; [apply sorted_filter|]; auto. Qed.
Lemma okt_app : forall x (a b : list D), ok x (a ++ b) -> ok x a.
Proof. intros x a b [H H']. split; [eapply sorted_app_l; eauto|eapply good_app; eauto]. Qed.

(** Rows [S] have been given, [T] are those taken. *)
Definition new_inv (S Tk : list D) (g : stream) : Prop :=
  (forall i k b s, nth_error (g_keys g) i = Some (k, b, s) -> exists x, k = conf x /\ nth_error keys i = Some x /\ kinv_ S x (filter (kp x) Tk) b s) /\
  match g_restart g with
  | None => forall i k b s x, nth_error (g_keys g) i = Some (k, b, s) -> nth_error keys i = Some x -> filter (kp x) Tk = [] /\ md_of (s_main s) = None
  | Some r => below S r
  end.
Definition new_written (g : stream) : Prop := forall k b s, In (k, b, s) (g_keys g) -> b_bin b = None /\ (Q -> g_restart g <> None -> md_of (s_main s) <> None).

Lemma below_grow : forall S new r, below S r -> below (S ++ new) r.
Proof. intros S new r (y & Hy & Hr). exists y. split; auto. apply in_or_app. auto. Qed.
Lemma new_kinv_grow : forall S new k H b (s : kstore), kinv_ S k H b s -> kinv_ (S ++ new) k H b s.
Proof.
  intros S new k H b s (A & B & C & R). split; auto. split; auto. split; auto. intros md E. destruct (R md E) as (Hrec & rest & R1 & R2 & R3).
  exists Hrec, rest. split; auto. split; auto. apply below_grow; auto.
Qed.

Lemma wanted_new : forall S S2 R (trim discard : bool) L r, sorted (map idx (S ++ S2)) -> match R with Some r => below S r | None => True end -> In r S2 ->
  wanted idx R trim discard L r = if discard then idx r <? L else true.
Proof.
  intros S S2 R trim discard L r Hs HR Hr. unfold wanted, keep. destruct R as [R|]; [|auto]. destruct HR as (y & Hy & Hle).
  pose proof (sorted_app_le idx S S2 y r Hs Hy Hr) as Hl.
  replace (R <=? idx r) with true by (symmetry; apply Z.leb_le; lia). destruct trim; auto.
Qed.

Lemma new_agg_step : forall S Tk g g' seed (trim discard final : bool) ex, new_inv S Tk g -> sorted (map idx (S ++ concat seed)) ->
  (exists rest, Tf = Tk ++ (if discard then filter (fun r => idx r <? last_index (concat seed)) (concat seed) else concat seed) ++ rest) -> (forall c, In c seed -> c <> []) ->
  agg idx truthy usage pre fs g seed trim discard final = Ok (g', ex) ->
  ex = None /\ new_inv (S ++ concat seed) (Tk ++ (if discard then filter (fun r => idx r <? last_index (concat seed)) (concat seed) else concat seed)) g' /\
  (final = true -> new_written g').
Proof.
  intros S Tk g g' seed trim discard final ex [Hm Hd] Hs HTf Hne E. set (S2 := concat seed) in *.
  set (tk := if discard then filter (fun r => idx r <? last_index S2) S2 else S2) in *.
  assert (Hs2 : sorted (map idx S2)) by (eapply sorted_app_r; eauto).
  destruct (iter_data_spec idx fs gs Hfs pre Hpre (g_restart g) trim discard seed (g_pre g) Hne Hs2) as (Ne & Dl & Rs). fold S2 in Dl, Rs.
  fold (ys_of idx fs pre g trim discard seed) in Ne, Dl, Rs.
  destruct (agg_log idx truthy usage fs gs Hfs pre Hpre g g' seed trim discard final ex Hne Hs2 E) as (-> & Hr & L & EL & Ln & LL).
  assert (Rw : forall id c, In c (chunks_of id (ys_of idx fs pre g trim discard seed)) -> c <> []).
  { intros id c. apply chunks_rows. unfold ys_of, iter_data. destruct (g_restart g); apply (iter_rows idx fs gs Hfs). }
  set (ys := ys_of idx fs pre g trim discard seed) in *.
  assert (HW : forall r, In r S2 -> wanted idx (g_restart g) trim discard (last_index S2) r = if discard then idx r <? last_index S2 else true).
  { intros r Hr0. apply (wanted_new S S2); auto. destruct (g_restart g); auto. }
  assert (Dl' : forall x, In x keys -> concat (chunks_of (k_filter (conf x)) ys) = filter (kp x) tk).
  { intros x Hx. rewrite <- delivered_chunks, (Dl _ _ (Hkp x Hx)). unfold tk. transitivity (filter (fun r => kp x r && (if discard then idx r <? last_index S2 else true)) S2).
    - apply filter_ext_in. intros r Hr0. rewrite (HW r Hr0). auto.
    - destruct discard; [rewrite filter_filter; apply filter_ext; intro r; apply andb_comm|apply filter_ext; intro r; apply andb_true_r]. }
  assert (Rst : match g_restart g' with
                | None => forall i k b s x, nth_error (g_keys g) i = Some (k, b, s) -> nth_error keys i = Some x -> filter (kp x) (Tk ++ tk) = [] /\ md_of (s_main s) = None
                | Some r => below (S ++ S2) r
                end).
  { rewrite Hr. destruct Rs as [[Rs1 Rs2]|(N & R2 & R3 & (y & R4 & R4') & _)].
    - rewrite Rs1. destruct (g_restart g) as [r|]; [apply below_grow; auto|]. intros i k b s x Hn Hx0. destruct (Hd i k b s x Hn Hx0) as [Hd1 Hd2]. split; auto. rewrite filter_app, Hd1. cbn [app]. pose proof (nth_error_In _ _ Hx0) as Hx.
      apply filter_none. intros r Hr0. destruct (kp x r) eqn:Ek; auto. exfalso. unfold tk in Hr0.
      assert (Hr1 : In r S2) by (destruct discard; [apply filter_In in Hr0; tauto|auto]).
      apply (Rs2 _ _ r (Hkp x Hx) Hr1 Ek). rewrite (HW r Hr1). destruct discard; auto. apply filter_In in Hr0. tauto.
    - rewrite R2. exists y. split; [apply in_or_app; auto|lia]. }
  assert (K : forall i k b s, nth_error (g_keys g) i = Some (k, b, s) -> exists b' a, nth_error (g_keys g') i = Some (k, b', apply_acts s a) /\ exists x, k = conf x /\ nth_error keys i = Some x /\
     kinv_ (S ++ S2) x (filter (kp x) (Tk ++ tk)) b' (apply_acts s a) /\ (final = true -> b_bin b' = None) /\
     (if final then match g_restart g' with Some i => if truthy i then md_of (s_main (apply_acts s a)) <> None else True
                    | None => md_of (s_main (apply_acts s a)) = None \/ md_of (s_main (apply_acts s a)) = md_of (s_main s) end
      else md_of (s_main (apply_acts s a)) = None \/ md_of (s_main (apply_acts s a)) = md_of (s_main s))).
  { intros i k b s Hn. destruct (LL i k b s Hn) as (b' & a & (b1 & a1 & a2 & Kr & Ea & Fw) & B & C). exists b', a. split; auto.
    destruct (Hm i k b s Hn) as (x & Ex & Hk0 & HK). exists x. split; auto. split; auto. subst k. pose proof (nth_error_In _ _ Hk0) as Hk.
    apply (new_kinv_grow S S2) in HK.
    destruct (key_run_inv truthy usage (conf x) seg0 (ok x) (T x) (TS x) (Inv x) (m x) (ms x) (Htab x Hk) (Hpost x Hk) (Hpar x Hk) (filter (kp x) Tf) (Hokt x Hk) (okt_app x) _ Q
      _ (filter (kp x) Tk) b s (g_pre g) b1 a1 HK (fun c => Rw (k_filter (conf x)) c)) as (K1 & K2 & K3 & K4); auto.
    { rewrite (Dl' x Hk). destruct HTf as [rest ->]. rewrite !filter_app. exists (filter (kp x) rest). rewrite app_assoc. auto. }
    rewrite (Dl' x Hk), <- filter_app in K1.
    destruct final.
    - destruct (final_inv truthy usage (conf x) seg0 (ok x) (T x) (TS x) (Inv x) (m x) (ms x) (Htab x Hk) (Hpost x Hk) (Hpar x Hk) (filter (kp x) Tf) (Hokt x Hk) (okt_app x) _ Q
        (filter (kp x) (Tk ++ tk)) b1 (apply_acts s a1) (g_restart g') (g_pre g') b' a2 K1) as (F1 & F2 & F3 & F4 & F5); auto.
      { intros j Ej. rewrite Ej in Rst. auto. }
      { intro Hb. destruct (g_restart g') as [j|] eqn:Ej; [exists j; auto|]. exfalso. rewrite (proj1 (Rst _ _ _ _ _ Hn Hk0)) in K1.
        destruct K1 as (_ & _ & (_ & _ & Mc) & _). destruct (b_bin b1) as [f|]; [|congruence]. destruct Mc as [_ Mc].
        assert (Nz : forall c : @chan D P SB PB, In c (chans (conf x) (T x) (TS x) (m x) (ms x)) -> False).
        { intros c Hc. destruct (Mc c Hc) as (f0 & A & _ & Hf0 & ET & _).
          destruct (chan_facts (conf x) seg0 (ok x) (T x) (TS x) (Inv x) (m x) (ms x) (Htab x Hk) (Hpost x Hk) (Hpar x Hk) c Hc) as (_ & _ & ET0 & _).
          rewrite ET0 in ET. symmetry in ET. apply app_eq_nil in ET as [_ ET]. apply app_eq_nil in ET as [_ ET]. auto. }
        unfold chans in Nz. destruct (k_type (conf x)); eapply Nz; left; reflexivity. }
      rewrite Ea, apply_acts_app. split; auto. split; auto.
      destruct (g_restart g') as [j|]; [destruct (truthy j); auto|].
      + destruct F5 as (md & Q0 & _). congruence.
      + destruct F5 as [F5|F5]; auto. rewrite F5. auto.
    - destruct Fw as [-> ->]. rewrite app_nil_r in Ea. subst a1. split; auto. split; [discriminate|auto]. }
  assert (Back : forall i x, nth_error (g_keys g') i = Some x -> exists k b s, nth_error (g_keys g) i = Some (k, b, s)).
  { intros i x Hx. assert (Hi : (i < length (g_keys g))%nat) by (rewrite <- Ln; apply nth_error_Some; congruence).
    apply nth_error_Some in Hi. destruct (nth_error (g_keys g) i) as [[[k b] s]|] eqn:En; [|congruence]. exists k, b, s. auto. }
  split; auto. split; [split|].
  - intros i k b s N2. destruct (Back i _ N2) as (k0 & b0 & s0 & N1). destruct (K _ _ _ _ N1) as (b' & a & N3 & x & Ex & Hk & K1 & _).
    rewrite N2 in N3. injection N3 as -> -> ->. exists x. auto.
  - destruct (g_restart g') as [r|] eqn:Er; auto. intros i k b s y N2 Hy.
    destruct (Back i _ N2) as (k0 & b0 & s0 & N1). destruct (K _ _ _ _ N1) as (b' & a & N3 & x & Ex & Hk & K1 & _ & K2).
    rewrite N2 in N3. injection N3 as -> -> ->. assert (Kd : md_of (s_main (apply_acts s0 a)) = None \/ md_of (s_main (apply_acts s0 a)) = md_of (s_main s0)) by (destruct final; auto).
    rewrite Hk in Hy. injection Hy as <-. destruct (Rst _ _ _ _ _ N1 Hk) as [A1 A2]. split; auto. destruct Kd as [->| ->]; auto.
  - intros -> k b s Hin. apply In_nth_error in Hin as [i N2]. destruct (Back i _ N2) as (k0 & b0 & s0 & N1). destruct (K _ _ _ _ N1) as (b' & a & N3 & x & Ex & Hk & K1 & K2 & K3).
    rewrite N2 in N3. injection N3 as -> -> ->. split; auto. intros Tq Hn. destruct (g_restart g') as [j|]; [|congruence]. rewrite (Tq j) in K3. auto.
Qed.

(** A new instance, once results are written. *)
Lemma new_fresh : forall S Tk g g1, new_inv S Tk g -> new_written g -> Q -> init pre0 seg0 post0 (stores g) = Ok g1 -> new_inv S Tk g1.
Proof.
  intros S Tk g g1 [Hm Hd] Hw Tq E. destruct (init_inv _ _ _ _ _ E) as [F HR].
  (* what a key restarts with *)
  assert (G : forall i k b s, nth_error (g_keys g1) i = Some (k, b, s) -> exists b0 seg post, nth_error (g_keys g) i = Some (k, b0, s) /\ b = mkBuf 0 None None [] [] seg post /\
       match s_main s with None => seg = seg0 | Some e => exists md, e_md e = Some md /\ seg = m_seg md end).
  { intros i k b s Hin. destruct (Forall2_nth_r _ _ _ _ _ F Hin) as ([k' s'] & Hks0 & Hf). unfold fresh_key in Hf. apply stores_nth in Hks0 as [b0 Hks0]. exists b0.
    destruct (s_main s') eqn:Es.
    - destruct Hf as (md & Em & Q0). injection Q0 as -> -> ->. exists (m_seg md), (m_post md). rewrite Es. repeat (split; auto). exists md. auto.
    - injection Hf as -> -> ->. exists seg0, post0. rewrite Es. auto. }
  split.
  - intros i k b s Hin. destruct (G i k b s Hin) as (b0 & seg & post & Hin0 & -> & Hseg). destruct (Hm i k b0 s Hin0) as (x & Ex & Hx & HK). exists x. split; auto. split; auto. subst k.
    pose proof (nth_error_In _ _ Hx) as Hk. destruct (Hw _ _ _ (nth_error_In _ _ Hin0)) as [W1 W2]. destruct HK as (K1 & K2 & K3 & K4). split; auto. split; auto.
    assert (Rs : Inv x (filter (kp x) Tk) seg /\ forall md, md_of (s_main s) = Some md -> below S (m_restart md) /\ Inv x (filter (kp x) Tk) (m_seg md) /\
       forall c, In c (chans (conf x) (T x) (TS x) (m x) (ms x)) -> at_rest (filter (kp x) Tf) c (filter (kp x) Tk) s).
    { assert (A : forall md, md_of (s_main s) = Some md -> below S (m_restart md) /\ Inv x (filter (kp x) Tk) (m_seg md) /\
         forall c, In c (chans (conf x) (T x) (TS x) (m x) (ms x)) -> at_rest (filter (kp x) Tf) c (filter (kp x) Tk) s).
      { intros md Em. destruct (K4 md Em) as (Hrec & rest & E1 & E2 & E3 & _ & E4 & E5). rewrite (E4 Tq W1), app_nil_r in E1. rewrite E1. auto. }
      split; auto. destruct (s_main s) as [e|] eqn:Es.
      - destruct Hseg as (md & Em & ->). apply (A md). cbn [md_of]. auto.
      - subst seg. destruct (g_restart g) as [r|].
        + exfalso. apply W2; auto; [congruence].
        + rewrite (proj1 (Hd _ _ _ _ _ Hin0 Hx)). apply (tab_start _ _ _ _ _ _ (Htab x Hk)). }
    destruct Rs as [R1 R2]. split.
    + split; auto. cbn [b_snap b_bin]. split; auto. intros c Hc. destruct K3 as (_ & _ & Mc). rewrite W1 in Mc. destruct (Mc c Hc) as (_ & _ & M3 & M4).
      split; [|split; [|split; auto]].
      * unfold chans in Hc. destruct (k_type (conf x)); simpl in Hc; destruct Hc as [<-|Hc]; try (destruct Hc as [<-|[]]); try contradiction; auto.
      * unfold chans in Hc. destruct (k_type (conf x)); simpl in Hc; destruct Hc as [<-|Hc]; try (destruct Hc as [<-|[]]); try contradiction; auto.
    + intros md Em. destruct (R2 md Em) as (A1 & A2 & A3). exists (filter (kp x) Tk), []. rewrite app_nil_r. split; [auto|split; [auto|split; [auto|split; [cbn [b_bin]; congruence|split; [auto|exact A3]]]]].
  - destruct (g_restart g1) as [r|] eqn:Er.
    + destruct HR as [HR _]. unfold restarts_of in HR. apply in_flat_map in HR as ([k s] & Hin & HR). cbn [snd] in HR. apply In_nth_error in Hin as [i Hin]. apply stores_nth in Hin as [b Hin].
      destruct (s_main s) as [e|] eqn:Es; [|destruct HR]. destruct (e_md e) as [md|] eqn:Em; [|destruct HR]. destruct HR as [<-|[]].
      destruct (Hm i k b s Hin) as (x & _ & _ & (_ & _ & _ & K4)). destruct (K4 md) as (Hrec & rest & _ & E2 & _); [rewrite Es; auto|]. auto.
    + intros i k b s x Hin Hx. destruct (G i k b s Hin) as (b0 & _ & _ & Hin0 & _ & _).
      assert (Nm : md_of (s_main s) = None).
      { destruct (md_of (s_main s)) as [md|] eqn:Em; auto. exfalso.
        assert (Hi : In (m_restart md) (restarts_of (stores g))).
        { unfold restarts_of. apply in_flat_map. exists (k, s). split.
          - unfold stores. apply in_map_iff. exists (k, b0, s). split; auto. eapply nth_error_In; eauto.
          - cbn [snd]. destruct (s_main s) as [e|]; [|discriminate]. cbn [md_of] in Em. rewrite Em. left. auto. }
        rewrite HR in Hi. destruct Hi. }
      split; auto. destruct (g_restart g) as [r|] eqn:Eg; [|apply (Hd _ _ _ _ _ Hin0 Hx)].
      exfalso. destruct (Hw _ _ _ (nth_error_In _ _ Hin0)) as [_ W2]. apply W2; auto. rewrite Eg. congruence.
Qed.

Definition new_holds (i : nat) (k : kconf) (s : kstore) : Prop :=
  exists x, k = conf x /\ nth_error keys i = Some x /\ forall c, In c (chans (conf x) (T x) (TS x) (m x) (ms x)) -> all_rows (c_ds c s) = map (c_map c) (c_tab c (filter (kp x) Tf)).

Lemma call_step : forall S Tk g g' (c : @call D) w, new_inv S Tk g -> sorted (map idx (S ++ concat (c_seed c))) -> (exists rest, Tf = Tk ++ taken idx c ++ rest) ->
  (forall p, In p (c_seed c) -> p <> []) -> (c_fresh c = true -> Q /\ w = true) -> (w = true -> new_written g) ->
  call_once idx truthy usage pre fs pre0 seg0 post0 g c = Ok g' ->
  new_inv (S ++ concat (c_seed c)) (Tk ++ taken idx c) g' /\ (c_final c = true -> new_written g').
Proof.
  intros S Tk g g' c w Hi Hs HT Hne Hf Hw E. unfold call_once in E.
  match type of E with bind ?X _ = _ => destruct X as [g1|] eqn:E1 end; cbn [bind] in E; [|discriminate].
  destruct (agg idx truthy usage pre fs g1 (c_seed c) (c_trim c) (c_discard c) (c_final c)) as [[g2 ex]|] eqn:E2; cbn [bind] in E; [|discriminate].
  assert (Hi1 : new_inv S Tk g1).
  { destruct (c_fresh c); [|injection E1 as <-; auto]. destruct Hf as [Tq Ew]; auto. apply (new_fresh S Tk g g1); auto. }
  destruct (new_agg_step S Tk g1 g2 (c_seed c) (c_trim c) (c_discard c) (c_final c) ex Hi1 Hs HT Hne E2) as (-> & A & B). injection E as <-. auto.
Qed.

Lemma call_all_inv : forall cs S Tk g g' w, new_inv S Tk g -> sorted (map idx (S ++ all_seed cs)) -> (exists rest, Tf = Tk ++ all_taken idx cs ++ rest) ->
  (forall c p, In c cs -> In p (c_seed c) -> p <> []) -> ((forall c, In c cs -> c_fresh c = false) \/ (Q /\ written_before_fresh w cs)) -> (w = true -> new_written g) ->
  call_all idx truthy usage pre fs pre0 seg0 post0 g cs = Ok g' ->
  new_inv (S ++ all_seed cs) (Tk ++ all_taken idx cs) g' /\ (c_final (last cs (mkCall false false false w [])) = true -> new_written g').
Proof.
  induction cs as [|c cs IH]; intros S Tk g g' w Hi Hs HT Hne Hf Hw E; unfold all_seed, all_taken in *; cbn [flat_map call_all] in *.
  - injection E as <-. rewrite !app_nil_r. auto.
  - destruct (call_once idx truthy usage pre fs pre0 seg0 post0 g c) as [g1|] eqn:E1; cbn [bind] in E; [|discriminate].
    rewrite app_assoc in Hs. destruct (call_step S Tk g g1 c w Hi) as [A B]; auto.
    + eapply sorted_app_l; eauto.
    + destruct HT as [rest ET]. rewrite <- app_assoc in ET. eauto.
    + intros p. apply (Hne c p). left. auto.
    + intro Hc. destruct Hf as [Hf|(Tq & W & _)]; [rewrite Hf in Hc by (left; auto); discriminate|auto].
    + destruct (IH (S ++ concat (c_seed c)) (Tk ++ taken idx c) g1 g' (c_final c) A) as [A' B']; auto.
      * destruct HT as [rest ET]. exists rest. rewrite ET, <- !app_assoc. auto.
      * intros c' p Hc'. apply Hne. right. auto.
      * destruct Hf as [Hf|(Tq & _ & W)]; [left; intros; apply Hf; right; auto|right; auto].
      * rewrite !app_assoc. split; auto. intro Hl. apply B'. destruct cs as [|c' cs]; [cbn [last] in *; auto|].
        clear - Hl. revert c' Hl. induction cs as [|c2 cs IH]; intros c' Hl; auto. apply (IH c2). auto.
Qed.

Lemma call_all_batch : forall cs g g', new_inv [] [] g -> new_written g -> sorted (map idx (all_seed cs)) -> Tf = all_taken idx cs ->
  (forall c p, In c cs -> In p (c_seed c) -> p <> []) -> ((forall c, In c cs -> c_fresh c = false) \/ (Q /\ written_before_fresh true cs)) ->
  call_all idx truthy usage pre fs pre0 seg0 post0 g cs = Ok g' -> c_final (last cs (mkCall false false false true [])) = true ->
  forall i k b s, nth_error (g_keys g') i = Some (k, b, s) -> new_holds i k s.
Proof.
  intros cs g g' Hi Hw Hs ET Hne Hf E Hl i k b s Hn. destruct (call_all_inv cs [] [] g g' true Hi) as [[A _] B]; auto.
  - exists []. rewrite app_nil_r. auto.
  - destruct (A i k b s Hn) as (x & Ex & Hx & K). exists x. split; auto. split; auto. cbn [app] in K. rewrite <- ET in K. intros c Hc.
    destruct (B Hl k b s (nth_error_In _ _ Hn)) as [Hb _]. eapply kinv_final; eauto.
Qed.

Lemma new_start : new_inv [] [] (new_stream pre0 seg0 post0 (map conf keys)) /\ new_written (new_stream pre0 seg0 post0 (map conf keys)).
Proof.
  split.
  - split; [|intros i k b s x Hin Hx; split; auto; cbn [g_keys new_stream] in Hin; rewrite map_map, nth_error_map in Hin; destruct (nth_error keys i); [|discriminate]; injection Hin as <- <- <-; auto].
    intros i k b s Hin. unfold new_stream in Hin. cbn [g_keys] in Hin. rewrite map_map, nth_error_map in Hin. destruct (nth_error keys i) as [x|] eqn:Ex; [|discriminate]. injection Hin as <- <- <-. pose proof (nth_error_In _ _ Ex) as Hin. exists x. split; auto. split; auto.
    cbn [filter]. split; [apply starts_nil|]. split; [|split].
    + intros c Hc. unfold chans in Hc. destruct (k_type (conf x)); simpl in Hc; destruct Hc as [<-|Hc]; try (destruct Hc as [<-|[]]); try contradiction; (split; [constructor|split; [apply starts_nil|intros ? []]]).
    + split; [apply (tab_start _ _ _ _ _ _ (Htab x Hin))|]. split; auto. cbn [b_bin]. intros c Hc.
      destruct (chan_facts (conf x) seg0 (ok x) (T x) (TS x) (Inv x) (m x) (ms x) (Htab x Hin) (Hpost x Hin) (Hpar x Hin) c Hc) as (_ & _ & ET & _).
      assert (Z0 : c_cur c (mkBuf 0 None None [] [] seg0 post0) = None /\ c_bufs c (mkBuf 0 None None [] [] seg0 post0) = [] /\ c_ds c (mkStore None None) = []).
      { unfold chans in Hc. destruct (k_type (conf x)); simpl in Hc; destruct Hc as [<-|Hc]; try (destruct Hc as [<-|[]]); try contradiction; auto. }
      destruct Z0 as (Z1 & Z2 & Z3). unfold idle, at_rest, tight. rewrite Z1, Z2, Z3, ET. split; auto. split; auto. split; [left; apply starts_nil|right; auto].
    + intros md Em. discriminate.
  - intros k b s Hin. unfold new_stream in *. cbn [g_keys] in Hin. apply in_map_iff in Hin as (k' & Q0 & Hin). injection Q0 as <- <- <-. split; [reflexivity|]. cbn [g_restart]. congruence.
Qed.
End Calls.
