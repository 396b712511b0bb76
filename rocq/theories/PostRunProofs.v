(** Arguments given to 'post' over any history of runs. *)
Require Import List Arith ZArith Bool Lia Sorting.Sorted.
Require Import Verif.Common Verif.AggModel Verif.SegModel Verif.SegSpec Verif.WrModel Verif.StreamModel Verif.RaiseModel Verif.RaiseProofs Verif.StreamSpec Verif.IterProofs Verif.StreamProofs Verif.RecordProofs
  Verif.TableProofs Verif.BatchSpec Verif.BatchProofs Verif.BatchRunProofs Verif.PostSpec Verif.PostProofs.
Import ListNotations.
Local Open Scope Z_scope.

Section Run.
Context {D P SB PB0 : Type}.
Notation PB := (PB0 * list call)%type.
Variable idx : D -> Z.
Variable truthy : Z -> bool.
Variable usage : frame -> Z.
Notation stream := (stream D P SB PB).
Notation kconf := (kconf D SB PB).
Notation kbuf := (kbuf SB PB).
Notation kstore := (kstore P SB PB).
Notation act := (@act P SB PB).
Notation last_index := (last_index idx).
Variables (fs : @filters D) (gs : list (nat * (D -> bool))).
Hypothesis Hfs : filters_are fs gs.
Variable pre : option (@pre_fun D P).
Hypothesis Hpre : harmless pre.
Variables (pre0 : P) (seg0 : SB) (pb0 : PB0).
Notation post0 := (pb0, @nil call).
(** Keys, and their tables. *)
Context {X : Type}.
Variable conf : X -> kconf.
Variable keys : list X.
Variables (T TS : X -> list D -> list row) (Inv : X -> list D -> SB -> Prop) (kp : X -> D -> bool).
Variable f : X -> PB0 -> frame -> option frame -> res (post_res * PB0).
Variable good : X -> list D -> Prop.
Hypothesis good_app : forall x a b, good x (a ++ b) -> good x a.
Notation ok := (ok idx good).
Hypothesis Htab : forall x, In x keys -> tabular (conf x) seg0 (ok x) (T x) (TS x) (Inv x).
Hypothesis Hpost : forall x, In x keys -> k_post (conf x) = Some (recorder (f x)).
Hypothesis Hkp : forall x, In x keys -> In (k_filter (conf x), kp x) gs.
Variable Sf : list D.
Hypothesis Hsf : sorted (map idx Sf).
Notation rows_of := (rows_of idx kp).
Hypothesis Hgood : forall x, In x keys -> good x (rows_of x Sf).
Notation pinv_ S k := (pinv (conf k) (T k) (TS k) (Inv k) (rows_of k Sf) (fun r H => consistent idx S (Some r) (kp k) H)).
Notation psinv_ S k := (psinv (conf k) (T k) (TS k) (Inv k) (rows_of k Sf) (fun r H => consistent idx S (Some r) (kp k) H)).
Notation pchans_ x := (pchans (conf x) (T x) (TS x)).

Lemma Hokf' : forall x, In x keys -> ok x (rows_of x Sf).
Proof. intros x H. split; [apply sorted_filter|]; auto. Qed.
Lemma ok_app' : forall x (a b : list D), ok x (a ++ b) -> ok x a.
Proof. intros x a b [H H']. split; [eapply sorted_app_l; eauto|eapply good_app; eauto]. Qed.

Definition pstore_inv (S : list D) (ks : list (kconf * kstore)) (n : nat) : Prop :=
  (forall i k s, nth_error ks i = Some (k, s) -> exists x, k = conf x /\ nth_error keys i = Some x /\ psinv_ S x s n) /\ dichotomy (map snd ks).
Definition pmem_inv (S : list D) (g : stream) (n : nat) : Prop :=
  (forall i k b s, nth_error (g_keys g) i = Some (k, b, s) -> exists x, k = conf x /\ nth_error keys i = Some x /\ exists H, consistent idx S (g_restart g) (kp x) H /\ pinv_ S x H b s n) /\
  dichotomy (map snd (g_keys g)).

Lemma psinv_grow : forall S S' k (s : kstore) n, grows idx S S' -> psinv_ S k s n -> psinv_ S' k s n.
Proof.
  intros S S' k s n Hs R md E. destruct (R md E) as (Hrec & R1 & R2 & R3).
  exists Hrec. split; auto. split; auto. apply (consistent_grow idx S); auto.
Qed.
Lemma pmem_inv_grow : forall S S' g n, grows idx S S' -> pmem_inv S g n -> pmem_inv S' g n.
Proof.
  intros S S' g n Hs [A B]. split; auto. intros i k b s Hin. destruct (A i k b s Hin) as (x & Ex & C & H & E & F1 & F2 & F3). exists x. split; auto. split; auto.
  exists H. split; [apply (consistent_grow idx S); auto|]. split; auto. split; auto. apply (psinv_grow S); auto.
Qed.
Lemma pmem_store : forall S g n, pmem_inv S g n -> pstore_inv S (stores g) n.
Proof.
  intros S g n [A B]. split; [|rewrite map_stores; auto]. intros i k s Hin. apply stores_nth in Hin as [b Hin].
  destruct (A i k b s Hin) as (x & Ex & C & H & _ & _ & _ & F). exists x. auto.
Qed.

(** A new instance. *)
Lemma fresh_pinv : forall S ks n g, pstore_inv S ks n -> init pre0 seg0 post0 ks = Ok g -> pmem_inv S g n /\ map snd (g_keys g) = map snd ks.
Proof.
  intros S ks n g [Ti B] E. destruct (init_inv _ _ _ _ _ E) as [F HR].
  assert (Ek : map snd (g_keys g) = map snd ks).
  { clear - F. induction F as [|[k s] y l l' H F IH]; auto. simpl. rewrite IH. f_equal. simpl in H. destruct (s_main s); [destruct H as (md & _ & ->)|rewrite H]; auto. }
  split; auto. split; [|rewrite Ek; auto].
  intros i k b s Hin. destruct (Forall2_nth_r _ _ _ _ _ F Hin) as ([k' s'] & Hks0 & Hf). unfold fresh_key in Hf.
  assert (Bk : exists seg post, b = mkBuf 0 None None [] [] seg post /\ k' = k /\ s' = s /\
     match s_main s with None => seg = seg0 /\ post = post0 | Some e => exists md, e_md e = Some md /\ seg = m_seg md /\ post = m_post md end).
  { destruct (s_main s') eqn:Es.
    - destruct Hf as (md & Em & Q0). injection Q0 as -> -> ->. exists (m_seg md), (m_post md). rewrite Es. repeat (split; auto). exists md. auto.
    - injection Hf as -> -> ->. exists seg0, post0. rewrite Es. auto. }
  destruct Bk as (seg & post & -> & -> & -> & Hseg). destruct (Ti i k s Hks0) as (x & Ex & Hk0 & Sm). exists x. split; auto. split; auto. subst k.
  pose proof (nth_error_In _ _ Hks0) as Hks. pose proof (nth_error_In _ _ Hk0) as Hk.
  assert (R : exists H, consistent idx S (g_restart g) (kp x) H /\ starts H (rows_of x Sf) /\ Inv x H seg /\ no_snap (conf x) post /\
     (forall c : @pchan D SB PB0, In c (pchans_ x) -> done c H (snd post) n)).
  { destruct (s_main s) as [e|] eqn:Es.
    - destruct Hseg as (md & Em & -> & ->). unfold psinv in Sm. rewrite Es in Sm. cbn [md_of] in Sm. destruct (Sm md Em) as (Hrec & S1 & S2 & S3 & S4 & S5).
      assert (Hr : g_restart g = Some (m_restart md)).
      { assert (Hi : In (m_restart md) (restarts_of ks)). { unfold restarts_of. apply in_flat_map. exists (conf x, s). split; auto. cbn [snd]. rewrite Es, Em. left. auto. }
        destruct (g_restart g) as [r1|]; [destruct HR as [_ HR]; rewrite (HR _ Hi); auto|]. rewrite HR in Hi. destruct Hi. }
      exists Hrec. rewrite Hr. auto.
    - destruct Hseg as [-> ->]. assert (Hr : g_restart g = None).
      { destruct (g_restart g) as [r1|]; auto. destruct HR as [HR _]. exfalso. unfold restarts_of in HR. apply in_flat_map in HR as ([k2 s2] & Hin2 & HR). cbn [snd] in HR.
        destruct B as [B|B].
        - specialize (B s2 (in_map snd _ _ Hin2)). destruct (s_main s2); [|destruct HR]. cbn [md_of] in B. rewrite B in HR. destruct HR.
        - apply (B s (in_map snd _ _ Hks)). auto. }
      exists []. rewrite Hr. split; [reflexivity|]. split; [apply starts_nil|]. split; [apply (tab_start _ _ _ _ _ _ (Htab x Hk))|]. split; [intro; constructor|].
      intros c Hc. destruct (pchan_facts (conf x) seg0 (ok x) (T x) (TS x) (Inv x) (Htab x Hk) c Hc) as (E0 & _ & _ & _ & E1 & _). split; auto. exists [], false. rewrite E0.
      split; auto. split; [apply Nat.le_0_l|]. split; [constructor|congruence]. }
  destruct R as (H & R1 & R2 & R3 & R4 & R5). exists H. split; auto. split; auto. split; auto.
  split; auto. cbn [b_snap b_bin b_post]. split; auto. split; auto. intros c Hc.
  destruct (pchan_facts (conf x) seg0 (ok x) (T x) (TS x) (Inv x) (Htab x Hk) c Hc) as (_ & _ & E1 & E2 & _). split; [apply E1; auto|]. split; [apply E2; auto|]. apply R5. auto.
Qed.

(** A call to 'agg'. *)
Lemma agg_pstep : forall S g g' seed final ex n, pmem_inv S g n -> concat seed = S -> grows idx S Sf -> (forall c, In c seed -> c <> []) ->
  agg idx truthy usage pre fs g seed true true final = Ok (g', ex) ->
  let n' := if final then Datatypes.S n else n in
  ex = None /\ pmem_inv S g' n' /\
  (forall i k b s, nth_error (g_keys g') i = Some (k, b, s) -> exists x, k = conf x /\ nth_error keys i = Some x /\ pinv_ S x (rows_of x S) b s n') /\
  (final = true -> forall k b s, In (k, b, s) (g_keys g') -> b_bin b = None) /\
  ((forall s, In s (map snd (g_keys g)) -> s_main s <> None) -> forall s, In s (map snd (g_keys g')) -> s_main s <> None).
Proof.
  intros S g g' seed final ex n [Hm Hd] Eseed HSf Hne E n'.
  pose proof (proj1 (proj2 HSf)) as Hs.
  destruct (iter_data_spec idx fs gs Hfs pre Hpre (g_restart g) true true seed (g_pre g) Hne) as (Ne & Dl & Rs); [rewrite Eseed; auto|].
  fold (ys_of idx fs pre g true true seed) in Ne, Dl, Rs.
  destruct (agg_log idx truthy usage fs gs Hfs pre Hpre g g' seed true true final ex Hne) as (-> & Hr & L & EL & Ln & LL); [rewrite Eseed; auto|auto|].
  assert (Rw : forall id c, In c (chunks_of id (ys_of idx fs pre g true true seed)) -> c <> []).
  { intros id c. apply chunks_rows. unfold ys_of, iter_data. destruct (g_restart g); apply (iter_rows idx fs gs Hfs). }
  set (ys := ys_of idx fs pre g true true seed) in *. rewrite Eseed in *.
  assert (K : forall i k b s, nth_error (g_keys g) i = Some (k, b, s) -> exists b' a, nth_error (g_keys g') i = Some (k, b', apply_acts s a) /\ acts_of i L = a /\ exists x, k = conf x /\ nth_error keys i = Some x /\
     pinv_ S x (rows_of x S) b' (apply_acts s a) n' /\ consistent idx S (g_restart g') (kp x) (rows_of x S) /\
     (final = true -> b_bin b' = None) /\
     (if final then match g_restart g' with Some i => if truthy i then md_of (s_main (apply_acts s a)) <> None else md_of (s_main (apply_acts s a)) = None \/ md_of (s_main (apply_acts s a)) = md_of (s_main s)
                    | None => md_of (s_main (apply_acts s a)) = None \/ md_of (s_main (apply_acts s a)) = md_of (s_main s) end
      else md_of (s_main (apply_acts s a)) = None \/ md_of (s_main (apply_acts s a)) = md_of (s_main s))).
  { intros i k b s Hn. destruct (LL i k b s Hn) as (b' & a & (b1 & a1 & a2 & Kr & Ea & Fw) & B & C). simpl in C. exists b', a. split; auto. split; auto.
    destruct (Hm i k b s Hn) as (x & Ex & Hk0 & H & HC & HK). exists x. split; auto. split; auto. subst k. pose proof (nth_error_In _ _ Hk0) as Hk.
    destruct (consistent_run idx S (g_restart g) (kp x) H (g_restart g') Hs HC) as [C1 C2].
    { rewrite Hr. destruct Rs as [[Rs1 Rs2]|(N & R2 & R3 & R4 & R5 & R6)]; [left; split; auto; intros; eapply Rs2; eauto|].
      right. exists N. split; auto. split; auto. split; auto. split; [destruct (g_restart g); auto|]. intros r0 Hr0 Hg0 Hw. eapply (R6 _ _ _ (Hkp x Hk)); eauto. }
    cbv zeta in C1, C2. rewrite <- (Dl _ _ (Hkp x Hk)), delivered_chunks in C1, C2.
    change (H ++ concat (chunks_of (k_filter (conf x)) ys) = rows_of x S) in C1.
    destruct (key_run_pinv truthy usage (conf x) seg0 (ok x) (T x) (TS x) (Inv x) (Htab x Hk) (f x) (Hpost x Hk) (rows_of x Sf) (Hokf' x Hk) (ok_app' x)
      (fun r H => consistent idx S (Some r) (kp x) H) _ H b s (g_pre g) n b1 a1 HK (fun c => Rw (k_filter (conf x)) c)) as (K1 & K2); auto.
    { apply (consistent_starts idx kp Sf Hsf S (g_restart g') x); auto. }
    rewrite C1 in C2, K1.
    destruct final.
    - destruct (final_pinv truthy (conf x) seg0 (ok x) (T x) (TS x) (Inv x) (Htab x Hk) (f x) (Hpost x Hk) (rows_of x Sf) (Hokf' x Hk)
        (fun r H => consistent idx S (Some r) (kp x) H) (rows_of x S) b1 (apply_acts s a1) (g_restart g') (g_pre g') n b' a2 K1) as (F1 & F2 & F3 & F5); auto.
      { intros j Ej. rewrite Ej in C2. auto. }
      rewrite Ea, apply_acts_app. split; auto. split; auto. split; auto.
      assert (M1 : md_of (s_main (apply_acts s a1)) = None \/ md_of (s_main (apply_acts s a1)) = md_of (s_main s)) by (apply (K2 a1 []); rewrite app_nil_r; auto).
      destruct (g_restart g') as [j|]; [destruct (truthy j)|]; auto; (destruct F5 as [F5|F5]; [left; auto|rewrite F5; auto]).
    - destruct Fw as [-> ->]. rewrite app_nil_r in Ea. subst a1. split; auto. split; auto. split; [discriminate|].
      apply (K2 a []). rewrite app_nil_r. auto. }
  assert (Back' : forall i x, nth_error (g_keys g') i = Some x -> exists k b s, nth_error (g_keys g) i = Some (k, b, s)).
  { intros i x Hx. assert (Hi : (i < length (g_keys g))%nat) by (rewrite <- Ln; apply nth_error_Some; congruence).
    apply nth_error_Some in Hi. destruct (nth_error (g_keys g) i) as [[[k b] s]|] eqn:En; [|congruence]. exists k, b, s. auto. }
  assert (Keep : (forall s, In s (map snd (g_keys g)) -> s_main s <> None) -> forall s, In s (map snd (g_keys g')) -> s_main s <> None).
  { intros Hmn s Hin. apply in_map_iff in Hin as ([[k b] s'] & <- & Hin). apply In_nth_error in Hin as [i N2]. destruct (Back' i _ N2) as (k0 & b0 & s0 & N1).
    destruct (K _ _ _ _ N1) as (b' & a & N3 & _). rewrite N2 in N3. injection N3 as -> -> ->. cbn [snd]. apply apply_acts_main.
    apply Hmn. apply in_map_iff. exists (k0, b0, s0). split; auto. eapply nth_error_In; eauto. }
  split; auto. split; [|split; [|split]]; auto.
  - split.
    + intros i k b s N2. destruct (Back' i _ N2) as (k0 & b0 & s0 & N1). destruct (K _ _ _ _ N1) as (b' & a & N3 & _ & x & Ex & Hk & K1 & K2 & _).
      rewrite N2 in N3. injection N3 as -> -> ->. exists x. split; auto. split; auto. exists (rows_of x S). auto.
    + destruct Hd as [Hd|Hd]; [|right; auto].
      assert (Hd' : forall i k b s, nth_error (g_keys g) i = Some (k, b, s) -> md_of (s_main s) = None).
      { intros i k b s N. apply Hd. apply in_map_iff. exists (k, b, s). split; auto. eapply nth_error_In; eauto. }
      destruct (match g_restart g' with Some i => final && truthy i | None => false end) eqn:Eq; [right|left]; intros s Hin; apply in_map_iff in Hin as ([[k b] s'] & <- & Hin);
        apply In_nth_error in Hin as [i N2]; destruct (Back' i _ N2) as (k0 & b0 & s0 & N1); pose proof (Hd' _ _ _ _ N1) as Hn;
        destruct (K _ _ _ _ N1) as (b' & a & N3 & _ & x & _ & _ & _ & _ & _ & Kd); rewrite N2 in N3; injection N3 as -> -> ->; cbn [snd].
      * destruct (g_restart g') as [j|]; [|discriminate]. apply andb_true_iff in Eq as [-> Eq]. rewrite Eq in Kd. intro Q0. rewrite Q0 in Kd. apply Kd. auto.
      * destruct final; [|destruct Kd; congruence]. destruct (g_restart g') as [j|]; [|destruct Kd; congruence]. cbn [andb] in Eq. rewrite Eq in Kd. destruct Kd; congruence.
  - intros i k b s N2. destruct (Back' i _ N2) as (k0 & b0 & s0 & N1). destruct (K _ _ _ _ N1) as (b' & a & N3 & _ & x & Ex & Hk & K1 & _).
    rewrite N2 in N3. injection N3 as -> -> ->. exists x. auto.
  - intros Ef k b s Hin. apply In_nth_error in Hin as [i N2]. destruct (Back' i _ N2) as (k0 & b0 & s0 & N1). destruct (K _ _ _ _ N1) as (b' & a & N3 & _ & x & _ & _ & _ & _ & Kb & _).
    rewrite N2 in N3. injection N3 as -> -> ->. auto.
Qed.

(** A call to 'agg', interrupted or which raises. *)
Lemma part_psinv : forall S x H b (s : kstore) p n chunks a, In x keys -> pinv_ S x H b s n -> (forall c, In c chunks -> c <> []) ->
  starts (H ++ concat chunks) (rows_of x Sf) -> part_run truthy usage (conf x) p b s chunks a ->
  forall a1 a2, a = a1 ++ a2 -> psinv_ S x (apply_acts s a1) n.
Proof.
  intros S x H b s p n chunks a Hk HK Hne St (c1 & c2 & b1 & a0 & -> & Kr & Ea) a1 a2 E.
  destruct (key_run_pinv truthy usage (conf x) seg0 (ok x) (T x) (TS x) (Inv x) (Htab x Hk) (f x) (Hpost x Hk) (rows_of x Sf) (Hokf' x Hk) (ok_app' x)
      (fun r H => consistent idx S (Some r) (kp x) H) c1 H b s p n b1 a0 HK) as (K1 & K2); auto.
  { intros c Hc. apply Hne. apply in_or_app. auto. }
  { destruct St as [q Eq]. exists (concat c2 ++ q). rewrite Eq, concat_app, <- !app_assoc. auto. }
  assert (Pk : forall c1 c2, a0 = c1 ++ c2 -> psinv_ S x (apply_acts s c1) n).
  { intros c3 c4 Ec. eapply psinv_same; [apply HK|]. apply (K2 c3 c4 Ec). }
  destruct Ea as [->|Ea]; [apply (Pk a1 a2 E)|]. rewrite Ea in E.
  destruct (app_eq_starts _ _ _ _ E) as [[q Eq]|[q Eq]]; [|apply (Pk a1 q Eq)].
  subst a1. rewrite apply_acts_app. rewrite <- app_assoc in E. apply app_inv_head in E.
  destruct (buffer_results_t truthy usage (conf x) b1 (apply_acts s a0) p) as [acts r] eqn:Eb. cbn [fst] in E.
  eapply psinv_same; [apply (Pk a0 []); rewrite app_nil_r; auto|].
  eapply (buffer_pinv_t truthy usage (conf x) (T x) (TS x) (Inv x) (f x) (Hpost x Hk)); [exact K1|exact Eb|exact E].
Qed.

Lemma raised_pstep : forall S g g' seed final r n, pmem_inv S g n -> concat seed = S -> grows idx S Sf -> (forall c, In c seed -> c <> []) ->
  agg_t idx truthy usage pre fs g seed true true final = (g', r) -> (forall s, In s (map snd (g_keys g)) -> s_main s <> None) ->
  forall m, let ks := after_acts 0 (g_keys g) (made m (skipn (length (g_log g)) (g_log g'))) in
  pstore_inv S (map (fun x => let '(k, b, s) := x in (k, s)) ks) (if final then Datatypes.S n else n) /\ forall k b s, In (k, b, s) ks -> s_main s <> None.
Proof.
  intros S g g' seed final r n [Hm Hd] Eseed HSf Hne E Hmn m ks. set (n' := if final then Datatypes.S n else n).
  pose proof (proj1 (proj2 HSf)) as Hs.
  destruct (iter_data_spec idx fs gs Hfs pre Hpre (g_restart g) true true seed (g_pre g) Hne) as (Ne & Dl & Rs); [rewrite Eseed; auto|].
  fold (ys_of idx fs pre g true true seed) in Ne, Dl, Rs.
  destruct (agg_t_log idx truthy usage fs gs Hfs pre Hpre g g' seed true true final r Hne) as (L & EL & LL); [rewrite Eseed; auto|auto|].
  assert (Rw : forall id c, In c (chunks_of id (ys_of idx fs pre g true true seed)) -> c <> []).
  { intros id c. apply chunks_rows. unfold ys_of, iter_data. destruct (g_restart g); apply (iter_rows idx fs gs Hfs). }
  set (ys := ys_of idx fs pre g true true seed) in *. rewrite Eseed in *.
  assert (A : forall i k b s, nth_error ks i = Some (k, b, s) -> (exists x, k = conf x /\ nth_error keys i = Some x /\ psinv_ S x s n') /\ s_main s <> None).
  { intros i k b s Hin. apply after_acts_nth_error in Hin as (s0 & N & ->). split; [|apply apply_acts_main; apply Hmn; apply in_map_iff; exists (k, b, s0); split; auto; eapply nth_error_In; eauto].
    assert (Ep : exists a2, acts_of i L = acts_of (0 + i) (made m (skipn (length (g_log g)) (g_log g'))) ++ a2).
    { exists (skipn (m i) (acts_of i L)). cbn [Nat.add]. rewrite made_acts, EL, skipn_app, skipn_all, Nat.sub_diag. symmetry. apply firstn_skipn. }
    destruct Ep as [a2 Ep]. set (a1 := acts_of (0 + i) _) in *. clearbody a1.
    destruct (Hm i k b s0 N) as (x & Ex & Hk0 & H & HC & HK). exists x. split; auto. split; auto. subst k. pose proof (nth_error_In _ _ Hk0) as Hk.
    destruct (consistent_run idx S (g_restart g) (kp x) H (restart_after (g_restart g) ys) Hs HC) as [C1 C2].
    { destruct Rs as [[Rs1 Rs2]|(N0 & R2 & R3 & R4 & R5 & R6)]; [left; split; auto; intros; eapply Rs2; eauto|].
      right. exists N0. split; auto. split; auto. split; auto. split; [destruct (g_restart g); auto|]. intros r0 Hr0 Hg0 Hw. eapply (R6 _ _ _ (Hkp x Hk)); eauto. }
    cbv zeta in C1, C2. rewrite <- (Dl _ _ (Hkp x Hk)), delivered_chunks in C1, C2.
    change (H ++ concat (chunks_of (k_filter (conf x)) ys) = rows_of x S) in C1.
    assert (St : starts (H ++ concat (chunks_of (k_filter (conf x)) ys)) (rows_of x Sf)) by (apply (consistent_starts idx kp Sf Hsf S (restart_after (g_restart g) ys) x); auto).
    assert (Hle : (n <= n')%nat) by (unfold n'; destruct final; lia).
    destruct (LL i _ b s0 N) as [Pr|(b1 & a0 & p' & Ef & Kr & Ea)].
    { apply psinv_le with n; auto. apply (part_psinv S x H b s0 (g_pre g) n (chunks_of (k_filter (conf x)) ys) (acts_of i L) Hk HK (fun c => Rw (k_filter (conf x)) c) St Pr a1 a2 Ep). }
    assert (Pr : part_run truthy usage (conf x) (g_pre g) b s0 (chunks_of (k_filter (conf x)) ys) a0).
    { exists (chunks_of (k_filter (conf x)) ys), [], b1, a0. rewrite app_nil_r. auto. }
    destruct (key_run_pinv truthy usage (conf x) seg0 (ok x) (T x) (TS x) (Inv x) (Htab x Hk) (f x) (Hpost x Hk) (rows_of x Sf) (Hokf' x Hk) (ok_app' x)
      (fun r H => consistent idx S (Some r) (kp x) H) _ H b s0 (g_pre g) n b1 a0 HK (fun c => Rw (k_filter (conf x)) c) St Kr) as (K1 & _).
    rewrite Ea in Ep. destruct (app_eq_starts _ _ _ _ Ep) as [[q Eq]|[q Eq]].
    - subst a1. rewrite apply_acts_app. rewrite <- app_assoc in Ep. apply app_inv_head in Ep. unfold n'. rewrite Ef. rewrite C1 in C2, K1.
      destruct (post_n_write_t truthy (conf x) b1 (apply_acts s0 a0) true (restart_after (g_restart g) ys) p') as [acts rr] eqn:Eb. cbn [fst] in Ep.
      eapply (final_pinv_t truthy (conf x) seg0 (ok x) (T x) (TS x) (Inv x) (Htab x Hk) (f x) (Hpost x Hk) (rows_of x Sf) (Hokf' x Hk)
        (fun r H => consistent idx S (Some r) (kp x) H) (rows_of x S) b1 (apply_acts s0 a0)); [exact K1| |exact Eb|exact Ep].
      intros j Ej. rewrite Ej in C2. auto.
    - apply psinv_le with n; auto. apply (part_psinv S x H b s0 (g_pre g) n (chunks_of (k_filter (conf x)) ys) a0 Hk HK (fun c => Rw (k_filter (conf x)) c) St Pr a1 q Eq). }
  split; [|intros k b s Hin; apply In_nth_error in Hin as [i Hin]; apply (A i k b s Hin)]. split.
  - intros i k s Hin. rewrite nth_error_map in Hin. destruct (nth_error ks i) as [[[k' b] s']|] eqn:En; [|discriminate]. injection Hin as -> ->. apply (A i k b s En).
  - right. rewrite map_map. intros s Hin. apply in_map_iff in Hin as ([[k b] s'] & <- & Hin). cbn [snd]. apply In_nth_error in Hin as [i Hin]. apply (A i k b s' Hin).
Qed.

(** ** Runs, interrupted or not *)
Lemma start_pstep : forall S g (r : @run D) g1 n, (pmem_inv S g n \/ (r_fresh r = true /\ pstore_inv S (stores g) n)) ->
  (if r_fresh r then init pre0 seg0 post0 (map (fun x => let '(k, b, s) := x in (k, s)) (g_keys g)) else Ok g) = Ok g1 ->
  pmem_inv S g1 n /\ map snd (g_keys g1) = map snd (g_keys g).
Proof.
  intros S g r g1 n Hi E. destruct (r_fresh r) eqn:Ef.
  - fold (stores g) in E. assert (Hi' : pstore_inv S (stores g) n) by (destruct Hi as [Hi|[_ Hi]]; auto; apply pmem_store; auto).
    destruct (fresh_pinv S (stores g) n g1 Hi' E) as [A B]. split; auto. rewrite B. apply map_stores.
  - injection E as <-. destruct Hi as [Hi|[Q0 _]]; [auto|discriminate].
Qed.

Definition step_finals (x : @step D) (n : nat) : nat := if r_final (run_of x) then Datatypes.S n else n.
(** What has been given to 'post' for a key, once results are written. *)
Definition gives (i : nat) (k : kconf) (b : kbuf) (n : nat) : Prop :=
  exists x, k = conf x /\ nth_error keys i = Some x /\ no_snap (conf x) (b_post b) /\ forall c : @pchan D SB PB0, In c (pchans_ x) -> done c (rows_of x Sf) (snd (b_post b)) n.

Lemma step_pinv : forall S g x g' n, (pmem_inv S g n \/ (r_fresh (run_of x) = true /\ pstore_inv S (stores g) n)) ->
  (match x with Interrupted _ _ => forall s, In s (map snd (g_keys g)) -> s_main s <> None | _ => True end) ->
  grows idx S (concat (r_seed (run_of x))) -> grows idx (concat (r_seed (run_of x))) Sf -> (forall c, In c (r_seed (run_of x)) -> c <> []) ->
  step_once idx truthy usage pre fs pre0 seg0 post0 g x = Ok g' ->
  match x with
  | Complete r => pmem_inv (concat (r_seed r)) g' (step_finals x n) /\ (r_final r = true -> Sf = concat (r_seed r) -> forall i k b s, nth_error (g_keys g') i = Some (k, b, s) -> gives i k b (step_finals x n))
  | Interrupted r _ => pstore_inv (concat (r_seed r)) (stores g') (step_finals x n)
  end /\
  ((forall s, In s (map snd (g_keys g)) -> s_main s <> None) -> forall s, In s (map snd (g_keys g')) -> s_main s <> None).
Proof.
  intros S g x g' n Hi Hx Es HSf Hne E.
  destruct x as [r|r m]; cbn [run_of step_once] in *.
  - unfold run_once in E. match type of E with bind ?X _ = _ => destruct X as [g1|] eqn:E1 end; cbn [bind] in E; [|discriminate].
    destruct (agg idx truthy usage pre fs g1 (r_seed r) true true (r_final r)) as [[g2 ex]|] eqn:E2; cbn [bind] in E; [|discriminate].
    destruct (start_pstep S g r g1 n Hi E1) as (M & Ms). pose proof (pmem_inv_grow S _ g1 n Es M) as M'.
    destruct (agg_pstep _ g1 g2 (r_seed r) (r_final r) ex n M' eq_refl HSf Hne E2) as (-> & A & B & C & F). injection E as <-.
    split; [|rewrite Ms in F; exact F]. split; [exact A|]. intros Hfin ES i k b s Hin. destruct (B i k b s Hin) as (x & Ex & Hx' & K'). exists x. split; auto. split; auto.
    destruct K' as (_ & (_ & _ & Ns & Mc) & _). split; auto. rewrite (C Hfin k b s (nth_error_In _ _ Hin)) in Mc. intros c Hc. destruct (Mc c Hc) as (_ & _ & Dn). rewrite ES. unfold step_finals. cbn [run_of]. exact Dn.
  - match type of E with bind ?X _ = _ => destruct X as [g1|] eqn:E1 end; cbn [bind] in E; [|discriminate].
    destruct (agg_t idx truthy usage pre fs g1 (r_seed r) true true (r_final r)) as [g2 ex] eqn:E2.
    destruct (start_pstep S g r g1 n Hi E1) as (M & Ms). pose proof (pmem_inv_grow S _ g1 n Es M) as M'.
    destruct (raised_pstep _ g1 g2 (r_seed r) (r_final r) ex n M' eq_refl HSf Hne E2 ltac:(rewrite Ms; auto) (fun i => nth i m O)) as [A1 A2]. injection E as <-. unfold stores. cbn [g_keys]. split; [exact A1|].
    intros _ s Hin. apply in_map_iff in Hin as ([[k b] s'] & <- & Hin). apply (A2 k b s' Hin).
Qed.

(** Interruptions are possible once all keys are in store. *)
Definition interruptible (g : stream) (xs : list (@step D)) : Prop :=
  (forall s, In s (map snd (g_keys g)) -> s_main s <> None) \/ forall x, In x xs -> exists r, x = Complete r.
Lemma step_all_pinv : forall xs S g g' lost n, (pmem_inv S g n \/ (lost = true /\ pstore_inv S (stores g) n)) -> interruptible g xs ->
  sorted (map idx S) -> growing idx S (map run_of xs) -> grows idx (whole_seed S (map run_of xs)) Sf -> restarted lost xs ->
  step_all idx truthy usage pre fs pre0 seg0 post0 g xs = Ok g' ->
  let n' := (n + finals (map run_of xs))%nat in
  (forall r, last xs (Complete (mkRun false false [])) = Complete r -> r_final r = true -> Sf = whole_seed S (map run_of xs) ->
     forall i k b s, nth_error (g_keys g') i = Some (k, b, s) -> gives i k b n') /\
  ((forall x, In x xs -> exists r, x = Complete r) -> pmem_inv S g n -> pmem_inv (whole_seed S (map run_of xs)) g' n').
Proof.
  induction xs as [|x xs IH]; intros S g g' lost n Hi Hmn HS Hg Ef Hr E n'.
  - cbn [last step_all map] in *. injection E as <-. split; [intros r Q0; injection Q0 as <-; discriminate|]. intros _ M. unfold n', whole_seed. simpl. rewrite app_nil_r, Nat.add_0_r. auto.
  - cbn [map growing step_all restarted] in *. destruct Hg as (En & Hs & Hch & Hg). pose proof (conj En (conj HS Hs) : grows idx _ _) as G1. clear En. destruct Hr as [Hr1 Hr2].
    destruct (step_once idx truthy usage pre fs pre0 seg0 post0 g x) as [g1|] eqn:E1; cbn [bind] in E; [|discriminate].
    pose proof (growing_starts idx _ _ Hg Hs) as E2. rewrite whole_seed_cons in *.
    assert (Hi' : pmem_inv S g n \/ (r_fresh (run_of x) = true /\ pstore_inv S (stores g) n)) by (destruct Hi as [Hi|[Hl' Hi]]; auto).
    destruct (step_pinv S g x g1 n Hi') as [A B]; auto.
    { destruct x as [|r m]; auto. destruct Hmn as [Hmn|Hmn]; auto. destruct (Hmn (Interrupted r m) (or_introl eq_refl)) as [r' Q0]. discriminate. }
    { eapply grows_trans; eauto. }
    assert (N1 : pmem_inv (concat (r_seed (run_of x))) g1 (step_finals x n) \/ (match x with Interrupted _ _ => true | _ => false end) = true /\ pstore_inv (concat (r_seed (run_of x))) (stores g1) (step_finals x n)).
    { destruct x; [left; apply A|right; auto]. }
    assert (Mn : interruptible g1 xs).
    { destruct Hmn as [Hmn|Hmn]; [left; auto|right]. intros y Hy. apply Hmn. right. auto. }
    assert (Nn : n' = (step_finals x n + finals (map run_of xs))%nat).
    { unfold n', finals, step_finals. cbn [map filter]. destruct (r_final (run_of x)); simpl; lia. }
    destruct (IH _ g1 g' _ (step_finals x n) N1 Mn Hs Hg Ef Hr2 E) as [I1 I2]. rewrite <- Nn in *.
    split.
    + intros r0 Hl Hfin ES. destruct xs as [|x' xs].
      * injection E as <-. cbn [last] in Hl. subst x. destruct A as [_ A]. intros i k b s Hin. rewrite Nn. unfold finals. simpl. rewrite Nat.add_0_r.
        eapply A; eauto. rewrite ES. unfold whole_seed. simpl. rewrite app_nil_r. auto.
      * eapply I1; eauto.
    + intros Hc M. apply I2; [intros y Hy; apply Hc; right; auto|]. destruct (Hc x (or_introl eq_refl)) as [r ->]. apply A.
Qed.

Lemma new_pmem_inv : pmem_inv [] (new_stream pre0 seg0 post0 (map conf keys)) 0.
Proof.
  unfold new_stream. split.
  - intros i k b s Hin. cbn [g_keys] in Hin. rewrite map_map, nth_error_map in Hin. destruct (nth_error keys i) as [x|] eqn:Ex; [|discriminate]. injection Hin as <- <- <-. pose proof (nth_error_In _ _ Ex) as Hin. exists x. split; auto. split; auto. exists []. split; [reflexivity|].
    split; [apply starts_nil|]. split; [|intros md Em; discriminate].
    split; [apply (tab_start _ _ _ _ _ _ (Htab x Hin))|]. split; auto. split; [intro; constructor|]. cbn [b_bin]. intros c Hc.
    destruct (pchan_facts (conf x) seg0 (ok x) (T x) (TS x) (Inv x) (Htab x Hin) c Hc) as (E0 & _ & E1 & E2 & E3 & _). split; [apply E1; auto|]. split; [apply E2; auto|]. split; auto.
    exists [], false. rewrite E0. split; auto. split; [apply Nat.le_0_l|]. split; [constructor|congruence].
  - left. intros s Hin. cbn [g_keys] in Hin. rewrite !map_map in Hin. apply in_map_iff in Hin as (k & <- & _). auto.
Qed.
End Run.
