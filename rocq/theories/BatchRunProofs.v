(** Results of keys over any history of runs. *)
Require Import List Arith ZArith Bool Lia Sorting.Sorted.
Require Import Verif.Common Verif.SegModel Verif.SegSpec Verif.FilterModel Verif.WrModel Verif.StreamModel Verif.RaiseModel Verif.RaiseProofs Verif.StreamSpec Verif.IterProofs Verif.StreamProofs Verif.RecordProofs
  Verif.TableProofs Verif.BatchSpec Verif.LabelProofs Verif.BatchProofs.
Import ListNotations.
Local Open Scope Z_scope.

(** ** Chunks delivered have rows *)
Section Chunks.
Context {D P : Type}.
Variable idx : D -> Z.
Variables (fs : @filters D) (gs : list (nat * (D -> bool))).
Hypothesis Hfs : filters_are fs gs.
Definition all_rows_given (ys : list (res (Z * nat * list D))) : Prop := forall L id rows, In (Ok (L, id, rows)) ys -> rows <> [].
Lemma filter_chunk_rows : forall L chunk fa, (exists h, fa = map h chunk) -> all_rows_given (filter_chunk fs L chunk fa).
Proof.
  intros L chunk fa [h ->] L' id rows H. rewrite (filter_chunk_ok fs gs Hfs) in H. apply in_flat_map in H as (g & _ & H). cbv zeta in H.
  destruct (filter _ chunk) eqn:E; [destruct H|]. destruct H as [H|[]]. injection H as _ _ <-. discriminate.
Qed.
Lemma iter_rows : forall R (pre : option (@pre_fun D P)) discard seed trim rem p, all_rows_given (fst (iter_chunks idx R pre fs discard trim rem p seed)).
Proof.
  intros R pre discard. induction seed as [|chunk seed IH]; intros trim rem p.
  - intros L id rows [].
  - assert (E1 : forall e, all_rows_given [Err e]) by (intros e L id rows [H|[]]; discriminate).
    cbn [iter_chunks]. destruct (negb (sortedb (map idx chunk))); [apply E1|].
    destruct (match pre with Some f => f chunk p | None => (chunk, p, true) end) as [[c p'] passed]. destruct (negb passed); [apply E1|].
    destruct (rev (rem ++ c)) as [|r l]; [apply E1|]. cbv zeta. set (all := rem ++ c). destruct (trim && (idx r <? R)); [apply IH|].
    match goal with |- context [filter_chunk fs (idx r) all ?fa] => assert (F : all_rows_given (filter_chunk fs (idx r) all fa)); [apply filter_chunk_rows|set (ys := filter_chunk fs (idx r) all fa) in *] end.
    { rewrite repeat_map_. destruct trim, discard; try rewrite map2_map_; eexists; reflexivity. }
    destruct (stopped ys); [exact F|].
    specialize (IH false (if discard then compress (map negb (map (fun r0 => idx r0 <? idx r) all)) all else rem) p').
    destruct (iter_chunks idx R pre fs discard false _ p' seed) as [ys' p'']. cbn [fst] in *.
    intros L id rows H. apply in_app_or in H as [H|H]; eauto.
Qed.
Lemma chunks_rows : forall id ys c, all_rows_given ys -> In c (chunks_of id ys) -> c <> [].
Proof.
  intros id ys c H Hc. unfold chunks_of in Hc. apply in_flat_map in Hc as ([[[L i] rows]|e] & Hy & Hc); [|destruct Hc].
  destruct (i =? id)%nat; [|destruct Hc]. destruct Hc as [<-|[]]. eapply H; eauto.
Qed.
End Chunks.

(** ** Modifications of store made by a run *)
Section Log.
Context {D P SB PB : Type}.
Variable idx : D -> Z.
Variable truthy : Z -> bool.
Variable usage : frame -> Z.
Notation stream := (stream D P SB PB).
Notation kconf := (kconf D SB PB).
Notation kbuf := (kbuf SB PB).
Notation kstore := (kstore P SB PB).
Notation act := (@act P SB PB).
Notation job := (kconf -> kbuf -> kstore -> res (kbuf * list act)).

Lemma acts_of_app : forall j (a b : list (nat * act)), acts_of j (a ++ b) = acts_of j a ++ acts_of j b.
Proof. intros. unfold acts_of. rewrite filter_app, map_app. auto. Qed.
Lemma acts_of_own : forall n (a : list act), acts_of n (map (fun x => (n, x)) a) = a.
Proof. intros n a. unfold acts_of. induction a as [|x a IH]; auto. simpl. rewrite Nat.eqb_refl. simpl. rewrite IH. auto. Qed.
Lemma acts_of_other : forall n j (a : list act), n <> j -> acts_of j (map (fun x => (n, x)) a) = [].
Proof. intros n j a H. unfold acts_of. induction a as [|x a IH]; auto. simpl. destruct (Nat.eqb_spec n j); [congruence|]. auto. Qed.

Definition logged (F : kconf -> kbuf -> kstore -> kbuf -> list act -> Prop) (n : nat) (ks ks' : list (kconf * kbuf * kstore)) (L : list (nat * act)) : Prop :=
  length ks' = length ks /\
  forall i k b s, nth_error ks i = Some (k, b, s) -> exists b' a, F k b s b' a /\ nth_error ks' i = Some (k, b', apply_acts s a) /\ acts_of (n + i) L = a.

Lemma run_jobs_log : forall (j : job) ks n l log, run_jobs j n ks = Ok (l, log) ->
  logged (fun k b s b' a => j k b s = Ok (b', a)) n ks l log /\ forall i, (i < n)%nat -> acts_of i log = [].
Proof.
  intro j. induction ks as [|[[k b] s] ks IH]; intros n l log H; cbn [run_jobs] in H.
  - injection H as <- <-. split; [split; auto; intros [|i] k b s Q; discriminate|auto].
  - destruct (j k b s) as [[b1 a1]|] eqn:E; cbn [bind] in H; [|discriminate].
    destruct (run_jobs j (S n) ks) as [[l1 log1]|] eqn:E1; cbn [bind] in H; [|discriminate]. injection H as <- <-.
    destruct (IH _ _ _ E1) as [[Ln I1] I2]. split.
    + split; [simpl; auto|]. intros [|i] k' b' s' Q.
      * injection Q as <- <- <-. exists b1, a1. split; auto. split; auto. rewrite Nat.add_0_r, acts_of_app, acts_of_own, I2 by lia. apply app_nil_r.
      * destruct (I1 i k' b' s' Q) as (b2 & a2 & A & B & C). exists b2, a2. split; auto. split; auto.
        rewrite acts_of_app, acts_of_other by lia. simpl. replace (n + S i)%nat with (S n + i)%nat by lia. auto.
    + intros i Hi. rewrite acts_of_app, acts_of_other, I2 by lia. auto.
Qed.

Lemma consume_log : forall ys (g g' : stream) ex, consume truthy usage g ys = Ok (g', ex) -> no_error ys ->
  exists L, g_log g' = g_log g ++ L /\ logged (fun k b s b' a => key_run truthy usage k (g_pre g) b s (chunks_of (k_filter k) ys) = Ok (b', a)) 0 (g_keys g) (g_keys g') L.
Proof.
  induction ys as [|y ys IH]; intros g g' ex H Ne.
  - cbn [consume] in H. injection H as <- <-. exists []. rewrite app_nil_r. split; auto. split; auto. intros i k b s Q. exists b, []. split; auto.
  - destruct y as [[[L0 id] rows]|e]; [|exfalso; apply (Ne e); left; auto]. cbn [consume] in H.
    destruct (consume1 truthy usage g (L0, id, rows)) as [g1|] eqn:E; cbn [bind] in H; [|discriminate].
    unfold consume1 in E. destruct (run_jobs _ 0 (g_keys g)) as [[l log]|] eqn:E1; cbn [bind] in E; [|discriminate]. injection E as <-.
    apply run_jobs_log in E1 as [[Ln I1] _]. destruct (IH _ _ _ H) as (L & EL & Ln2 & I2); [intros e He; apply (Ne e); right; auto|].
    cbn [g_log g_keys g_pre] in *. exists (log ++ L). rewrite app_assoc. split; auto. split; [lia|].
    intros i k b s Q. destruct (I1 i k b s Q) as (b1 & a1 & A1 & B1 & C1). destruct (I2 i k b1 _ B1) as (b2 & a2 & A2 & B2 & C2).
    exists b2, (a1 ++ a2). rewrite apply_acts_app. split; [|split; auto].
    + unfold chunks_of. cbn [flat_map]. fold (chunks_of (k_filter k) ys). rewrite Nat.eqb_sym. destruct (k_filter k =? id)%nat.
      * cbn [app key_run]. rewrite A1. cbn [bind]. rewrite A2. auto.
      * injection A1 as <- <-. change (apply_acts s []) with s in A2. cbn [app]. auto.
    + simpl in *. rewrite acts_of_app, C1, C2. auto.
Qed.

Variables (fs : @filters D) (gs : list (nat * (D -> bool))).
Hypothesis Hfs : filters_are fs gs.
Variable pre : option (@pre_fun D P).
Hypothesis Hpre : harmless pre.

Lemma agg_log : forall (g g' : stream) seed trim discard final ex, (forall c, In c seed -> c <> []) -> sorted (map idx (concat seed)) ->
  agg idx truthy usage pre fs g seed trim discard final = Ok (g', ex) ->
  let ys := ys_of idx fs pre g trim discard seed in
  ex = None /\ g_restart g' = restart_after (g_restart g) ys /\
  exists L, g_log g' = g_log g ++ L /\
    logged (fun k b s b' a => exists b1 a1 a2, key_run truthy usage k (g_pre g) b s (chunks_of (k_filter k) ys) = Ok (b1, a1) /\ a = a1 ++ a2 /\
       if final then post_n_write truthy k b1 (apply_acts s a1) true (g_restart g') (g_pre g') = Ok (b', a2) else b' = b1 /\ a2 = []) 0 (g_keys g) (g_keys g') L.
Proof.
  intros g g' seed trim discard final ex Hne Hs H ys. unfold agg in H.
  destruct (iter_data_spec idx fs gs Hfs pre Hpre (g_restart g) trim discard seed (g_pre g) Hne Hs) as (Ne & _).
  match type of H with bind ?X _ = _ => destruct X as [[g1 ex1]|] eqn:E1 end; cbn [bind] in H; [|discriminate].
  assert (Q : ex1 = None /\ g_restart g1 = restart_after (g_restart g) ys /\ exists L, g_log g1 = g_log g ++ L /\
              logged (fun k b s b' a => key_run truthy usage k (g_pre g) b s (chunks_of (k_filter k) ys) = Ok (b', a)) 0 (g_keys g) (g_keys g1) L).
  { subst ys. destruct seed as [|c seed].
    - injection E1 as <- <-. unfold ys_of, iter_data. split; auto. split; [destruct (g_restart g); auto|].
      exists []. rewrite app_nil_r. split; auto. split; auto. intros i k b s Q. exists b, []. split; auto. destruct (g_restart g); auto.
    - fold (ys_of idx fs pre g trim discard (c :: seed)) in Ne. unfold ys_of in *.
      destruct (iter_data idx (g_restart g) pre fs trim discard (g_pre g) (c :: seed)) as [ys p]. cbn [fst] in *.
      destruct (consume truthy usage g ys) as [[g2 ex2]|] eqn:E2; cbn [bind] in E1; [|discriminate].
      destruct (consume_inv _ _ _ _ _ _ E2 Ne) as (-> & A & B & C). destruct (consume_log _ _ _ _ E2 Ne) as (L & EL & LL).
      injection E1 as <- <-. cbn [g_restart g_log g_keys]. split; auto. split; auto. exists L. auto. }
  destruct Q as (-> & Q1 & L & EL & Ln & LL). destruct final.
  - unfold final_write in H. destruct (run_jobs _ 0 (g_keys g1)) as [[l log]|] eqn:E3; cbn [bind] in H; [|discriminate].
    injection H as <- <-. cbn [g_restart g_pre g_keys g_log]. split; auto. split; auto. exists (L ++ log). rewrite EL, app_assoc. split; auto.
    apply run_jobs_log in E3 as [[Ln2 I2] _]. split; [lia|]. intros i k b s Q. destruct (LL i k b s Q) as (b1 & a1 & A1 & B1 & C1).
    destruct (I2 i k b1 _ B1) as (b2 & a2 & A2 & B2 & C2). exists b2, (a1 ++ a2). rewrite apply_acts_app. split; [exists b1, a1, a2; auto|]. split; auto.
    simpl in *. rewrite acts_of_app, C1, C2. auto.
  - cbn [bind] in H. injection H as <- <-. split; auto. split; auto. exists L. split; auto. split; auto.
    intros i k b s Q. destruct (LL i k b s Q) as (b1 & a1 & A1 & B1 & C1). exists b1, a1. split; auto. exists b1, a1, []. rewrite app_nil_r. auto.
Qed.

(** *** Runs which may raise *)
Lemma run_jobs_t_log : forall (j : kconf -> kbuf -> kstore -> list act * res kbuf) ks n l log ex, run_jobs_t j n ks = (l, log, ex) ->
  (forall i k b s, nth_error ks i = Some (k, b, s) -> acts_of (n + i) log = [] \/ acts_of (n + i) log = fst (j k b s)) /\ forall i, (i < n)%nat -> acts_of i log = [].
Proof using Type. clear.
  intro j. induction ks as [|[[k b] s] ks IH]; intros n l log ex H; cbn [run_jobs_t] in H.
  - injection H as <- <- <-. split; auto.
  - destruct (j k b s) as [a1 r1] eqn:E. destruct (run_jobs_t j (S n) ks) as [[l1 log1] ex1] eqn:E1. destruct (IH _ _ _ _ E1) as [I1 I2].
    assert (log = map (fun a => (n, a)) a1 ++ log1) as -> by (destruct r1; injection H as _ <- _; auto). clear H. split.
    + intros [|i] k' b' s' Q.
      * injection Q as <- <- <-. right. rewrite E, Nat.add_0_r, acts_of_app, acts_of_own, I2 by lia. apply app_nil_r.
      * rewrite acts_of_app, acts_of_other by lia. cbn [app]. replace (n + S i)%nat with (S n + i)%nat by lia. apply (I1 i k' b' s' Q).
    + intros i Hi. rewrite acts_of_app, acts_of_other, I2 by lia. auto.
Qed.

(** Modifications of store made for a key which is given some of [chunks] only, and possibly by what comes before the aggregation of
    the next one. *)
Definition part_run (k : kconf) (p : P) (b : kbuf) (s : kstore) (chunks : list (list D)) (a : list act) : Prop :=
  exists c1 c2 b1 a1, chunks = c1 ++ c2 /\ key_run truthy usage k p b s c1 = Ok (b1, a1) /\
    (a = a1 \/ a = a1 ++ fst (buffer_results_t truthy usage k b1 (apply_acts s a1) p)).

Lemma agg_iter_t_acts : forall (k : kconf) b s (p : P) c, fst (agg_iter_t truthy usage k b s p c) = fst (buffer_results_t truthy usage k b s p).
Proof using Type. clear.
  intros k b s p c. unfold agg_iter_t. destruct (buffer_results_t truthy usage k b s p) as [a [b1|e]]; auto.
  destruct (k_agg k c (b_seg b1)) as [[[[f sn]|] seg']|e]; auto.
Qed.

Lemma consume_t_log : forall ys (g g' : stream) r, consume_t truthy usage g ys = (g', r) -> no_error ys ->
  exists L, g_log g' = g_log g ++ L /\ forall i k b s, nth_error (g_keys g) i = Some (k, b, s) -> part_run k (g_pre g) b s (chunks_of (k_filter k) ys) (acts_of i L).
Proof.
  induction ys as [|y ys IH]; intros g g' r H Ne.
  - cbn [consume_t] in H. injection H as <- <-. exists []. rewrite app_nil_r. split; auto. intros i k b s Q. exists [], [], b, []. auto.
  - destruct y as [[[L0 id] rows]|e]; [|exfalso; apply (Ne e); left; auto]. cbn [consume_t] in H.
    pose proof (consume1_same truthy usage g (L0, id, rows)) as Es. unfold consume1_t in H, Es.
    destruct (run_jobs_t _ 0 (g_keys g)) as [[l log] ex] eqn:E1. destruct ex as [e|].
    + injection H as <- <-. exists log. split; auto. intros i k b s Q. destruct (run_jobs_t_log _ _ _ _ _ _ E1) as [I1 _].
      exists [], (chunks_of (k_filter k) (Ok (L0, id, rows) :: ys)), b, []. split; auto. split; auto. cbn [app]. change (apply_acts s []) with s.
      destruct (I1 i k b s Q) as [A|A]; cbn [Nat.add] in A; rewrite A; auto. destruct (k_filter k =? id)%nat; auto. right. apply agg_iter_t_acts.
    + unfold consume1 in Es. destruct (run_jobs _ 0 (g_keys g)) as [[l' log']|] eqn:E2; cbn [bind] in Es; [|discriminate].
      assert (El : l' = l /\ log' = log). { injection Es as -> Q. apply app_inv_head in Q. auto. } destruct El as [-> ->]. clear Es.
      apply run_jobs_log in E2 as [[Ln I1] _]. destruct (IH _ _ _ H) as (L & EL & I2); [intros e He; apply (Ne e); right; auto|].
      cbn [g_log g_keys g_pre] in *. exists (log ++ L). rewrite app_assoc. split; auto.
      intros i k b s Q. destruct (I1 i k b s Q) as (b1 & a1 & A1 & B1 & C1). destruct (I2 i k b1 _ B1) as (c1 & c2 & b2 & a2 & Ec & Kr & Ea).
      cbn [Nat.add] in C1. rewrite acts_of_app, C1. unfold part_run, chunks_of. cbn [flat_map]. fold (chunks_of (k_filter k) ys). rewrite Nat.eqb_sym. destruct (k_filter k =? id)%nat.
      * exists (rows :: c1), c2, b2, (a1 ++ a2). cbn [app key_run]. rewrite Ec, A1. cbn [bind]. rewrite Kr. split; auto. split; auto.
        rewrite apply_acts_app, <- app_assoc. destruct Ea as [->|Ea]; auto. right. rewrite Ea. auto.
      * injection A1 as <- <-. exists c1, c2, b2, a2. change (apply_acts s []) with s in *. auto.
Qed.

Lemma agg_t_log : forall (g g' : stream) seed trim discard final r, (forall c, In c seed -> c <> []) -> sorted (map idx (concat seed)) ->
  agg_t idx truthy usage pre fs g seed trim discard final = (g', r) ->
  let ys := ys_of idx fs pre g trim discard seed in
  exists L, g_log g' = g_log g ++ L /\ forall i k b s, nth_error (g_keys g) i = Some (k, b, s) ->
    part_run k (g_pre g) b s (chunks_of (k_filter k) ys) (acts_of i L) \/
    exists b1 a1 p', final = true /\ key_run truthy usage k (g_pre g) b s (chunks_of (k_filter k) ys) = Ok (b1, a1) /\
      acts_of i L = a1 ++ fst (post_n_write_t truthy k b1 (apply_acts s a1) true (restart_after (g_restart g) ys) p').
Proof.
  intros g g' seed trim discard final r Hne Hs H ys. unfold agg_t in H.
  destruct (iter_data_spec idx fs gs Hfs pre Hpre (g_restart g) trim discard seed (g_pre g) Hne Hs) as (Ne & _).
  match type of H with (let '(_, _) := ?X in _) = _ => destruct X as [g1 r1] eqn:E1 end.
  assert (Q : (exists L, g_log g1 = g_log g ++ L /\ forall i k b s, nth_error (g_keys g) i = Some (k, b, s) -> part_run k (g_pre g) b s (chunks_of (k_filter k) ys) (acts_of i L)) /\
     forall ex, r1 = Ok ex -> g_restart g1 = restart_after (g_restart g) ys /\ exists L, g_log g1 = g_log g ++ L /\
       logged (fun k b s b' a => key_run truthy usage k (g_pre g) b s (chunks_of (k_filter k) ys) = Ok (b', a)) 0 (g_keys g) (g_keys g1) L).
  { subst ys. destruct seed as [|c seed].
    - injection E1 as <- <-. assert (Ey : ys_of idx fs pre g trim discard [] = []) by (unfold ys_of, iter_data; destruct (g_restart g); auto). rewrite Ey. split.
      + exists []. rewrite app_nil_r. split; auto. intros i k b s Q. exists [], [], b, []. auto.
      + intros ex _. split; auto. exists []. rewrite app_nil_r. split; auto. split; auto. intros i k b s Q. exists b, []. auto.
    - fold (ys_of idx fs pre g trim discard (c :: seed)) in Ne. unfold ys_of in *.
      destruct (iter_data idx (g_restart g) pre fs trim discard (g_pre g) (c :: seed)) as [ys p]. cbn [fst] in *.
      destruct (consume_t truthy usage g ys) as [g2 r2] eqn:E2. injection E1 as <- <-. cbn [g_log g_restart g_keys]. split; [apply (consume_t_log _ _ _ _ E2 Ne)|].
      intros ex ->. pose proof (consume_same truthy usage ys g) as E3. rewrite E2 in E3. cbn [bind] in E3.
      destruct (consume_inv _ _ _ _ _ _ E3 Ne) as (_ & A & _). split; auto. apply (consume_log _ _ _ _ E3 Ne). }
  destruct Q as [(L & EL & I1) Q2]. destruct r1 as [ex|e]; [|injection H as <- <-; exists L; split; auto].
  destruct final; [|injection H as <- <-; exists L; split; auto].
  destruct (Q2 ex eq_refl) as (Hr & L' & EL' & Ln & LL). rewrite EL' in EL. apply app_inv_head in EL. subst L'.
  unfold final_write_t in H. destruct (run_jobs_t _ 0 (g_keys g1)) as [[l log] ex1] eqn:E3. destruct (run_jobs_t_log _ _ _ _ _ _ E3) as [I2 _].
  exists (L ++ log). split; [rewrite app_assoc, <- EL'; destruct ex1; injection H as <- <-; auto|].
  intros i k b s Q. destruct (LL i k b s Q) as (b1 & a1 & A1 & B1 & C1). cbn [Nat.add] in C1. rewrite acts_of_app, C1.
  destruct (I2 i k b1 _ B1) as [A|A]; cbn [Nat.add] in A; rewrite A.
  - left. exists (chunks_of (k_filter k) ys), [], b1, a1. rewrite !app_nil_r. auto.
  - right. exists b1, a1, (g_pre g1). rewrite <- Hr. auto.
Qed.

Lemma made_acts : forall (log : list (nat * act)) n i, acts_of i (made n log) = firstn (n i) (acts_of i log).
Proof using Type. clear.
  induction log as [|[j a] log IH]; intros n i; [destruct (n i); auto|]. cbn [made]. unfold acts_of in *. destruct (n j) as [|m] eqn:E; cbn [filter fst].
  - rewrite IH. destruct (Nat.eqb_spec j i) as [->|]; auto. rewrite E. auto.
  - destruct (Nat.eqb_spec j i) as [->|Q]; cbn [map snd].
    + rewrite IH, Nat.eqb_refl, E. auto.
    + rewrite IH. replace (i =? j)%nat with false by (symmetry; apply Nat.eqb_neq; auto). auto.
Qed.
Lemma made_In : forall (log : list (nat * act)) n x, In x (made n log) -> In x log.
Proof using Type. clear.
  induction log as [|[j a] log IH]; intros n x H; auto. cbn [made] in H. destruct (n j); [right; eauto|]. destruct H as [H|H]; [left; auto|right; eauto].
Qed.
Lemma after_acts_nth_error : forall (ks : list (kconf * kbuf * kstore)) n (done : list (nat * act)) i k b s, nth_error (after_acts n ks done) i = Some (k, b, s) ->
  exists s0, nth_error ks i = Some (k, b, s0) /\ s = apply_acts s0 (acts_of (n + i) done).
Proof.
  induction ks as [|[[k0 b0] s0] ks IH]; intros n done i k b s E; [destruct i; discriminate|]. destruct i as [|i].
  - cbn [after_acts nth_error] in E. injection E as <- <- <-. exists s0. rewrite Nat.add_0_r. auto.
  - cbn [after_acts nth_error] in *. destruct (IH _ _ _ _ _ _ E) as (s1 & A & B). exists s1. rewrite <- Nat.add_succ_comm. auto.
Qed.
Lemma after_acts_nth : forall (ks : list (kconf * kbuf * kstore)) n (done : list (nat * act)) k b s, In (k, b, s) (after_acts n ks done) ->
  exists i s0, nth_error ks i = Some (k, b, s0) /\ s = apply_acts s0 (acts_of (n + i) done).
Proof using Type. clear.
  induction ks as [|[[k0 b0] s0] ks IH]; intros n done k b s H; cbn [after_acts] in H; [destruct H|]. destruct H as [H|H].
  - injection H as <- <- <-. exists 0%nat, s0. rewrite Nat.add_0_r. auto.
  - destruct (IH _ _ _ _ _ H) as (i & s1 & A & B). exists (S i), s1. split; auto. replace (n + S i)%nat with (S n + i)%nat by lia. auto.
Qed.
End Log.

(** ** Invariants *)
Section Run.
Context {D P SB PB : Type}.
Variable idx : D -> Z.
Variable truthy : Z -> bool.
Variable usage : frame -> Z.
Notation stream := (stream D P SB PB).
Notation kconf := (kconf D SB PB).
Notation kbuf := (kbuf SB PB).
Notation kstore := (kstore P SB PB).
Notation act := (@act P SB PB).
Notation last_index := (last_index idx).
Variables (fs : @filters D) (gs : list (nat * (D -> bool))).
Hypothesis Hfs : filters_are fs gs.
Variable pre : option (@pre_fun D P).
Hypothesis Hpre : harmless pre.
Variables (pre0 : P) (seg0 : SB) (post0 : PB).
(** Keys, and their tables. *)
Context {X : Type}.
Variable conf : X -> kconf.
Variable keys : list X.
Variables (T TS : X -> list D -> list row) (Inv : X -> list D -> SB -> Prop) (m ms : X -> row -> row) (kp : X -> D -> bool).
(** Rows of a key are ordered, and possibly satisfy some condition. *)
Variable good : X -> list D -> Prop.
Hypothesis good_app : forall x a b, good x (a ++ b) -> good x a.
Definition ok (x : X) (l : list D) : Prop := sorted (map idx l) /\ good x l.
Hypothesis Htab : forall x, In x keys -> tabular (conf x) seg0 (ok x) (T x) (TS x) (Inv x).
Hypothesis Hpost : forall x, In x keys -> post_is (conf x) (m x) (ms x).
Hypothesis Hpar : forall x, In x keys -> writes_as_labels (conf x) (ok x) (T x) (TS x) (m x) (ms x).
Hypothesis Hkp : forall x, In x keys -> In (k_filter (conf x), kp x) gs.
(** Seed data, in the end. *)
Variable Sf : list D.
Hypothesis Hsf : sorted (map idx Sf).

Definition rows_of (k : X) (S : list D) : list D := filter (fun r => kp k r && (idx r <? last_index S)) S.
Hypothesis Hgood : forall x, In x keys -> good x (rows_of x Sf).
Notation Q := (forall i, truthy i = true).
Notation kinv_ S k := (kinv (conf k) (T k) (TS k) (Inv k) (m k) (ms k) (rows_of k Sf) (fun r H => consistent idx S (Some r) (kp k) H) Q).
Notation sinv_ S k := (sinv (conf k) (T k) (TS k) (Inv k) (m k) (ms k) (rows_of k Sf) (fun r H => consistent idx S (Some r) (kp k) H)).

Lemma Hokf : forall x, In x keys -> ok x (rows_of x Sf).
Proof. intros x H. split; [apply sorted_filter|]; auto. Qed.
Lemma ok_app : forall x (a b : list D), ok x (a ++ b) -> ok x a.
Proof. intros x a b [H H']. split; [eapply sorted_app_l; eauto|eapply good_app; eauto]. Qed.

Definition dichotomy (ss : list kstore) : Prop := (forall s, In s ss -> md_of (s_main s) = None) \/ (forall s, In s ss -> s_main s <> None).
Definition store_inv (S : list D) (ks : list (kconf * kstore)) : Prop :=
  (forall i k s, nth_error ks i = Some (k, s) -> exists x, k = conf x /\ nth_error keys i = Some x /\ sinv_ S x s) /\ dichotomy (map snd ks).
Definition mem_inv (S : list D) (g : stream) : Prop :=
  (forall i k b s, nth_error (g_keys g) i = Some (k, b, s) -> exists x, k = conf x /\ nth_error keys i = Some x /\ exists H, consistent idx S (g_restart g) (kp x) H /\ kinv_ S x H b s) /\
  dichotomy (map snd (g_keys g)).
Definition stores (g : stream) : list (kconf * kstore) := map (fun x => let '(k, b, s) := x in (k, s)) (g_keys g).

(** Growing seed data. *)
Lemma kinv_grow : forall S S' k H b (s : kstore), grows idx S S' -> kinv_ S k H b s -> kinv_ S' k H b s.
Proof.
  intros S S' k H b s Hs (A & B & C & R). split; auto. split; auto. split; auto. intros md E. destruct (R md E) as (Hrec & rest & R1 & R2 & R3).
  exists Hrec, rest. split; auto. split; auto. apply (consistent_grow idx S); auto.
Qed.
Lemma sinv_grow : forall S S' k (s : kstore), grows idx S S' -> sinv_ S k s -> sinv_ S' k s.
Proof.
  intros S S' k s Hs (A & R). split; auto. intros md E. destruct (R md E) as (Hrec & R1 & R2 & R3).
  exists Hrec. split; auto. split; auto. apply (consistent_grow idx S); auto.
Qed.
Lemma mem_inv_grow : forall S S' g, grows idx S S' -> mem_inv S g -> mem_inv S' g.
Proof.
  intros S S' g Hs [A B]. split; auto. intros i k b s Hin. destruct (A i k b s Hin) as (x & Ex & C & H & E & F). exists x. split; auto. split; auto. exists H. split; [apply (consistent_grow idx S); auto|apply (kinv_grow S); auto].
Qed.
Lemma store_inv_grow : forall S S' ks, grows idx S S' -> store_inv S ks -> store_inv S' ks.
Proof. intros S S' ks Hs [A B]. split; auto. intros i k s Hin. destruct (A i k s Hin) as (x & Ex & C & F). exists x. split; auto. split; auto. apply (sinv_grow S); auto. Qed.
Lemma map_stores : forall g, map snd (stores g) = map snd (g_keys g).
Proof. intro g. unfold stores. rewrite map_map. apply map_ext. intros [[k b] s]. auto. Qed.
Lemma stores_nth : forall g i k s, nth_error (stores g) i = Some (k, s) -> exists b, nth_error (g_keys g) i = Some (k, b, s).
Proof.
  intros g i k s H. unfold stores in H. rewrite nth_error_map in H. destruct (nth_error (g_keys g) i) as [[[k' b] s']|]; [|discriminate]. injection H as -> ->. eauto.
Qed.
Lemma mem_store : forall S g, mem_inv S g -> store_inv S (stores g).
Proof.
  intros S g [A B]. split; [|rewrite map_stores; auto]. intros i k s Hin. apply stores_nth in Hin as [b Hin].
  destruct (A i k b s Hin) as (x & Ex & C & H & _ & F). exists x. split; auto. split; auto. eapply kinv_sinv; eauto.
Qed.

Lemma Forall2_nth_r : forall {A B} (R : A -> B -> Prop) l l' i y, Forall2 R l l' -> nth_error l' i = Some y -> exists x, nth_error l i = Some x /\ R x y.
Proof.
  intros A B R l l' i y F. revert i. induction F as [|a b l l' H F IH]; intros i E; [destruct i; discriminate|]. destruct i as [|i]; [injection E as <-; exists a; auto|apply IH; auto].
Qed.
(** A new instance. Rows of a store do not go beyond the recorded ones, if row groups are coalesced. *)
Lemma fresh_inv : forall S ks g, dichotomy (map snd ks) ->
  (forall i k s, nth_error ks i = Some (k, s) -> exists x, k = conf x /\ nth_error keys i = Some x /\ sinv_ S x s /\ (no_coalescing k \/
     exists H b, kinv_ S x H b s /\ b_bin b = None /\ Q /\ (H = [] \/ md_of (s_main s) <> None))) ->
  init pre0 seg0 post0 ks = Ok g -> mem_inv S g /\ (forall x, In x (g_keys g) -> b_bin (snd (fst x)) = None) /\ map (fun x => (fst (fst x), snd x)) (g_keys g) = ks.
Proof.
  intros S ks g B Ti E. destruct (init_inv _ _ _ _ _ E) as [F HR].
  assert (Ek : map (fun x => (fst (fst x), snd x)) (g_keys g) = ks).
  { clear - F. induction F as [|[k s] y l l' H F IH]; auto. simpl. rewrite IH. f_equal. simpl in H. destruct (s_main s); [destruct H as (md & _ & ->)|rewrite H]; auto. }
  assert (G : forall i k b s, nth_error (g_keys g) i = Some (k, b, s) -> b_bin b = None /\ exists x, k = conf x /\ nth_error keys i = Some x /\ exists H, consistent idx S (g_restart g) (kp x) H /\ kinv_ S x H b s).
  { intros i k b s Hin. destruct (Forall2_nth_r _ _ _ _ _ F Hin) as ([k' s'] & Hks0 & Hf). unfold fresh_key in Hf.
    assert (Bk : exists seg post, b = mkBuf 0 None None [] [] seg post /\ k' = k /\ s' = s /\
       match s_main s with None => seg = seg0 | Some e => exists md, e_md e = Some md /\ seg = m_seg md end).
    { destruct (s_main s') eqn:Es.
      - destruct Hf as (md & Em & Q0). injection Q0 as -> -> ->. exists (m_seg md), (m_post md). rewrite Es. repeat (split; auto). exists md. auto.
      - injection Hf as -> -> ->. exists seg0, post0. rewrite Es. auto. }
    destruct Bk as (seg & post & -> & -> & -> & Hseg). destruct (Ti i k s Hks0) as (x & Ex & Hk0 & [Sd Sm] & Tx). split; auto. exists x. split; auto. split; auto. subst k. pose proof (nth_error_In _ _ Hks0) as Hks. pose proof (nth_error_In _ _ Hk0) as Hk.
    (* rows recorded *)
    assert (R : exists H, consistent idx S (g_restart g) (kp x) H /\ starts H (rows_of x Sf) /\ Inv x H seg /\
       (forall c, In c (chans (conf x) (T x) (TS x) (m x) (ms x)) -> at_rest (rows_of x Sf) c H s) /\
       (forall md, md_of (s_main s) = Some md -> consistent idx S (Some (m_restart md)) (kp x) H /\ Inv x H (m_seg md)) /\
       ((exists H' b', kinv_ S x H' b' s /\ b_bin b' = None /\ Q /\ (H' = [] \/ md_of (s_main s) <> None)) ->
        exists H' b', kinv_ S x H' b' s /\ b_bin b' = None /\ H' = H)).
    { destruct (s_main s) as [e|] eqn:Es.
      - destruct Hseg as (md & Em & ->). cbn [md_of] in Sm. destruct (Sm md Em) as (Hrec & S1 & S2 & S3 & S4).
        assert (Hr : g_restart g = Some (m_restart md)).
        { assert (Hi : In (m_restart md) (restarts_of ks)). { unfold restarts_of. apply in_flat_map. exists (conf x, s). split; auto. cbn [snd]. rewrite Es, Em. left. auto. }
          destruct (g_restart g) as [r1|]; [destruct HR as [_ HR]; rewrite (HR _ Hi); auto|]. rewrite HR in Hi. destruct Hi. }
        exists Hrec. rewrite Hr. split; auto. split; auto. split; auto. split; auto. split.
        + intros md' Em'. cbn [md_of] in Em'. assert (md' = md) as -> by congruence. auto.
        + intros (H' & b' & (K1 & K2 & K3 & K4) & Bb & Tq & _). exists H', b'. split; [split; auto|]. split; auto.
          destruct (K4 md) as (Hr' & rest & E1 & E2 & _ & _ & E3 & _); [rewrite Es; auto|]. rewrite (E3 Tq Bb), app_nil_r in E1. subst H'.
          destruct S2 as [_ S2], E2 as [_ E2]. congruence.
      - subst seg. assert (Hr : g_restart g = None).
        { destruct (g_restart g) as [r1|]; auto. destruct HR as [HR _]. exfalso. unfold restarts_of in HR. apply in_flat_map in HR as ([k2 s2] & Hin2 & HR). cbn [snd] in HR.
          destruct B as [B|B].
          - specialize (B s2 (in_map snd _ _ Hin2)). destruct (s_main s2); [|destruct HR]. cbn [md_of] in B. rewrite B in HR. destruct HR.
          - apply (B s (in_map snd _ _ Hks)). auto. }
        exists []. rewrite Hr. split; [reflexivity|]. split; [apply starts_nil|]. split; [apply (tab_start _ _ _ _ _ _ (Htab x Hk))|]. split; [|split].
        + intros c Hc. left. destruct (chan_facts (conf x) seg0 (ok x) (T x) (TS x) (Inv x) (m x) (ms x) (Htab x Hk) (Hpost x Hk) (Hpar x Hk) c Hc) as (_ & _ & -> & _). apply starts_nil.
        + intros md Em. discriminate.
        + intros (H' & b' & K & Bb & _ & [->|Hn]); [eauto|]. exfalso. apply Hn. auto. }
    destruct R as (H & R1 & R2 & R3 & R4 & R5 & R6). exists H. split; auto. split; auto. split; auto. split.
    - split; auto. cbn [b_snap b_bin]. split; auto. intros c Hc. split; [|split; [|split]].
      + unfold chans in Hc. destruct (k_type (conf x)); simpl in Hc; destruct Hc as [<-|Hc]; try (destruct Hc as [<-|[]]); try contradiction; auto.
      + unfold chans in Hc. destruct (k_type (conf x)); simpl in Hc; destruct Hc as [<-|Hc]; try (destruct Hc as [<-|[]]); try contradiction; auto.
      + apply R4; auto.
      + unfold tight. destruct Tx as [[N1 N2]|Hx].
        * left. unfold chans in Hc. destruct (k_type (conf x)); simpl in Hc; destruct Hc as [<-|Hc]; try (destruct Hc as [<-|[]]); try contradiction; auto.
        * destruct (R6 Hx) as (H' & b' & (_ & _ & (_ & _ & Mc) & _) & Bb & ->). rewrite Bb in Mc. apply (Mc c Hc).
    - intros md Em. destruct (R5 md Em) as [R7 R8]. exists H, []. rewrite app_nil_r. split; [auto|split; [auto|split; [auto|split; [cbn [b_bin]; congruence|split; [auto|exact R4]]]]]. }
  split; [|split; auto].
  - split; [intros i k b s Hin; apply (G i k b s Hin)|]. replace (map snd (g_keys g)) with (map snd ks); auto. rewrite <- Ek, map_map. apply map_ext. intros [[k b] s]. auto.
  - intros [[k b] s] Hin. apply In_nth_error in Hin as [i Hin]. apply (G i k b s Hin).
Qed.

Lemma consistent_starts : forall S R k H, grows idx S Sf -> consistent idx S R (kp k) H -> starts H (rows_of k Sf).
Proof.
  intros S R k H E C. pose proof (consistent_grow idx S Sf R (kp k) H E C) as C'.
  unfold consistent in C'. destruct R as [r|]; [|subst H; apply starts_nil]. destruct C' as ((x & Hx & Hr) & ->).
  pose proof (le_last_index idx Sf x Hsf Hx) as Hl. unfold rows_of.
  pose proof (split_below idx Sf r Hsf) as Es. exists (filter (fun y => kp k y && (idx y <? last_index Sf)) (filter (fun y => negb (idx y <? r)) Sf)).
  rewrite Es at 1. rewrite filter_app. f_equal. rewrite filter_filter. apply filter_ext. intro y. destruct (idx y <? r) eqn:Q0; [|rewrite andb_false_r; auto].
  simpl. apply Z.ltb_lt in Q0. replace (idx y <? last_index Sf) with true; auto. symmetry. apply Z.ltb_lt. lia.
Qed.

(** There is a restart index once there are results. *)
Lemma restart_known : forall S x R b (s : kstore), In x keys -> consistent idx S R (kp x) (rows_of x S) -> kinv_ S x (rows_of x S) b s -> b_bin b <> None ->
  exists i, R = Some i /\ (Q -> truthy i = true).
Proof.
  intros S x R b s Hk C2 K1 Hb. destruct R as [j|]; [exists j; auto|]. exfalso. cbn [consistent] in C2. rewrite C2 in K1.
  destruct K1 as (_ & _ & (_ & _ & Mc) & _). destruct (b_bin b) as [f|]; [|congruence]. destruct Mc as [_ Mc].
  assert (Nz : forall c : @chan D P SB PB, In c (chans (conf x) (T x) (TS x) (m x) (ms x)) -> False).
  { intros c Hc. destruct (Mc c Hc) as (f0 & A & _ & Hf0 & ET & _).
    destruct (chan_facts (conf x) seg0 (ok x) (T x) (TS x) (Inv x) (m x) (ms x) (Htab x Hk) (Hpost x Hk) (Hpar x Hk) c Hc) as (_ & _ & ET0 & _).
    rewrite ET0 in ET. symmetry in ET. apply app_eq_nil in ET as [_ ET]. apply app_eq_nil in ET as [_ ET]. auto. }
  unfold chans in Nz. destruct (k_type (conf x)); eapply Nz; left; reflexivity.
Qed.

(** A call to 'agg'. *)
Lemma agg_step_at : forall S g g' seed final ex, mem_inv S g -> concat seed = S -> grows idx S Sf -> (forall c, In c seed -> c <> []) ->
  agg idx truthy usage pre fs g seed true true final = Ok (g', ex) ->
  ex = None /\ mem_inv S g' /\
  (forall i k b s, nth_error (g_keys g') i = Some (k, b, s) -> exists x, k = conf x /\ nth_error keys i = Some x /\ kinv_ S x (rows_of x S) b s /\ consistent idx S (g_restart g') (kp x) (rows_of x S)) /\
  (final = true -> forall k b s, In (k, b, s) (g_keys g') -> b_bin b = None /\ (Q -> g_restart g' <> None -> md_of (s_main s) <> None)) /\
  ((forall s, In s (map snd (g_keys g)) -> s_main s <> None) -> forall s, In s (map snd (g_keys g')) -> s_main s <> None).
Proof.
  intros S g g' seed final ex [Hm Hd] Eseed HSf Hne E.
  pose proof (proj1 (proj2 HSf)) as Hs.
  destruct (iter_data_spec idx fs gs Hfs pre Hpre (g_restart g) true true seed (g_pre g) Hne) as (Ne & Dl & Rs); [rewrite Eseed; auto|].
  fold (ys_of idx fs pre g true true seed) in Ne, Dl, Rs.
  destruct (agg_log idx truthy usage fs gs Hfs pre Hpre g g' seed true true final ex Hne) as (-> & Hr & L & EL & Ln & LL); [rewrite Eseed; auto|auto|].
  assert (Rw : forall id c, In c (chunks_of id (ys_of idx fs pre g true true seed)) -> c <> []).
  { intros id c. apply chunks_rows. unfold ys_of, iter_data. destruct (g_restart g); apply (iter_rows idx fs gs Hfs). }
  set (ys := ys_of idx fs pre g true true seed) in *. rewrite Eseed in *.
  assert (K : forall i k b s, nth_error (g_keys g) i = Some (k, b, s) -> exists b' a, nth_error (g_keys g') i = Some (k, b', apply_acts s a) /\ acts_of i L = a /\ exists x, k = conf x /\ nth_error keys i = Some x /\
     kinv_ S x (rows_of x S) b' (apply_acts s a) /\ consistent idx S (g_restart g') (kp x) (rows_of x S) /\
     (final = true -> b_bin b' = None) /\
     (forall a1 a2, a = a1 ++ a2 -> s_main s <> None -> s_main (apply_acts s a1) <> None) /\
     (if final then match g_restart g' with Some i => if truthy i then md_of (s_main (apply_acts s a)) <> None else md_of (s_main (apply_acts s a)) = None \/ md_of (s_main (apply_acts s a)) = md_of (s_main s)
                    | None => md_of (s_main (apply_acts s a)) = None \/ md_of (s_main (apply_acts s a)) = md_of (s_main s) end
      else md_of (s_main (apply_acts s a)) = None \/ md_of (s_main (apply_acts s a)) = md_of (s_main s))).
  { intros i k b s Hn. destruct (LL i k b s Hn) as (b' & a & (b1 & a1 & a2 & Kr & Ea & Fw) & B & C). simpl in C. exists b', a. split; auto. split; auto.
    destruct (Hm i k b s Hn) as (x & Ex & Hk0 & H & HC & HK). exists x. split; auto. split; auto. subst k. pose proof (nth_error_In _ _ Hk0) as Hk.
    destruct (consistent_run idx S (g_restart g) (kp x) H (g_restart g') Hs HC) as [C1 C2].
    { rewrite Hr. destruct Rs as [[Rs1 Rs2]|(N & R2 & R3 & R4 & R5 & R6)]; [left; split; auto; intros; eapply Rs2; eauto|].
      right. exists N. split; auto. split; auto. split; auto. split; [destruct (g_restart g); auto|]. intros r0 Hr0 Hg0 Hw. eapply (R6 _ _ _ (Hkp x Hk)); eauto. }
    cbv zeta in C1, C2. rewrite <- (Dl _ _ (Hkp x Hk)), delivered_chunks in C1, C2. fold (rows_of x S) in C1.
    destruct (key_run_inv truthy usage (conf x) seg0 (ok x) (T x) (TS x) (Inv x) (m x) (ms x) (Htab x Hk) (Hpost x Hk) (Hpar x Hk) (rows_of x Sf) (Hokf x Hk) (ok_app x) _ Q
      _ H b s (g_pre g) b1 a1 HK (fun c => Rw (k_filter (conf x)) c)) as (K1 & K2 & K3 & K4); auto.
    { apply (consistent_starts S (g_restart g') x); auto. }
    rewrite C1 in C2, K1.
    destruct final.
    - destruct (final_inv truthy usage (conf x) seg0 (ok x) (T x) (TS x) (Inv x) (m x) (ms x) (Htab x Hk) (Hpost x Hk) (Hpar x Hk) (rows_of x Sf) (Hokf x Hk) (ok_app x) _ Q
        (rows_of x S) b1 (apply_acts s a1) (g_restart g') (g_pre g') b' a2 K1) as (F1 & F2 & F3 & F4 & F5); auto.
      { intros j Ej. rewrite Ej in C2. auto. }
      { intro Hb. eapply restart_known; eauto. }
      rewrite Ea, apply_acts_app. split; auto. split; auto. split; auto. split.
      + intros c1 c2 Ec Hmn. destruct (app_eq_starts _ _ _ _ Ec) as [[q Eq]|[q Eq]].
        * subst c1. rewrite apply_acts_app. rewrite <- app_assoc in Ec. apply app_inv_head in Ec. apply (F4 q c2 Ec). apply (K3 a1 []); auto. rewrite app_nil_r. auto.
        * apply (K3 c1 q); auto.
      + destruct (g_restart g') as [j|]; [destruct (truthy j)|].
        * destruct F5 as (md & Q0 & _). congruence.
        * destruct F5 as [F5|F5]; auto. rewrite F5. auto.
        * destruct F5 as [F5|F5]; auto. rewrite F5. auto.
    - destruct Fw as [-> ->]. rewrite app_nil_r in Ea. subst a1. split; auto. split; auto. split; [discriminate|].
      split; auto. intros c1 c2 Ec. apply (K3 c1 c2 Ec). }
  assert (Back' : forall i x, nth_error (g_keys g') i = Some x -> exists k b s, nth_error (g_keys g) i = Some (k, b, s)).
  { intros i x Hx. assert (Hi : (i < length (g_keys g))%nat) by (rewrite <- Ln; apply nth_error_Some; congruence).
    apply nth_error_Some in Hi. destruct (nth_error (g_keys g) i) as [[[k b] s]|] eqn:En; [|congruence]. exists k, b, s. auto. }
  assert (Back : forall x, In x (g_keys g') -> exists i k b s, nth_error (g_keys g) i = Some (k, b, s) /\ nth_error (g_keys g') i = Some x).
  { intros x Hx. apply In_nth_error in Hx as [i Hx]. assert (Hi : (i < length (g_keys g))%nat) by (rewrite <- Ln; apply nth_error_Some; congruence).
    apply nth_error_Some in Hi. destruct (nth_error (g_keys g) i) as [[[k b] s]|] eqn:En; [|congruence]. exists i, k, b, s. auto. }
  split; auto. split.
  { split.
    - intros i k b s N2. destruct (Back' i _ N2) as (k0 & b0 & s0 & N1). destruct (K _ _ _ _ N1) as (b' & a & N3 & _ & x & Ex & Hk & K1 & K2 & _).
      rewrite N2 in N3. injection N3 as -> -> ->. exists x. split; auto. split; auto. exists (rows_of x S). auto.
    - destruct Hd as [Hd|Hd].
      + (* metadata of all keys is recorded, or of none *)
        assert (Hd' : forall i k b s, nth_error (g_keys g) i = Some (k, b, s) -> md_of (s_main s) = None).
        { intros i k b s N. apply Hd. apply in_map_iff. exists (k, b, s). split; auto. eapply nth_error_In; eauto. }
        assert (Cases : (forall i k b s b' a, nth_error (g_keys g) i = Some (k, b, s) -> nth_error (g_keys g') i = Some (k, b', apply_acts s a) -> acts_of i L = a -> md_of (s_main (apply_acts s a)) <> None) \/
           (forall i k b s b' a, nth_error (g_keys g) i = Some (k, b, s) -> nth_error (g_keys g') i = Some (k, b', apply_acts s a) -> acts_of i L = a -> md_of (s_main (apply_acts s a)) = None)).
        { destruct (match g_restart g' with Some i => final && truthy i | None => false end) eqn:Eq; [left|right]; intros i k b s b' a N1 N2 Ea;
            destruct (K _ _ _ _ N1) as (b1 & a1 & N3 & Ea1 & x & _ & _ & _ & _ & _ & _ & Kd); rewrite Ea in Ea1; subst a1.
          - destruct (g_restart g') as [j|]; [|discriminate]. apply andb_true_iff in Eq as [-> Eq]. rewrite Eq in Kd. auto.
          - pose proof (Hd' _ _ _ _ N1) as Hn. destruct final; [|destruct Kd; congruence]. destruct (g_restart g') as [j|]; [|destruct Kd; congruence].
            cbn [andb] in Eq. rewrite Eq in Kd. destruct Kd; congruence. }
        destruct Cases as [Cs|Cs]; [right|left]; intros s Hin; apply in_map_iff in Hin as ([[k b] s'] & <- & Hin); destruct (Back _ Hin) as (i & k0 & b0 & s0 & N1 & N2);
          destruct (K _ _ _ _ N1) as (b' & a & N3 & Ea & _); rewrite N2 in N3; injection N3 as -> -> ->; specialize (Cs i k0 b0 s0 b' a N1 N2 Ea); cbn [snd].
        * intro Q0. rewrite Q0 in Cs. auto.
        * exact Cs.
      + right. intros s Hin. apply in_map_iff in Hin as ([[k b] s'] & <- & Hin). destruct (Back _ Hin) as (i & k0 & b0 & s0 & N1 & N2).
        destruct (K _ _ _ _ N1) as (b' & a & N3 & Ea & x & _ & _ & _ & _ & _ & Km & _). rewrite N2 in N3. injection N3 as -> -> ->. cbn [snd]. apply (Km a []); [rewrite app_nil_r; auto|].
        apply Hd. apply in_map_iff. exists (k0, b0, s0). split; auto. eapply nth_error_In; eauto. }
  split.
  { intros i k b s N2. destruct (Back' i _ N2) as (k0 & b0 & s0 & N1). destruct (K _ _ _ _ N1) as (b' & a & N3 & _ & x & Ex & Hk & K1 & K2 & _).
    rewrite N2 in N3. injection N3 as -> -> ->. exists x. repeat (split; auto). }
  split.
  { intros Ef k b s Hin. destruct (Back _ Hin) as (i & k0 & b0 & s0 & N1 & N2). destruct (K _ _ _ _ N1) as (b' & a & N3 & _ & x & _ & _ & _ & _ & Kb & _ & Kd).
    rewrite N2 in N3. injection N3 as -> -> ->. split; auto. intros Tq Hn. rewrite Ef in Kd. destruct (g_restart g') as [j|]; [|congruence]. rewrite (Tq j) in Kd. auto. }
  { intros Hmn s Hin. apply in_map_iff in Hin as ([[k b] s'] & <- & Hin). destruct (Back _ Hin) as (i & k0 & b0 & s0 & N1 & N2).
    destruct (K _ _ _ _ N1) as (b' & a & N3 & Ea & x & _ & _ & _ & _ & _ & Km & _). rewrite N2 in N3. injection N3 as -> -> ->. cbn [snd]. apply (Km a []); [rewrite app_nil_r; auto|].
    apply Hmn. apply in_map_iff. exists (k0, b0, s0). split; auto. eapply nth_error_In; eauto. }
Qed.

Lemma agg_step : forall S g g' seed final ex, mem_inv S g -> concat seed = S -> grows idx S Sf -> (forall c, In c seed -> c <> []) ->
  agg idx truthy usage pre fs g seed true true final = Ok (g', ex) ->
  ex = None /\ mem_inv S g' /\
  (forall i k b s, nth_error (g_keys g') i = Some (k, b, s) -> exists x, k = conf x /\ nth_error keys i = Some x /\ kinv_ S x (rows_of x S) b s) /\
  (final = true -> forall k b s, In (k, b, s) (g_keys g') -> b_bin b = None /\ (Q -> g_restart g' <> None -> md_of (s_main s) <> None)) /\
  ((forall s, In s (map snd (g_keys g)) -> s_main s <> None) -> forall s, In s (map snd (g_keys g')) -> s_main s <> None).
Proof.
  intros S g g' seed final ex Hm Es Hf Hne E. destruct (agg_step_at S g g' seed final ex Hm Es Hf Hne E) as (A & B & C & F). split; auto. split; auto. split; auto.
  intros i k b s N. destruct (C i k b s N) as (x & Ex & Hx & K & _). exists x. auto.
Qed.

(** A call to 'agg', interrupted or which raises. *)
Lemma part_sinv : forall S x H b (s : kstore) p chunks a, In x keys -> k_type (conf x) <> BOTH -> kinv_ S x H b s -> (forall c, In c chunks -> c <> []) ->
  starts (H ++ concat chunks) (rows_of x Sf) -> part_run truthy usage (conf x) p b s chunks a ->
  forall a1 a2, a = a1 ++ a2 -> sinv_ S x (apply_acts s a1).
Proof.
  intros S x H b s p chunks a Hk Ht HK Hne St (c1 & c2 & b1 & a0 & -> & Kr & Ea) a1 a2 E.
  destruct (key_run_inv truthy usage (conf x) seg0 (ok x) (T x) (TS x) (Inv x) (m x) (ms x) (Htab x Hk) (Hpost x Hk) (Hpar x Hk) (rows_of x Sf) (Hokf x Hk) (ok_app x) _ Q
      c1 H b s p b1 a0 HK) as (K1 & _ & K3 & _); auto.
  { intros c Hc. apply Hne. apply in_or_app. auto. }
  { destruct St as [q Eq]. exists (concat c2 ++ q). rewrite Eq, concat_app, <- !app_assoc. auto. }
  destruct Ea as [->|Ea]; [apply (K3 a1 a2 E)|]. rewrite Ea in E.
  destruct (app_eq_starts _ _ _ _ E) as [[q Eq]|[q Eq]]; [|apply (K3 a1 q Eq)].
  subst a1. rewrite apply_acts_app. rewrite <- app_assoc in E. apply app_inv_head in E.
  pose proof (buffer_results_same truthy usage (conf x) b1 (apply_acts s a0) p) as Es. destruct (buffer_results_t truthy usage (conf x) b1 (apply_acts s a0) p) as [acts r] eqn:Eb.
  cbn [fst] in E. destruct r as [b2|e].
  - eapply (buffer_sinv truthy usage (conf x) seg0 (ok x) (T x) (TS x) (Inv x) (m x) (ms x) (Htab x Hk) (Hpost x Hk) (Hpar x Hk) (rows_of x Sf) (Hokf x Hk) (ok_app x)); [exact K1|exact Es|exact E].
  - apply buffer_raises in Eb; auto. subst acts. symmetry in E. apply app_eq_nil in E as [-> _]. eapply kinv_sinv; eauto.
Qed.

Lemma raised_step : forall S g g' seed final r, mem_inv S g -> concat seed = S -> grows idx S Sf -> (forall c, In c seed -> c <> []) ->
  agg_t idx truthy usage pre fs g seed true true final = (g', r) ->
  (forall x, In x keys -> k_type (conf x) <> BOTH) -> (forall s, In s (map snd (g_keys g)) -> s_main s <> None) ->
  forall n, let ks := after_acts 0 (g_keys g) (made n (skipn (length (g_log g)) (g_log g'))) in
  store_inv S (map (fun x => let '(k, b, s) := x in (k, s)) ks) /\ forall k b s, In (k, b, s) ks -> s_main s <> None.
Proof.
  intros S g g' seed final r [Hm Hd] Eseed HSf Hne E Ht Hmn n ks.
  pose proof (proj1 (proj2 HSf)) as Hs.
  destruct (iter_data_spec idx fs gs Hfs pre Hpre (g_restart g) true true seed (g_pre g) Hne) as (Ne & Dl & Rs); [rewrite Eseed; auto|].
  fold (ys_of idx fs pre g true true seed) in Ne, Dl, Rs.
  destruct (agg_t_log idx truthy usage fs gs Hfs pre Hpre g g' seed true true final r Hne) as (L & EL & LL); [rewrite Eseed; auto|auto|].
  assert (Rw : forall id c, In c (chunks_of id (ys_of idx fs pre g true true seed)) -> c <> []).
  { intros id c. apply chunks_rows. unfold ys_of, iter_data. destruct (g_restart g); apply (iter_rows idx fs gs Hfs). }
  set (ys := ys_of idx fs pre g true true seed) in *. rewrite Eseed in *.
  assert (A : forall i k b s, nth_error ks i = Some (k, b, s) -> (exists x, k = conf x /\ nth_error keys i = Some x /\ sinv_ S x s) /\ s_main s <> None).
  { intros i k b s Hin. apply after_acts_nth_error in Hin as (s0 & N & ->). split; [|apply apply_acts_main; apply Hmn; apply in_map_iff; exists (k, b, s0); split; auto; eapply nth_error_In; eauto].
    assert (Ep : exists a2, acts_of i L = acts_of (0 + i) (made n (skipn (length (g_log g)) (g_log g'))) ++ a2).
    { exists (skipn (n i) (acts_of i L)). cbn [Nat.add]. rewrite made_acts, EL, skipn_app, skipn_all, Nat.sub_diag. symmetry. apply firstn_skipn. }
    destruct Ep as [a2 Ep]. set (a1 := acts_of (0 + i) _) in *. clearbody a1.
    destruct (Hm i k b s0 N) as (x & Ex & Hk0 & H & HC & HK). exists x. split; auto. split; auto. subst k. pose proof (nth_error_In _ _ Hk0) as Hk.
    destruct (consistent_run idx S (g_restart g) (kp x) H (restart_after (g_restart g) ys) Hs HC) as [C1 C2].
    { destruct Rs as [[Rs1 Rs2]|(N0 & R2 & R3 & R4 & R5 & R6)]; [left; split; auto; intros; eapply Rs2; eauto|].
      right. exists N0. split; auto. split; auto. split; auto. split; [destruct (g_restart g); auto|]. intros r0 Hr0 Hg0 Hw. eapply (R6 _ _ _ (Hkp x Hk)); eauto. }
    cbv zeta in C1, C2. rewrite <- (Dl _ _ (Hkp x Hk)), delivered_chunks in C1, C2. fold (rows_of x S) in C1.
    assert (St : starts (H ++ concat (chunks_of (k_filter (conf x)) ys)) (rows_of x Sf)) by (apply (consistent_starts S (restart_after (g_restart g) ys) x); auto).
    destruct (LL i _ b s0 N) as [Pr|(b1 & a0 & p' & -> & Kr & Ea)]; [apply (part_sinv S x H b s0 (g_pre g) (chunks_of (k_filter (conf x)) ys) (acts_of i L) Hk (Ht x Hk) HK (fun c => Rw (k_filter (conf x)) c) St Pr a1 a2 Ep)|].
    destruct (key_run_inv truthy usage (conf x) seg0 (ok x) (T x) (TS x) (Inv x) (m x) (ms x) (Htab x Hk) (Hpost x Hk) (Hpar x Hk) (rows_of x Sf) (Hokf x Hk) (ok_app x) _ Q
      _ H b s0 (g_pre g) b1 a0 HK (fun c => Rw (k_filter (conf x)) c) St Kr) as (K1 & _ & K3 & _).
    rewrite Ea in Ep. symmetry in Ep. destruct (app_eq_starts _ _ _ _ (eq_sym Ep)) as [[q Eq]|[q Eq]]; [|apply (K3 a1 q Eq)].
    subst a1. rewrite apply_acts_app. symmetry in Ep. rewrite <- app_assoc in Ep. apply app_inv_head in Ep.
    pose proof (post_n_write_same truthy (conf x) b1 (apply_acts s0 a0) true (restart_after (g_restart g) ys) p') as Es.
    destruct (post_n_write_t truthy (conf x) b1 (apply_acts s0 a0) true (restart_after (g_restart g) ys) p') as [acts rr] eqn:Eb. cbn [fst] in Ep. destruct rr as [b2|e].
    - rewrite C1 in C2, K1. eapply (final_inv truthy usage (conf x) seg0 (ok x) (T x) (TS x) (Inv x) (m x) (ms x) (Htab x Hk) (Hpost x Hk) (Hpar x Hk) (rows_of x Sf) (Hokf x Hk) (ok_app x) _ Q
        (rows_of x S) b1 (apply_acts s0 a0) (restart_after (g_restart g) ys) p' b2 acts K1); eauto.
      { intros j Ej. rewrite Ej in C2. auto. }
      { intro Hb. eapply restart_known; eauto. }
    - apply post_n_write_raises in Eb; auto. subst acts. symmetry in Ep. apply app_eq_nil in Ep as [-> _]. eapply kinv_sinv; eauto. }
  split; [|intros k b s Hin; apply In_nth_error in Hin as [i Hin]; apply (A i k b s Hin)]. split.
  - intros i k s Hin. rewrite nth_error_map in Hin. destruct (nth_error ks i) as [[[k' b] s']|] eqn:En; [|discriminate]. injection Hin as -> ->. apply (A i k b s En).
  - right. rewrite map_map. intros s Hin. apply in_map_iff in Hin as ([[k b] s'] & <- & Hin). cbn [snd]. apply In_nth_error in Hin as [i Hin]. apply (A i k b s' Hin).
Qed.

(** ** Runs, interrupted or not *)
Definition written_inv (g : stream) : Prop :=
  forall k b s, In (k, b, s) (g_keys g) -> b_bin b = None /\ (Q -> g_restart g <> None -> md_of (s_main s) <> None).
Definition coalescing_fine (S : list D) (g : stream) (r : @run D) : Prop :=
  (forall x, In x keys -> no_coalescing (conf x)) \/ (Q /\ mem_inv S g /\ (r_fresh r = true -> written_inv g)).

Lemma start_step : forall S g r g1, (mem_inv S g \/ (r_fresh r = true /\ store_inv S (stores g))) -> coalescing_fine S g r ->
  (if r_fresh r then init pre0 seg0 post0 (map (fun x => let '(k, b, s) := x in (k, s)) (g_keys g)) else Ok g) = Ok g1 ->
  mem_inv S g1 /\ map snd (g_keys g1) = map snd (g_keys g) /\ map (fun x => fst (fst x)) (g_keys g1) = map (fun x => fst (fst x)) (g_keys g).
Proof.
  intros S g r g1 Hi Hc E. destruct (r_fresh r) eqn:Ef.
  - fold (stores g) in E. destruct (fresh_inv S (stores g) g1) as (A & B & C); auto.
    + destruct Hi as [[_ Hi]|[_ [_ Hi]]]; [rewrite map_stores|]; auto.
    + intros i k s Hin. destruct Hc as [Hc|(Tq & Hm & Hw)].
      * assert (Hi' : store_inv S (stores g)) by (destruct Hi as [Hi|[_ Hi]]; auto; apply mem_store; auto).
        destruct (proj1 Hi' i k s Hin) as (x & Ex & Hx & Hs). exists x. split; auto. split; auto. split; auto. left. subst k. apply Hc. eapply nth_error_In; eauto.
      * apply stores_nth in Hin as [b Hin].
        destruct Hm as [Hm _]. destruct (Hm i k b s Hin) as (x & Ex & Hx & H & HC & HK). exists x. split; auto. split; auto. split; [eapply kinv_sinv; eauto|]. right. exists H, b.
        destruct (Hw Ef k b s (nth_error_In _ _ Hin)) as [W1 W2]. split; auto. split; auto. split; auto.
        destruct (g_restart g); [right; apply W2; auto; congruence|left; exact HC].
    + split; auto. pose proof (map_stores g) as M1. split.
      * rewrite <- M1, <- C, map_map. apply map_ext. auto.
      * transitivity (map fst (stores g)); [rewrite <- C, map_map; apply map_ext; auto|]. unfold stores. rewrite map_map. apply map_ext. intros [[k b] s]. auto.
  - injection E as <-. destruct Hi as [Hi|[Q0 _]]; [auto|discriminate].
Qed.

Lemma run_step : forall S g r g', (mem_inv S g \/ (r_fresh r = true /\ store_inv S (stores g))) -> coalescing_fine S g r ->
  grows idx S (concat (r_seed r)) -> grows idx (concat (r_seed r)) Sf -> (forall c, In c (r_seed r) -> c <> []) ->
  run_once idx truthy usage pre fs pre0 seg0 post0 g r = Ok g' ->
  mem_inv (concat (r_seed r)) g' /\ (forall i k b s, nth_error (g_keys g') i = Some (k, b, s) -> exists x, k = conf x /\ nth_error keys i = Some x /\ kinv_ (concat (r_seed r)) x (rows_of x (concat (r_seed r))) b s) /\
  (r_final r = true -> written_inv g').
Proof.
  intros S g r g' Hi Hc Es HSf Hne E. unfold run_once in E.
  match type of E with bind ?X _ = _ => destruct X as [g1|] eqn:E1 end; cbn [bind] in E; [|discriminate].
  destruct (agg idx truthy usage pre fs g1 (r_seed r) true true (r_final r)) as [[g2 ex]|] eqn:E2; cbn [bind] in E; [|discriminate].
  destruct (start_step S g r g1 Hi Hc E1) as (M & _ & _).
  pose proof (mem_inv_grow S _ g1 Es M) as M'.
  destruct (agg_step _ g1 g2 (r_seed r) (r_final r) ex M' eq_refl HSf Hne E2) as (-> & A & B & C & _). injection E as <-. auto.
Qed.

Lemma interrupted_step : forall S g r n g', (forall x, In x keys -> k_type (conf x) <> BOTH /\ no_coalescing (conf x)) ->
  (mem_inv S g \/ (r_fresh r = true /\ store_inv S (stores g))) -> (forall s, In s (map snd (g_keys g)) -> s_main s <> None) ->
  grows idx S (concat (r_seed r)) -> grows idx (concat (r_seed r)) Sf -> (forall c, In c (r_seed r) -> c <> []) ->
  step_once idx truthy usage pre fs pre0 seg0 post0 g (Interrupted r n) = Ok g' ->
  store_inv (concat (r_seed r)) (stores g') /\ forall s, In s (map snd (g_keys g')) -> s_main s <> None.
Proof.
  intros S g r n g' Hk Hi Hmn Es HSf Hne E. cbn [step_once] in E.
  match type of E with bind ?X _ = _ => destruct X as [g1|] eqn:E1 end; cbn [bind] in E; [|discriminate].
  destruct (agg_t idx truthy usage pre fs g1 (r_seed r) true true (r_final r)) as [g2 ex] eqn:E2.
  destruct (start_step S g r g1 Hi (or_introl (fun k Hin => proj2 (Hk k Hin))) E1) as (M & Ms & _).
  pose proof (mem_inv_grow S _ g1 Es M) as M'.
  destruct (raised_step _ g1 g2 (r_seed r) (r_final r) ex M' eq_refl HSf Hne E2 (fun k Hin => proj1 (Hk k Hin)) ltac:(rewrite Ms; auto) (fun i => nth i n O)) as [A1 A2]. injection E as <-.
  cbn [g_keys]. unfold stores. cbn [g_keys]. split; auto.
  intros s Hin. apply in_map_iff in Hin as ([[k b] s'] & <- & Hin). apply (A2 k b s' Hin).
Qed.

Lemma run_keeps_main : forall S g r g', (mem_inv S g \/ (r_fresh r = true /\ store_inv S (stores g))) -> coalescing_fine S g r -> (forall s, In s (map snd (g_keys g)) -> s_main s <> None) ->
  grows idx S (concat (r_seed r)) -> grows idx (concat (r_seed r)) Sf -> (forall c, In c (r_seed r) -> c <> []) ->
  run_once idx truthy usage pre fs pre0 seg0 post0 g r = Ok g' -> forall s, In s (map snd (g_keys g')) -> s_main s <> None.
Proof.
  intros S g r g' Hi Hc Hmn Es HSf Hne E. unfold run_once in E.
  match type of E with bind ?X _ = _ => destruct X as [g1|] eqn:E1 end; cbn [bind] in E; [|discriminate].
  destruct (agg idx truthy usage pre fs g1 (r_seed r) true true (r_final r)) as [[g2 ex]|] eqn:E2; cbn [bind] in E; [|discriminate].
  destruct (start_step S g r g1 Hi Hc E1) as (M & Ms & _).
  pose proof (mem_inv_grow S _ g1 Es M) as M'.
  destruct (agg_step _ g1 g2 (r_seed r) (r_final r) ex M' eq_refl HSf Hne E2) as (-> & _ & _ & _ & A). injection E as <-. apply A. rewrite Ms. auto.
Qed.

(** What is in store for a key. *)
Definition holds (i : nat) (k : kconf) (s : kstore) : Prop :=
  exists x, k = conf x /\ nth_error keys i = Some x /\ forall c, In c (chans (conf x) (T x) (TS x) (m x) (ms x)) -> all_rows (c_ds c s) = map (c_map c) (c_tab c (rows_of x Sf)).

Lemma whole_seed_cons : forall (r : @run D) rs before, whole_seed before (r :: rs) = whole_seed (concat (r_seed r)) rs.
Proof.
  intros r rs before. unfold whole_seed. destruct rs as [|r' rs]; [simpl; rewrite app_nil_r; auto|].
  change (last (r :: r' :: rs) (mkRun false false [before])) with (last (r' :: rs) (mkRun false false [before])). f_equal. f_equal.
  revert r'. induction rs as [|r2 rs IH]; intro r'; auto. change (last (r' :: r2 :: rs)) with (@last (@run D) (r2 :: rs)). apply IH.
Qed.
Lemma growing_starts : forall rs before, growing idx before rs -> sorted (map idx before) -> grows idx before (whole_seed before rs).
Proof.
  induction rs as [|r rs IH]; intros before H Hs.
  - unfold whole_seed. simpl. rewrite app_nil_r. apply grows_refl; auto.
  - cbn [growing] in H. destruct H as (E1 & Hs1 & _ & H). rewrite whole_seed_cons. eapply grows_trans; [|apply IH; auto]. split; auto.
Qed.

Lemma run_all_batch : forall rs S g g' w, mem_inv S g -> sorted (map idx S) -> growing idx S rs -> Sf = whole_seed S rs ->
  ((forall x, In x keys -> no_coalescing (conf x)) \/ (Q /\ all_written w rs /\ (w = true -> written_inv g))) ->
  run_all idx truthy usage pre fs pre0 seg0 post0 g rs = Ok g' -> rs <> [] -> r_final (last rs (mkRun false false [])) = true ->
  forall i k b s, nth_error (g_keys g') i = Some (k, b, s) -> holds i k s.
Proof.
  induction rs as [|r rs IH]; intros S g g' w Hi HS Hg Ef Hc E Hne Hl; [congruence|]. clear Hne. cbn [growing run_all] in *.
  destruct Hg as (En & Hs & Hch & Hg). pose proof (conj En (conj HS Hs) : grows idx _ _) as G1. clear En. destruct (run_once idx truthy usage pre fs pre0 seg0 post0 g r) as [g1|] eqn:E1; cbn [bind] in E; [|discriminate].
  pose proof (growing_starts _ _ Hg Hs) as E2. rewrite whole_seed_cons in Ef. rewrite <- Ef in E2.
  destruct (run_step S g r g1 (or_introl Hi)) as (M & K & W); eauto.
  { destruct Hc as [Hc|(Tq & [A1 A2] & Wr)]; [left; auto|right; split; auto]. }
  destruct rs as [|r' rs].
  - injection E as <-. cbn [last] in Hl. intros i k b s Hin. destruct (W Hl k b s (nth_error_In _ _ Hin)) as [Hb _]. destruct (K i k b s Hin) as (x & Ex & Hx & K'). pose proof (nth_error_In _ _ Hx). exists x. split; auto. split; auto. intros c Hc'.
    assert (ES : concat (r_seed r) = Sf) by (rewrite Ef; unfold whole_seed; simpl; rewrite app_nil_r; auto). rewrite ES in K'. eapply kinv_final; eauto.
  - apply (IH (concat (r_seed r)) g1 g' (r_final r) M Hs Hg); auto; [|discriminate].
    destruct Hc as [Hc|(Tq & [A1 A2] & Wr)]; [left; auto|right; split; auto].
Qed.

Lemma step_all_batch : (forall x, In x keys -> k_type (conf x) <> BOTH /\ no_coalescing (conf x)) ->
  forall xs S g g' lost, (mem_inv S g \/ (lost = true /\ store_inv S (stores g))) -> (forall s, In s (map snd (g_keys g)) -> s_main s <> None) ->
  sorted (map idx S) -> growing idx S (map run_of xs) -> Sf = whole_seed S (map run_of xs) -> restarted lost xs ->
  step_all idx truthy usage pre fs pre0 seg0 post0 g xs = Ok g' ->
  forall r, last xs (Complete (mkRun false false [])) = Complete r -> r_final r = true ->
  forall i k b s, nth_error (g_keys g') i = Some (k, b, s) -> holds i k s.
Proof.
  intros Hk xs. induction xs as [|x xs IH]; intros S g g' lost Hi Hmn HS Hg Ef Hr E r0 Hl Hfin; [cbn [last] in Hl; injection Hl as <-; discriminate|].
  cbn [map growing step_all restarted] in *. destruct Hg as (En & Hs & Hch & Hg). pose proof (conj En (conj HS Hs) : grows idx _ _) as G1. clear En. destruct Hr as [Hr1 Hr2].
  destruct (step_once idx truthy usage pre fs pre0 seg0 post0 g x) as [g1|] eqn:E1; cbn [bind] in E; [|discriminate].
  pose proof (growing_starts _ _ Hg Hs) as E2. rewrite whole_seed_cons in Ef. rewrite <- Ef in E2.
  assert (Hc : forall x, In x keys -> no_coalescing (conf x)) by (intros k Hin; apply (Hk k Hin)).
  assert (Hi' : mem_inv S g \/ (r_fresh (run_of x) = true /\ store_inv S (stores g))) by (destruct Hi as [Hi|[Hl' Hi]]; auto).
  assert (Next : (mem_inv (concat (r_seed (run_of x))) g1 \/ ((match x with Interrupted _ _ => true | _ => false end) = true /\ store_inv (concat (r_seed (run_of x))) (stores g1))) /\
            (forall s, In s (map snd (g_keys g1)) -> s_main s <> None) /\
            (forall r, x = Complete r -> r_final r = true -> xs = [] -> forall i k b s, nth_error (g_keys g1) i = Some (k, b, s) -> holds i k s)).
  { destruct x as [r|r n]; cbn [run_of] in *.
    - cbn [step_once] in E1. destruct (run_step S g r g1 Hi' (or_introl Hc) G1 E2 Hch E1) as (M & K & W). split; auto.
      split; [eapply (run_keeps_main S g r g1); eauto; left; auto|]. intros r1 Q0 Hf1 -> i k b s Hin. injection Q0 as <-. destruct (W Hf1 k b s (nth_error_In _ _ Hin)) as [Hb _]. destruct (K i k b s Hin) as (x & Ex & Hx & K'). pose proof (nth_error_In _ _ Hx). exists x. split; auto. split; auto. intros c Hc'.
      assert (ES : concat (r_seed r) = Sf) by (rewrite Ef; unfold whole_seed; simpl; rewrite app_nil_r; auto). rewrite ES in K'. eapply kinv_final; eauto.
    - destruct (interrupted_step S g r n g1 Hk Hi' Hmn G1 E2 Hch E1) as [A B]. split; auto. split; auto. intros; discriminate. }
  destruct Next as (N1 & N2 & N3). destruct xs as [|x' xs].
  - injection E as <-. cbn [last] in Hl. subst x. eapply N3; eauto.
  - eapply (IH (concat (r_seed (run_of x))) g1 g'); eauto.
Qed.

Lemma run_all_keeps : forall rs S g g', (forall x, In x keys -> no_coalescing (conf x)) -> mem_inv S g -> sorted (map idx S) -> growing idx S rs -> grows idx (whole_seed S rs) Sf ->
  run_all idx truthy usage pre fs pre0 seg0 post0 g rs = Ok g' -> mem_inv (whole_seed S rs) g'.
Proof.
  induction rs as [|r rs IH]; intros S g g' Hc Hi HS Hg Ef E; cbn [growing run_all] in *.
  - injection E as <-. unfold whole_seed. simpl. rewrite app_nil_r. auto.
  - destruct Hg as (En & Hs & Hch & Hg). pose proof (conj En (conj HS Hs) : grows idx _ _) as G1. clear En. destruct (run_once idx truthy usage pre fs pre0 seg0 post0 g r) as [g1|] eqn:E1; cbn [bind] in E; [|discriminate].
    pose proof (growing_starts _ _ Hg Hs) as E2. rewrite whole_seed_cons in *.
    destruct (run_step S g r g1 (or_introl Hi)) as (M & K & W); eauto.
    + left. auto.
    + eapply grows_trans; eauto.
Qed.

Lemma new_mem_inv : mem_inv [] (new_stream pre0 seg0 post0 (map conf keys)) /\ written_inv (new_stream pre0 seg0 post0 (map conf keys)).
Proof.
  unfold new_stream. split.
  - split.
    + intros i k b s Hin. cbn [g_keys] in Hin. rewrite map_map, nth_error_map in Hin. destruct (nth_error keys i) as [x|] eqn:Ex; [|discriminate]. injection Hin as <- <- <-. pose proof (nth_error_In _ _ Ex) as Hin. exists x. split; auto. split; auto. exists []. split; [reflexivity|].
      split; [apply starts_nil|]. split; [|split].
      * intros c Hc. unfold chans in Hc. destruct (k_type (conf x)); simpl in Hc; destruct Hc as [<-|Hc]; try (destruct Hc as [<-|[]]); try contradiction; (split; [constructor|split; [apply starts_nil|intros ? []]]).
      * split; [apply (tab_start _ _ _ _ _ _ (Htab x Hin))|]. split; auto. cbn [b_bin]. intros c Hc.
        destruct (chan_facts (conf x) seg0 (ok x) (T x) (TS x) (Inv x) (m x) (ms x) (Htab x Hin) (Hpost x Hin) (Hpar x Hin) c Hc) as (_ & _ & ET & _).
        assert (Z0 : c_cur c (mkBuf 0 None None [] [] seg0 post0) = None /\ c_bufs c (mkBuf 0 None None [] [] seg0 post0) = [] /\ c_ds c (mkStore None None) = []).
        { unfold chans in Hc. destruct (k_type (conf x)); simpl in Hc; destruct Hc as [<-|Hc]; try (destruct Hc as [<-|[]]); try contradiction; auto. }
        destruct Z0 as (Z1 & Z2 & Z3). unfold idle, at_rest, tight. rewrite Z1, Z2, Z3, ET. split; auto. split; auto. split; [left; apply starts_nil|right; auto].
      * intros md Em. discriminate.
    + left. intros s Hin. cbn [g_keys] in Hin. rewrite !map_map in Hin. apply in_map_iff in Hin as (k & <- & _). auto.
  - intros k b s Hin. cbn [g_keys] in Hin. apply in_map_iff in Hin as (k' & Q0 & Hin). injection Q0 as <- <- <-. split; [reflexivity|]. cbn [g_restart]. congruence.
Qed.
End Run.
