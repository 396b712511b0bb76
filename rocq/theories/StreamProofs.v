(** Lemmas about streamed aggregation: what keys get from an iteration over seed data. *)
Require Import List Arith ZArith Bool Lia Sorted.
Require Import Verif.Common Verif.SegModel Verif.SegSpec Verif.SegProofs Verif.CsaSegProofs Verif.FilterModel Verif.WrModel Verif.StreamModel Verif.StreamSpec Verif.IterProofs.
Import ListNotations.
Local Open Scope Z_scope.

Section S.
Context {D P SB PB : Type}.
Variable idx : D -> Z.
Variable truthy : Z -> bool.
Variable usage : frame -> Z.
Notation stream := (stream D P SB PB).
Notation kconf := (kconf D SB PB).
Notation kbuf := (kbuf SB PB).
Notation kstore := (kstore P SB PB).
Notation act := (@act P SB PB).
Notation job := (kconf -> kbuf -> kstore -> res (kbuf * list act)).
Notation key := (kconf * kbuf * kstore)%type.

(** Chunks delivered for a filter. *)
Definition chunks_of (id : nat) (ys : list (res (Z * nat * list D))) : list (list D) :=
  flat_map (fun y => match y with Ok (_, i, rows) => if (i =? id)%nat then [rows] else [] | Err _ => [] end) ys.
Lemma delivered_chunks : forall id ys, delivered id ys = concat (chunks_of id ys).
Proof.
  intros id ys. induction ys as [|[[[L i] rows]|e] ys IH]; auto. unfold delivered, chunks_of in *. simpl. destruct (i =? id)%nat; simpl; rewrite IH; auto.
Qed.

(** Aggregation of successive chunks for one key. *)
Fixpoint key_run (k : kconf) (p : P) (b : kbuf) (s : kstore) (chunks : list (list D)) : res (kbuf * list act) :=
  match chunks with
  | [] => Ok (b, [])
  | c :: cs =>
      let* '(b, a) := agg_iter truthy usage k b s p c in
      let* '(b, a') := key_run k p b (apply_acts s a) cs in
      Ok (b, a ++ a')
  end.
Lemma apply_acts_app : forall (s : kstore) a a', apply_acts s (a ++ a') = apply_acts (apply_acts s a) a'.
Proof. intros. unfold apply_acts. apply fold_left_app. Qed.

(** What a job does to keys. *)
Definition does (j : job) (x y : key) : Prop :=
  let '(k, b, s) := x in exists b' a, j k b s = Ok (b', a) /\ y = (k, b', apply_acts s a).
Lemma run_jobs_inv : forall (j : job) ks n l log, run_jobs j n ks = Ok (l, log) -> Forall2 (does j) ks l.
Proof.
  intros j. induction ks as [|[[k b] s] ks IH]; intros n l log H; cbn [run_jobs] in H.
  - injection H as <- <-. constructor.
  - destruct (j k b s) as [[b' a]|] eqn:E; cbn [bind] in H; [|discriminate].
    destruct (run_jobs j (S n) ks) as [[l' log']|] eqn:E2; cbn [bind] in H; [|discriminate].
    injection H as <- <-. constructor; eauto. exists b', a. auto.
Qed.
Lemma run_jobs_ok : forall (j : job) ks n, (forall k b s, In (k, b, s) ks -> exists b' a, j k b s = Ok (b', a)) ->
  exists l log, run_jobs j n ks = Ok (l, log).
Proof.
  intros j. induction ks as [|[[k b] s] ks IH]; intros n H; cbn [run_jobs].
  - eauto.
  - destruct (H k b s) as (b' & a & E); [left; auto|]. rewrite E. cbn [bind].
    destruct (IH (S n)) as (l & log & E2); [intros; apply H; right; auto|]. rewrite E2. cbn [bind]. eauto.
Qed.

Lemma Forall2_in_r : forall {A B} (R : A -> B -> Prop) l l' y, Forall2 R l l' -> In y l' -> exists x, In x l /\ R x y.
Proof. induction 1; intros []; [subst; eauto using in_eq|]. destruct (IHForall2 H1) as (z & Hz & Hr). exists z. split; auto. right. auto. Qed.
Lemma Forall2_in_l : forall {A B} (R : A -> B -> Prop) l l' x, Forall2 R l l' -> In x l -> exists y, In y l' /\ R x y.
Proof. induction 1; intros []; [subst; eauto using in_eq|]. destruct (IHForall2 H1) as (z & Hz & Hr). exists z. split; auto. right. auto. Qed.

(** Items delivered, aggregated by keys. *)
Definition key_does (p : P) ys : key -> key -> Prop := does (fun k b s => key_run k p b s (chunks_of (k_filter k) ys)).
Lemma Forall2_comp : forall {A} (R1 R2 R3 : A -> A -> Prop), (forall x y z, R1 x y -> R2 y z -> R3 x z) ->
  forall l1 l2 l3, Forall2 R1 l1 l2 -> Forall2 R2 l2 l3 -> Forall2 R3 l1 l3.
Proof.
  intros A R1 R2 R3 H l1 l2 l3 F. revert l3. induction F; intros l3 G; inversion G; subst; constructor; eauto.
Qed.
Lemma Forall2_same : forall {A} (R : A -> A -> Prop) l, (forall x, In x l -> R x x) -> Forall2 R l l.
Proof. induction l; intro H; constructor; [apply H; left; auto|apply IHl; intros; apply H; right; auto]. Qed.

Lemma consume_inv : forall ys (g g' : stream) ex, consume truthy usage g ys = Ok (g', ex) -> no_error ys ->
  ex = None /\ g_restart g' = restart_after (g_restart g) ys /\ g_pre g' = g_pre g /\ Forall2 (key_does (g_pre g) ys) (g_keys g) (g_keys g').
Proof.
  induction ys as [|y ys IH]; intros g g' ex H Ne.
  - cbn [consume] in H. injection H as <- <-. repeat split; auto. apply Forall2_same. intros [[k b] s] _. exists b, []. auto.
  - destruct y as [[[L id] rows]|e]; [|exfalso; apply (Ne e); left; auto]. cbn [consume] in H.
    destruct (consume1 truthy usage g (L, id, rows)) as [g1|] eqn:E; cbn [bind] in H; [|discriminate].
    unfold consume1 in E.
    destruct (run_jobs _ 0 (g_keys g)) as [[l log]|] eqn:E1; cbn [bind] in E; [|discriminate]. injection E as <-.
    apply run_jobs_inv in E1. destruct (IH _ _ _ H) as (-> & I1 & I2 & I3); [intros e He; apply (Ne e); right; auto|].
    cbn [g_restart g_pre g_keys] in *. split; auto. split; [rewrite I1; auto|]. split; auto.
    revert E1 I3. apply Forall2_comp. intros [[k b] s] y [[k2 b2] s2] (b1 & a1 & J1 & ->) (b' & a' & J2 & Q). injection Q as -> -> ->.
    cbn [key_does does]. unfold chunks_of. cbn [flat_map]. fold (chunks_of (k_filter k) ys). rewrite Nat.eqb_sym in J1. destruct (id =? k_filter k)%nat.
    + cbn [app key_run]. rewrite J1. cbn [bind]. rewrite J2. cbn [bind]. do 2 eexists. split; [reflexivity|]. rewrite apply_acts_app. auto.
    + injection J1 as <- <-. change (apply_acts s []) with s in *. cbn [app]. rewrite J2. do 2 eexists. split; reflexivity.
Qed.
Lemma consume_ok : forall ys (g : stream), no_error ys ->
  (forall k b s, In (k, b, s) (g_keys g) -> exists b' a, key_run k (g_pre g) b s (chunks_of (k_filter k) ys) = Ok (b', a)) ->
  exists g', consume truthy usage g ys = Ok (g', None).
Proof.
  induction ys as [|y ys IH]; intros g Ne H.
  - eexists. reflexivity.
  - destruct y as [[[L id] rows]|e]; [|exfalso; apply (Ne e); left; auto]. cbn [consume]. unfold consume1.
    destruct (run_jobs_ok (fun k b s => if (k_filter k =? id)%nat then agg_iter truthy usage k b s (g_pre g) rows else Ok (b, [])) (g_keys g) 0) as (l & log & E).
    { intros k b s Hin. destruct (H k b s Hin) as (b' & a & E). unfold chunks_of in E. cbn [flat_map] in E. rewrite Nat.eqb_sym in E.
      destruct (k_filter k =? id)%nat; [|eauto]. cbn [app key_run] in E. destruct (agg_iter truthy usage k b s (g_pre g) rows) as [[b1 a1]|]; [eauto|discriminate]. }
    rewrite E. cbn [bind]. apply run_jobs_inv in E.
    apply IH; [intros e He; apply (Ne e); right; auto|]. cbn [g_keys g_pre]. intros k b s Hin.
    destruct (Forall2_in_r _ _ _ _ E Hin) as ([[k0 b0] s0] & Hin0 & (b1 & a1 & J & Q)). injection Q as -> -> ->.
    destruct (H k0 b0 s0 Hin0) as (b' & a & E'). unfold chunks_of in E'. cbn [flat_map] in E'. rewrite Nat.eqb_sym in E'.
    destruct (k_filter k0 =? id)%nat.
    + cbn [app key_run] in E'. rewrite J in E'. cbn [bind] in E'. fold (chunks_of (k_filter k0) ys) in E'.
      destruct (key_run k0 (g_pre g) b1 (apply_acts s0 a1) (chunks_of (k_filter k0) ys)) as [[b2 a2]|]; [eauto|discriminate].
    + injection J as <- <-. cbn [app] in E'. eauto.
Qed.
(** A call to 'agg'. *)
Variables (fs : @filters D) (gs : list (nat * (D -> bool))).
Hypothesis Hfs : filters_are fs gs.
Variable pre : option (@pre_fun D P).
Hypothesis Hpre : harmless pre.

Definition ys_of (g : stream) trim discard seed := fst (iter_data idx (g_restart g) pre fs trim discard (g_pre g) seed).

Lemma agg_inv : forall (g g' : stream) seed trim discard final ex, (forall c, In c seed -> c <> []) -> sorted (map idx (concat seed)) ->
  agg idx truthy usage pre fs g seed trim discard final = Ok (g', ex) ->
  ex = None /\ g_restart g' = restart_after (g_restart g) (ys_of g trim discard seed) /\
  exists keys, Forall2 (key_does (g_pre g) (ys_of g trim discard seed)) (g_keys g) keys /\
    if final then Forall2 (does (fun k b s => post_n_write truthy k b s true (g_restart g') (g_pre g'))) keys (g_keys g')
    else g_keys g' = keys.
Proof.
  intros g g' seed trim discard final ex Hne Hs H. unfold agg in H.
  destruct (iter_data_spec idx fs gs Hfs pre Hpre (g_restart g) trim discard seed (g_pre g) Hne Hs) as (Ne & _).
  match type of H with bind ?X _ = _ => destruct X as [[g1 ex1]|] eqn:E1 end; cbn [bind] in H; [|discriminate].
  assert (Q : ex1 = None /\ g_restart g1 = restart_after (g_restart g) (ys_of g trim discard seed) /\
              Forall2 (key_does (g_pre g) (ys_of g trim discard seed)) (g_keys g) (g_keys g1)).
  { destruct seed as [|c seed].
    - injection E1 as <- <-. unfold ys_of, iter_data. destruct (g_restart g) eqn:Er; cbn [iter_chunks fst]; repeat split; auto;
        apply Forall2_same; intros [[k b] s] _; exists b, []; auto.
    - fold (ys_of g trim discard (c :: seed)) in Ne. unfold ys_of in *.
      destruct (iter_data idx (g_restart g) pre fs trim discard (g_pre g) (c :: seed)) as [ys p]. cbn [fst] in *.
      destruct (consume truthy usage g ys) as [[g2 ex2]|] eqn:E2; cbn [bind] in E1; [|discriminate].
      destruct (consume_inv _ _ _ _ E2 Ne) as (-> & A & B & C). injection E1 as <- <-. auto. }
  destruct Q as (-> & Q1 & Q2). destruct final.
  - unfold final_write in H. destruct (run_jobs _ 0 (g_keys g1)) as [[l log]|] eqn:E3; cbn [bind] in H; [|discriminate].
    injection H as <- <-. cbn [g_restart g_pre g_keys]. split; auto. split; auto. exists (g_keys g1). split; auto. apply run_jobs_inv in E3. auto.
  - cbn [bind] in H. injection H as <- <-. split; auto. split; auto. eauto.
Qed.

Lemma agg_ok : forall (g : stream) seed trim discard final, (forall c, In c seed -> c <> []) -> sorted (map idx (concat seed)) ->
  (forall k b s, In (k, b, s) (g_keys g) -> exists b' a,
     key_run k (g_pre g) b s (chunks_of (k_filter k) (ys_of g trim discard seed)) = Ok (b', a) /\
     (final = true -> forall p, exists b'' a', post_n_write truthy k b' (apply_acts s a) true (restart_after (g_restart g) (ys_of g trim discard seed)) p = Ok (b'', a'))) ->
  exists g', agg idx truthy usage pre fs g seed trim discard final = Ok (g', None).
Proof.
  intros g seed trim discard final Hne Hs H. unfold agg.
  destruct (iter_data_spec idx fs gs Hfs pre Hpre (g_restart g) trim discard seed (g_pre g) Hne Hs) as (Ne & _).
  match goal with |- exists g', bind ?X _ = _ => assert (Q : exists g1, X = Ok (g1, None) /\ g_restart g1 = restart_after (g_restart g) (ys_of g trim discard seed) /\
              Forall2 (key_does (g_pre g) (ys_of g trim discard seed)) (g_keys g) (g_keys g1)) end.
  { destruct seed as [|c seed].
    - exists g. split; auto. unfold ys_of, iter_data. destruct (g_restart g) eqn:Er; cbn [iter_chunks fst]; repeat split; auto;
        apply Forall2_same; intros [[k b] s] _; exists b, []; auto.
    - fold (ys_of g trim discard (c :: seed)) in Ne. unfold ys_of in *.
      destruct (iter_data idx (g_restart g) pre fs trim discard (g_pre g) (c :: seed)) as [ys p]. cbn [fst] in *.
      destruct (consume_ok ys g Ne) as [g1 E]. { intros k b s Hin. destruct (H k b s Hin) as (b' & a & E & _). eauto. }
      rewrite E. cbn [bind]. destruct (consume_inv _ _ _ _ E Ne) as (_ & A & B & C). eexists. split; [reflexivity|]. auto. }
  destruct Q as (g1 & -> & Q1 & Q2). cbn [bind]. destruct final; [|eexists; reflexivity].
  unfold final_write. destruct (run_jobs_ok (fun k b s => post_n_write truthy k b s true (g_restart g1) (g_pre g1)) (g_keys g1) 0) as (l & log & E).
  - intros k b s Hin. destruct (Forall2_in_r _ _ _ _ Q2 Hin) as ([[k0 b0] s0] & Hin0 & (b1 & a1 & J & Q)). injection Q as -> -> ->.
    destruct (H k0 b0 s0 Hin0) as (b' & a & E & F). rewrite J in E. injection E as -> ->. rewrite Q1. apply F. auto.
  - rewrite E. cbn [bind]. eexists. reflexivity.
Qed.

(** Initialization. *)
Definition fresh_key (seg0 : SB) (post0 : PB) (x : kconf * kstore) (y : key) : Prop :=
  let '(k, s) := x in
  match s_main s with
  | None => y = (k, mkBuf 0 None None [] [] seg0 post0, s)
  | Some e => exists md, e_md e = Some md /\ y = (k, mkBuf 0 None None [] [] (m_seg md) (m_post md), s)
  end.
(** Restart indices in store. *)
Definition restarts_of (ks : list (kconf * kstore)) : list Z :=
  flat_map (fun x => match s_main (snd x) with Some e => match e_md e with Some md => [m_restart md] | None => [] end | None => [] end) ks.
Lemma init_keys_spec : forall seg0 post0 ks rs p,
  match init_keys seg0 post0 ks rs p with
  | Ok (l, rs', p') => Forall2 (fresh_key seg0 post0) ks l /\ (forall z, In z rs' <-> In z rs \/ In z (restarts_of ks)) /\ (NoDup rs -> NoDup rs')
  | Err e => e = ValueError /\ exists k s e, In (k, s) ks /\ s_main s = Some e /\ e_md e = None
  end.
Proof using Type. clear.
  intros seg0 post0. induction ks as [|[k s] ks IH]; intros rs p; cbn [init_keys].
  - split; [constructor|]. split; [simpl; tauto|auto].
  - destruct (s_main s) as [e|] eqn:Es; [destruct (e_md e) as [md|] eqn:Em|].
    + set (rs1 := if memZ (m_restart md) rs then rs else m_restart md :: rs).
      specialize (IH rs1 (m_pre md)). destruct (init_keys seg0 post0 ks rs1 (m_pre md)) as [[[l rs'] p']|e']; cbn [bind].
      * destruct IH as (I1 & I2 & I3). split; [constructor; auto; simpl; rewrite Es; exists md; auto|].
        assert (Hm : memZ (m_restart md) rs = true <-> In (m_restart md) rs).
        { unfold memZ, memb. rewrite existsb_exists. split; [intros (x & Hx & Q); apply Z.eqb_eq in Q; subst; auto|intro Q; eexists; split; eauto; apply Z.eqb_refl]. }
        split.
        -- intro z. rewrite I2. cbn [restarts_of flat_map snd]. fold (restarts_of ks). rewrite Es, Em. unfold rs1.
           destruct (memZ (m_restart md) rs) eqn:Q; simpl; [|tauto]. split; [tauto|]. intros [A|[<-|A]]; auto. left. tauto.
        -- intro Nd. apply I3. unfold rs1. destruct (memZ (m_restart md) rs) eqn:Q; auto. constructor; auto. rewrite <- Hm. congruence.
      * destruct IH as (-> & k0 & s0 & e0 & A & B). split; auto. exists k0, s0, e0. simpl. auto.
    + split; auto. exists k, s, e. simpl. auto.
    + specialize (IH rs p). destruct (init_keys seg0 post0 ks rs p) as [[[l rs'] p']|e']; cbn [bind].
      * destruct IH as (I1 & I2 & I3). split; [constructor; auto; simpl; rewrite Es; auto|]. split; auto.
        intro z. rewrite I2. cbn [restarts_of flat_map snd]. fold (restarts_of ks). rewrite Es. simpl. tauto.
      * destruct IH as (-> & k0 & s0 & e0 & A & B). split; auto. exists k0, s0, e0. simpl. auto.
Qed.
Lemma init_inv : forall pre0 seg0 post0 ks (g : stream), init pre0 seg0 post0 ks = Ok g ->
  Forall2 (fresh_key seg0 post0) ks (g_keys g) /\
  match g_restart g with Some r => In r (restarts_of ks) /\ forall z, In z (restarts_of ks) -> z = r | None => restarts_of ks = [] end.
Proof using Type. clear.
  intros pre0 seg0 post0 ks g H. unfold init in H. pose proof (init_keys_spec seg0 post0 ks [] pre0) as I.
  destruct (init_keys seg0 post0 ks [] pre0) as [[[l rs] p]|]; cbn [bind] in H; [|discriminate].
  destruct I as (I1 & I2 & I3). destruct rs as [|r [|r' rs]]; [| |discriminate]; injection H as <-; cbn [g_keys g_restart]; split; auto.
  - destruct (restarts_of ks) as [|z l'] eqn:E; auto. exfalso. apply (proj2 (I2 z)). simpl. auto.
  - split; [assert (Q : In r [] \/ In r (restarts_of ks)) by (apply I2; simpl; auto); destruct Q as [[]|Q]; auto|].
    intros z Hz. assert (Q : In z [r]) by (apply I2; auto). destruct Q as [Q|[]]; auto.
Qed.
Lemma init_ok : forall pre0 seg0 post0 ks, (forall k s e, In (k, s) ks -> s_main s = Some e -> e_md e <> None) ->
  (forall z z', In z (restarts_of ks) -> In z' (restarts_of ks) -> z = z') -> exists g : stream, init pre0 seg0 post0 ks = Ok g.
Proof using Type. clear.
  intros pre0 seg0 post0 ks H1 H2. unfold init. pose proof (init_keys_spec seg0 post0 ks [] pre0) as I.
  destruct (init_keys seg0 post0 ks [] pre0) as [[[l rs] p]|e]; cbn [bind].
  - destruct I as (I1 & I2 & I3). destruct rs as [|r [|r' rs]]; eauto. exfalso.
    specialize (I3 (NoDup_nil _)). inversion I3; subst. apply H3. left.
    assert (A : forall z, In z (r :: r' :: rs) -> In z (restarts_of ks)) by (intros z Hz; apply I2 in Hz as [[]|Hz]; auto).
    apply H2; apply A; simpl; auto.
  - destruct I as (-> & k & s & e0 & A & B & C). exfalso. eapply H1; eauto.
Qed.

End S.
