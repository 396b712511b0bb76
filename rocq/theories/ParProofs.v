(** Parallel jobs: proofs. *)
Require Import List Arith ZArith Bool Lia.
Require Import Verif.Common Verif.WrModel Verif.StreamModel Verif.ParModel Verif.ParSpec.
Import ListNotations.

Section Threads.
Context {loc val : Type}.
Variable eqb : loc -> loc -> bool.
Hypothesis eqb_spec : forall l l', eqb l l' = true <-> l = l'.
Notation prog := (prog loc val).
Notation memory := (@memory loc val).
Notation put := (put (val:=val) eqb).
Notation solo := (@solo loc val eqb).
Notation exec := (@exec loc val eqb).
Notation tick := (@tick loc val eqb).
Notation run_sched := (@run_sched loc val eqb).
Notation sequential := (@sequential loc val eqb).

Lemma put_same : forall (m : memory) l v, put m l v l = v.
Proof. intros. unfold ParModel.put. rewrite (proj2 (eqb_spec l l) eq_refl). auto. Qed.
Lemma put_other : forall (m : memory) l v x, x <> l -> put m l v x = m x.
Proof. intros m l v x H. unfold ParModel.put. destruct (eqb x l) eqn:E; auto. apply eqb_spec in E. contradiction. Qed.

(** Programs whose reads and writes are in [F]. *)
Fixpoint within (F : loc -> Prop) (p : prog) : Prop :=
  match p with
  | Ret | Fail _ => True
  | Get l k => F l /\ forall v, within F (k v)
  | Put l _ p => F l /\ within F p
  end.
Definition agree (F : loc -> Prop) (m m' : memory) : Prop := forall l, F l -> m l = m' l.

Lemma agree_put : forall (F : loc -> Prop) m m' l v, agree F m m' -> agree F (put m l v) (put m' l v).
Proof. intros F m m' l v H x Hx. unfold ParModel.put. destruct (eqb x l); auto. Qed.
(** Only what is in [F] matters. *)
Lemma solo_agree : forall (F : loc -> Prop) p m m', within F p -> agree F m m' -> snd (solo m p) = snd (solo m' p) /\ agree F (fst (solo m p)) (fst (solo m' p)).
Proof.
  intros F. induction p as [|e|l k IH|l v p IH]; intros m m' W A; cbn [ParModel.solo].
  - auto.
  - auto.
  - destruct W as [Hl W]. rewrite (A l Hl). apply IH; auto.
  - destruct W as [Hl W]. apply IH; auto. apply agree_put. auto.
Qed.
(** What is out of [F] is left as it is. *)
Lemma solo_frame : forall (F : loc -> Prop) p m x, within F p -> ~ F x -> fst (solo m p) x = m x.
Proof.
  intros F. induction p as [|e|l k IH|l v p IH]; intros m x W Hx; cbn [ParModel.solo]; auto.
  - destruct W as [Hl W]. apply IH; auto.
  - destruct W as [Hl W]. rewrite IH; auto. apply put_other. intros ->. contradiction.
Qed.
Lemma exec_solo : forall m p, solo (fst (exec m p)) (snd (exec m p)) = solo m p.
Proof. intros m [| | |]; auto. Qed.
Lemma exec_within : forall F m p, within F p -> within F (snd (exec m p)).
Proof. intros F m [| |l k|l v p] W; cbn in *; intuition. Qed.
Lemma exec_frame : forall (F : loc -> Prop) m p x, within F p -> ~ F x -> fst (exec m p) x = m x.
Proof. intros F m [| |l k|l v p] x W Hx; cbn [ParModel.exec fst]; auto. apply put_other. destruct W as [Hl _]. intros ->. contradiction. Qed.
Lemma over_solo : forall m (p : prog), over p = true -> solo m p = (m, outcome p).
Proof. intros m [| | |] H; auto; discriminate. Qed.

Lemma nth_set_nth : forall i j (p : prog) ps, nth_error (set_nth i p ps) j = if Nat.eqb i j then match nth_error ps i with Some _ => Some p | None => None end else nth_error ps j.
Proof.
  induction i as [|i IH]; intros j p [|q ps]; destruct j as [|j]; cbn [set_nth nth_error Nat.eqb]; auto. destruct (Nat.eqb i j); auto.
Qed.

(** Jobs with footprints [Fs]. *)
Variable ps0 : list prog.
Variable F : nat -> loc -> Prop.
Hypothesis Hin : forall i p, nth_error ps0 i = Some p -> within (F i) p.
Hypothesis Hap : forall i j p p' l, nth_error ps0 i = Some p -> nth_error ps0 j = Some p' -> i <> j -> F i l -> F j l -> False.

Definition coherent (m0 m : memory) (ps : list prog) : Prop :=
  length ps = length ps0 /\
  (forall i p0 p, nth_error ps0 i = Some p0 -> nth_error ps i = Some p -> within (F i) p /\ snd (solo m p) = snd (solo m0 p0) /\ agree (F i) (fst (solo m p)) (fst (solo m0 p0))) /\
  (forall l, (forall i p0, nth_error ps0 i = Some p0 -> ~ F i l) -> m l = m0 l).
Lemma coherent_start : forall m, coherent m m ps0.
Proof.
  intro m. split; auto. split; auto. intros i p0 p H H'. rewrite H in H'. injection H' as <-. split; [apply (Hin i); auto|]. split; auto. intros l _. auto.
Qed.
Lemma coherent_tick : forall m0 m ps i, coherent m0 m ps -> coherent m0 (fst (tick (m, ps) i)) (snd (tick (m, ps) i)).
Proof.
  intros m0 m ps i (L & C & R). unfold ParModel.tick. cbn [fst snd]. destruct (nth_error ps i) as [p|] eqn:Ei; [|split; auto].
  destruct (exec m p) as [m' p'] eqn:Ee. cbn [fst snd].
  assert (L' : length (set_nth i p' ps) = length ps). { clear. revert i. induction ps as [|q ps IH]; intros [|i]; cbn; auto. }
  assert (Hi : exists p0, nth_error ps0 i = Some p0). { destruct (nth_error ps0 i) eqn:Q; eauto. apply nth_error_None in Q. assert (nth_error ps i <> None) by congruence. apply nth_error_Some in H. lia. }
  destruct Hi as [p0 Hi]. destruct (C i p0 p Hi Ei) as (W & S1 & S2).
  assert (Em : m' = fst (exec m p)) by (rewrite Ee; auto). assert (Ep : p' = snd (exec m p)) by (rewrite Ee; auto).
  split; [congruence|]. split.
  - intros j q0 q Hj Hq. rewrite nth_set_nth, Ei in Hq. destruct (Nat.eqb_spec i j) as [->|Hne].
    + injection Hq as <-. rewrite Hi in Hj. injection Hj as <-. rewrite Ep, Em, exec_solo. split; [apply exec_within; auto|]. auto.
    + destruct (C j q0 q Hj Hq) as (W' & T1 & T2). split; auto.
      assert (A : agree (F j) m' m). { intros l Hl. rewrite Em. apply (exec_frame (F i)); auto. intro Hl'. eapply (Hap i j); eauto. }
      destruct (solo_agree (F j) q m' m W' A) as [U1 U2]. split; [congruence|]. intros l Hl. rewrite U2; auto.
  - intros l Hl. rewrite Em, (exec_frame (F i)); auto. eapply Hl; eauto.
Qed.
Lemma coherent_run : forall sched m0 m ps, coherent m0 m ps -> coherent m0 (fst (run_sched sched (m, ps))) (snd (run_sched sched (m, ps))).
Proof.
  induction sched as [|i sched IH]; intros m0 m ps H; auto. unfold ParModel.run_sched. cbn [fold_left].
  pose proof (coherent_tick m0 m ps i H) as H'. destruct (tick (m, ps) i) as [m' ps']. apply IH. auto.
Qed.
(** Any complete schedule. *)
Lemma complete_run : forall sched m m' ps', run_sched sched (m, ps0) = (m', ps') -> complete ps' ->
  length ps' = length ps0 /\
  (forall i p0 p, nth_error ps0 i = Some p0 -> nth_error ps' i = Some p -> outcome p = snd (solo m p0) /\ agree (F i) m' (fst (solo m p0))) /\
  (forall l, (forall i p0, nth_error ps0 i = Some p0 -> ~ F i l) -> m' l = m l).
Proof.
  intros sched m m' ps' E Hc. pose proof (coherent_run sched m m ps0 (coherent_start m)) as (L & C & R). rewrite E in L, C, R. cbn [fst snd] in *.
  split; auto. split; auto. intros i p0 p H H'. destruct (C i p0 p H H') as (_ & S1 & S2).
  assert (O : over p = true). { unfold complete in Hc. rewrite forallb_forall in Hc. apply Hc. eapply nth_error_In; eauto. }
  rewrite (over_solo m' p O) in S1, S2. auto.
Qed.
(** One after the other. *)
Lemma sequential_prefix : forall n m, sequential m (skipn n ps0) = sequential m (skipn n ps0) ->
  (forall i p, nth_error ps0 i = Some p -> (n <= i)%nat -> snd (solo m p) = None) ->
  exists m', sequential m (skipn n ps0) = (m', None) /\
    (forall i p, nth_error ps0 i = Some p -> (n <= i)%nat -> agree (F i) m' (fst (solo m p))) /\
    (forall l, (forall i p, nth_error ps0 i = Some p -> (n <= i)%nat -> ~ F i l) -> m' l = m l).
Proof.
  intros n. remember (length ps0 - n)%nat as d eqn:Hd. revert n Hd. induction d as [|d IH]; intros n Hd m _ Hok.
  - rewrite (skipn_all2 ps0) by lia. exists m. split; [reflexivity|]. split; [|intros; reflexivity]. intros i p H Hn. exfalso. assert (nth_error ps0 i <> None) by congruence. apply nth_error_Some in H0. lia.
  - destruct (nth_error ps0 n) as [p|] eqn:En; [|apply nth_error_None in En; lia].
    assert (Es : skipn n ps0 = p :: skipn (S n) ps0). { clear - En. revert n En. induction ps0 as [|q l IH]; intros [|n] H; try discriminate; [injection H as ->; auto|]. cbn [skipn]. apply IH. auto. }
    rewrite Es. cbn [ParModel.sequential]. destruct (solo m p) as [m1 o] eqn:E1. assert (o = None) as -> by (specialize (Hok n p En (le_n n)); rewrite E1 in Hok; auto).
    assert (A : forall j q, nth_error ps0 j = Some q -> (S n <= j)%nat -> agree (F j) m1 m).
    { intros j q Hj Hn l Hl. replace m1 with (fst (solo m p)) by (rewrite E1; auto). apply (solo_frame (F n)); [apply (Hin n); auto|]. intro Hl'. apply (Hap n j p q l); auto. lia. }
    destruct (IH (S n) ltac:(lia) m1 eq_refl) as (m' & S1 & S2 & S3).
    { intros i q Hi Hn. destruct (solo_agree (F i) q m1 m (Hin i q Hi) (A i q Hi Hn)) as [U _]. rewrite U. apply (Hok i q Hi). lia. }
    exists m'. split; auto. split.
    + intros i q Hi Hn. destruct (Nat.eq_dec i n) as [->|Hne].
      * assert (q = p) as -> by congruence. rewrite E1. cbn [fst]. intros l Hl. apply S3. intros j r Hj Hjn Hl'. apply (Hap n j p r l); auto. lia.
      * assert (Hsi : (S n <= i)%nat) by lia. destruct (solo_agree (F i) q m1 m (Hin i q Hi) (A i q Hi Hsi)) as [_ U]. intros l Hl. rewrite (S2 i q Hi Hsi l Hl). auto.
    + intros l Hl. rewrite S3; [|intros i q Hi Hn; apply (Hl i q Hi); lia]. replace m1 with (fst (solo m p)) by (rewrite E1; auto). apply (solo_frame (F n)); [apply (Hin n); auto|apply (Hl n p En); auto].
Qed.
End Threads.

(** Schedules can be completed. *)
Section Term.
Context {loc val : Type}.
Variable eqb : loc -> loc -> bool.
Notation prog := (prog loc val).
Lemma run_sched_app : forall (a b : list nat) (s : @memory loc val * list prog), run_sched eqb (a ++ b) s = run_sched eqb b (run_sched eqb a s).
Proof. intros. unfold run_sched. apply fold_left_app. Qed.
Lemma run_sched_cons : forall i (b : list nat) (s : @memory loc val * list prog), run_sched eqb (i :: b) s = run_sched eqb b (tick eqb s i).
Proof. reflexivity. Qed.
Lemma finish_one : forall (p : prog) m ps i, nth_error ps i = Some p -> exists n q, over q = true /\ snd (run_sched eqb (repeat i n) (m, ps)) = set_nth i q ps.
Proof.
  assert (Z : forall (i : nat) (p : prog) ps, nth_error ps i = Some p -> set_nth i p ps = ps).
  { induction i as [|i IH]; intros p [|q ps] H; try discriminate; cbn in *; [injection H as ->; auto|f_equal; auto]. }
  assert (Y : forall (i : nat) (p q : prog) ps, set_nth i p (set_nth i q ps) = set_nth i p ps) by (induction i as [|i IH]; intros p q [|r ps]; cbn; auto; f_equal; auto).
  assert (X : forall (i : nat) (p q : prog) ps, nth_error ps i = Some p -> nth_error (set_nth i q ps) i = Some q) by (induction i as [|i IH]; intros p q [|r ps] H; try discriminate; cbn in *; eauto).
  induction p as [|e|l k IH|l v p IH]; intros m ps i Hi.
  - exists 0%nat, Ret. split; auto. cbn. symmetry. apply Z. auto.
  - exists 0%nat, (Fail e). split; auto. cbn. symmetry. apply Z. auto.
  - destruct (IH (m l) m (set_nth i (k (m l)) ps) i (X _ _ _ _ Hi)) as (n & q & O & E). exists (S n), q. split; auto.
    cbn [repeat]. rewrite run_sched_cons. unfold tick. cbn [fst snd]. rewrite Hi. cbn [exec]. etransitivity; [exact E|]. apply Y.
  - destruct (IH (put eqb m l v) (set_nth i p ps) i (X _ _ _ _ Hi)) as (n & q & O & E). exists (S n), q. split; auto.
    cbn [repeat]. rewrite run_sched_cons. unfold tick. cbn [fst snd]. rewrite Hi. cbn [exec]. etransitivity; [exact E|]. apply Y.
Qed.
Lemma finish_all : forall (n : nat) (s : @memory loc val * list prog), exists sched, forall i p, (i < n)%nat -> nth_error (snd (run_sched eqb sched s)) i = Some p -> over p = true.
Proof.
  induction n as [|n IH]; intro s; [exists []; intros; lia|]. destruct (IH s) as [sched Hs]. destruct (run_sched eqb sched s) as [m ps] eqn:E. cbn [snd] in Hs.
  destruct (nth_error ps n) as [p|] eqn:En.
  - destruct (finish_one p m ps n En) as (k & q & O & Eq). exists (sched ++ repeat n k). rewrite run_sched_app, E, Eq. intros i r Hi Hr. rewrite nth_set_nth, En in Hr.
    destruct (Nat.eqb_spec n i) as [<-|Hne]; [injection Hr as <-; auto|]. apply (Hs i r); auto. lia.
  - exists sched. rewrite E. cbn [snd]. intros i r Hi Hr. destruct (Nat.eq_dec i n) as [->|Hne]; [congruence|]. apply (Hs i r); auto. lia.
Qed.
Lemma tick_length : forall (s : @memory loc val * list prog) i, length (snd (tick eqb s i)) = length (snd s).
Proof.
  intros [m ps] i. unfold tick. cbn [fst snd]. destruct (nth_error ps i); auto. destruct (exec eqb m p) as [m' p']. cbn [snd]. clear. revert i. induction ps as [|q ps IH]; intros [|i]; cbn; auto.
Qed.
Lemma run_sched_length : forall sched (s : @memory loc val * list prog), length (snd (run_sched eqb sched s)) = length (snd s).
Proof. induction sched as [|i sched IH]; intro s; auto. rewrite run_sched_cons, IH. apply tick_length. Qed.
Lemma can_complete : forall sched (s : @memory loc val * list prog), exists more, complete (snd (run_sched eqb (sched ++ more) s)).
Proof.
  intros sched s. destruct (finish_all (length (snd s)) (run_sched eqb sched s)) as [more H]. exists more. rewrite run_sched_app. unfold complete. apply forallb_forall. intros p Hp.
  apply In_nth_error in Hp as [i Hi]. apply (H i); auto. assert (Hn : nth_error (snd (run_sched eqb more (run_sched eqb sched s))) i <> None) by congruence.
  apply nth_error_Some in Hn. rewrite !run_sched_length in Hn. auto.
Qed.
End Term.
