(** The model of failures is the one of StreamModel.v, completed with modifications of store made before an exception. *)
Require Import List Arith ZArith Bool Lia.
Require Import Verif.Common Verif.WrModel Verif.StreamModel Verif.RaiseModel.
Import ListNotations.
Local Open Scope Z_scope.

Section Raise.
Context {D P SB PB : Type}.
Variable idx : D -> Z.
Variable truthy : Z -> bool.
Variable usage : frame -> Z.
Notation kconf := (kconf D SB PB).
Notation kbuf := (kbuf SB PB).
Notation kstore := (kstore P SB PB).
Notation act := (@act P SB PB).
Notation stream := (stream D P SB PB).

(** Result of a job, in StreamModel.v. *)
Definition job_res (x : list act * res kbuf) : res (kbuf * list act) := let* b := snd x in Ok (b, fst x).

Lemma post_n_write_same : forall k b s last r p, post_n_write truthy k b s last r p = job_res (@post_n_write_t D P SB PB truthy k b s last r p).
Proof.
  intros k b s last r p. unfold post_n_write, post_n_write_t. destruct (results k b last) as [[[main snap] pb]|e]; auto. cbn [bind].
  destruct main as [m|].
  - destruct (store_write (k_write k) (s_main s) m _) as [e|x]; auto. cbn [bind]. destruct (k_type k); auto.
    destruct snap as [sn|]; auto. destruct (store_write (k_write_snap k) (s_snap s) sn None) as [e'|x]; auto.
  - destruct r as [i|]; [destruct (truthy i)|]; auto.
Qed.
Lemma buffer_results_same : forall k b s p, buffer_results truthy usage k b s p = job_res (@buffer_results_t D P SB PB truthy usage k b s p).
Proof.
  intros k b s p. unfold buffer_results, buffer_results_t. destruct (b_bin b) as [bin|]; auto. destruct (rows bin); auto.
  destruct (k_max k <? _); auto. apply post_n_write_same.
Qed.
(** Without a key for snapshots, nothing is modified before an exception. *)
Lemma post_n_write_raises : forall k b s last r p acts e, k_type k <> BOTH -> @post_n_write_t D P SB PB truthy k b s last r p = (acts, Err e) -> acts = [].
Proof.
  intros k b s last r p acts e Ht H. unfold post_n_write_t in H. destruct (results k b last) as [[[main snap] pb]|x]; [|congruence].
  destruct main as [m|]; [|discriminate]. destruct (store_write (k_write k) (s_main s) m _); [|congruence]. destruct (k_type k); congruence.
Qed.
Lemma buffer_raises : forall k b s p acts e, k_type k <> BOTH -> @buffer_results_t D P SB PB truthy usage k b s p = (acts, Err e) -> acts = [].
Proof.
  intros k b s p acts e Ht H. unfold buffer_results_t in H. destruct (b_bin b) as [bin|]; [|congruence]. destruct (rows bin); [congruence|].
  destruct (k_max k <? _); [|congruence]. eapply post_n_write_raises; eauto.
Qed.
Lemma apply_acts_main : forall (acts : list act) (s : kstore), s_main s <> None -> s_main (apply_acts s acts) <> None.
Proof.
  induction acts as [|[w e] acts IH]; intros s H; auto. cbn [apply_acts fold_left]. apply IH. unfold apply_act. destruct w; cbn [fst s_main snd]; congruence.
Qed.
Lemma agg_iter_same : forall k b s p c, agg_iter truthy usage k b s p c = job_res (@agg_iter_t D P SB PB truthy usage k b s p c).
Proof.
  intros k b s p c. unfold agg_iter, agg_iter_t. rewrite buffer_results_same. destruct (buffer_results_t truthy usage k b s p) as [acts [b1|e]]; auto. cbn [job_res bind fst snd].
  destruct (k_agg k c (b_seg b1)) as [[r seg']|e]; auto. cbn [bind]. destruct r as [[f sn]|]; auto.
Qed.
Lemma run_jobs_same : forall (job : kconf -> kbuf -> kstore -> res (kbuf * list act)) (job_t : kconf -> kbuf -> kstore -> list act * res kbuf),
  (forall k b s, job k b s = job_res (job_t k b s)) -> forall ks n,
  run_jobs job n ks = match run_jobs_t job_t n ks with (l, log, None) => Ok (l, log) | (_, _, Some e) => Err e end.
Proof.
  intros job job_t H. induction ks as [|[[k b] s] ks IH]; intro n; auto. cbn [run_jobs run_jobs_t]. rewrite H. destruct (job_t k b s) as [acts [b'|e]].
  - cbn [job_res bind fst snd]. rewrite IH. destruct (run_jobs_t job_t (S n) ks) as [[l log] [e|]]; auto.
  - cbn [job_res bind fst snd]. destruct (run_jobs_t job_t (S n) ks) as [[l log] ex]; auto.
Qed.
Lemma consume1_same : forall (g : stream) y, consume1 truthy usage g y = match consume1_t truthy usage g y with (g, None) => Ok g | (_, Some e) => Err e end.
Proof.
  intros g [[L id] c]. unfold consume1, consume1_t.
  rewrite (run_jobs_same _ (fun k b s => if (k_filter k =? id)%nat then agg_iter_t truthy usage k b s (g_pre g) c else ([], Ok b))).
  - destruct (run_jobs_t _ 0 (g_keys g)) as [[l log] [e|]]; auto.
  - intros k b s. destruct (k_filter k =? id)%nat; auto. apply agg_iter_same.
Qed.
Lemma consume_same : forall ys (g : stream), consume truthy usage g ys = (let '(g, r) := consume_t truthy usage g ys in let* ex := r in Ok (g, ex)).
Proof.
  induction ys as [|[y|e] ys IH]; intro g; auto; cbn [consume consume_t].
  - rewrite consume1_same. destruct (consume1_t truthy usage g y) as [g1 [e|]]; auto. cbn [bind]. apply IH.
  - destruct e; auto.
Qed.
Lemma final_write_same : forall (g : stream), final_write truthy g = match final_write_t truthy g with (g, None) => Ok g | (_, Some e) => Err e end.
Proof.
  intro g. unfold final_write, final_write_t. rewrite (run_jobs_same _ (fun k b s => post_n_write_t truthy k b s true (g_restart g) (g_pre g))).
  - destruct (run_jobs_t _ 0 (g_keys g)) as [[l log] [e|]]; auto.
  - intros. apply post_n_write_same.
Qed.
Lemma agg_same : forall pre fs (g : stream) seed trim discard final,
  agg idx truthy usage pre fs g seed trim discard final = (let '(g, r) := agg_t idx truthy usage pre fs g seed trim discard final in let* ex := r in Ok (g, ex)).
Proof.
  intros. unfold agg, agg_t.
  assert (F : forall (g : stream) (ex : option exn), (let* g' := if final then final_write truthy g else Ok g in Ok (g', ex)) =
     (let '(g', r) := if final then match final_write_t truthy g with (g', None) => (g', Ok ex) | (g', Some e) => (g', Err e) end else (g, Ok ex) in let* ex := r in Ok (g', ex)) :> res (stream * option exn)).
  { intros g0 ex. destruct final; auto. rewrite final_write_same. destruct (final_write_t truthy g0) as [g1 [e|]]; auto. }
  destruct seed as [|c seed]; [cbn [bind]; apply F|]. destruct (iter_data _ _ _ _ _ _ _ _) as [ys p]. rewrite consume_same.
  destruct (consume_t truthy usage g ys) as [g1 [ex|e]]; auto. cbn [bind]. apply F.
Qed.
End Raise.
