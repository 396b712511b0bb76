(** Lemmas about seed chunks which are refused. *)
Require Import List Arith ZArith Bool Lia Sorted.
Require Import Verif.Common Verif.SegModel Verif.SegSpec Verif.FilterModel Verif.WrModel Verif.StreamModel Verif.StreamSpec Verif.IterProofs Verif.StreamProofs.
Import ListNotations.
Local Open Scope Z_scope.

Section Fail.
Context {D P SB PB : Type}.
Variable idx : D -> Z.
Variable truthy : Z -> bool.
Variable usage : frame -> Z.
Variable fs : @filters D.
Variable pre : option (@pre_fun D P).

Lemma stopped_app : forall (a b : list (res (Z * nat * list D))), stopped (a ++ b) = stopped a || stopped b.
Proof. intros. unfold stopped. apply existsb_app. Qed.

Lemma iter_fail : forall R discard before trim rem p bad after p',
  let r := iter_chunks idx R pre fs discard trim rem p before in
  chunk_fails idx pre (snd r) p' bad ->
  iter_chunks idx R pre fs discard trim rem p (before ++ bad :: after)
  = if stopped (fst r) then r else (fst r ++ [Err SeedPre], p').
Proof.
  intros R discard. induction before as [|c before IH]; intros trim rem p bad after p' r Hf.
  - unfold r in *. cbn [iter_chunks app fst snd] in *. destruct Hf as [[Hs ->]|(Hs & f & c & -> & Ef)].
    + destruct (sortedb (map idx bad)) eqn:E; [apply sortedb_iff in E; contradiction|]. auto.
    + apply sortedb_iff in Hs. rewrite Hs. cbn [negb]. rewrite Ef. auto.
  - unfold r in *. cbn [app iter_chunks] in *. destruct (negb (sortedb (map idx c))); [auto|].
    destruct (match pre with Some f => f c p | None => (c, p, true) end) as [[c1 p1] ok].
    destruct (negb ok); [auto|]. destruct (rev (rem ++ c1)) as [|x l]; [auto|].
    destruct (trim && (idx x <? R)); [apply IH; auto|].
    match goal with |- context [filter_chunk fs (idx x) (rem ++ c1) ?m] => set (ys := filter_chunk fs (idx x) (rem ++ c1) m) in * end.
    destruct (stopped ys) eqn:Es; [cbn [fst]; rewrite Es; auto|].
    match goal with |- context [iter_chunks idx R pre fs discard false ?r2 p1 before] => specialize (IH false r2 p1 bad after p') end.
    cbv zeta in IH. destruct (iter_chunks _ _ _ _ _ _ _ _ before) as [ys' p2]. cbn [fst snd] in *. rewrite IH by auto.
    rewrite stopped_app, Es. cbn [orb]. destruct (stopped ys'); auto. rewrite app_assoc. auto.
Qed.
Lemma iter_data_fail : forall restart trim discard before p bad after p',
  let r := iter_data idx restart pre fs trim discard p before in
  chunk_fails idx pre (snd r) p' bad ->
  iter_data idx restart pre fs trim discard p (before ++ bad :: after)
  = if stopped (fst r) then r else (fst r ++ [Err SeedPre], p').
Proof. intros [R|] trim discard before p bad after p' r Hf; unfold r, iter_data in *; apply iter_fail; auto. Qed.

Lemma consume_fail : forall ys (g : stream D P SB PB), stopped ys = false ->
  consume truthy usage g (ys ++ [Err SeedPre]) = match consume truthy usage g ys with Ok (g', None) => Ok (g', Some SeedPre) | x => x end.
Proof.
  induction ys as [|[y|e] ys IH]; intros g Hs; [auto| |discriminate]. cbn [app consume].
  destruct (consume1 truthy usage g y) as [g1|]; cbn [bind]; auto.
Qed.
Lemma consume_none : forall ys (g g' : stream D P SB PB), consume truthy usage g ys = Ok (g', None) -> stopped ys = false.
Proof.
  induction ys as [|[y|e] ys IH]; intros g g' H; auto.
  - cbn [consume] in H. destruct (consume1 truthy usage g y) as [g1|]; cbn [bind] in H; [|discriminate]. simpl. eauto.
  - cbn [consume] in H. destruct e; discriminate.
Qed.

(** The buffer of 'pre' is only recorded. *)
Lemma same_refl : forall s : kstore P SB PB, same_store s s.
Proof.
  assert (Q : forall x : option (entry P SB PB), same_opt same_entry x x).
  { intros [[d [m|]]|]; simpl; auto; [|split; simpl; auto]. split; auto. simpl. unfold same_md. auto. }
  intros [m s]. split; apply Q.
Qed.
Lemma store_write_same : forall p (e : option (entry P SB PB)) data md md', same_opt same_md md md' ->
  match store_write p e data md, store_write p e data md' with
  | Ok x, Ok y => same_entry x y
  | Err a, Err b => a = b
  | _, _ => False
  end.
Proof.
  intros p e data md md' H. unfold store_write. destruct (write p false (data_of e) data); cbn [bind]; auto.
  split; auto. cbn [e_md]. destruct md, md'; simpl in *; auto; try contradiction.
  destruct (data_of e); simpl; auto. destruct (md_of e); simpl; auto. unfold same_md. auto.
Qed.
Lemma post_n_write_same : forall (k : kconf D SB PB) b (s : kstore P SB PB) last r p p',
  match post_n_write truthy k b s last r p, post_n_write truthy k b s last r p' with
  | Ok (b1, a1), Ok (b2, a2) => b1 = b2 /\ same_store (apply_acts s a1) (apply_acts s a2)
  | Err a, Err b => a = b
  | _, _ => False
  end.
Proof.
  intros k b s last r p p'. unfold post_n_write. destruct (results k b last) as [[[main snap] pb]|]; cbn [bind]; auto. cbn [b_seg b_post].
  set (md := match r with Some i => if truthy i then Some (mkMd i p (b_seg b) pb) else None | None => None end).
  set (md' := match r with Some i => if truthy i then Some (mkMd i p' (b_seg b) pb) else None | None => None end).
  assert (Hm : same_opt same_md md md') by (unfold md, md'; destruct r as [i|]; [destruct (truthy i)|]; simpl; unfold same_md; auto).
  destruct main as [m|].
  - pose proof (store_write_same (k_write k) (s_main s) m md md' Hm) as Hw.
    destruct (store_write (k_write k) (s_main s) m md) as [e|], (store_write (k_write k) (s_main s) m md') as [e'|]; try contradiction; cbn [bind]; auto.
    destruct (k_type k).
    + cbn [bind]. split; auto. split; [exact Hw|exact (proj2 (same_refl s))].
    + cbn [bind]. split; auto. split; [exact Hw|exact (proj2 (same_refl s))].
    + destruct snap as [sn|]; cbn [bind]; auto.
      pose proof (store_write_same (k_write_snap k) (s_snap s) sn None None I) as Hw2.
      destruct (store_write (k_write_snap k) (s_snap s) sn None) as [e2|]; cbn [bind]; auto. split; auto. split; [exact Hw|exact Hw2].
  - destruct md as [m|], md' as [m'|]; simpl in Hm; try contradiction; cbn [bind]; split; auto; [|apply same_refl].
    split; [split; auto|exact (proj2 (same_refl s))].
Qed.
Lemma run_jobs_same : forall (ks : list (kconf D SB PB * kbuf SB PB * kstore P SB PB)) r p p' n,
  match run_jobs (fun k b s => post_n_write truthy k b s true r p) n ks, run_jobs (fun k b s => post_n_write truthy k b s true r p') n ks with
  | Ok (l, _), Ok (l', _) => Forall2 same_state l l'
  | Err a, Err b => a = b
  | _, _ => False
  end.
Proof.
  induction ks as [|[[k b] s] ks IH]; intros r p p' n; cbn [run_jobs]; [constructor|].
  pose proof (post_n_write_same k b s true r p p') as H.
  destruct (post_n_write truthy k b s true r p) as [[b1 a1]|], (post_n_write truthy k b s true r p') as [[b2 a2]|]; try contradiction; cbn [bind]; auto.
  destruct H as [<- H]. specialize (IH r p p' (S n)).
  destruct (run_jobs _ (S n) ks) as [[l log]|], (run_jobs _ (S n) ks) as [[l' log']|]; try contradiction; cbn [bind]; auto.
  constructor; auto. split; auto.
Qed.

(** A run up to a chunk which fails. *)
Lemma agg_fail : forall (g g1 : stream D P SB PB) before bad after trim discard final p',
  agg idx truthy usage pre fs g before trim discard final = Ok (g1, None) ->
  chunk_fails idx pre (g_pre g1) p' bad ->
  exists g2, agg idx truthy usage pre fs g (before ++ bad :: after) trim discard final = Ok (g2, Some SeedPre) /\
    g_pre g2 = p' /\ same_but_pre g1 g2 /\ (p' = g_pre g1 -> g2 = g1).
Proof.
  intros g g1 before bad after trim discard final p' H Hf.
  (* state before the final write *)
  assert (Q : exists gb, g_pre gb = g_pre g1 /\ (if final then final_write truthy gb = Ok g1 else gb = g1) /\
     agg idx truthy usage pre fs g (before ++ bad :: after) trim discard final
     = (let* x := if final then final_write truthy (mkStream (g_restart gb) p' (g_keys gb) (g_log gb)) else Ok (mkStream (g_restart gb) p' (g_keys gb) (g_log gb)) in
        Ok (x, Some SeedPre))).
  { assert (Qi : exists gi, consume truthy usage g (fst (iter_data idx (g_restart g) pre fs trim discard (g_pre g) before)) = Ok (gi, None) /\
       let gb := mkStream (g_restart gi) (snd (iter_data idx (g_restart g) pre fs trim discard (g_pre g) before)) (g_keys gi) (g_log gi) in
       g_pre gb = g_pre g1 /\ (if final then final_write truthy gb = Ok g1 else gb = g1)).
    { unfold agg in H. destruct before as [|c before].
      - cbn [bind] in H. exists g. assert (E : iter_data idx (g_restart g) pre fs trim discard (g_pre g) [] = ([], g_pre g)) by (unfold iter_data; destruct (g_restart g); auto).
        rewrite E. cbn [fst snd consume]. split; auto. cbv zeta. assert (E2 : mkStream (g_restart g) (g_pre g) (g_keys g) (g_log g) = g) by (destruct g; auto).
        rewrite E2. destruct final.
        + destruct (final_write truthy g) as [x|] eqn:E3; cbn [bind] in H; [|discriminate]. injection H as <-. split; auto.
          unfold final_write in E3. destruct (run_jobs _ 0 (g_keys g)) as [[l log]|]; cbn [bind] in E3; [|discriminate]. injection E3 as <-. auto.
        + cbn [bind] in H. injection H as <-. auto.
      - destruct (iter_data idx (g_restart g) pre fs trim discard (g_pre g) (c :: before)) as [ys p]. cbn [fst snd].
        destruct (consume truthy usage g ys) as [[gi ex]|] eqn:E; cbn [bind] in H; [|discriminate].
        assert (ex = None) as ->. { destruct final; [destruct (final_write _ _)|]; cbn [bind] in H; congruence. }
        exists gi. split; auto. destruct final.
        + destruct (final_write truthy _) as [x|] eqn:E3 in H; cbn [bind] in H; [|discriminate]. injection H as <-. split; auto.
          unfold final_write in E3. destruct (run_jobs _ 0 _) as [[l log]|] in E3; cbn [bind] in E3; [|discriminate]. injection E3 as <-. auto.
        + cbn [bind] in H. injection H as <-. auto. }
    destruct Qi as (gi & Ec & Ep & Efw). cbv zeta in Ep, Efw.
    eexists. split; [exact Ep|]. split; [exact Efw|]. cbn [g_pre g_restart g_keys g_log] in *.
    unfold agg. destruct (before ++ bad :: after) as [|c0 l0] eqn:El; [destruct before; discriminate|]. rewrite <- El. clear c0 l0 El.
    rewrite (iter_data_fail (g_restart g) trim discard before (g_pre g) bad after p') by (rewrite Ep; auto).
    cbv zeta. rewrite (consume_none _ _ _ Ec). rewrite consume_fail by (eapply consume_none; eauto). rewrite Ec. cbn [bind].
    destruct final; auto. }
  destruct Q as (gb & Ep & Efw & ->). destruct final.
  - unfold final_write in *. cbn [g_restart g_keys g_pre g_log] in *.
    pose proof (run_jobs_same (g_keys gb) (g_restart gb) (g_pre gb) p' 0) as Hr.
    destruct (run_jobs (fun k b s => post_n_write truthy k b s true (g_restart gb) (g_pre gb)) 0 (g_keys gb)) as [[l log]|] eqn:E1; cbn [bind] in Efw; [|discriminate].
    injection Efw as <-. cbn [g_pre] in *.
    destruct (run_jobs (fun k b s => post_n_write truthy k b s true (g_restart gb) p') 0 (g_keys gb)) as [[l' log']|] eqn:E2; [|contradiction].
    cbn [bind]. eexists. split; [reflexivity|]. cbn [g_pre]. split; auto. split; [split; auto|]. intros ->. rewrite E1 in E2. congruence.
  - subst gb. cbn [bind]. eexists. split; [reflexivity|]. split; auto. split; [split; auto|].
    + apply Forall2_same. intros x _. split; auto. apply same_refl.
    + intros ->. destruct g1; auto.
Qed.
End Fail.
