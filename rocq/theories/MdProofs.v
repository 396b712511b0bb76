(** Metadata of entries over runs, which may raise. *)
Require Import List Arith ZArith Bool Lia.
Require Import Verif.Common Verif.WrModel Verif.WrSpec Verif.WrProofs Verif.StreamModel Verif.RaiseModel Verif.StreamSpec Verif.BatchSpec Verif.BatchRunProofs.
Import ListNotations.
Local Open Scope Z_scope.

Section Md.
Context {D P SB PB : Type}.
Variable idx : D -> Z.
Variable truthy : Z -> bool.
Variable usage : frame -> Z.
Notation kconf := (kconf D SB PB).
Notation kbuf := (kbuf SB PB).
Notation kstore := (kstore P SB PB).
Notation stream := (stream D P SB PB).
Notation entry := (entry P SB PB).

(** A predicate on the entry of the main dataset, kept by writes. *)
Variable Phi : option entry -> Prop.
Variable okk : kconf -> Prop.
Definition keeps (job : kconf -> kbuf -> kstore -> list (@act P SB PB) * res kbuf) : Prop :=
  forall k b s, okk k -> Phi (s_main s) -> Forall (fun a => fst a = false -> Phi (Some (snd a))) (fst (job k b s)).
Definition all_phi (ks : list (kconf * kbuf * kstore)) : Prop := forall k b s, In (k, b, s) ks -> okk k /\ Phi (s_main s).
Definition log_phi (l : list (nat * @act P SB PB)) : Prop := Forall (fun a => fst (snd a) = false -> Phi (Some (snd (snd a)))) l.

Lemma apply_phi : forall acts s, Phi (s_main s) -> Forall (fun a => fst a = false -> Phi (Some (snd a))) acts -> Phi (s_main (apply_acts (s : kstore) acts)).
Proof.
  induction acts as [|[c e] acts IH]; intros s Hs F; auto. inversion F; subst. cbn. apply IH; auto. unfold apply_act. cbn [fst snd] in *. destruct c; cbn [s_main]; auto.
Qed.
Lemma run_jobs_phi : forall job, keeps job -> forall ks n ks' log ex, run_jobs_t job n ks = (ks', log, ex) -> all_phi ks -> all_phi ks' /\ log_phi log.
Proof.
  intros job Hj. induction ks as [|[[k b] s] ks IH]; intros n ks' log ex H Ha; cbn [run_jobs_t] in H.
  - injection H as <- <- <-. split; [intros ? ? ? []|constructor].
  - destruct (Ha k b s (or_introl eq_refl)) as [Hk Hs]. pose proof (Hj k b s Hk Hs) as F. destruct (job k b s) as [acts r] eqn:E. cbn [fst] in F.
    assert (Fl : log_phi (map (fun a => (n, a)) acts)).
    { apply Forall_forall. intros x Hx. apply in_map_iff in Hx as (a & <- & Hx). cbn. rewrite Forall_forall in F. apply F. auto. }
    destruct (run_jobs_t job (S n) ks) as [[l lg] ex'] eqn:E'. destruct (IH (S n) l lg ex' E') as [I1 I2]; [intros k0 b0 s0 H0; apply (Ha k0 b0 s0); right; auto|].
    destruct r as [b'|e]; injection H as <- <- <-; (split; [|apply Forall_app; auto]);
      (intros k0 b0 s0 [H0|H0]; [injection H0 as <- <- <-; split; auto; apply apply_phi; auto|apply (I1 k0 b0 s0); auto]).
Qed.
Hypothesis Hiter : forall p chunk id, keeps (fun k b s => if (k_filter k =? id)%nat then agg_iter_t truthy usage k b s p chunk else ([], Ok b)).
Lemma consume_phi : forall ys (g g' : stream) r, consume_t truthy usage g ys = (g', r) -> all_phi (g_keys g) -> all_phi (g_keys g') /\ exists l, g_log g' = g_log g ++ l /\ log_phi l.
Proof.
  induction ys as [|y ys IH]; intros g g' r H Ha; cbn [consume_t] in H.
  - injection H as <- <-. split; auto. exists []. rewrite app_nil_r. split; [auto|constructor].
  - destruct y as [y|e].
    + unfold consume1_t in H. destruct y as [[li id] chunk]. destruct (run_jobs_t _ 0 (g_keys g)) as [[ks lg] ex] eqn:E1.
      destruct (run_jobs_phi _ (Hiter _ _ _) _ _ _ _ _ E1 Ha) as [A1 A2]. destruct ex as [e|]; [injection H as <- <-; split; auto; exists lg; auto|].
      destruct (IH _ _ _ H A1) as (B1 & l & B2 & B3). split; auto.
      exists (lg ++ l). cbn [g_log] in B2. rewrite app_assoc. split; auto. apply Forall_app. auto.
    + assert (g' = g) as -> by (destruct e; congruence). split; auto. exists []. rewrite app_nil_r. split; [auto|constructor].
Qed.
Lemma agg_phi : forall pre fs (g g' : stream) seed tr dl final r, (final = true -> forall r p, keeps (fun k b s => post_n_write_t truthy k b s true r p)) ->
  agg_t idx truthy usage pre fs g seed tr dl final = (g', r) -> all_phi (g_keys g) ->
  all_phi (g_keys g') /\ exists l, g_log g' = g_log g ++ l /\ log_phi l.
Proof.
  intros pre fs g g' seed tr dl final r Hf H Ha. unfold agg_t in H.
  set (X := match seed with [] => _ | _ => _ end) in H. destruct X as [g1 r1] eqn:EX. unfold X in EX.
  assert (A1 : all_phi (g_keys g1) /\ exists l, g_log g1 = g_log g ++ l /\ log_phi l).
  { destruct seed as [|c seed]; [injection EX as <- <-; split; auto; exists []; rewrite app_nil_r; split; [auto|constructor]|].
    destruct (iter_data idx _ pre fs tr dl (g_pre g) (c :: seed)) as [ys p]. destruct (consume_t truthy usage g ys) as [g2 r2] eqn:Ec.
    injection EX as <- <-. cbn [g_keys g_log]. eapply consume_phi; eauto. }
  destruct r1 as [ex|e]; [|injection H as <- <-; auto]. destruct A1 as (A1 & l & A2 & A3). destruct final.
  - destruct (final_write_t truthy g1) as [g2 ex2] eqn:Ew. assert (g' = g2) as -> by (destruct ex2; congruence). clear H. unfold final_write_t in Ew.
    destruct (run_jobs_t _ 0 (g_keys g1)) as [[ks lg] ex3] eqn:E1. injection Ew as <- <-. cbn [g_keys g_log].
    destruct (run_jobs_phi _ (Hf eq_refl _ _) _ _ _ _ _ E1 A1) as [B1 B2]. split; auto. exists (l ++ lg). rewrite A2, app_assoc. split; auto. apply Forall_app. auto.
  - injection H as <- <-. split; auto. exists l. auto.
Qed.
Lemma after_acts_phi : forall ks n done, all_phi ks -> log_phi done -> all_phi (after_acts n ks done).
Proof.
  induction ks as [|[[k b] s] ks IH]; intros n done Ha Hl; [intros ? ? ? []|]. cbn [after_acts]. intros k0 b0 s0 [H|H].
  - injection H as <- <- <-. destruct (Ha k b s (or_introl eq_refl)) as [Hk Hs]. split; auto. apply apply_phi; auto. unfold acts_of. apply Forall_forall. intros a Hin.
    apply in_map_iff in Hin as (x & <- & Hin). apply filter_In in Hin as [Hin _]. unfold log_phi in Hl. rewrite Forall_forall in Hl. apply Hl; auto.
  - apply (IH (S n) done) with b0; auto. intros k1 b1 s1 H1. apply (Ha k1 b1 s1). right. auto.
Qed.
Lemma log_phi_made : forall n l, log_phi l -> log_phi (made n l).
Proof. intros n l H. unfold log_phi in *. rewrite Forall_forall in *. intros x Hx. apply H. eapply made_In; eauto. Qed.
End Md.

Section Inst.
Context {D P SB PB : Type}.
Variable truthy : Z -> bool.
Variable usage : frame -> Z.
Notation kconf := (kconf D SB PB).
Notation entry := (entry P SB PB).

(** Writes of the main dataset are made by 'post_n_write'. *)
Lemma post_n_write_main : forall (k : kconf) b s last r p,
  Forall (fun a => fst a = false -> (exists m pd, store_write (k_write k) (s_main s) m pd = Ok (snd a) /\ (r = None -> pd = None)) \/ (r <> None /\ exists md : aggmd P SB PB, snd a = store_md (s_main s) md))
    (fst (post_n_write_t truthy k b s last r p)).
Proof.
  intros k b s last r p. unfold post_n_write_t. destruct (results k b last) as [[[m sn] pb]|]; [|constructor]. cbv zeta.
  set (pd := match r with Some i => if truthy i then _ else None | None => None end).
  assert (Hr : r = None -> pd = None) by (intros ->; auto).
  destruct m as [m|].
  - destruct (store_write (k_write k) (s_main s) m pd) as [e|] eqn:E; [|constructor].
    assert (G : (exists m0 pd0, store_write (k_write k) (s_main s) m0 pd0 = Ok e /\ (r = None -> pd0 = None)) \/ (r <> None /\ exists md : aggmd P SB PB, e = store_md (s_main s) md)) by (left; eauto).
    destruct (k_type k); try (constructor; [intros _; exact G|constructor]).
    destruct sn as [sn|]; [|constructor; [intros _; exact G|constructor]]. destruct (store_write (k_write_snap k) (s_snap s) sn None) as [e'|]; constructor; try (intros _; exact G); constructor; [|constructor].
    intro Q; discriminate Q.
  - destruct pd as [md|] eqn:Ep; constructor; [|constructor]. intros _. right. split; [intro Q; specialize (Hr Q); discriminate|]. cbn. eauto.
Qed.
Lemma agg_iter_main : forall (k : kconf) b s p chunk,
  Forall (fun a => fst a = false -> exists m, store_write (k_write k) (s_main s) m (None : option (aggmd P SB PB)) = Ok (snd a)) (fst (agg_iter_t truthy usage k b s p chunk)).
Proof.
  intros k b s p chunk. unfold agg_iter_t. assert (A : Forall (fun a => fst a = false -> exists m, store_write (k_write k) (s_main s) m (None : option (aggmd P SB PB)) = Ok (snd a)) (fst (buffer_results_t truthy usage k b s p))).
  { unfold buffer_results_t. destruct (b_bin b) as [bin0|]; [|constructor]. destruct (rows bin0); [constructor|]. cbv zeta. destruct (k_max k <? _); [|constructor].
    match goal with |- Forall _ (fst (post_n_write_t _ _ ?B _ _ _ _)) => pose proof (post_n_write_main k B s false None p) as E end.
    eapply Forall_impl; [|exact E]. cbn. intros a Ha Hf. destruct (Ha Hf) as [(m & pd & E1 & E2)|[Hn _]]; [|congruence]. rewrite E2 in E1; eauto. }
  destruct (buffer_results_t truthy usage k b s p) as [acts [b1|e]]; auto. destruct (k_agg k chunk (b_seg b1)) as [[r seg]|]; auto. destruct (match r with Some (f, sn) => _ | None => _ end) as [bin snap]. auto.
Qed.

(** No metadata. *)
Definition without_md (e : option entry) : Prop := md_of e = None.
Lemma iter_without : forall p chunk id, keeps without_md (fun _ : kconf => True) (fun k b s => if (k_filter k =? id)%nat then agg_iter_t truthy usage k b s p chunk else ([], Ok b)).
Proof.
  intros p chunk id k b s _ Hs. destruct (k_filter k =? id)%nat; [|constructor]. eapply Forall_impl; [|apply agg_iter_main]. cbn. intros a Ha Hf.
  destruct (Ha Hf) as [m E]. unfold store_write in E. destruct (write (k_write k) false (data_of (s_main s)) m); cbn [bind] in E; [|discriminate]. injection E as <-. unfold without_md in *. cbn.
  destruct (data_of (s_main s)); auto.
Qed.

(** Metadata and data. *)
Definition with_md (e : option entry) : Prop := md_of e <> None /\ all_rows (data_of e) <> [].
Lemma write_with : forall p e m pd e', by_label p -> store_write p (e : option entry) m pd = Ok e' -> with_md e -> with_md (Some e').
Proof.
  intros p e m pd e' [Ho Hd] E [H1 H2]. unfold store_write in E. destruct (write p false (data_of e) m) as [ds|] eqn:Ew; cbn [bind] in E; [|discriminate]. injection E as <-. split; cbn [md_of data_of e_md e_data].
  - destruct pd; [discriminate|]. destruct (data_of e); auto.
  - destruct (write_rows _ _ _ _ _ Ew) as (rest & _ & _ & K). specialize (K _ _ Ho Hd). destruct (all_rows (data_of e)) as [|r l]; [congruence|].
    destruct (K r (or_introl eq_refl)) as (x & Hx & _). destruct (all_rows ds); [destruct Hx|discriminate].
Qed.
Lemma iter_with : forall p chunk id, keeps with_md (fun k : kconf => by_label (k_write k)) (fun k b s => if (k_filter k =? id)%nat then agg_iter_t truthy usage k b s p chunk else ([], Ok b)).
Proof.
  intros p chunk id k b s Hk Hs. destruct (k_filter k =? id)%nat; [|constructor]. eapply Forall_impl; [|apply agg_iter_main]. cbn. intros a Ha Hf.
  destruct (Ha Hf) as [m E]. eapply write_with; eauto.
Qed.
Lemma final_with : forall r p, keeps with_md (fun k : kconf => by_label (k_write k)) (fun k b s => post_n_write_t truthy k b s true r p).
Proof.
  intros r p k b s Hk Hs. eapply Forall_impl; [|apply post_n_write_main]. cbn. intros a Ha Hf.
  destruct (Ha Hf) as [(m & pd & E & _)|[_ (md & E)]]; [eapply write_with; eauto|]. rewrite E. destruct Hs as [_ Hs]. split; [discriminate|exact Hs].
Qed.
End Inst.
