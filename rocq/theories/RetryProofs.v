(** Proofs on calls made in a same process. *)
Require Import List Arith ZArith Bool Lia.
Require Import Verif.Common Verif.WrModel Verif.StreamModel Verif.RaiseModel Verif.StreamSpec Verif.RetryModel Verif.RaiseProofs Verif.BatchSpec Verif.BatchRunProofs Verif.RetrySpec.
Import ListNotations.
Local Open Scope Z_scope.

Section Retry.
Context {D P SB PB : Type}.
Variable idx : D -> Z.
Variable truthy : Z -> bool.
Variable usage : frame -> Z.
Notation kconf := (kconf D SB PB).
Notation kbuf := (kbuf SB PB).
Notation kstore := (kstore P SB PB).
Notation aggmd := (aggmd P SB PB).
Notation act := (@act P SB PB).
Notation stream := (stream D P SB PB).
Notation pstream := (@pstream D P SB PB).
Notation pkey := (@pkey D P SB PB).

Lemma acts_of_after : forall n (l : list (nat * act)), (forall x, In x l -> (n < fst x)%nat) -> acts_of n l = [].
Proof.
  induction l as [|x l IH]; intro H; auto. unfold acts_of in *. cbn. assert (n < fst x)%nat by (apply H; left; auto). replace (fst x =? n)%nat with false by (symmetry; apply Nat.eqb_neq; lia).
  apply IH. intros y Hy. apply H. right. auto.
Qed.
(** ** Without pending metadata: modifications of store are the first ones of an uninterrupted call *)
Definition prefix_job (t : list act * res kbuf) (p : list act * option aggmd * res kbuf) : Prop :=
  (exists l, fst t = fst (fst p) ++ l) /\
  match snd p with
  | Ok b' => snd t = Ok b' /\ snd (fst p) = None /\ fst t = fst (fst p)
  | Err _ => True
  end.
Lemma pnw_prefix : forall n (k : kconf) b s last r p, prefix_job (post_n_write_t truthy k b s last r p) (post_n_write_p truthy n k b s None last r p).
Proof.
  intros [n tried] k b s last r p. unfold prefix_job, post_n_write_t, post_n_write_p. destruct (results k b last) as [[[m sn] pb]|e]; [|cbn; eauto]. cbv zeta.
  set (pd := match r with Some i => if truthy i then _ else None | None => None end).
  destruct m as [m|].
  - destruct n as [|n]; [cbn; eauto|]. destruct (store_write (k_write k) (s_main s) m pd) as [e|x]; [|cbn; eauto].
    destruct (k_type k); try (cbn; eauto; fail). destruct sn as [sn|]; [|cbn; eauto].
    destruct n as [|n]; destruct (store_write (k_write_snap k) (s_snap s) sn None) as [e'|x]; cbn; eauto.
  - unfold pd. destruct r as [i|]; [destruct (truthy i) eqn:Ei|]; try (cbn; eauto; fail). destruct n as [|n]; cbn; eauto.
Qed.
Lemma buffer_prefix : forall n (k : kconf) b s p, prefix_job (buffer_results_t truthy usage k b s p) (buffer_results_p truthy usage n k b s None p).
Proof.
  intros n k b s p. unfold buffer_results_t, buffer_results_p. assert (T : forall b0 : kbuf, prefix_job ([], Ok b0) ([], None, Ok b0)) by (intro; split; cbn; eauto).
  destruct (b_bin b) as [bin|]; [|apply T]. destruct (rows bin); [apply T|]. cbv zeta. destruct (k_max k <? _); [apply pnw_prefix|apply T].
Qed.
Lemma iter_prefix : forall n (k : kconf) b s p chunk, prefix_job (agg_iter_t truthy usage k b s p chunk) (agg_iter_p truthy usage n k b s None p chunk).
Proof.
  intros n k b s p chunk. unfold agg_iter_t, agg_iter_p. pose proof (buffer_prefix n k b s p) as H.
  destruct (buffer_results_t truthy usage k b s p) as [at_ rt], (buffer_results_p truthy usage n k b s None p) as [[ap pd] rp]. destruct H as [H1 H2]. cbn [fst snd] in *.
  destruct rp as [b1|e].
  - destruct H2 as (-> & -> & ->). destruct (k_agg k chunk (b_seg b1)) as [[r seg]|e]; [|split; cbn; eauto]. destruct (match r with Some (f, sn) => _ | None => _ end) as [bin sn]. split; cbn; auto.
  - split; cbn [fst snd]; auto. destruct rt as [b0|e0]; [|auto]. destruct (k_agg k chunk (b_seg b0)) as [[r seg]|]; auto. destruct (match r with Some (f, sn) => _ | None => _ end) as [bin sn]. auto.
Qed.
Definition none_pending (ks : list pkey) : Prop := forall x, In x ks -> snd x = None.
(** Modifications of [lp] are, for each key, the first ones of [lt]. *)
Definition first_ones (lt lp : list (nat * act)) : Prop := forall i, exists l, acts_of i lt = acts_of i lp ++ l.
Lemma first_refl : forall l, first_ones l l.
Proof. intros l i. exists []. rewrite app_nil_r. auto. Qed.
Lemma first_app : forall a lt lp, first_ones lt lp -> first_ones (a ++ lt) (a ++ lp).
Proof. intros a lt lp H i. destruct (H i) as [l E]. exists l. rewrite !acts_of_app, E, app_assoc. auto. Qed.
Lemma first_more : forall lt lp l', first_ones lt lp -> first_ones (lt ++ l') lp.
Proof. intros lt lp l' H i. destruct (H i) as [l E]. exists (l ++ acts_of i l'). rewrite acts_of_app, E, app_assoc. auto. Qed.
(** Both runs of jobs: keys are the same if nothing is raised. *)
Definition prefix_run (t : list (kconf * kbuf * kstore) * list (nat * act) * option exn) (p : list pkey * list (nat * act) * option exn) : Prop :=
  let '(kt, lt, et) := t in let '(kp, lp, ep) := p in
  first_ones lt lp /\ (ep = None -> et = None /\ map fst kp = kt /\ none_pending kp /\ lp = lt).
Lemma jobs_after : forall jt ks i kt lt et, run_jobs_t (D:=D) (P:=P) (SB:=SB) (PB:=PB) jt i ks = (kt, lt, et) -> forall x, In x lt -> (i <= fst x)%nat.
Proof.
  intros jt. induction ks as [|[[k b] s] ks IH]; intros i kt lt et H x Hx; cbn [run_jobs_t] in H; [injection H as <- <- <-; destruct Hx|].
  destruct (jt k b s) as [a r]. destruct (run_jobs_t jt (S i) ks) as [[l log] ex] eqn:E. assert (lt = map (fun a => (i, a)) a ++ log) as -> by (destruct r; congruence).
  apply in_app_or in Hx as [Hx|Hx]; [apply in_map_iff in Hx as (y & <- & _); auto|]. specialize (IH _ _ _ _ E x Hx). lia.
Qed.
Lemma jobs_prefix : forall jt jp, (forall n k b s, prefix_job (jt k b s) (jp n k b s None)) ->
  forall ks left i, none_pending ks -> prefix_run (run_jobs_t jt i (map fst ks)) (run_jobs_p jp left i ks).
Proof.
  intros jt jp Hj. induction ks as [|[[[k b] s] pd] ks IH]; intros left i Hn; cbn [map fst run_jobs_t run_jobs_p].
  - cbn. split; [apply first_refl|]. intros _. split; [auto|]. split; [auto|]. split; [intros x []|auto].
  - assert (pd = None) as -> by (apply (Hn (k, b, s, pd)); left; auto).
    specialize (Hj (left i) k b s). destruct (jt k b s) as [at_ rt], (jp (left i) k b s None) as [[ap pd'] rp]. destruct Hj as [[l0 H1] H2]. cbn [fst snd] in *. subst at_.
    specialize (IH left (S i)). destruct (run_jobs_t jt (S i) (map fst ks)) as [[kt lt] et] eqn:Et, (run_jobs_p jp left (S i) ks) as [[kp lp] ep].
    destruct IH as [I1 I2]; [intros x Hx; apply Hn; right; auto|].
    assert (F : first_ones (map (fun a => (i, a)) (ap ++ l0) ++ lt) (map (fun a => (i, a)) ap ++ lp)).
    { intros j. destruct (I1 j) as [l E]. rewrite !acts_of_app, E. destruct (Nat.eq_dec i j) as [->|Q].
      - rewrite !acts_of_own. assert (Z : acts_of j lt = []). { apply acts_of_after. intros x Hx. pose proof (jobs_after _ _ _ _ _ _ Et x Hx). lia. }
        rewrite Z in E. symmetry in E. apply app_eq_nil in E as [-> ->]. exists l0. rewrite !app_nil_r. auto.
      - rewrite !acts_of_other by auto. exists l. auto. }
    destruct rp as [b'|e].
    + destruct H2 as (-> & -> & H2). rewrite <- (app_nil_r ap) in H2 at 2. apply app_inv_head in H2. subst l0.
      split; [exact F|]. intros ->. destruct (I2 eq_refl) as (-> & <- & Hk & ->). rewrite app_nil_r. repeat split; auto. intros x [<-|Hx]; auto.
    + destruct rt as [b0|e0]; (split; [exact F|discriminate]).
Qed.
Definition same_stream (g : stream) (gp : pstream) : Prop := g_restart g = p_restart gp /\ g_pre g = p_pre gp /\ g_keys g = map fst (p_keys gp).
(** What a call has done: [l] without failure of the store. *)
Definition prefix_call (g g' : stream) (rt : res (option exn)) (gp gp' : pstream) (rp : res (option exn)) : Prop :=
  exists l lp, g_log g' = g_log g ++ l /\ p_log gp' = p_log gp ++ lp /\ first_ones l lp /\
  match rp with
  | Ok ex => rt = Ok ex /\ same_stream g' gp' /\ none_pending (p_keys gp') /\ lp = l
  | Err _ => True
  end.
Lemma prefix_refl : forall g gp ex, same_stream g gp -> none_pending (p_keys gp) -> prefix_call g g (Ok ex) gp gp (Ok ex).
Proof. intros g gp ex H Hn. exists [], []. rewrite !app_nil_r. repeat split; auto; try apply H. apply first_refl. Qed.
Lemma consume_t_more : forall ys (g : stream), exists l, g_log (fst (consume_t truthy usage g ys)) = g_log g ++ l.
Proof.
  induction ys as [|y ys IH]; intro g; cbn [consume_t fst]; [exists []; rewrite app_nil_r; auto|]. destruct y as [y|e]; [|exists []; rewrite app_nil_r; destruct e; auto].
  unfold consume1_t. destruct y as [[li id] chunk]. destruct (run_jobs_t _ 0 (g_keys g)) as [[k l] e]. destruct e; [exists l; auto|].
  destruct (IH (mkStream (Some li) (g_pre g) k (g_log g ++ l))) as [l' E]. rewrite E. cbn. exists (l ++ l'). rewrite app_assoc. auto.
Qed.
Lemma consume_prefix : forall ys (g : stream) (gp : pstream), same_stream g gp -> none_pending (p_keys gp) ->
  let '(g', rt) := consume_t truthy usage g ys in let '(gp', rp) := consume_p truthy usage gp ys in prefix_call g g' rt gp gp' rp.
Proof.
  induction ys as [|y ys IH]; intros g gp Hs Hn; cbn [consume_t consume_p]; [apply prefix_refl; auto|].
  destruct y as [y|e].
  2: { destruct e; try (apply prefix_refl; auto); exists [], []; rewrite !app_nil_r; repeat split; auto; apply first_refl. }
  unfold consume1_t, consume1_p. destruct y as [[li id] chunk]. destruct Hs as (S1 & S2 & S3).
  pose proof (jobs_prefix (fun k b s => if (k_filter k =? id)%nat then agg_iter_t truthy usage k b s (g_pre g) chunk else ([], Ok b))
    (fun n k b s pend => if (k_filter k =? id)%nat then agg_iter_p truthy usage n k b s pend (p_pre gp) chunk else ([], pend, Ok b))) as J.
  assert (J0 : forall n k b s, prefix_job (if (k_filter k =? id)%nat then agg_iter_t truthy usage k b s (g_pre g) chunk else ([], Ok b)) (if (k_filter k =? id)%nat then agg_iter_p truthy usage n k b s None (p_pre gp) chunk else ([], None, Ok b))).
  { intros n k b s. rewrite S2. destruct (k_filter k =? id)%nat; [apply iter_prefix|]. split; cbn; eauto. }
  specialize (J J0 (p_keys gp) (p_left gp) 0%nat Hn). rewrite <- S3 in J. clear J0.
  destruct (run_jobs_t _ 0 (g_keys g)) as [[kt lt] et], (run_jobs_p _ (p_left gp) 0 (p_keys gp)) as [[kp lp] ep]. destruct J as [J1 J2].
  destruct ep as [ep|].
  - destruct et as [et|].
    + exists lt, lp. cbn [g_log p_log]. repeat split; auto.
    + destruct (consume_t_more ys (mkStream (Some li) (g_pre g) kt (g_log g ++ lt))) as [l' E]. destruct (consume_t truthy usage _ ys) as [g' rt]. cbn [fst g_log] in E.
      exists (lt ++ l'), lp. cbn [p_log]. rewrite E, app_assoc. repeat split; auto. apply first_more. auto.
  - destruct (J2 eq_refl) as (-> & J3 & J4 & ->). set (g1 := mkStream (Some li) (g_pre g) kt (g_log g ++ lt)). set (gp1 := mkP (Some li) (p_pre gp) kp (p_log gp ++ lt) (spend (p_left gp) lt)).
    assert (Hs1 : same_stream g1 gp1) by (split; [|split]; cbn; auto). specialize (IH g1 gp1 Hs1 J4).
    destruct (consume_t truthy usage g1 ys) as [g' rt], (consume_p truthy usage gp1 ys) as [gp' rp]. destruct IH as (l & l1 & E1 & E2 & E3 & E4).
    exists (lt ++ l), (lt ++ l1). cbn [g1 gp1 g_log p_log p_left] in *. rewrite E1, E2, !app_assoc. split; auto. split; auto. split; [apply first_app; auto|].
    destruct rp as [ex|e]; auto. destruct E4 as (A & B & C & ->). repeat split; auto; apply B.
Qed.
Lemma agg_prefix : forall pre fs (g : stream) (gp : pstream) seed tr dl final, same_stream g gp -> none_pending (p_keys gp) ->
  let '(g', rt) := agg_t idx truthy usage pre fs g seed tr dl final in let '(gp', rp) := agg_p idx truthy usage pre fs gp seed tr dl final in prefix_call g g' rt gp gp' rp.
Proof.
  intros pre fs g gp seed tr dl final Hs Hn. unfold agg_t, agg_p.
  set (X := match seed with [] => _ | _ => _ end). set (Y := match seed with [] => (gp, _) | _ => _ end).
  assert (H : let '(g', rt) := X in let '(gp', rp) := Y in prefix_call g g' rt gp gp' rp).
  { unfold X, Y. destruct seed as [|c seed]; [apply prefix_refl; auto|]. destruct Hs as (S1 & S2 & S3). rewrite <- S1, <- S2. destruct (iter_data idx _ pre fs tr dl (g_pre g) (c :: seed)) as [ys p].
    pose proof (consume_prefix ys g gp (conj S1 (conj S2 S3)) Hn) as H. destruct (consume_t truthy usage g ys) as [g' rt], (consume_p truthy usage gp ys) as [gp' rp].
    destruct H as (l & lp & E1 & E2 & E3 & E4). exists l, lp. cbn [g_log p_log]. split; auto. split; auto. split; auto. destruct rp as [ex|e]; auto. destruct E4 as (A & (B1 & B2 & B3) & C & E). repeat split; cbn; auto. }
  clearbody X Y. destruct X as [g1 rt1], Y as [gp1 rp1]. destruct rp1 as [ex|e].
  - destruct H as (l & lp & E1 & E2 & E3 & -> & (S1 & S2 & S3) & N1 & ->). destruct final.
    + unfold final_write_t, final_write_p.
      pose proof (jobs_prefix (fun k b s => post_n_write_t truthy k b s true (g_restart g1) (g_pre g1)) (fun n k b s pend => post_n_write_p truthy n k b s pend true (p_restart gp1) (p_pre gp1))) as J.
      specialize (J ltac:(intros; rewrite S1, S2; apply pnw_prefix) (p_keys gp1) (p_left gp1) 0%nat N1). rewrite <- S3 in J.
      destruct (run_jobs_t _ 0 (g_keys g1)) as [[kt lt] et], (run_jobs_p _ (p_left gp1) 0 (p_keys gp1)) as [[kp lp] ep]. destruct J as [J1 J2].
      destruct ep as [ep|].
      * destruct et as [et|]; (exists (l ++ lt), (l ++ lp); cbn [g_log p_log]; rewrite E1, E2, !app_assoc; repeat split; auto; rewrite <- ?app_assoc; apply first_app; auto).
      * destruct (J2 eq_refl) as (-> & J3 & J4 & ->). exists (l ++ lt), (l ++ lt). cbn [g_log p_log p_keys]. rewrite E1, E2, !app_assoc. repeat split; cbn; auto. apply first_refl.
    + exists l, l. repeat split; auto.
  - destruct H as (l & lp & E1 & E2 & E3 & _). destruct rt1 as [ext|et]; [|exists l, lp; repeat split; auto].
    destruct final.
    + unfold final_write_t. destruct (run_jobs_t _ 0 (g_keys g1)) as [[kt lt] et]. destruct et; (exists (l ++ lt), lp; cbn [g_log]; rewrite E1, app_assoc; repeat split; auto; rewrite <- ?app_assoc; apply first_more; auto).
    + exists l, lp. repeat split; auto.
Qed.

(** ** With pending metadata: a call which completes with a final write leaves the same datasets *)
Definition like_entry (e e' : option (entry P SB PB)) : Prop :=
  match e, e' with Some e, Some e' => e_data e = e_data e' | None, None => True | _, _ => False end.
Definition like (s s' : kstore) : Prop := like_entry (s_main s) (s_main s') /\ s_snap s = s_snap s'.
Definition like_act (a a' : act) : Prop := fst a = fst a' /\ e_data (snd a) = e_data (snd a') /\ (fst a = true -> a = a').
Lemma like_data : forall e e', like_entry e e' -> data_of e = data_of e'.
Proof. intros [e|] [e'|] H; cbn in *; auto; contradiction. Qed.
Lemma like_acts : forall l l', Forall2 like_act l l' -> forall s s', like s s' -> like (apply_acts s l) (apply_acts s' l').
Proof.
  induction 1 as [|[c e] [c' e'] l l' (H1 & H2 & H3) _ IH]; intros s s' Hs; cbn [apply_acts fold_left]; auto. apply IH. cbn in *. subst c'.
  destruct Hs as [Hs1 Hs2]. destruct c; [assert (Q := H3 eq_refl); injection Q as <-; split; cbn; auto|split; cbn; auto].
Qed.
Lemma store_write_like : forall p e e' data pd pd' r, like_entry e e' -> store_write p e data pd = Ok r -> exists r', store_write p e' data pd' = Ok r' /\ e_data r = e_data r' /\ (pd = pd' -> pd <> None -> r = r').
Proof.
  intros p e e' data pd pd' r He H. unfold store_write in *. rewrite <- (like_data e e' He). destruct (write p false (data_of e) data) as [ds|]; cbn [bind] in *; [|discriminate]. injection H as <-.
  eexists. split; [reflexivity|]. split; auto. intros -> Hn. destruct pd'; congruence.
Qed.
Definition last_index (r : option Z) : bool := match r with Some i => truthy i | None => false end.
Lemma pnw_like : forall n (k : kconf) b s s' pend last r p acts pend' b', like s s' -> post_n_write_p truthy n k b s pend last r p = (acts, pend', Ok b') ->
  exists acts', post_n_write_t truthy k b s' last r p = (acts', Ok b') /\ Forall2 like_act acts acts' /\
    (last_index r = true -> apply_acts s acts = apply_acts s' acts' /\ pend' = None).
Proof.
  intros [n tried] k b s s' pend last r p acts pend' b' [Hm Hs] H. unfold post_n_write_p, post_n_write_t in *. destruct (results k b last) as [[[m sn] pb]|e]; [|discriminate].
  set (pd := match r with Some i => if truthy i then Some (mkMd i p (b_seg b) pb) else None | None => None end) in *.
  set (done := match b_bin b with Some _ => _ | None => _ end) in *. cbv zeta in H. set (pd1 := match r with Some i => if truthy i then _ else pend | None => pend end) in H.
  assert (Epd : last_index r = true -> pd1 = pd /\ pd <> None) by (unfold pd, pd1, last_index; destruct r as [i|]; [destruct (truthy i)|]; split; auto; discriminate).
  assert (Epd' : last_index r = false -> pd = None) by (unfold pd, last_index; destruct r as [i|]; [destruct (truthy i)|]; auto; discriminate).
  destruct m as [m|].
  - destruct n as [|n]; [discriminate|]. destruct (store_write (k_write k) (s_main s) m pd1) as [e|] eqn:Ew; [|discriminate].
    destruct (store_write_like _ _ _ _ _ pd _ Hm Ew) as (e' & -> & E1 & E2).
    assert (La : like_act (false, e) (false, e')) by (split; [|split]; cbn; auto; discriminate).
    assert (Le : last_index r = true -> e = e') by (intro Q; destruct (Epd Q) as [Q1 Q2]; apply E2; congruence).
    assert (Lb : forall x, last_index r = true -> apply_acts s ((false, e) :: x) = apply_acts s' ((false, e') :: x)).
    { intros x Q. rewrite (Le Q). cbn [apply_acts fold_left apply_act fst snd]. rewrite Hs. auto. }
    destruct (k_type k) eqn:Ek; try (injection H as <- <- <-; eexists; split; [reflexivity|]; split; auto).
    destruct sn as [sn|]; [|discriminate]. destruct n as [|n]; [discriminate|]. rewrite <- Hs. destruct (store_write (k_write_snap k) (s_snap s) sn None) as [es|]; [|discriminate].
    injection H as <- <- <-. eexists. split; [reflexivity|]. split; [constructor; auto; constructor; auto; split; auto|auto].
  - assert (Hlast : (match r with Some i => truthy i | None => false end) = last_index r) by reflexivity. rewrite Hlast in H. destruct (last_index r) eqn:El.
    + destruct (Epd eq_refl) as [Q1 Q2]. rewrite Q1 in H. destruct pd as [md|]; [|congruence]. destruct n as [|n]; [discriminate|]. injection H as <- <- <-.
      eexists. split; [reflexivity|]. assert (Q : store_md (s_main s) md = store_md (s_main s') md) by (unfold store_md; rewrite (like_data _ _ Hm); auto). rewrite Q. split; [constructor; auto; repeat split|].
      intros _. split; auto. cbn. rewrite Hs. auto.
    + rewrite (Epd' eq_refl). destruct pd1; injection H as <- <- <-; (eexists; split; [reflexivity|split; [constructor|discriminate]]).
Qed.
Lemma iter_like : forall n (k : kconf) b s s' pend p chunk acts pend' b', like s s' -> agg_iter_p truthy usage n k b s pend p chunk = (acts, pend', Ok b') ->
  exists acts', agg_iter_t truthy usage k b s' p chunk = (acts', Ok b') /\ Forall2 like_act acts acts'.
Proof.
  intros n k b s s' pend p chunk acts pend' b' Hs H. unfold agg_iter_p, agg_iter_t in *.
  destruct (buffer_results_p truthy usage n k b s pend p) as [[ap pd] rp] eqn:E. destruct rp as [b1|]; [|discriminate].
  assert (Q : exists a', buffer_results_t truthy usage k b s' p = (a', Ok b1) /\ Forall2 like_act ap a').
  { unfold buffer_results_p, buffer_results_t in *. destruct (b_bin b) as [bin|]; [|injection E as <- <- <-; eexists; split; [reflexivity|constructor]].
    destruct (rows bin); [injection E as <- <- <-; eexists; split; [reflexivity|constructor]|]. cbv zeta in *. destruct (k_max k <? _); [|injection E as <- <- <-; eexists; split; [reflexivity|constructor]].
    destruct (pnw_like _ _ _ _ s' _ _ _ _ _ _ _ Hs E) as (a' & A & B & _). eauto. }
  destruct Q as (a' & -> & F). destruct (k_agg k chunk (b_seg b1)) as [[r seg]|]; [|discriminate]. destruct (match r with Some (f, sn) => _ | None => _ end) as [bin sn]. injection H as <- <- <-. eauto.
Qed.
Definition like_key (x : pkey) (y : kconf * kbuf * kstore) : Prop := fst (fst (fst x)) = fst (fst y) /\ snd (fst (fst x)) = snd (fst y) /\ like (snd (fst x)) (snd y).
Lemma jobs_like : forall (R : pkey -> kconf * kbuf * kstore -> Prop) jt jp,
  (forall n k b s s' pend acts pend' b', like s s' -> jp n k b s pend = (acts, pend', Ok b') -> exists acts', jt k b s' = (acts', Ok b') /\ R (k, b', apply_acts s acts, pend') (k, b', apply_acts s' acts')) ->
  forall ks ks', Forall2 like_key ks ks' -> forall left i kp lp, run_jobs_p jp left i ks = (kp, lp, None) -> exists kt lt, run_jobs_t jt i ks' = (kt, lt, None) /\ Forall2 R kp kt.
Proof.
  intros R jt jp Hj ks ks' H. induction H as [|[[[k b] s] pd] [[k' b'] s'] ks ks' (H1 & H2 & H3) _ IH]; intros left i kp lp E; cbn [run_jobs_p run_jobs_t] in *.
  - injection E as <- <-. eauto.
  - cbn in H1, H2, H3. subst k' b'. destruct (jp (left i) k b s pd) as [[ap pd'] rp] eqn:Ej. destruct (run_jobs_p jp left (S i) ks) as [[kp' lp'] ep] eqn:Er. destruct rp as [b1|]; [|discriminate]. injection E as <- <- ->.
    destruct (Hj _ _ _ _ s' _ _ _ _ H3 Ej) as (at_ & -> & HR). destruct (IH _ _ _ _ Er) as (kt & lt & -> & F). eauto.
Qed.
Definition like_stream (gp : pstream) (g : stream) : Prop := p_restart gp = g_restart g /\ p_pre gp = g_pre g /\ Forall2 like_key (p_keys gp) (g_keys g).
Lemma consume_like : forall ys (g : stream) (gp gp' : pstream) ex, like_stream gp g -> consume_p truthy usage gp ys = (gp', Ok ex) ->
  exists g', consume_t truthy usage g ys = (g', Ok ex) /\ like_stream gp' g'.
Proof.
  induction ys as [|y ys IH]; intros g gp gp' ex Hs H; cbn [consume_t consume_p] in *; [injection H as <- <-; eauto|].
  destruct y as [y|e]; [|destruct e; try discriminate; injection H as <- <-; eauto].
  unfold consume1_t, consume1_p in *. destruct y as [[li id] chunk]. destruct Hs as (S1 & S2 & S3).
  destruct (run_jobs_p _ (p_left gp) 0 (p_keys gp)) as [[kp lp] ep] eqn:Er. destruct ep; [discriminate|].
  assert (Hj : forall n k b s s' pend acts pend' b', like s s' ->
    (if (k_filter k =? id)%nat then agg_iter_p truthy usage n k b s pend (p_pre gp) chunk else ([], pend, Ok b)) = (acts, pend', Ok b') ->
    exists acts', (if (k_filter k =? id)%nat then agg_iter_t truthy usage k b s' (g_pre g) chunk else ([], Ok b)) = (acts', Ok b') /\ like_key (k, b', apply_acts s acts, pend') (k, b', apply_acts s' acts')).
  { intros n k b s s' pend acts pend' b' Hl Hj. rewrite <- S2. destruct (k_filter k =? id)%nat.
    - destruct (iter_like _ _ _ _ s' _ _ _ _ _ _ Hl Hj) as (a' & A & B). exists a'. split; [exact A|]. split; [|split]; cbn; auto. apply like_acts; auto.
    - injection Hj as <- <- <-. exists []. split; auto. split; [|split]; cbn; auto. }
  destruct (jobs_like like_key _ _ Hj _ _ S3 _ _ _ _ Er) as (kt & lt & Et & F).
  rewrite Et. eapply IH; [|exact H]. split; [|split]; cbn; auto.
Qed.
Lemma forall2_same : forall (ks : list pkey) ks', Forall2 (fun x y => fst x = y /\ snd x = None) ks ks' -> map fst ks = ks' /\ none_pending ks.
Proof.
  induction 1 as [|x y ks ks' [<- H] _ [IH1 IH2]]; [split; auto; intros x []|]. cbn [map]. rewrite IH1. split; auto. intros z [<-|Hz]; auto.
Qed.
Lemma agg_like : forall pre fs (g : stream) (gp gp' : pstream) seed tr dl ex, like_stream gp g -> (forall i, truthy i = true) -> p_restart gp <> None ->
  agg_p idx truthy usage pre fs gp seed tr dl true = (gp', Ok ex) ->
  exists g', agg_t idx truthy usage pre fs g seed tr dl true = (g', Ok ex) /\ same_stream g' gp' /\ none_pending (p_keys gp').
Proof.
  intros pre fs g gp gp' seed tr dl ex Hs Ht Hr H. unfold agg_t, agg_p in *.
  set (X := match seed with [] => (g, _) | _ => _ end). set (Y := match seed with [] => (gp, _) | _ => _ end) in H.
  assert (HY : forall gp1 ex1, Y = (gp1, Ok ex1) -> exists g1, X = (g1, Ok ex1) /\ like_stream gp1 g1 /\ p_restart gp1 <> None).
  { intros gp1 ex1 E. unfold X, Y in *. destruct seed as [|c seed]; [injection E as <- <-; exists g; auto|]. destruct Hs as (S1 & S2 & S3). rewrite <- S1, <- S2. destruct (iter_data idx _ pre fs tr dl (p_pre gp) (c :: seed)) as [ys p].
    destruct (consume_p truthy usage gp ys) as [gp2 r2] eqn:Ec. injection E as <- ->. destruct (consume_like ys g gp gp2 ex1 (conj S1 (conj S2 S3)) Ec) as (g' & -> & (L1 & L2 & L3)).
    eexists. split; [reflexivity|]. split; [split; [|split]; cbn; auto|]. cbn. clear - Ec Hr. revert gp Hr Ec. induction ys as [|y ys IH]; intros gp Hr Ec; cbn [consume_p] in Ec; [injection Ec as <- _; auto|].
    destruct y as [[[li id] chunk]|e]; [|assert (gp2 = gp) as -> by (destruct e; congruence); auto]. unfold consume1_p in Ec. destruct (run_jobs_p _ (p_left gp) 0 (p_keys gp)) as [[kp lp] [e|]]; [discriminate|].
    eapply IH; [|exact Ec]. cbn. discriminate. }
  clearbody X Y. destruct Y as [gp1 [ex1|e]]; [|discriminate]. destruct (HY gp1 ex1 eq_refl) as (g1 & -> & (L1 & L2 & L3) & Hr1). clear HY.
  unfold final_write_p, final_write_t in *. destruct (run_jobs_p _ (p_left gp1) 0 (p_keys gp1)) as [[kp lp] ep] eqn:Er. destruct ep; [discriminate|]. injection H as <- <-.
  assert (Hj : forall n k b s s' pend acts pend' b', like s s' -> post_n_write_p truthy n k b s pend true (p_restart gp1) (p_pre gp1) = (acts, pend', Ok b') ->
    exists acts', post_n_write_t truthy k b s' true (g_restart g1) (g_pre g1) = (acts', Ok b') /\ fst ((k, b', apply_acts s acts, pend') : pkey) = (k, b', apply_acts s' acts') /\ snd ((k, b', apply_acts s acts, pend') : pkey) = None).
  { intros n k b s s' pend acts pend' b' Hl Hj. rewrite <- L1, <- L2. destruct (pnw_like _ _ _ _ s' _ _ _ _ _ _ _ Hl Hj) as (a' & A & _ & B). exists a'. split; [exact A|].
    destruct B as [B1 B2]; [unfold last_index; destruct (p_restart gp1); [auto|congruence]|]. cbn. rewrite B1. auto. }
  destruct (jobs_like (fun x y => fst x = y /\ snd x = None) _ _ Hj _ _ L3 _ _ _ _ Er) as (kt & lt & Et & F).
  rewrite Et. eexists. split; [reflexivity|]. apply forall2_same in F as [F1 F2]. split; [split; [|split]; cbn; auto|auto].
Qed.

(** ** Datasets after some modifications *)
Definition ks_of (ks : list (kconf * kbuf * kstore)) : list (kconf * kstore) := map (fun x => let '(k, b, s) := x in (k, s)) ks.
Fixpoint after_ks (n : nat) (ks : list (kconf * kstore)) (l : list (nat * act)) : list (kconf * kstore) :=
  match ks with [] => [] | (k, s) :: ks' => (k, apply_acts s (acts_of n l)) :: after_ks (S n) ks' l end.
Lemma after_acts_ks : forall ks n l, ks_of (after_acts n ks l) = after_ks n (ks_of ks) l.
Proof. induction ks as [|[[k b] s] ks IH]; intros n l; cbn; auto. f_equal. apply IH. Qed.
Lemma after_ks_app : forall ks n l l', after_ks n ks (l ++ l') = after_ks n (after_ks n ks l) l'.
Proof. induction ks as [|[k s] ks IH]; intros n l l'; cbn; auto. rewrite acts_of_app. unfold apply_acts at 1. rewrite fold_left_app, IH. auto. Qed.
Lemma after_ks_nil : forall ks n, after_ks n ks [] = ks.
Proof. induction ks as [|[k s] ks IH]; intro n; cbn; auto. rewrite IH. auto. Qed.
Lemma after_ks_ext : forall ks n l l', (forall i, (n <= i < n + length ks)%nat -> acts_of i l = acts_of i l') -> after_ks n ks l = after_ks n ks l'.
Proof. induction ks as [|[k s] ks IH]; intros n l l' H; cbn; auto. rewrite (H n) by (cbn; lia). f_equal. apply IH. intros i Hi. apply H. cbn. lia. Qed.
Lemma after_ks_before : forall ks n l l', (forall x, In x l -> (fst x < n)%nat) -> after_ks n ks (l ++ l') = after_ks n ks l'.
Proof.
  induction ks as [|[k s] ks IH]; intros n l l' H; cbn; auto. rewrite IH by (intros x Hx; specialize (H x Hx); lia). rewrite acts_of_app.
  replace (acts_of n l) with (@nil act); auto. unfold acts_of. symmetry. clear - H. induction l as [|x l IH]; cbn; auto.
  assert (fst x < n)%nat by (apply H; left; auto). replace (fst x =? n)%nat with false by (symmetry; apply Nat.eqb_neq; lia). apply IH. intros y Hy. apply H. right. auto.
Qed.
Lemma run_jobs_p_stores : forall jp ks left i kp lp ep, run_jobs_p jp left i ks = (kp, lp, ep) ->
  ks_of (map fst kp) = after_ks i (ks_of (map fst ks)) lp /\ (forall x, In x lp -> (i <= fst x)%nat).
Proof.
  intros jp. induction ks as [|[[[k b] s] pd] ks IH]; intros left i kp lp ep H; cbn [run_jobs_p] in H; [injection H as <- <- <-; split; auto; intros x []|].
  destruct (jp (left i) k b s pd) as [[acts pd'] r].
  assert (F : forall x, In x (map (fun a => (i, a)) acts) -> fst x = i) by (intros x Hx; apply in_map_iff in Hx as (a & <- & _); auto).
  destruct (run_jobs_p jp left (S i) ks) as [[l log] ex] eqn:E. destruct (IH _ _ _ _ _ E) as [I1 I2].
  destruct r as [b'|e]; injection H as <- <- <-.
  all: split; [|intros x Hx; apply in_app_or in Hx as [Hx|Hx]; [rewrite (F x Hx); lia|specialize (I2 x Hx); lia]].
  all: cbn [map fst ks_of after_ks]; rewrite acts_of_app, acts_of_own, (acts_of_after i log), app_nil_r by (intros x Hx; specialize (I2 x Hx); lia).
  all: f_equal; rewrite after_ks_before by (intros x Hx; rewrite (F x Hx); lia); exact I1.
Qed.
Definition pks (g : pstream) : list (kconf * kstore) := ks_of (map fst (p_keys g)).
Lemma consume_p_stores : forall ys (g g' : pstream) r, consume_p truthy usage g ys = (g', r) -> exists l, p_log g' = p_log g ++ l /\ pks g' = after_ks 0 (pks g) l.
Proof.
  induction ys as [|y ys IH]; intros g g' r H; cbn [consume_p] in H; [injection H as <- <-; exists []; rewrite app_nil_r, after_ks_nil; auto|].
  destruct y as [y|e]; [|assert (g' = g) as -> by (destruct e; congruence); exists []; rewrite app_nil_r, after_ks_nil; auto].
  unfold consume1_p in H. destruct y as [[li id] chunk]. destruct (run_jobs_p _ (p_left g) 0 (p_keys g)) as [[kp lp] ep] eqn:E. apply run_jobs_p_stores in E as [E _].
  destruct ep as [e|]; [injection H as <- <-; exists lp; split; auto|]. destruct (IH _ _ _ H) as (l & A & B). cbn [p_log] in A. exists (lp ++ l). rewrite app_assoc. split; auto.
  rewrite B. unfold pks at 1. cbn [p_keys]. rewrite E, after_ks_app. auto.
Qed.
Lemma agg_p_stores : forall pre fs (g g' : pstream) seed tr dl final r, agg_p idx truthy usage pre fs g seed tr dl final = (g', r) -> exists l, p_log g' = p_log g ++ l /\ pks g' = after_ks 0 (pks g) l.
Proof.
  intros pre fs g g' seed tr dl final r H. unfold agg_p in H. set (Y := match seed with [] => (g, _) | _ => _ end) in H.
  assert (HY : exists l, p_log (fst Y) = p_log g ++ l /\ pks (fst Y) = after_ks 0 (pks g) l).
  { unfold Y. destruct seed as [|c seed]; [exists []; rewrite app_nil_r, after_ks_nil; auto|]. destruct (iter_data _ _ _ _ _ _ _ _) as [ys p]. destruct (consume_p truthy usage g ys) as [g1 r1] eqn:E. cbn. eapply consume_p_stores; eauto. }
  clearbody Y. destruct Y as [g1 r1]. cbn [fst] in HY. destruct HY as (l & A & B). destruct r1 as [ex|e]; [|injection H as <- <-; eauto]. destruct final; [|injection H as <- <-; eauto].
  unfold final_write_p in H. destruct (run_jobs_p _ (p_left g1) 0 (p_keys g1)) as [[kp lp] ep] eqn:E. apply run_jobs_p_stores in E as [E _].
  exists (l ++ lp). assert (p_log g' = p_log g1 ++ lp /\ p_keys g' = kp) as [-> Ek] by (destruct ep; injection H as <- _; auto). unfold pks at 1. rewrite Ek, E, after_ks_app, A, app_assoc. split; auto.
  unfold pks in B at 1. rewrite B. auto.
Qed.
Definition mains (ks : list (kconf * kstore)) : Prop := forall x, In x ks -> s_main (snd x) <> None.
Lemma apply_main : forall (l : list act) s, s_main s <> None -> s_main (apply_acts s l) <> None.
Proof. induction l as [|[c e] l IH]; intros s H; auto. cbn. apply IH. destruct c; cbn; [auto|discriminate]. Qed.
Lemma mains_after : forall ks n l, mains ks -> mains (after_ks n ks l).
Proof.
  induction ks as [|[k s] ks IH]; intros n l H x Hx; [destruct Hx|]. cbn in Hx. destruct Hx as [<-|Hx].
  - cbn. apply apply_main. apply (H (k, s)). left. auto.
  - apply (IH (S n) l); auto. intros y Hy. apply H. right. auto.
Qed.
Lemma init_keys_stores : forall seg0 post0 ks rs (pre : P) l rs' p, init_keys (D:=D) (P:=P) (SB:=SB) (PB:=PB) seg0 post0 ks rs pre = Ok (l, rs', p) ->
  ks_of l = ks /\ (rs <> [] -> rs' <> []) /\ (mains ks -> ks <> [] -> rs' <> []).
Proof.
  intros seg0 post0. induction ks as [|[k s] ks IH]; intros rs pre l rs' p H; cbn [init_keys] in H.
  - injection H as <- <- <-. split; auto.
  - destruct (s_main s) as [e|] eqn:Es.
    + destruct (e_md e) as [md|]; [|discriminate]. set (rs1 := if memZ (m_restart md) rs then rs else m_restart md :: rs) in H.
      destruct (init_keys seg0 post0 ks rs1 (m_pre md)) as [[[l1 r1] p1]|] eqn:E; cbn [bind] in H; [|discriminate]. injection H as <- <- <-. destruct (IH _ _ _ _ _ E) as (A & B & C).
      assert (rs1 <> []). { unfold rs1. destruct (memZ (m_restart md) rs) eqn:Em; [|discriminate]. intros ->. discriminate. }
      split; [cbn; f_equal; auto|]. split; auto.
    + destruct (init_keys seg0 post0 ks rs pre) as [[[l1 r1] p1]|] eqn:E; cbn [bind] in H; [|discriminate]. injection H as <- <- <-. destruct (IH _ _ _ _ _ E) as (A & B & C).
      split; [cbn; f_equal; auto|]. split; auto. intros Hm. elim (Hm (k, s)); [left; auto|auto].
Qed.
Lemma init_stores : forall pre0 seg0 post0 ks (g : stream), init pre0 seg0 post0 ks = Ok g -> ks_of (g_keys g) = ks /\ (mains ks -> ks <> [] -> g_restart g <> None).
Proof.
  intros pre0 seg0 post0 ks g H. unfold init in H. destruct (init_keys seg0 post0 ks [] pre0) as [[[l rs] p]|] eqn:E; cbn [bind] in H; [|discriminate].
  apply init_keys_stores in E as (A & _ & C). destruct rs as [|r [|r' rs]]; try discriminate; injection H as <-; cbn; split; auto; [|discriminate]. intros Hm Hk. elim (C Hm Hk). auto.
Qed.
Lemma combine_fst : forall (A B : Type) (l : list A) (l' : list B), length l = length l' -> map fst (combine l l') = l /\ map snd (combine l l') = l'.
Proof. induction l as [|a l IH]; intros [|b l'] H; try discriminate; auto. cbn. injection H as H. destruct (IH _ H) as [-> ->]. auto. Qed.
Lemma not_pending : forall g : pstream, pending g = false <-> none_pending (p_keys g).
Proof.
  intros g. unfold pending, none_pending. split.
  - intros H x Hx. destruct (snd x) eqn:E; auto. exfalso. revert H. apply Bool.not_false_iff_true. apply existsb_exists. exists x. rewrite E. auto.
  - intros H. destruct (existsb _ _) eqn:E; auto. apply existsb_exists in E as (x & Hx & E). rewrite (H x Hx) in E. discriminate.
Qed.

(** ** Histories *)
Definition pre_ := option (@pre_fun D P).
Lemma forget_same : forall gp : pstream, pks (forget gp) = pks gp /\ pending (forget gp) = false /\ (forall g, same_stream g gp -> same_stream g (forget gp)).
Proof.
  intros gp. assert (Q : map fst (p_keys (forget gp)) = map fst (p_keys gp)) by (cbn [forget p_keys]; rewrite map_map; reflexivity).
  unfold pks. rewrite Q. split; [auto|]. split; [|intros g (A & B & C); split; [|split]; auto; rewrite Q; auto].
  apply not_pending. intros x Hx. apply in_map_iff in Hx as (y & <- & _). auto.
Qed.
Lemma attempts_steps : forall (pre : pre_) fs pre0 seg0 post0 xs lost (g : stream) (gp gp' : pstream) tr,
  ks_of (g_keys g) = pks gp -> (lost = false -> same_stream g gp /\ pending gp = false) -> mains (pks gp) -> (forall i, truthy i = true) ->
  attempts idx truthy usage pre fs pre0 seg0 post0 gp xs = Ok (gp', tr) -> renewed lost xs tr -> settled (pending gp) xs tr ->
  exists ys g', map run_of ys = map at_run xs /\ restarted lost ys /\ step_all idx truthy usage pre fs pre0 seg0 post0 g ys = Ok g' /\ ks_of (g_keys g') = pks gp' /\
    Forall2 (fun y o => match y with Complete _ => fst o = Ok None | Interrupted _ _ => fst o <> Ok None end) ys tr.
Proof.
  intros pre fs pre0 seg0 post0. induction xs as [|[nw r n] xs IH]; intros lost g gp_ gp' tr Hks Hl Hm Ht H Hrn Hst; cbn [attempts] in H.
  - injection H as <- <-. exists [], g. repeat split; auto; constructor.
  - destruct (attempt_once idx truthy usage pre fs pre0 seg0 post0 gp_ (mkAttempt nw r n)) as [[gp1 r1]|] eqn:E; cbn [bind] in H; [|discriminate].
    destruct (attempts idx truthy usage pre fs pre0 seg0 post0 gp1 xs) as [[gp2 tr2]|] eqn:E2; cbn [bind] in H; [|discriminate]. injection H as <- <-.
    cbn [renewed at_run at_new] in Hrn. destruct Hrn as [Hfr Hrn]. cbn [settled at_run at_new] in Hst. destruct Hst as [Hse Hst].
    unfold attempt_once in E. cbn [at_run at_n at_new] in E. set (gp := if nw then forget gp_ else gp_) in E.
    assert (Hgp : pks gp = pks gp_ /\ (pending gp = true -> pending gp_ = true /\ nw = false) /\ (lost = false -> same_stream g gp /\ pending gp = false)).
    { unfold gp. destruct (forget_same gp_) as (F1 & F2 & F3). destruct nw; [|auto]. split; [exact F1|]. split; [congruence|]. intros Q. destruct (Hl Q). auto. }
    destruct Hgp as (G1 & G2 & Hl'). clear Hl. rename Hl' into Hl. rewrite <- G1 in Hks, Hm.
    assert (Hfr' : lost = true -> r_fresh r = true) by auto.
    assert (Hse' : pending gp = true -> r1 = Ok None /\ r_final r = true) by (intros Q; destruct (G2 Q) as [Q1 Q2]; destruct (Hse Q1) as [Q3|]; [congruence|auto]).
    clear Hse. rename Hse' into Hse. clear Hfr. rename Hfr' into Hfr. clearbody gp.
    (* the instance *)
    assert (Hi : exists gi gpi, (if r_fresh r then init pre0 seg0 post0 (ks_of (g_keys g)) else Ok g) = Ok gi /\ (if r_fresh r then renew pre0 seg0 post0 gp else Ok gp) = Ok gpi /\
      same_stream gi gpi /\ pks gpi = pks gp /\ map snd (p_keys gpi) = map snd (p_keys gp) /\ (pending gp = true -> p_restart gpi <> None)).
    { destruct (r_fresh r) eqn:Ef.
      - unfold renew in *. assert (Q : map (fun x : pkey => let '(k, b, s, _) := x in (k, s)) (p_keys gp) = pks gp).
        { unfold pks, ks_of. rewrite map_map. apply map_ext. intros [[[k b] s] pd]. auto. }
        match goal with |- context[init pre0 seg0 post0 (map ?f (p_keys gp))] => replace (map f (p_keys gp)) with (pks gp) in E |- * by (symmetry; exact Q) end. rewrite Hks. destruct (init pre0 seg0 post0 (pks gp)) as [gi|] eqn:Ei; cbn [bind] in E |- *; [|discriminate]. destruct (init_stores _ _ _ _ _ Ei) as [A B].
        assert (Ln : length (g_keys gi) = length (map snd (p_keys gp))). { rewrite map_length. apply (f_equal (@length _)) in A. unfold pks, ks_of in A. rewrite !map_length in A. auto. }
        destruct (combine_fst _ _ _ _ Ln) as [C1 C2]. eexists _, _. split; [reflexivity|]. split; [reflexivity|]. split; [split; [|split]; cbn; auto|]. unfold pks. cbn [p_keys p_restart]. rewrite C1. split; [exact A|]. split; [exact C2|].
        intros Hp. apply B; auto. intro Q0. unfold pks, ks_of in Q0. apply map_eq_nil, map_eq_nil in Q0. unfold pending in Hp. rewrite Q0 in Hp. discriminate.
      - assert (lost = false) as -> by (destruct lost; auto; specialize (Hfr eq_refl); congruence). destruct (Hl eq_refl) as [A B]. exists g, gp. repeat split; auto; try apply A. congruence. }
    destruct Hi as (gi & gpi & Ei & Epi & Hs & Hpk & Hpd & Hres). rewrite Epi in E. cbn [bind] in E. injection E as E.
    set (gp0 := mkP (p_restart gpi) (p_pre gpi) (p_keys gpi) [] (fun i => nth i n (O, true))) in E.
    assert (Hs0 : same_stream gi gp0) by exact Hs.
    assert (Hm1 : mains (pks gp1)). { destruct (agg_p_stores _ _ _ _ _ _ _ _ _ E) as (l & _ & ->). apply mains_after. unfold gp0, pks. cbn [p_keys]. fold (pks gpi). rewrite Hpk. auto. }
    assert (Hn0 : pending gp = false -> none_pending (p_keys gp0)).
    { intros Q. apply not_pending in Q. intros x Hx. cbn [gp0 p_keys] in Hx. assert (Qi : In (snd x) (map snd (p_keys gp))) by (rewrite <- Hpd; apply in_map; auto). apply in_map_iff in Qi as (y & Ey & Hy). rewrite <- Ey. auto. }
    assert (Step : exists y g1, run_of y = r /\ step_once idx truthy usage pre fs pre0 seg0 post0 g y = Ok g1 /\ ks_of (g_keys g1) = pks gp1 /\
      match y with Complete _ => r1 = Ok None /\ same_stream g1 gp1 /\ pending gp1 = false | Interrupted _ _ => r1 <> Ok None end).
    { assert (Comp : forall g1, agg_t idx truthy usage pre fs gi (r_seed r) true true (r_final r) = (g1, Ok None) -> step_once idx truthy usage pre fs pre0 seg0 post0 g (Complete r) = Ok g1).
      { intros g1 Q. cbn [step_once]. unfold run_once. unfold ks_of in Ei. rewrite Ei. cbn [bind]. rewrite agg_same, Q. auto. }
      assert (Kp : forall g1, same_stream g1 gp1 -> ks_of (g_keys g1) = pks gp1) by (intros g1 (_ & _ & Q); unfold pks; rewrite Q; auto).
      destruct (pending gp) eqn:Ep.
      - destruct (Hse eq_refl) as [-> Hf]. rewrite Hf in E.
        assert (Hlk : like_stream gp0 gi). { destruct Hs0 as (A & B & C). split; [|split]; auto. rewrite C. clear. induction (p_keys gp0) as [|[[[k b] s] pd] l IHl]; constructor; auto. split; [|split]; cbn; auto. split; auto. destruct (s_main s); cbn; auto. }
        destruct (agg_like pre fs gi gp0 gp1 (r_seed r) true true None Hlk Ht (Hres eq_refl) E) as (g1 & A & B & C).
        exists (Complete r), g1. repeat split; try (apply Comp; rewrite Hf; exact A); auto; try apply B; try (apply not_pending; auto).
      - pose proof (agg_prefix pre fs gi gp0 (r_seed r) true true (r_final r) Hs0 (Hn0 eq_refl)) as Hp. rewrite E in Hp.
        destruct (agg_t idx truthy usage pre fs gi (r_seed r) true true (r_final r)) as [g1 rt] eqn:Et. destruct Hp as (l & lp & A & B & F & C).
        assert (Int : r1 <> Ok None -> exists y g1, run_of y = r /\ step_once idx truthy usage pre fs pre0 seg0 post0 g y = Ok g1 /\ ks_of (g_keys g1) = pks gp1 /\
          match y with Complete _ => r1 = Ok None /\ same_stream g1 gp1 /\ pending gp1 = false | Interrupted _ _ => r1 <> Ok None end).
        { intro Hr1. exists (Interrupted r (map (fun i => length (acts_of i lp)) (seq 0 (length (g_keys gi))))). eexists. split; [reflexivity|]. cbn [step_once]. unfold ks_of in Ei. rewrite Ei. cbn [bind]. rewrite Et. split; [reflexivity|]. cbn [g_keys]. split; [|exact Hr1].
          rewrite A, skipn_app, skipn_all, Nat.sub_diag. cbn [skipn app]. rewrite after_acts_ks. destruct (agg_p_stores _ _ _ _ _ _ _ _ _ E) as (l' & Q1 & ->). cbn [gp0 p_log app] in Q1, B. rewrite <- Q1, B.
          assert (Kq : pks gp0 = ks_of (g_keys gi)) by (destruct Hs0 as (_ & _ & Q); unfold pks; rewrite Q; auto). rewrite Kq. apply after_ks_ext.
          intros i Hi. unfold ks_of in Hi. rewrite map_length in Hi. rewrite made_acts. destruct (F i) as [l0 ->].
          rewrite (nth_indep _ O (length (acts_of (length (g_keys gi)) lp))) by (rewrite map_length, seq_length; cbn in Hi; lia). rewrite map_nth with (f := fun i => length (acts_of i lp)) (d := length (g_keys gi)), seq_nth by lia.
          cbn [Nat.add]. rewrite firstn_app, Nat.sub_diag, firstn_all. apply app_nil_r. }
        destruct r1 as [[ex|]|e]; try (apply Int; discriminate). destruct C as (-> & C1 & C2 & _).
        exists (Complete r), g1. repeat split; auto; try apply C1; try (apply not_pending; auto). }
    destruct Step as (y & g1 & Ey & Es & Ek & Ho).
    destruct (IH (match r1 with Ok None => false | _ => true end) g1 gp1 gp2 tr2 Ek) as (ys & g' & A & B & C & F & G); auto.
    { intros Q. destruct y; [destruct Ho as (_ & Ho1 & Ho2); auto|]. destruct r1 as [[ex|]|e]; try discriminate. congruence. }
    exists (y :: ys), g'. cbn [map]. rewrite Ey, A. split; auto. split; [|split; [cbn [step_all]; rewrite Es; auto|split; [auto|]]].
    + cbn [restarted]. rewrite Ey. split; [exact Hfr|]. destruct y; [destruct Ho as (-> & _); auto|]. destruct r1 as [[ex|]|e]; auto. congruence.
    + constructor; auto. destruct y; cbn; [apply Ho|auto].
Qed.
End Retry.
