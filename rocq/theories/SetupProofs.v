(** Proofs on the setup of aggregations by the first chunk of data. *)
Require Import List Arith ZArith Bool Lia.
Require Verif.CsaProofs.
Require Import Verif.Common Verif.AggModel Verif.SegModel Verif.CsaModel Verif.CsaSpec Verif.KeyModel Verif.StreamModel Verif.RaiseModel Verif.StreamSpec Verif.RaiseProofs Verif.SetupModel Verif.SetupSpec.
Import ListNotations.

(** ** Streams whose keys have the same configuration but for aggregation *)
Section Same.
Context {D P SB PB : Type}.
Variable idx : D -> Z.
Variable truthy : Z -> bool.
Variable usage : WrModel.frame -> Z.
Notation kconf := (kconf D SB PB).
Notation kbuf := (kbuf SB PB).
Notation kstore := (kstore P SB PB).
Notation act := (@act P SB PB).
Notation stream := (stream D P SB PB).

(** [w]: aggregation is also the same. *)
Definition krel (w : bool) (k k' : kconf) : Prop :=
  k_filter k = k_filter k' /\ k_type k = k_type k' /\ k_post k = k_post k' /\ k_max k = k_max k' /\ k_write k = k_write k' /\ k_write_snap k = k_write_snap k' /\
  (w = true -> forall c b, k_agg k c b = k_agg k' c b).
Definition xrel (w : bool) (x y : kconf * kbuf * kstore) : Prop := krel w (fst (fst x)) (fst (fst y)) /\ snd (fst x) = snd (fst y) /\ snd x = snd y.
Definition srel (w : bool) (g g' : stream) : Prop := g_restart g = g_restart g' /\ g_pre g = g_pre g' /\ g_log g = g_log g' /\ Forall2 (xrel w) (g_keys g) (g_keys g').
Lemma pnw_rel : forall w k k' b s a r p, krel w k k' -> post_n_write_t truthy k b s a r p = post_n_write_t truthy k' b s a r p :> list act * res kbuf.
Proof.
  intros w [f g t po m wr ws] [f' g' t' po' m' wr' ws'] b s a r p (H1 & H2 & H3 & H4 & H5 & H6 & _). cbn in *. subst. reflexivity.
Qed.
Lemma buffer_rel : forall w k k' b s p, krel w k k' -> buffer_results_t truthy usage k b s p = buffer_results_t truthy usage k' b s p :> list act * res kbuf.
Proof.
  intros w [f g t po m wr ws] [f' g' t' po' m' wr' ws'] b s p (H1 & H2 & H3 & H4 & H5 & H6 & _). cbn in *. subst. reflexivity.
Qed.
Lemma iter_rel : forall k k' b s p c, krel true k k' -> agg_iter_t truthy usage k b s p c = agg_iter_t truthy usage k' b s p c :> list act * res kbuf.
Proof.
  intros k k' b s p c H. unfold agg_iter_t. rewrite (buffer_rel true k k' b s p H). destruct (buffer_results_t truthy usage k' b s p) as [l [b0|]]; auto.
  destruct H as (_ & _ & _ & _ & _ & _ & H). rewrite (H eq_refl). auto.
Qed.
Lemma jobs_rel : forall w j j', (forall k k' b s, krel w k k' -> j k b s = j' k' b s) ->
  forall ks ks', Forall2 (xrel w) ks ks' -> forall n, let '(l, log, e) := run_jobs_t (D:=D) (P:=P) (SB:=SB) (PB:=PB) j n ks in let '(l', log', e') := run_jobs_t j' n ks' in Forall2 (xrel w) l l' /\ log = log' /\ e = e'.
Proof.
  intros w j j' Hj ks ks' H. induction H as [|[[k b] s] [[k' b'] s'] ks ks' (H1 & H2 & H3) _ IH]; intro n; cbn [run_jobs_t]; [auto|]. cbn in H1, H2, H3. subst b' s'.
  rewrite (Hj k k' b s H1). destruct (j' k' b s) as [a r]. specialize (IH (S n)). destruct (run_jobs_t j (S n) ks) as [[l log] e], (run_jobs_t j' (S n) ks') as [[l' log'] e']. destruct IH as (I1 & -> & ->).
  destruct r; (split; [|auto]); (constructor; [split; [|split]; cbn; auto|auto]).
Qed.
Lemma consume_rel : forall ys g g', srel true g g' -> srel true (fst (consume_t truthy usage g ys)) (fst (consume_t truthy usage g' ys)) /\ snd (consume_t truthy usage g ys) = snd (consume_t truthy usage g' ys).
Proof.
  induction ys as [|y ys IH]; intros g g' H; cbn [consume_t]; [auto|]. destruct y as [[[li id] c]|e]; [|destruct e; auto].
  unfold consume1_t. destruct H as (H1 & H2 & H3 & H4).
  pose proof (jobs_rel true (fun k b s => if (k_filter k =? id)%nat then agg_iter_t truthy usage k b s (g_pre g) c else ([], Ok b)) (fun k b s => if (k_filter k =? id)%nat then agg_iter_t truthy usage k b s (g_pre g') c else ([], Ok b))) as J.
  specialize (J ltac:(intros k k' b s Hk; rewrite H2, (iter_rel k k' b s _ _ Hk); destruct Hk as (-> & _); auto) _ _ H4 0).
  destruct (run_jobs_t _ 0 (g_keys g)) as [[l log] e], (run_jobs_t _ 0 (g_keys g')) as [[l' log'] e']. destruct J as (J1 & -> & ->).
  assert (S : srel true (mkStream (Some li) (g_pre g) l (g_log g ++ log')) (mkStream (Some li) (g_pre g') l' (g_log g' ++ log'))) by (repeat split; cbn; auto; rewrite H3; auto).
  destruct e'; [auto|]. apply IH. exact S.
Qed.
Lemma agg_rel : forall w pre fs g g' seed tr dl final, srel w g g' -> (w = true \/ seed = []) ->
  srel w (fst (agg_t idx truthy usage pre fs g seed tr dl final)) (fst (agg_t idx truthy usage pre fs g' seed tr dl final)) /\
  snd (agg_t idx truthy usage pre fs g seed tr dl final) = snd (agg_t idx truthy usage pre fs g' seed tr dl final).
Proof.
  intros w pre fs g g' seed tr dl final H Hw. unfold agg_t.
  set (X := match seed with [] => (g, _) | _ => _ end). set (Y := match seed with [] => (g', _) | _ => _ end).
  assert (Q : srel w (fst X) (fst Y) /\ snd X = snd Y).
  { unfold X, Y. destruct seed as [|c seed]; [auto|]. destruct Hw as [->|Hw]; [|discriminate]. destruct H as (H1 & H2 & H3 & H4). rewrite H1, H2. destruct (iter_data idx (g_restart g') pre fs tr dl (g_pre g') (c :: seed)) as [ys p].
    pose proof (consume_rel ys g g' (conj H1 (conj H2 (conj H3 H4)))) as C. destruct (consume_t truthy usage g ys) as [g1 r1], (consume_t truthy usage g' ys) as [g1' r1']. destruct C as [(C1 & C2 & C3 & C4) C5]. cbn [fst snd] in C1, C2, C3, C4, C5 |- *. subst r1'. split; [|auto]. split; [|split; [|split]]; cbn; auto. }
  clearbody X Y. destruct X as [g1 r1], Y as [g1' r1']. cbn [fst snd] in Q. destruct Q as [Q1 Q2]. subst r1'. destruct r1 as [ex|e]; [|auto]. destruct final; [|auto].
  unfold final_write_t. destruct Q1 as (H1 & H2 & H3 & H4).
  pose proof (jobs_rel w (fun k b s => post_n_write_t truthy k b s true (g_restart g1) (g_pre g1)) (fun k b s => post_n_write_t truthy k b s true (g_restart g1') (g_pre g1'))) as J.
  specialize (J ltac:(intros k k' b s Hk; rewrite H1, H2; apply (pnw_rel w); auto) _ _ H4 0).
  destruct (run_jobs_t _ 0 (g_keys g1)) as [[l log] e], (run_jobs_t _ 0 (g_keys g1')) as [[l' log'] e']. destruct J as (J1 & -> & ->).
  destruct e'; cbn; (split; [repeat split; cbn; auto; rewrite H3; auto|auto]).
Qed.
(** Configurations of keys are left unchanged. *)
Lemma jobs_confs : forall j ks n, map (fun x => fst (fst x)) (fst (fst (run_jobs_t (D:=D) (P:=P) (SB:=SB) (PB:=PB) j n ks))) = map (fun x => fst (fst x)) ks.
Proof.
  intros j. induction ks as [|[[k b] s] ks IH]; intro n; cbn [run_jobs_t]; [auto|]. destruct (j k b s) as [a r]. specialize (IH (S n)). destruct (run_jobs_t j (S n) ks) as [[l log] e]. cbn in IH. destruct r; cbn; rewrite IH; auto.
Qed.
Lemma consume_confs : forall ys (g : stream), map (fun x => fst (fst x)) (g_keys (fst (consume_t truthy usage g ys))) = map (fun x => fst (fst x)) (g_keys g).
Proof.
  induction ys as [|y ys IH]; intros g; cbn [consume_t]; [auto|]. destruct y as [[[li id] c]|e]; [|destruct e; auto]. unfold consume1_t.
  pose proof (jobs_confs (fun k b s => if (k_filter k =? id)%nat then agg_iter_t truthy usage k b s (g_pre g) c else ([], Ok b)) (g_keys g) 0) as J. destruct (run_jobs_t _ 0 (g_keys g)) as [[l log] e]. cbn in J.
  destruct e; [exact J|]. rewrite IH. exact J.
Qed.
Lemma agg_confs : forall pre fs (g : stream) seed tr dl final, map (fun x => fst (fst x)) (g_keys (fst (agg_t idx truthy usage pre fs g seed tr dl final))) = map (fun x => fst (fst x)) (g_keys g).
Proof.
  intros. unfold agg_t. set (X := match seed with [] => (g, _) | _ => _ end).
  assert (Q : map (fun x => fst (fst x)) (g_keys (fst X)) = map (fun x => fst (fst x)) (g_keys g)).
  { unfold X. destruct seed as [|c seed]; [auto|]. destruct (iter_data _ _ _ _ _ _ _ _) as [ys p]. pose proof (consume_confs ys g) as C. destruct (consume_t truthy usage g ys). exact C. }
  clearbody X. destruct X as [g1 [ex|e]]; [|exact Q]. destruct final; [|exact Q]. unfold final_write_t.
  pose proof (jobs_confs (fun k b s => post_n_write_t truthy k b s true (g_restart g1) (g_pre g1)) (g_keys g1) 0) as J. destruct (run_jobs_t _ 0 (g_keys g1)) as [[l log] e]. cbn in *. destruct e; cbn; rewrite J; exact Q.
Qed.
End Same.

(** ** Instances *)
Section Setup.
Context {D V P PB : Type}.
Variable N : dtype -> num V.
Variable val : D -> cname -> V.
Variable idx : D -> Z.
Variable enc : option V -> Z.
Variable truthy : Z -> bool.
Variable usage : WrModel.frame -> Z.
Notation segbuf := (@segbuf V).
Notation inst := (@inst V P PB).
Notation ikey := (@ikey V P PB).
Notation stream := (stream D P segbuf PB).
Notation key_cs := (key_cs N val idx enc).
Notation to_stream := (to_stream N val idx enc).
Variable dtypes : list (cname * dtype).
Notation key_of := (key_of N val dtypes idx enc).

Lemma setup_nonempty : forall agg cfg, setup_cumsegagg agg dtypes = Ok cfg -> (cfg = [] <-> agg = []).
Proof.
  assert (G : forall agg cfg0 cfg, setup_step1 agg dtypes cfg0 = Ok cfg -> agg <> [] \/ cfg0 <> [] -> cfg <> []).
  { induction agg as [|[o [i f]] agg IH]; intros cfg0 cfg H Hn; cbn [setup_step1] in H; [injection H as <-; destruct Hn; congruence|].
    destruct (dict_get Nat.eqb i dtypes) as [d|]; [|discriminate]. destruct (tmp_add _ o i f) as [t|]; cbn [bind] in H; [|discriminate]. apply IH in H; auto. right.
    destruct cfg0 as [|[a b] cfg0]; cbn; [discriminate|]. destruct (dtype_eqb d a); discriminate. }
  intros agg cfg H. unfold setup_cumsegagg in H. destruct (setup_step1 agg dtypes []) as [c|] eqn:E; cbn [bind] in H; [|discriminate]. injection H as <-. split.
  - intros Q. apply map_eq_nil in Q. subst c. destruct agg as [|a agg]; auto. elim (G _ _ _ E); [left; discriminate|auto].
  - intros ->. cbn in E. injection E as <-. auto.
Qed.
Lemma segagg_same : forall agg cfg by_ snap data b, setup_cumsegagg agg dtypes = Ok cfg ->
  segagg_cs N val idx enc agg cfg by_ snap data b = segagg N val dtypes idx enc agg by_ snap data b.
Proof.
  intros agg cfg by_ snap data b H. pose proof (setup_nonempty agg cfg H) as E. unfold segagg_cs, segagg, cumsegagg_cs, cumsegagg.
  destruct data as [|a data]; [destruct by_; auto|]. destruct agg as [|x agg].
  - destruct cfg; [destruct by_; auto|]. destruct E as [_ E]. discriminate (E eq_refl).
  - destruct cfg as [|y cfg]; [destruct E as [E _]; discriminate (E eq_refl)|]. rewrite H. destruct by_; auto.
Qed.
Lemma key_rel : forall (c : bconf PB) cfg, setup_cumsegagg (c_agg c) dtypes = Ok cfg -> krel true (key_cs c (Some cfg)) (key_of c).
Proof. intros c cfg H. repeat split. intros _ d b. cbn. apply segagg_same. auto. Qed.
Lemma key_weak : forall (c : bconf PB) cs, krel false (key_cs c cs) (key_of c).
Proof. intros c cs. repeat split. discriminate. Qed.

Notation as_stream := (as_stream N val idx enc dtypes).
Notation types_ok := (types_ok dtypes).
Definition all_set (x : inst) : Prop := forall k : ikey, In k (i_keys x) -> exists cfg, snd (fst (fst k)) = Some cfg /\ setup_cumsegagg (c_agg (fst (fst (fst k)))) dtypes = Ok cfg.
Definition accepted_by (x : inst) : Prop := forall c, In c (confs_of x) -> exists cfg, setup_cumsegagg (c_agg c) dtypes = Ok cfg.
Lemma streams_rel : forall w (x : inst), (w = true -> all_set x) -> srel w (to_stream x) (as_stream x).
Proof.
  intros w x H. repeat split. cbn. unfold all_set in H. induction (i_keys x) as [|[[[c cs] b] s] l IH]; cbn; constructor.
  - split; [|split]; cbn; auto. destruct w; [|apply key_weak]. destruct (H eq_refl (c, cs, b, s)) as (cfg & E1 & E2); [left; auto|]. cbn in *. subst cs. apply key_rel; auto.
  - apply IH. intros Hw k Hk. apply H; [auto|right; auto].
Qed.
Lemma of_stream_keys : forall w ks (l l' : list (kconf D segbuf PB * kbuf segbuf PB * kstore P segbuf PB)), Forall2 (xrel w) l l' -> map (fun x => fst (fst x)) l' = map (fun k : ikey => let '(c, _, b, s) := k in key_of c) ks ->
  map (fun k : ikey => let '(c, _, b, s) := k in (key_of c, b, s)) (map (fun ky : ikey * (kconf D segbuf PB * kbuf segbuf PB * kstore P segbuf PB) => let '(c, cs, _, _) := fst ky in let '(_, b, s) := snd ky in (c, cs, b, s)) (combine ks l)) = l' /\
  map (fun k : ikey => fst (fst k)) (map (fun ky : ikey * (kconf D segbuf PB * kbuf segbuf PB * kstore P segbuf PB) => let '(c, cs, _, _) := fst ky in let '(_, b, s) := snd ky in (c, cs, b, s)) (combine ks l)) = map (fun k : ikey => fst (fst k)) ks.
Proof.
  intros w ks l l' H. revert ks. induction H as [|[[k b] s] [[k' b'] s'] l l' (H1 & H2 & H3) _ IH]; intros [|[[[c cs] b0] s0] ks] E; try discriminate; [auto|]. cbn in *. subst. injection E as -> E. destruct (IH ks E) as [-> ->]. auto.
Qed.
Lemma run_same : forall pre fs (x : inst) l tr dl final, (l <> [] -> all_set x) ->
  let '(x', r) := run_inst N val idx enc truthy usage pre fs x l tr dl final in let '(g', r') := agg_t idx truthy usage pre fs (as_stream x) (map snd l) tr dl final in
  as_stream x' = g' /\ r = r' /\ map (fun k : ikey => fst (fst k)) (i_keys x') = map (fun k : ikey => fst (fst k)) (i_keys x).
Proof.
  intros pre fs x l tr dl final H. unfold run_inst. set (w := match l with [] => false | _ => true end).
  assert (Hw : w = true -> all_set x) by (unfold w; intro; apply H; destruct l; discriminate).
  destruct (agg_rel idx truthy usage w pre fs _ _ (map snd l) tr dl final (streams_rel w x Hw)) as [A B]; [unfold w; destruct l; auto|].
  pose proof (agg_confs idx truthy usage pre fs (as_stream x) (map snd l) tr dl final) as C.
  destruct (agg_t idx truthy usage pre fs (to_stream x) (map snd l) tr dl final) as [g1 r1], (agg_t idx truthy usage pre fs (as_stream x) (map snd l) tr dl final) as [g2 r2]. cbn [fst snd] in *.
  destruct A as (A1 & A2 & A3 & A4). subst r2. cbn [as_stream g_keys] in C. rewrite map_map in C.
  destruct (of_stream_keys w (i_keys x) _ _ A4) as [E1 E2]; [rewrite C; apply map_ext; intros [[[c cs] b] s]; auto|].
  split; [|split; [auto|exact E2]]. unfold SetupSpec.as_stream, of_stream. cbn [i_restart i_pre i_keys i_log]. destruct g2 as [r2 p2 k2 l2]. cbn [g_restart g_pre g_log g_keys] in *. rewrite A1, A2, A3. f_equal. exact E1.
Qed.
Lemma set_all : forall (ks : list ikey), (forall c, In c (map (fun k : ikey => fst (fst (fst k))) ks) -> exists cfg, setup_cumsegagg (c_agg c) dtypes = Ok cfg) ->
  exists ks', set_cs dtypes ks = (ks', true) /\ map (fun k : ikey => let '(c, _, b, s) := k in (c, b, s)) ks' = map (fun k : ikey => let '(c, _, b, s) := k in (c, b, s)) ks /\
    (forall k : ikey, In k ks' -> exists cfg, snd (fst (fst k)) = Some cfg /\ setup_cumsegagg (c_agg (fst (fst (fst k)))) dtypes = Ok cfg).
Proof.
  induction ks as [|[[[c cs] b] s] ks IH]; intros H; cbn [set_cs]; [exists []; repeat split; intros k []|].
  destruct (H c) as [cfg E]; [left; auto|]. rewrite E. destruct IH as (ks' & -> & I1 & I2); [intros c' Hc; apply H; right; auto|].
  eexists. split; [reflexivity|]. split; [cbn; rewrite I1; auto|]. intros k [<-|Hk]; [cbn; eauto|auto].
Qed.
Lemma as_stream_keys : forall (x : inst) ks', map (fun k : ikey => let '(c, _, b, s) := k in (c, b, s)) ks' = map (fun k : ikey => let '(c, _, b, s) := k in (c, b, s)) (i_keys x) ->
  as_stream (with_keys x ks') = as_stream x /\ confs_of (with_keys x ks') = confs_of x.
Proof.
  intros x ks' H. unfold SetupSpec.as_stream, confs_of, with_keys. cbn. split.
  - f_equal. apply (f_equal (map (fun y : bconf PB * kbuf segbuf PB * kstore P segbuf PB => let '(c, b, s) := y in (key_of c, b, s)))) in H. rewrite !map_map in H.
    rewrite (map_ext _ (fun k : ikey => let '(c, _, b, s) := k in (key_of c, b, s))) in H by (intros [[[c cs] b] s]; auto). etransitivity; [exact H|]. apply map_ext. intros [[[c cs] b] s]. auto.
  - apply (f_equal (map (fun y : bconf PB * kbuf segbuf PB * kstore P segbuf PB => fst (fst y)))) in H. rewrite !map_map in H.
    rewrite (map_ext _ (fun k : ikey => fst (fst (fst k)))) in H by (intros [[[c cs] b] s]; auto). etransitivity; [exact H|]. apply map_ext. intros [[[c cs] b] s]. auto.
Qed.
(** A call, on an instance which is not set, or set with these data types. *)
Definition ready (x : inst) : Prop := unset x = true \/ all_set x.
Lemma call_same : forall pre fs (x : inst) s tr dl final, ready x -> accepted_by x -> types_ok s -> (unset x = true -> s <> Iter []) ->
  let '(x', r) := agg_inst N val idx enc truthy usage pre fs x s tr dl final in let '(g', r') := agg_t idx truthy usage pre fs (as_stream x) (map snd (chunks s)) tr dl final in
  as_stream x' = g' /\ r = r' /\ confs_of x' = confs_of x /\ ready x' /\ (unset x = false \/ chunks s <> [] -> all_set x') /\ (unset x = true -> chunks s = [] -> unset x' = true).
Proof.
  intros pre fs x s tr dl final Hr Ha Ht Hi. unfold agg_inst.
  assert (K : forall x0 : inst, confs_of x0 = confs_of x -> as_stream x0 = as_stream x -> (chunks s <> [] -> all_set x0) -> ready x0 -> (unset x = false \/ chunks s <> [] -> all_set x0) -> (unset x = true -> chunks s = [] -> unset x0 = true) ->
    let '(x', r) := run_inst N val idx enc truthy usage pre fs x0 (chunks s) tr dl final in let '(g', r') := agg_t idx truthy usage pre fs (as_stream x) (map snd (chunks s)) tr dl final in
    as_stream x' = g' /\ r = r' /\ confs_of x' = confs_of x /\ ready x' /\ (unset x = false \/ chunks s <> [] -> all_set x') /\ (unset x = true -> chunks s = [] -> unset x' = true)).
  { intros x0 Hc Hs Hl Hx Hf Hu. pose proof (run_same pre fs x0 (chunks s) tr dl final Hl) as R. rewrite Hs in R.
    destruct (run_inst N val idx enc truthy usage pre fs x0 (chunks s) tr dl final) as [x' r]. destruct (agg_t idx truthy usage pre fs (as_stream x) (map snd (chunks s)) tr dl final) as [g' r'].
    destruct R as (R1 & R2 & R3). split; [auto|]. split; [auto|].
    assert (All : all_set x0 -> all_set x').
    { intros H k Hk. apply (in_map (fun k : ikey => fst (fst k))) in Hk. rewrite R3 in Hk. apply in_map_iff in Hk as (k0 & E & Hk). destruct (H k0 Hk) as (cfg & A & B). rewrite E in A, B. eauto. }
    assert (Un : unset x0 = true -> unset x' = true).
    { intros Q. unfold unset in *. rewrite forallb_forall in *. intros k Hk. apply (in_map (fun k : ikey => fst (fst k))) in Hk. rewrite R3 in Hk. apply in_map_iff in Hk as (k0 & <- & Hk). apply (Q k0 Hk). }
    split; [|split; [|split]].
    - rewrite <- Hc. unfold confs_of. rewrite <- !(map_map (fun k : ikey => fst (fst k)) fst), R3. auto.
    - destruct Hx as [Hx|Hx]; [left|right]; auto.
    - auto.
    - auto. }
  destruct (unset x) eqn:Eu.
  - destruct (given_seed s) eqn:Eg; cbn [andb].
    + destruct (chunks s) as [|[t l] cs] eqn:Es.
      { exfalso. destruct s as [|c|[|c l]|l]; cbn in *; try discriminate. subst l. apply Hi; auto. }
      assert (t = dtypes) as -> by (apply (Ht (t, l)); rewrite Es; left; auto). destruct (set_all (i_keys x) Ha) as (ks' & -> & E1 & E2). destruct (as_stream_keys x ks' E1) as [S1 S2].
      apply K; auto; [right; exact E2|discriminate].
    + assert (chunks s = []) as Es by (destruct s as [|c|[|c l]|l]; try discriminate; auto). rewrite Es in *. apply K; auto; try (intros [H|H]; congruence); congruence.
  - rewrite andb_false_r. destruct Hr as [Hr|Hr]; [congruence|]. apply K; auto; [right; auto|discriminate].
Qed.

(** ** Histories *)
Lemma new_inst_same : forall pre0 post0 (ks : list (bconf PB * kstore P segbuf PB)),
  match new_inst N val idx enc pre0 post0 ks, init pre0 segbuf_empty post0 (map (fun k => (key_of (fst k), snd k)) ks) with
  | Ok x, Ok g => as_stream x = g /\ confs_of x = map fst ks /\ unset x = true
  | Err e, Err e' => e = e'
  | _, _ => False
  end.
Proof.
  intros pre0 post0 ks. unfold new_inst, init.
  assert (G : forall ks rs pre, match init_keys segbuf_empty post0 (map (fun k : bconf PB * kstore P segbuf PB => (key_cs (fst k) None, snd k)) ks) rs pre, init_keys segbuf_empty post0 (map (fun k => (key_of (fst k), snd k)) ks) rs pre with
    | Ok (l, r, p), Ok (l', r', p') => r = r' /\ p = p' /\
        let ks' : list ikey := map (fun ky : bconf PB * kstore P segbuf PB * (kconf D segbuf PB * kbuf segbuf PB * kstore P segbuf PB) => let '(_, b, s) := snd ky in (fst (fst ky), None, b, s)) (combine ks l) in
        map (fun k : ikey => let '(c, _, b, s) := k in (key_of c, b, s)) ks' = l' /\ map (fun k : ikey => fst (fst (fst k))) ks' = map fst ks /\ forallb (fun k : ikey => match snd (fst (fst k)) with None => true | Some _ => false end) ks' = true
    | Err e, Err e' => e = e'
    | _, _ => False
    end).
  { clear ks. induction ks as [|[c s] ks IH]; intros rs pre; cbn [map fst snd init_keys combine]; [repeat split|].
    destruct (s_main s) as [e|]; [destruct (e_md e) as [md|]; [|auto]|].
    - set (rs' := if memZ (m_restart md) rs then rs else m_restart md :: rs). specialize (IH rs' (m_pre md)).
      destruct (init_keys segbuf_empty post0 (map (fun k : bconf PB * kstore P segbuf PB => (key_cs (fst k) None, snd k)) ks) rs' (m_pre md)) as [[[l r] p]|e1], (init_keys segbuf_empty post0 (map (fun k => (key_of (fst k), snd k)) ks) rs' (m_pre md)) as [[[l' r'] p']|e2]; try contradiction; [|auto].
      destruct IH as (-> & -> & I1 & I2 & I3). cbn. cbv zeta in *. rewrite I1, I2, I3. auto.
    - specialize (IH rs pre).
      destruct (init_keys segbuf_empty post0 (map (fun k : bconf PB * kstore P segbuf PB => (key_cs (fst k) None, snd k)) ks) rs pre) as [[[l r] p]|e1], (init_keys segbuf_empty post0 (map (fun k => (key_of (fst k), snd k)) ks) rs pre) as [[[l' r'] p']|e2]; try contradiction; [|auto].
      destruct IH as (-> & -> & I1 & I2 & I3). cbn. cbv zeta in *. rewrite I1, I2, I3. auto. }
  specialize (G ks [] pre0).
  destruct (init_keys segbuf_empty post0 (map (fun k : bconf PB * kstore P segbuf PB => (key_cs (fst k) None, snd k)) ks) [] pre0) as [[[l r] p]|e1], (init_keys segbuf_empty post0 (map (fun k => (key_of (fst k), snd k)) ks) [] pre0) as [[[l' r'] p']|e2]; try contradiction; cbn [bind]; [|auto].
  destruct G as (<- & <- & I1 & I2 & I3). destruct r as [|r [|r2 r']]; cbn [bind]; auto; (split; [unfold SetupSpec.as_stream; cbn; f_equal; exact I1|split; [exact I2|exact I3]]).
Qed.
Lemma history_same : forall pre fs pre0 post0 ys (x : inst) set, ready x -> (set = true -> all_set x) -> (set = false -> unset x = true) -> accepted_by x -> confs_of x <> [] -> (forall y, In y ys -> types_ok (ic_seed y)) -> no_empty_first set ys ->
  match call_all N val idx enc truthy usage pre fs pre0 post0 x ys, run_all idx truthy usage pre fs pre0 segbuf_empty post0 (as_stream x) (map run_of_call ys) with
  | Ok x', Ok g' => as_stream x' = g' /\ confs_of x' = confs_of x
  | Err e, Err e' => e = e'
  | _, _ => False
  end.
Proof.
  intros pre fs pre0 post0. induction ys as [|y ys IH]; intros x set Hr H1 H0 Ha Hne Ht Hn; cbn [call_all run_all map]; [auto|].
  cbn [no_empty_first] in Hn. destruct Hn as [Hn Hn']. unfold call_once, run_once. cbn [run_of_call r_fresh r_final r_seed].
  assert (I : match (if ic_fresh y then new_inst N val idx enc pre0 post0 (map (fun k : ikey => let '(c, _, _, s) := k in (c, s)) (i_keys x)) else Ok x),
    (if ic_fresh y then init pre0 segbuf_empty post0 (map (fun x => let '(k, b, s) := x in (k, s)) (g_keys (as_stream x))) else Ok (as_stream x)) with
    | Ok x1, Ok g1 => as_stream x1 = g1 /\ confs_of x1 = confs_of x /\ ready x1 /\ (set && negb (ic_fresh y) = true -> all_set x1) /\ (set && negb (ic_fresh y) = false -> unset x1 = true)
    | Err e, Err e' => e = e' | _, _ => False end).
  { destruct (ic_fresh y); [|rewrite andb_true_r; repeat split; auto]. pose proof (new_inst_same pre0 post0 (map (fun k : ikey => let '(c, _, _, s) := k in (c, s)) (i_keys x))) as Q.
    assert (E : map (fun x => let '(k, b, s) := x in (k, s)) (g_keys (as_stream x)) = map (fun k : bconf PB * kstore P segbuf PB => (key_of (fst k), snd k)) (map (fun k : ikey => let '(c, _, _, s) := k in (c, s)) (i_keys x))).
    { cbn. rewrite !map_map. apply map_ext. intros [[[c cs] b] s]. auto. }
    rewrite E. destruct (new_inst N val idx enc pre0 post0 _) as [x1|], (init pre0 segbuf_empty post0 _) as [g1|]; auto. destruct Q as (Q1 & Q2 & Q3). rewrite andb_false_r. repeat split; auto; [|left; auto|discriminate].
    rewrite Q2. unfold confs_of. rewrite map_map. apply map_ext. intros [[[c cs] b] s]. auto. }
  destruct (if ic_fresh y then new_inst N val idx enc pre0 post0 _ else Ok x) as [x1|e1], (if ic_fresh y then init pre0 segbuf_empty post0 _ else Ok (as_stream x)) as [g1|e2]; try contradiction; cbn [bind]; [|auto].
  destruct I as (<- & I2 & I3 & I4 & I5). set (set1 := set && negb (ic_fresh y)) in *. rewrite agg_same.
  assert (Hn1 : unset x1 = true -> ic_seed y <> Iter []).
  { intros Q Es. destruct set1 eqn:E1; [|exact (Hn eq_refl Es)]. specialize (I4 eq_refl). destruct (i_keys x1) as [|k l] eqn:Ek; [apply Hne; rewrite <- I2; unfold confs_of; rewrite Ek; auto|].
    destruct (I4 k) as (cfg & A & _); [rewrite Ek; left; auto|]. unfold unset in Q. rewrite Ek in Q. cbn in Q. rewrite A in Q. discriminate. }
  assert (Ha1 : accepted_by x1) by (unfold accepted_by; rewrite I2; auto).
  pose proof (call_same pre fs x1 (ic_seed y) true true (ic_final y) I3 Ha1 (Ht y (or_introl eq_refl)) Hn1) as C.
  destruct (agg_inst N val idx enc truthy usage pre fs x1 (ic_seed y) true true (ic_final y)) as [x2 r2], (agg_t idx truthy usage pre fs (as_stream x1) (map snd (chunks (ic_seed y))) true true (ic_final y)) as [g2 r2'].
  destruct C as (C1 & <- & C3 & C4 & C5 & C6). subst g2. destruct r2 as [[e|]|e]; cbn [bind]; auto.
  specialize (IH x2 (set1 || match chunks (ic_seed y) with [] => false | _ => true end) C4).
  assert (G : match call_all N val idx enc truthy usage pre fs pre0 post0 x2 ys, run_all idx truthy usage pre fs pre0 segbuf_empty post0 (as_stream x2) (map run_of_call ys) with
    | Ok x', Ok g' => as_stream x' = g' /\ confs_of x' = confs_of x2 | Err e, Err e' => e = e' | _, _ => False end).
  { apply IH; auto.
    - intros Q. apply C5. destruct set1 eqn:E1; [left; destruct (unset x1) eqn:Eu; auto; exfalso|right; destruct (chunks (ic_seed y)); [discriminate|discriminate]].
      destruct (i_keys x1) as [|k l] eqn:Ek; [apply Hne; rewrite <- I2; unfold confs_of; rewrite Ek; auto|]. destruct (I4 eq_refl k) as (cfg & A & _); [rewrite Ek; left; auto|]. unfold unset in Eu. rewrite Ek in Eu. cbn in Eu. rewrite A in Eu. discriminate.
    - intros Q. apply orb_false_iff in Q as [Q1 Q2]. apply C6; [auto|]. destruct (chunks (ic_seed y)); [auto|discriminate].
    - unfold accepted_by. rewrite C3. auto.
    - rewrite C3, I2. auto.
    - intros y0 Hy. apply Ht. right. auto. }
  destruct (call_all N val idx enc truthy usage pre fs pre0 post0 x2 ys), (run_all idx truthy usage pre fs pre0 segbuf_empty post0 (as_stream x2) (map run_of_call ys)); auto. destruct G as [G1 G2]. split; auto. congruence.
Qed.

(** ** Refused data *)
Lemma set_refused : forall t (ks : list ikey), (exists c, In c (map (fun k : ikey => fst (fst (fst k))) ks) /\ ~ agg_valid (c_agg c) t) ->
  exists ks', set_cs t ks = (ks', false) /\ map (fun k : ikey => let '(c, _, b, s) := k in (c, b, s)) ks' = map (fun k : ikey => let '(c, _, b, s) := k in (c, b, s)) ks /\
    (match map (fun k : ikey => fst (fst (fst k))) ks with c :: _ => ~ agg_valid (c_agg c) t | [] => False end -> ks' = ks).
Proof.
  intros t. induction ks as [|[[[c cs] b] s] ks IH]; intros (c0 & Hin & Hv); [destruct Hin|]. cbn [set_cs map fst].
  destruct (setup_cumsegagg (c_agg c) t) as [cfg|e] eqn:E; [|exists ((c, cs, b, s) :: ks); auto].
  assert (V0 : ~ ~ agg_valid (c_agg c) t) by (intro Q; rewrite (CsaProofs.setup_cumsegagg_refused _ _ Q) in E; discriminate).
  destruct Hin as [<-|Hin]; [contradiction|]. destruct IH as (ks' & -> & I1 & _); [eauto|]. eexists. split; [reflexivity|]. split; [cbn; rewrite I1; auto|intro; contradiction].
Qed.

(** ** Keys which are not set *)
Definition ends_at_error (ys : list (res (@yielded D))) : Prop := forall a e b, ys = a ++ Err e :: b -> b = [].
Lemma filter_chunk_ends : forall (fs : filters) li (c : list D) fa, ends_at_error (filter_chunk fs li c fa).
Proof.
  induction fs as [|[id f] fs IH]; intros li c fa a e b H; cbn [filter_chunk] in H; [destruct a; discriminate|].
  destruct (match f with Some f => _ | None => _ end) as [m|e0]; [|destruct a as [|x a]; [injection H as _ H; auto|destruct a; discriminate]].
  destruct (negb _); [eapply IH; eauto|]. destruct (forallb _ m); (destruct a as [|x a]; [discriminate|injection H as _ H; eapply IH; eauto]).
Qed.
Lemma iter_chunks_ends : forall seed r pre (fs : filters) dl tr rem (p : P), ends_at_error (fst (iter_chunks idx r pre fs dl tr rem p seed)).
Proof.
  assert (One : forall e0, ends_at_error [Err e0]) by (intros e0 a e b H; destruct a as [|x a]; [injection H as _ H; auto|destruct a; discriminate]).
  induction seed as [|c seed IH]; intros r pre fs dl tr rem p; cbn [iter_chunks]; [intros [|x a] e b H; discriminate|].
  destruct (negb (sortedb _)); [apply One|]. destruct (match pre with Some f => _ | None => _ end) as [[c1 p1] ok]. destruct (negb ok); [apply One|].
  destruct (rev (rem ++ c1)) as [|x l]; [apply One|]. destruct (tr && _); [apply IH|]. cbv zeta.
  match goal with |- context[stopped ?ys] => set (Y := ys) end. pose proof (filter_chunk_ends fs (idx x) (rem ++ c1) (if dl then map2 andb (if tr then map (fun r0 => (r <=? idx r0)%Z) (rem ++ c1) else repeat true (length (rem ++ c1))) (map (fun r0 => (idx r0 <? idx x)%Z) (rem ++ c1)) else if tr then map (fun r0 => (r <=? idx r0)%Z) (rem ++ c1) else repeat true (length (rem ++ c1)))) as FY. fold Y in FY.
  destruct (stopped Y) eqn:Es; [exact FY|].
  match goal with |- context[iter_chunks idx r pre fs dl false ?rm p1 seed] => specialize (IH r pre fs dl false rm p1); destruct (iter_chunks idx r pre fs dl false rm p1 seed) as [ys' p'] end. cbn [fst] in *.
  intros a e b H. clear - Es IH H. revert a H. clearbody Y. induction Y as [|y Y IHY]; intros a H; [apply (IH a e b); auto|]. cbn in Es. apply orb_false_iff in Es as [E1 E2].
  destruct a as [|x0 a]; [injection H as -> H; discriminate|]. injection H as _ H. eapply IHY; eauto.
Qed.
Lemma jobs_raise : forall (j : kconf D segbuf PB -> kbuf segbuf PB -> kstore P segbuf PB -> list (@act P segbuf PB) * res (kbuf segbuf PB)) ks n, (exists k b s e, In (k, b, s) ks /\ snd (j k b s) = Err e) -> exists e, snd (run_jobs_t j n ks) = Some e.
Proof.
  intros j. induction ks as [|[[k b] s] ks IH]; intros n (k0 & b0 & s0 & e & Hin & E); [destruct Hin|]. cbn [run_jobs_t]. destruct (j k b s) as [a r] eqn:Ej. destruct (run_jobs_t j (S n) ks) as [[l log] ex] eqn:Er.
  destruct r as [b'|e']; [|cbn; eauto]. destruct Hin as [Q|Hin]; [injection Q as -> -> ->; rewrite Ej in E; discriminate|]. destruct (IH (S n)) as [e' I]; [exists k0, b0, s0, e; auto|]. rewrite Er in I. cbn in *. eauto.
Qed.
Lemma consume_stuck : forall id li (c : list D) ys (g : stream), ends_at_error ys -> In (Ok (li, id, c)) ys -> (exists k b s, In (k, b, s) (g_keys g) /\ k_filter k = id /\ forall l b, exists e, k_agg k l b = Err e) ->
  exists e, snd (consume_t truthy usage g ys) = Err e.
Proof.
  intros id li c. induction ys as [|y ys IH]; intros g He Hin Hk; [destruct Hin|]. cbn [consume_t].
  destruct y as [[[li' id'] c']|e]; [|assert (ys = []) as -> by (apply (He [] e); auto); destruct Hin as [Q|[]]; discriminate].
  pose proof (jobs_confs (D:=D) (P:=P) (SB:=segbuf) (PB:=PB) (fun k b s => if (k_filter k =? id')%nat then agg_iter_t truthy usage k b s (g_pre g) c' else ([], Ok b)) (g_keys g) 0) as Jc.
  pose proof (jobs_raise (fun k b s => if (k_filter k =? id')%nat then agg_iter_t truthy usage k b s (g_pre g) c' else ([], Ok b)) (g_keys g) 0) as Jr.
  unfold consume1_t. destruct (run_jobs_t _ 0 (g_keys g)) as [[l log] ex]. cbn [fst snd] in Jc, Jr. destruct ex as [e|]; [cbn; eauto|].
  destruct Hin as [Q|Hin].
  - injection Q as -> -> ->. exfalso. destruct Hk as (k & b & s & Hk & Hf & Hr). destruct Jr as [e Jr]; [|discriminate]. subst id.
    assert (Z : exists e, snd (agg_iter_t truthy usage k b s (g_pre g) c) = Err e).
    { unfold agg_iter_t. destruct (buffer_results_t truthy usage k b s (g_pre g)) as [a [b1|e1]]; [|cbn; eauto]. destruct (Hr c (b_seg b1)) as [e ->]. cbn. eauto. }
    destruct Z as [e Z]. exists k, b, s, e. split; auto. rewrite Nat.eqb_refl. auto.
  - apply IH; auto.
    + intros a e b Q. apply (He (Ok (li', id', c') :: a) e b). rewrite Q. auto.
    + cbn [g_keys]. destruct Hk as (k & b & s & Hk & Hf & Hr). apply (in_map (fun x => fst (fst x))) in Hk. rewrite <- Jc in Hk. apply in_map_iff in Hk as ([[k' b'] s'] & Ek & Hk). cbn in Ek. subst k'. exists k, b', s'. auto.
Qed.
Lemma run_sets : forall pre fs (x : inst) l tr dl final, set_keys (fst (run_inst N val idx enc truthy usage pre fs x l tr dl final)) = set_keys x /\ confs_of (fst (run_inst N val idx enc truthy usage pre fs x l tr dl final)) = confs_of x.
Proof.
  intros pre fs x l tr dl final. unfold run_inst. pose proof (agg_confs idx truthy usage pre fs (to_stream x) (map snd l) tr dl final) as C.
  destruct (agg_t idx truthy usage pre fs (to_stream x) (map snd l) tr dl final) as [g r]. cbn [fst] in *. apply (f_equal (@length _)) in C. rewrite !map_length in C. cbn [SetupModel.to_stream g_keys] in C. rewrite map_length in C.
  unfold set_keys, confs_of, of_stream. cbn [i_keys]. revert C. generalize (g_keys g). induction (i_keys x) as [|[[[c cs] b] s] ks IH]; intros [|[[k b'] s'] l'] C; try discriminate; [auto|]. cbn in *. destruct (IH l') as [-> ->]; auto.
Qed.
End Setup.
