(** Lemmas for the properties of PropBatch.v. *)
Require Import List Arith ZArith Bool Lia Sorting.Sorted.
Require Import Verif.Common Verif.AggModel Verif.SegModel Verif.SegSpec Verif.CsaModel Verif.CsaSpec Verif.WrModel Verif.StreamModel Verif.RaiseModel Verif.StreamSpec
  Verif.KeyModel Verif.TableProofs Verif.BatchSpec Verif.BatchProofs Verif.BatchRunProofs Verif.BatchKeyProofs.
Require Verif.CsaProofs Verif.IterProofs Verif.RecordProofs Verif.StreamProofs.
Import ListNotations.
Local Open Scope Z_scope.

(** [holds_batch] as cases of the type of results. *)
Section Typed_c.
Context {D V P SB PB : Type}.
Variable N : dtype -> num V.
Variable val : D -> cname -> V.
Variable dtypes : list (cname * dtype).
Variable idx : D -> Z.
Variable enc : option V -> Z.
Definition typed_batch (c : bconf PB) (m ms : row -> row) (rows_ : list D) (s : kstore P SB PB) : Prop :=
  match rows_ with
  | [] => all_rows (data_of (s_main s)) = [] /\ (type_of c = BOTH -> all_rows (data_of (s_snap s)) = [])
  | _ => exists bins snaps, batch N val dtypes idx c rows_ = Ok (Some (bins, snaps)) /\
      match type_of c, snaps with
      | BINS, None => all_rows (data_of (s_main s)) = map m (rows (table enc (c_agg c) bins))
      | SNAPS, Some sn => all_rows (data_of (s_main s)) = map m (rows (table enc (c_agg c) sn))
      | BOTH, Some sn => all_rows (data_of (s_main s)) = map m (rows (table enc (c_agg c) bins)) /\
                         all_rows (data_of (s_snap s)) = map ms (rows (table enc (c_agg c) sn))
      | _, _ => False
      end
  end.
Lemma holds_batch_as : forall c m ms l s, holds_batch N val dtypes idx enc c m ms l s <-> typed_batch c m ms l s.
Proof.
  intros c m ms l s. unfold holds_batch, typed_batch, type_of. destruct l as [|a l].
  - destruct (c_snap c), (c_two c); intuition congruence.
  - split; intros (b & sn & E & H); exists b, sn; (split; [exact E|]); destruct (c_snap c), (c_two c), sn; intuition congruence.
Qed.
End Typed_c.

(** Keys of a stream stay the same. *)
Section Keys.
Context {D P SB PB : Type}.
Variable idx : D -> Z.
Variable truthy : Z -> bool.
Variable usage : WrModel.frame -> Z.
Notation keys_of g := (map (fun x => fst (fst x)) (g_keys g)).
Notation stream := (stream D P SB PB).

Lemma run_jobs_keys : forall (j : kconf D SB PB -> kbuf SB PB -> kstore P SB PB -> res (kbuf SB PB * list act)) ks n l log, run_jobs j n ks = Ok (l, log) -> map (fun x => fst (fst x)) l = map (fun x => fst (fst x)) ks.
Proof.
  intros j. induction ks as [|[[k b] s] ks IH]; intros n l log E; cbn [run_jobs] in E; [injection E as <- _; auto|].
  destruct (j k b s) as [[b' acts]|]; cbn [bind] in E; [|discriminate]. destruct (run_jobs j (S n) ks) as [[l' log']|] eqn:E'; cbn [bind] in E; [|discriminate].
  injection E as <- _. cbn [map fst]. f_equal. eapply IH; eauto.
Qed.
Lemma consume_keys : forall ys (g g' : stream) ex, consume truthy usage g ys = Ok (g', ex) -> keys_of g' = keys_of g.
Proof.
  induction ys as [|y ys IH]; intros g g' ex E; cbn [consume] in E; [injection E as <- _; auto|]. destruct y as [y|e].
  - destruct (consume1 truthy usage g y) as [g1|] eqn:E1; cbn [bind] in E; [|discriminate]. rewrite (IH _ _ _ E). unfold consume1 in E1. destruct y as [[i id] c].
    match type of E1 with bind ?X _ = _ => destruct X as [[ks log]|] eqn:E2 end; cbn [bind] in E1; [|discriminate]. injection E1 as <-. eapply run_jobs_keys; eauto.
  - destruct e; try discriminate. injection E as <- _. auto.
Qed.
Lemma agg_keys : forall pre fs (g g' : stream) seed trim discard final ex, agg idx truthy usage pre fs g seed trim discard final = Ok (g', ex) -> keys_of g' = keys_of g.
Proof.
  intros pre fs g g' seed trim discard final ex E. unfold agg in E. match type of E with bind ?X _ = _ => destruct X as [[g1 ex1]|] eqn:E1 end; cbn [bind] in E; [|discriminate].
  assert (K1 : keys_of g1 = keys_of g).
  { destruct seed; [injection E1 as <- _; auto|]. destruct (iter_data _ _ _ _ _ _ _ _) as [ys p]. destruct (consume truthy usage g ys) as [[g2 ex2]|] eqn:E2; cbn [bind] in E1; [|discriminate].
    injection E1 as <- _. cbn [g_keys]. eapply consume_keys; eauto. }
  destruct final; cbn [bind] in E; [|injection E as <- _; auto]. destruct (final_write truthy g1) as [g2|] eqn:E2; cbn [bind] in E; [|discriminate]. injection E as <- _.
  unfold final_write in E2. match type of E2 with bind ?X _ = _ => destruct X as [[ks log]|] eqn:E3 end; cbn [bind] in E2; [|discriminate]. injection E2 as <-. cbn [g_keys].
  rewrite <- K1. eapply run_jobs_keys; eauto.
Qed.
Lemma start_keys : forall pre0 seg0 post0 (g g1 : stream) (fresh : bool),
  (if fresh then init pre0 seg0 post0 (map (fun x => let '(k, b, s) := x in (k, s)) (g_keys g)) else Ok g) = Ok g1 -> keys_of g1 = keys_of g.
Proof.
  intros pre0 seg0 post0 g g1 fresh E. destruct fresh; [|injection E as <-; auto]. destruct (StreamProofs.init_inv _ _ _ _ _ E) as [F _].
  transitivity (map fst (map (fun x : kconf D SB PB * kbuf SB PB * kstore P SB PB => let '(k, b, s) := x in (k, s)) (g_keys g))); [|rewrite map_map; apply map_ext; intros [[k b] s]; auto].
  clear E. induction F as [|[k s] y l l' H F IH]; auto. cbn [map]. f_equal; auto. unfold StreamProofs.fresh_key in H. destruct (s_main s); [destruct H as (md & _ & ->)|subst y]; auto.
Qed.
Lemma run_once_keys : forall pre fs pre0 seg0 post0 (g g' : stream) r, run_once idx truthy usage pre fs pre0 seg0 post0 g r = Ok g' -> keys_of g' = keys_of g.
Proof.
  intros pre fs pre0 seg0 post0 g g' r E. unfold run_once in E. match type of E with bind ?X _ = _ => destruct X as [g1|] eqn:E1 end; cbn [bind] in E; [|discriminate].
  destruct (agg idx truthy usage pre fs g1 (r_seed r) true true (r_final r)) as [[g2 ex]|] eqn:E2; cbn [bind] in E; [|discriminate]. destruct ex; [discriminate|]. injection E as <-.
  rewrite (agg_keys _ _ _ _ _ _ _ _ _ E2). eapply start_keys; eauto.
Qed.
Lemma run_all_keys : forall pre fs pre0 seg0 post0 rs (g g' : stream), run_all idx truthy usage pre fs pre0 seg0 post0 g rs = Ok g' -> keys_of g' = keys_of g.
Proof.
  induction rs as [|r rs IH]; intros g g' E; cbn [run_all] in E; [injection E as <-; auto|].
  destruct (run_once idx truthy usage pre fs pre0 seg0 post0 g r) as [g1|] eqn:E1; cbn [bind] in E; [|discriminate]. rewrite (IH _ _ E). eapply run_once_keys; eauto.
Qed.
Lemma after_acts_keys : forall (ks : list (kconf D SB PB * kbuf SB PB * kstore P SB PB)) n done, map (fun x => fst (fst x)) (after_acts n ks done) = map (fun x => fst (fst x)) ks.
Proof. induction ks as [|[[k b] s] ks IH]; intros n done; cbn [after_acts map fst]; auto. f_equal. auto. Qed.
Lemma step_all_keys : forall pre fs pre0 seg0 post0 xs (g g' : stream), step_all idx truthy usage pre fs pre0 seg0 post0 g xs = Ok g' -> keys_of g' = keys_of g.
Proof.
  induction xs as [|x xs IH]; intros g g' E; cbn [step_all] in E; [injection E as <-; auto|].
  destruct (step_once idx truthy usage pre fs pre0 seg0 post0 g x) as [g1|] eqn:E1; cbn [bind] in E; [|discriminate]. rewrite (IH _ _ E).
  destruct x as [r|r n]; cbn [step_once] in E1; [eapply run_once_keys; eauto|].
  match type of E1 with bind ?X _ = _ => destruct X as [g2|] eqn:E2 end; cbn [bind] in E1; [|discriminate].
  destruct (agg_t idx truthy usage pre fs g2 (r_seed r) true true (r_final r)) as [g3 ex] eqn:E3. injection E1 as <-.
  cbn [g_keys]. rewrite after_acts_keys. eapply start_keys; eauto.
Qed.
End Keys.

Section Lemmas.
Context {D V P PB : Type}.
Variable N : dtype -> num V.
Variable val : D -> cname -> V.
Variable dtypes : list (cname * dtype).
Variable idx : D -> Z.
Variable enc : option V -> Z.
Notation key_of := (@key_of D V PB N val dtypes idx enc).

(** Rows kept by the filter of a key. *)
Definition keep_of (gs : list (nat * (D -> bool))) (c : bconf PB) : D -> bool := match dict_get Nat.eqb (c_filter c) gs with Some g => g | None => fun _ => true end.
Lemma keep_of_in : forall gs c, In (c_filter c) (map fst gs) -> In (c_filter c, keep_of gs c) gs.
Proof.
  intros gs c H. unfold keep_of. destruct (dict_get Nat.eqb (c_filter c) gs) eqn:E; [eapply CsaProofs.dict_get_In; eauto; apply Nat.eqb_eq|].
  exfalso. eapply CsaProofs.dict_get_None; eauto. apply Nat.eqb_eq.
Qed.
Lemma keep_of_is : forall gs c keep, NoDup (map fst gs) -> In (c_filter c, keep) gs -> keep_of gs c = keep.
Proof. intros gs c keep Hn H. unfold keep_of. rewrite (CsaProofs.In_dict_get _ Nat.eqb_eq _ _ _ Hn H). auto. Qed.

Lemma holds_chans_any : forall {SB} (k : kconf D SB PB) (c : bconf PB) (m ms : row -> row) (l : list D) (s : kstore P SB PB), k_type k = type_of c -> conf_ok dtypes c -> kok idx c l ->
  (forall ch, In ch (chans (P := P) k (kT N val dtypes idx enc c) (kTS N val dtypes idx enc c) m ms) -> all_rows (c_ds ch s) = map (c_map ch) (c_tab ch l)) ->
  holds_batch N val dtypes idx enc c m ms l s.
Proof.
  intros SB k c m ms l s Hk Hc Hok Hh. unfold chans in Hh. rewrite Hk in Hh.
  apply holds_batch_as. unfold typed_batch. destruct l as [|r rows] eqn:Eg.
  - destruct (type_of c).
    + split; [|discriminate]. apply (Hh _ (or_introl eq_refl)).
    + split; [|discriminate]. apply (Hh _ (or_introl eq_refl)).
    + split; [apply (Hh _ (or_introl eq_refl))|]. intros _. apply (Hh _ (or_intror (or_introl eq_refl))).
  - rewrite <- Eg in *. destruct (batch_tables N val dtypes idx enc c Hc l) as (bins & snaps & E & Tb & Ts); [congruence|auto|].
    exists bins, snaps. split; auto. rewrite Tb. unfold type_of in *. destruct snaps as [sn|].
    + destruct Ts as [Ts1 Ts2]. rewrite Ts2. destruct (c_snap c); [|congruence]. destruct (c_two c).
      * split; [apply (Hh _ (or_introl eq_refl))|apply (Hh _ (or_intror (or_introl eq_refl)))].
      * apply (Hh _ (or_introl eq_refl)).
    + rewrite Ts in *. apply (Hh _ (or_introl eq_refl)).
Qed.
Lemma holds_chans : forall (c : bconf PB) (m ms : row -> row) (l : list D) (s : kstore P (@segbuf V) PB), conf_ok dtypes c -> kok idx c l ->
  (forall ch, In ch (chans (P := P) (key_of c) (kT N val dtypes idx enc c) (kTS N val dtypes idx enc c) m ms) -> all_rows (c_ds ch s) = map (c_map ch) (c_tab ch l)) ->
  holds_batch N val dtypes idx enc c m ms l s.
Proof. intros c m ms l s. apply holds_chans_any. auto. Qed.
Lemma holds_holds : forall (confs : list (bconf PB)) gs (m ms : bconf PB -> row -> row) Sf i k (s : kstore P (@segbuf V) PB), (forall c, In c confs -> conf_ok dtypes c) ->
  sorted (map idx Sf) -> (forall c, In c confs -> no_tie idx c (given idx (keep_of gs c) Sf)) ->
  holds idx key_of confs (kT N val dtypes idx enc) (kTS N val dtypes idx enc) m ms (keep_of gs) Sf i k s ->
  exists c, k = key_of c /\ nth_error confs i = Some c /\ holds_batch N val dtypes idx enc c (m c) (ms c) (given idx (keep_of gs c) Sf) s.
Proof.
  intros confs gs m ms Sf i k s Hc Hs Ht (c & -> & Hn & Hh). exists c. split; auto. split; auto. pose proof (nth_error_In _ _ Hn) as Hin.
  apply holds_chans; auto. split; auto. apply IterProofs.sorted_filter; auto.
Qed.
Lemma key_writes : forall c, writes_by_label (key_of c).
Proof. intro c. split; [|intros _]; split; reflexivity. Qed.
End Lemmas.
