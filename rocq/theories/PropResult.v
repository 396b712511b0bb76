(** Properties of streamed aggregation: results which post-processing returns in an unexpected form. *)
Require Import List Arith ZArith Bool Lia Sorting.Sorted.
Require Import Verif.Common Verif.AggModel Verif.AggSpec Verif.SegModel Verif.SegSpec Verif.CsaModel Verif.CsaSpec Verif.WrModel Verif.FilterModel Verif.StreamModel Verif.StreamSpec
  Verif.KeyModel Verif.IterProofs Verif.StreamProofs Verif.BatchRunProofs.
Import ListNotations.
Local Open Scope Z_scope.

(** Post-processing always returns a single data frame, [other] being a condition on its number of columns. *)
Definition single_result {PB} (other : nat -> Prop) (post : PB -> WrModel.frame -> option WrModel.frame -> res (post_res * PB)) : Prop :=
  forall pb f sn r pb', post pb f sn = Ok (r, pb') -> exists out, r = POne (Some out) /\ other (ncols out).
(** Post-processing never returns data frames as expected for this type of results: a data frame, or a pair the first item of which is
    a data frame if there is a key for bins and another one for snapshots. *)
Definition unusable (t : res_type) (r : post_res) : Prop :=
  match t, r with
  | BOTH, POne _ => True
  | BOTH, PTwo f _ => f = None
  | _, POne f => f = None
  | _, PTwo _ _ => True
  end.
Definition never_usable {PB} (t : res_type) (post : PB -> WrModel.frame -> option WrModel.frame -> res (post_res * PB)) : Prop :=
  forall pb f sn r pb', post pb f sn = Ok (r, pb') -> unusable t r.
(** A row to aggregate: not before the restart index if data is trimmed, not at the last index if it is discarded. *)
Definition to_aggregate {D} (idx : D -> Z) (restart : option Z) (trim discard : bool) (seed : list D) (r : D) : Prop :=
  In r seed /\ (trim = true -> forall R, restart = Some R -> R <= idx r) /\ (discard = true -> idx r < last_index idx seed).

Section Main.
Context {D V P PB : Type}.
Variable N : dtype -> num V.
Variable val : D -> cname -> V.
Variable dtypes : list (cname * dtype).
Variable idx : D -> Z.
Variable enc : option V -> Z.
Variable truthy : Z -> bool.
Variable usage : WrModel.frame -> Z.
Variable pre : option (list D -> P -> list D * P * bool).
Variables (fs : @filters D) (gs : list (nat * (D -> bool))).
Notation key_of := (@key_of D V PB N val dtypes idx enc).
Notation stream := (stream D P (@segbuf V) PB).
Notation kconf := (kconf D (@segbuf V) PB).
Notation kbuf := (kbuf (@segbuf V) PB).
Notation kstore := (kstore P (@segbuf V) PB).
Notation act := (@act P (@segbuf V) PB).

Lemma segagg_gives : forall agg by_ snap data b r b', data <> [] -> segagg N val dtypes idx enc agg by_ snap data b = Ok (r, b') -> r <> None.
Proof.
  intros agg by_ snap data b r b' Hd E. unfold segagg in E.
  assert (C : forall B (bin_by : list D -> option B -> res (seg * option B)) empty bb q b1,
    cumsegagg N val agg dtypes bin_by empty (Some idx) (option_map ByTG snap) true data bb = Ok (q, b1) -> q <> None).
  { intros B bin_by empty bb q b1 H. unfold cumsegagg in H. destruct data; [congruence|]. destruct agg; [discriminate|].
    destruct (setup_cumsegagg _ _); cbn [bind] in H; [|discriminate]. unfold cumsegagg_cfg in H.
    repeat (match type of H with bind ?X _ = _ => destruct X as [?q|] eqn:? end; cbn [bind] in H; [try destruct q0 as [? ?]|discriminate]).
    all: repeat match type of H with
      | (let* '(_, _) := ?X in _) = _ => destruct X as [[? ?]|]; cbn [bind] in H; [|discriminate]
      | (let* _ := ?X in _) = _ => destruct X; cbn [bind] in H; [|discriminate]
      end.
    all: match type of H with (if ?X then _ else _) = _ => destruct X end; [discriminate|]. all: injection H as <- _; discriminate. }
  destruct by_.
  all: match type of E with bind ?X _ = _ => destruct X as [[q b1]|] eqn:H end; cbn [bind] in E; [|discriminate]; apply C in H; injection E as <- _; destruct q; [discriminate|congruence].
Qed.

Lemma key_run_bin : forall c (p : P) chunks (b : kbuf) (s : kstore) b' a, (forall x, In x chunks -> x <> []) -> chunks <> [] ->
  key_run truthy usage (key_of c) p b s chunks = Ok (b', a) -> b_bin b' <> None.
Proof.
  induction chunks as [|x chunks IH]; intros b s b' a Hx Hn E; [congruence|]. cbn [key_run] in E.
  destruct (agg_iter truthy usage (key_of c) b s p x) as [[b1 a1]|] eqn:E1; cbn [bind] in E; [|discriminate].
  destruct (key_run truthy usage (key_of c) p b1 (apply_acts s a1) chunks) as [[b2 a2]|] eqn:E2; cbn [bind] in E; [|discriminate]. injection E as <- _.
  destruct chunks as [|y chunks].
  - injection E2 as <- _. unfold agg_iter in E1. destruct (buffer_results _ _ _ _ _ _) as [[b0 a0]|]; cbn [bind] in E1; [|discriminate].
    destruct (k_agg (key_of c) x (b_seg b0)) as [[r sg]|] eqn:Ea; cbn [bind] in E1; [|discriminate]. apply segagg_gives in Ea; [|apply Hx; left; auto].
    destruct r as [[f sn]|]; [|congruence]. injection E1 as <- _. discriminate.
  - eapply IH; [| |exact E2]; [intros z Hz; apply Hx; right; auto|discriminate].
Qed.

(** *** C64: with a key for bins and a key for snapshots, a post-processing which returns a single data frame, which has not 2 columns, has the call raise. *)
Theorem C64_single_refused : forall (g : stream) c post keep b s seed trim discard, harmless pre -> filters_are fs gs ->
  In (key_of c, b, s) (g_keys g) -> c_snap c <> None -> c_two c = true -> c_post c = Some post -> single_result (fun n => n <> 2%nat) post ->
  (forall x, In x seed -> x <> []) -> sorted (map idx (concat seed)) ->
  In (c_filter c, keep) gs -> (exists r, to_aggregate idx (g_restart g) trim discard (concat seed) r /\ keep r = true) ->
  exists e, agg idx truthy usage pre fs g seed trim discard true = Err e.
Proof.
  intros g c post keep b s seed trim discard Hp Hf Hin Hs1 Hs2 Hpo Hone Hne Hs Hk (r & Hr & Hkr).
  destruct (agg idx truthy usage pre fs g seed trim discard true) as [[g' ex]|e] eqn:E; [exfalso|eauto].
  destruct (agg_log idx truthy usage fs gs Hf pre Hp _ _ _ _ _ _ _ Hne Hs E) as (_ & _ & L & _ & _ & LL).
  apply In_nth_error in Hin as [i Hi]. destruct (LL i _ _ _ Hi) as (b' & a & (b1 & a1 & a2 & K1 & _ & K2) & _).
  assert (Hb : b_bin b1 <> None).
  { destruct (iter_data_spec idx fs gs Hf pre Hp (g_restart g) trim discard seed (g_pre g) Hne Hs) as (_ & Dl & _). cbv zeta in Dl. specialize (Dl _ _ Hk). rewrite delivered_chunks in Dl.
    eapply key_run_bin; [| |exact K1].
    - intros x Hx. eapply chunks_rows; [|exact Hx]. unfold ys_of, iter_data. destruct (g_restart g); apply (iter_rows idx fs gs Hf).
    - intro Q. unfold ys_of in Q. cbn [key_of k_filter KeyModel.key_of] in Q. rewrite Q in Dl. cbn [concat] in Dl.
      assert (Hq : In r (filter (fun r => keep r && wanted idx (g_restart g) trim discard (last_index idx (concat seed)) r) (concat seed))).
      { destruct Hr as (R1 & R2 & R3). apply filter_In. split; auto. rewrite Hkr. cbn [andb]. unfold wanted.
        destruct (g_restart g) as [R|]; unfold IterProofs.keep; apply andb_true_iff; split.
        all: try (destruct trim; [|reflexivity]; apply Z.leb_le; apply R2; auto).
        all: try (destruct discard; [|reflexivity]; apply Z.ltb_lt; apply R3; auto). reflexivity. }
      rewrite <- Dl in Hq. destruct Hq. }
  destruct (b_bin b1) as [bin|] eqn:Eb; [|congruence]. unfold post_n_write, results in K2. rewrite Eb in K2.
  destruct (concat_agg_res (b_bins b1) bin true) as [bin'|]; cbn [bind] in K2; [|discriminate].
  match type of K2 with bind (bind ?X _) _ = _ => destruct X as [sn|] end; cbn [bind] in K2; [|discriminate].
  assert (Et : k_type (key_of c) = BOTH) by (cbn [k_type KeyModel.key_of]; unfold type_of; destruct (c_snap c); [rewrite Hs2; auto|congruence]).
  rewrite Et in K2. cbn [k_post KeyModel.key_of] in K2. rewrite Hpo in K2. destruct (post (b_post b1) bin' sn) as [[q pb]|] eqn:Eq; cbn [bind] in K2; [|discriminate].
  destruct (Hone _ _ _ _ _ Eq) as (out & -> & Ho). apply Nat.eqb_neq in Ho. rewrite Ho in K2. cbn [bind] in K2. discriminate.
Qed.

(** Data of a key is unchanged. *)
Definition same_data (s s' : kstore) : Prop := data_of (s_main s') = data_of (s_main s) /\ data_of (s_snap s') = data_of (s_snap s).
Definition unwritten (k : kconf) (s : kstore) (r : res (kbuf * list act)) : Prop := forall b a, r = Ok (b, a) -> same_data s (apply_acts s a).

Lemma pnw_unwritten : forall (k : kconf) b (s : kstore) last r (p : P) post, k_post k = Some post -> never_usable (k_type k) post -> unwritten k s (post_n_write truthy k b s last r p).
Proof.
  intros k b s last r p post Hpo Hu b' a E. unfold post_n_write in E. destruct (results k b last) as [[[main snap] pb]|] eqn:Er; cbn [bind] in E; [|discriminate].
  assert (main = None) as ->.
  { unfold results in Er. destruct (b_bin b) as [bin|]; [|injection Er as <- _ _; auto].
    destruct (concat_agg_res (b_bins b) bin last) as [bin'|]; cbn [bind] in Er; [|discriminate].
    match type of Er with bind ?X _ = _ => destruct X as [sn|] end; cbn [bind] in Er; [|discriminate]. rewrite Hpo in Er.
    match type of Er with bind ?X _ = _ => destruct X as [[q pb1]|] eqn:Eq end; cbn [bind] in Er; [|discriminate]. apply Hu in Eq. unfold unusable in Eq.
    destruct (k_type k), q as [[f|]|[f|] f']; try discriminate; try (injection Er; intros; subst; auto; fail). destruct (ncols f =? 2)%nat; [injection Er as <- _ _; auto|discriminate]. }
  match type of E with context [match ?X with Some md => Ok [_] | None => Ok [] end] => destruct X end; cbn [bind] in E; injection E as _ <-; split; reflexivity.
Qed.
Lemma agg_iter_unwritten : forall (k : kconf) b (s : kstore) (p : P) chunk post, k_post k = Some post -> never_usable (k_type k) post -> unwritten k s (agg_iter truthy usage k b s p chunk).
Proof.
  intros k b s p chunk post Hpo Hu b' a E. unfold agg_iter in E. destruct (buffer_results truthy usage k b s p) as [[b1 a1]|] eqn:E1; cbn [bind] in E; [|discriminate].
  destruct (k_agg k chunk (b_seg b1)) as [[q sg]|]; cbn [bind] in E; [|discriminate]. destruct (match q with Some (f, sn) => (Some f, sn) | None => (None, None) end) as [bin snap]. injection E as _ <-.
  unfold buffer_results in E1. destruct (b_bin b) as [bin0|]; [|injection E1 as _ <-; split; auto]. destruct (rows bin0); [injection E1 as _ <-; split; auto|].
  match type of E1 with (if ?X then _ else _) = _ => destruct X end; [|injection E1 as _ <-; split; auto]. eapply (pnw_unwritten k); eauto.
Qed.
(** Keys and their data, [x] being the key before, [y] after. *)
Definition same_key (i : nat) (g g' : stream) : Prop :=
  forall k b s, nth_error (g_keys g) i = Some (k, b, s) -> exists b' s', nth_error (g_keys g') i = Some (k, b', s') /\ same_data s s'.
Lemma same_trans : forall i g1 g2 g3, same_key i g1 g2 -> same_key i g2 g3 -> same_key i g1 g3.
Proof.
  intros i g1 g2 g3 A B k b s E. destruct (A k b s E) as (b1 & s1 & E1 & S1). destruct (B k b1 s1 E1) as (b2 & s2 & E2 & S2). exists b2, s2. split; auto.
  unfold same_data in *. destruct S1, S2. split; congruence.
Qed.
Lemma same_refl : forall i g g', g_keys g' = g_keys g -> same_key i g g'.
Proof. intros i g g' E k b s H. exists b, s. rewrite E. split; auto. split; auto. Qed.
Lemma jobs_same : forall j (g : stream) g' l log i, run_jobs j 0 (g_keys g) = Ok (l, log) -> g_keys g' = l ->
  (forall k b s, nth_error (g_keys g) i = Some (k, b, s) -> unwritten k s (j k b s)) -> same_key i g g'.
Proof.
  intros j g g' l log i E <- H k b s En. apply run_jobs_log in E as [[_ I] _]. destruct (I i k b s En) as (b' & a & A & B & _). exists b', (apply_acts s a). split; auto. eapply (H _ _ _ En); eauto.
Qed.
Lemma consume_same : forall i k0 post ys (g g' : stream) ex b s, nth_error (g_keys g) i = Some (k0, b, s) -> k_post k0 = Some post -> never_usable (k_type k0) post ->
  consume truthy usage g ys = Ok (g', ex) -> same_key i g g'.
Proof.
  intros i k0 post. induction ys as [|y ys IH]; intros g g' ex b s Hi Hpo Hu E; cbn [consume] in E; [injection E as <- _; apply same_refl; auto|]. destruct y as [[[L0 id] rows]|e].
  - destruct (consume1 truthy usage g (L0, id, rows)) as [g1|] eqn:E1; cbn [bind] in E; [|discriminate]. unfold consume1 in E1.
    match type of E1 with bind ?X _ = _ => destruct X as [[ks log]|] eqn:E2 end; cbn [bind] in E1; [|discriminate].
    assert (S1 : same_key i g g1).
    { eapply jobs_same; [exact E2|injection E1 as <-; reflexivity|]. intros k b1 s1 H. rewrite Hi in H. injection H as <- <- <-. cbv beta.
      match goal with |- unwritten _ _ (if ?X then _ else _) => destruct X end; [eapply agg_iter_unwritten; eauto|]. intros b' a Q. injection Q as _ <-. split; auto. }
    destruct (S1 _ _ _ Hi) as (b1 & s1 & Hi1 & _). eapply same_trans; [exact S1|]. eapply IH; eauto.
  - destruct e; try discriminate. injection E as <- _. apply same_refl. auto.
Qed.

(** *** C64: whatever the call, if accepted (or if it raises an exception raised by 'pre' once results are written), data of a key whose post-processing never returns
    data frames as expected is unchanged. *)
Theorem C64_unusable_unwritten : forall (g g' : stream) ex seed trim discard final i k b s post,
  agg idx truthy usage pre fs g seed trim discard final = Ok (g', ex) ->
  nth_error (g_keys g) i = Some (k, b, s) -> k_post k = Some post -> never_usable (k_type k) post ->
  exists b' s', nth_error (g_keys g') i = Some (k, b', s') /\ data_of (s_main s') = data_of (s_main s) /\ data_of (s_snap s') = data_of (s_snap s).
Proof.
  intros g g' ex seed trim discard final i k b s post E Hi Hpo Hu. unfold agg in E. match type of E with bind ?X _ = _ => destruct X as [[g1 ex1]|] eqn:E1 end; cbn [bind] in E; [|discriminate].
  assert (S1 : same_key i g g1).
  { destruct seed as [|c seed]; [injection E1 as <- _; apply same_refl; auto|]. destruct (iter_data _ _ _ _ _ _ _ _) as [ys p].
    destruct (consume truthy usage g ys) as [[g2 ex2]|] eqn:E2; cbn [bind] in E1; [|discriminate]. eapply same_trans; [eapply consume_same; eauto|]. apply same_refl. injection E1 as <- _. auto. }
  destruct (S1 _ _ _ Hi) as (b1 & s1 & Hi1 & D1 & D2). destruct final; cbn [bind] in E.
  - destruct (final_write truthy g1) as [g2|] eqn:E2; cbn [bind] in E; [|discriminate]. injection E as <- _. unfold final_write in E2.
    match type of E2 with bind ?X _ = _ => destruct X as [[ks log]|] eqn:E3 end; cbn [bind] in E2; [|discriminate].
    assert (S2 : same_key i g1 g2).
    { eapply jobs_same; [exact E3|injection E2 as <-; auto|]. intros k' b' s' H. rewrite Hi1 in H. injection H as <- <- <-. cbv beta. eapply pnw_unwritten; eauto. }
    destruct (S2 _ _ _ Hi1) as (b2 & s2 & Hi2 & D3 & D4). exists b2, s2. split; auto. split; congruence.
  - injection E as <- _. exists b1, s1. auto.
Qed.
End Main.
Print Assumptions C64_single_refused.
Print Assumptions C64_unusable_unwritten.

(** ** Concrete cases *)
Require Import Verif.TestsStream.

Definition no_filter_rows : list (nat * (trow -> bool)) := [(0%nat, fun _ => true)].
Lemma no_filter_is : filters_are no_filter no_filter_rows.
Proof. split; [constructor; [intros []|constructor]|]. constructor; [|constructor]. split; auto. intros r. reflexivity. Qed.

(** The configuration of test_exception_two_keys_but_single_result_from_post, 'post' returning 3 columns, meets hypotheses of [C64_single_refused]. *)
Definition bin_post (n : nat) (pb : unit) (bin : WrModel.frame) (snap : option WrModel.frame) : res (post_res * unit) := Ok (POne (Some (WrModel.mkFrame n (rows bin))), tt).
Definition conf_3 : bconf unit := mkBconf 0 first_last (ByTime (minutes 10)) (Some (minutes 5)) true (Some (bin_post 3)) 400 (Some 5) (Some 5) None.
Definition start_of (c : bconf unit) : tstream unit := new_stream tt segbuf_empty tt [tkey c].
Definition chunks_i := [firstn 28 seed_i; skipn 28 seed_i].
Lemma chunks_i_ok : (forall x, In x chunks_i -> x <> []) /\ sorted (map tidx (concat chunks_i)) /\ exists r, to_aggregate tidx None false true (concat chunks_i) r.
Proof.
  split; [intros x [<-|[<-|[]]]; discriminate|]. split; [apply sortedb_iff; vm_compute; reflexivity|].
  exists (hd (0, 0, true) seed_i). split; [left; reflexivity|]. split; [discriminate|]. intros _. vm_compute. reflexivity.
Qed.
Example ex_C64_single : exists e, agg tidx (fun _ => true) (usage_row 24) None no_filter (start_of conf_3) chunks_i false true true = Err e.
Proof.
  destruct chunks_i_ok as (A & B & r & C).
  eapply (C64_single_refused (fun _ => Znum) tval tdtypes tidx tenc (fun _ => true) (usage_row 24) None no_filter no_filter_rows (start_of conf_3) conf_3);
    [exact I|apply no_filter_is|left; reflexivity|discriminate|reflexivity|reflexivity| |exact A|exact B|left; reflexivity|exists r; split; [exact C|reflexivity]].
  intros pb f sn q pb' E. injection E as <- _. eexists. split; [reflexivity|]. discriminate.
Qed.
Example ex_C64_single_error : agg tidx (fun _ => true) (usage_row 24) None no_filter (start_of conf_3) chunks_i false true true = Err ValueError.
Proof. vm_compute. reflexivity. Qed.

(** *** C64, refuted without the condition on columns: with a single aggregated column, hence 2 columns with labels, the call is accepted, nothing is written, and the restart
    index is recorded: rows are never aggregated. *)
Definition first_only : aggspec := [(10%nat, (1%nat, Some First))].
Definition conf_2 (post : option (unit -> WrModel.frame -> option WrModel.frame -> res (post_res * unit))) : bconf unit :=
  mkBconf 0 first_only (ByTime (minutes 10)) (Some (minutes 5)) true post 400 (Some 5) (Some 5) None.
Theorem C64_two_columns_refuted :
  ~ (forall (g : tstream unit) c post keep b s seed trim discard,
     In (tkey c, b, s) (g_keys g) -> c_snap c <> None -> c_two c = true -> c_post c = Some post -> single_result (fun _ => True) post ->
     (forall x, In x seed -> x <> []) -> sorted (map tidx (concat seed)) ->
     In (c_filter c, keep) no_filter_rows -> (exists r, to_aggregate tidx (g_restart g) trim discard (concat seed) r /\ keep r = true) ->
     exists e, agg tidx (fun _ => true) (usage_row 24) None no_filter g seed trim discard true = Err e).
Proof.
  intro H. destruct chunks_i_ok as (A & B & r & C).
  destruct (H (start_of (conf_2 (Some one_post))) (conf_2 (Some one_post)) one_post (fun _ => true) (mkBuf 0 None None [] [] segbuf_empty tt) (mkStore None None) chunks_i false true) as [e E];
    [left; reflexivity|discriminate|reflexivity|reflexivity| |exact A|exact B|left; reflexivity|exists r; split; [exact C|reflexivity]|].
  - intros pb f sn q pb' Q. injection Q as <- _. eexists. split; [reflexivity|exact I].
  - revert E. vm_compute. discriminate.
Qed.
Print Assumptions C64_two_columns_refuted.
(** What is in store after this call, and after a next one on all data without post-processing: bins and snapshots miss rows before the restart index. *)
Definition run_lost := let* '(g, _) := agg tidx (fun _ => true) (usage_row 24) None no_filter (start_of (conf_2 (Some one_post))) [firstn 28 seed_i] true true true in
  let* h := init tt segbuf_empty tt (map (fun x => (tkey (conf_2 None), snd x)) (g_keys g)) in
  let* '(h, _) := agg tidx (fun _ => true) (usage_row 24) None no_filter h [seed_i] true true true in Ok (both g, restarts g, both h).
Example ex_C64_lost : run_lost = Ok ([([], [])], [Some 59],
  [([[60; 50]; [70; 60]; [80; 77]; [90; 89]; [100; 90]; [110; 100]; [120; 113]],
    [[60; 50]; [65; 60]; [70; 60]; [75; -999]; [80; 77]; [85; -999]; [90; 89]; [95; 90]; [100; 90]; [105; 100]; [110; 100]; [115; 113]; [120; 113]])]).
Proof. vm_compute. reflexivity. Qed.

(** With a single key, a pair of data frames is not refused either: nothing is written. *)
Definition pair_post (pb : unit) (bin : WrModel.frame) (snap : option WrModel.frame) : res (post_res * unit) := Ok (PTwo (Some bin) snap, tt).
Definition conf_pair : bconf unit := mkBconf 0 sum_agg (ByTime (hours 1)) None false (Some pair_post) 1000000 (Some 100) None None.
Example ex_C64_unusable : exists g ex b' s', agg tidx (fun _ => true) (usage_row 24) None no_filter (start_of conf_pair) [seed_b2] true true true = Ok (g, ex) /\
  nth_error (g_keys g) 0 = Some (tkey conf_pair, b', s') /\ data_of (s_main s') = [] /\ data_of (s_snap s') = [] /\ restarts g = [Some (at_ 11 30)].
Proof.
  destruct (agg tidx (fun _ => true) (usage_row 24) None no_filter (start_of conf_pair) [seed_b2] true true true) as [[g ex]|] eqn:E; [|exfalso; revert E; vm_compute; discriminate].
  destruct (C64_unusable_unwritten tidx (fun _ => true) (usage_row 24) None no_filter _ _ _ _ _ _ _ 0%nat (tkey conf_pair) (mkBuf 0 None None [] [] segbuf_empty tt) (mkStore None None) pair_post E)
    as (b' & s' & E1 & E2 & E3); [reflexivity|reflexivity| |].
  - intros pb f sn r pb' Q. injection Q as <- _. exact I.
  - exists g, ex, b', s'. split; auto. split; auto. split; auto. split; auto. revert E. vm_compute. intro E. injection E as <- _. reflexivity.
Qed.
