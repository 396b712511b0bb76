(** Seed data cut at the restart index. *)
Require Import List Arith ZArith Bool Lia Sorting.Sorted.
Require Import Verif.Common Verif.SegModel Verif.SegSpec Verif.FilterModel Verif.WrModel Verif.StreamModel Verif.RaiseModel Verif.RaiseProofs Verif.StreamSpec Verif.IterProofs Verif.BatchSpec Verif.CutSpec.
Import ListNotations.
Local Open Scope Z_scope.

Section Cut.
Context {D P SB PB : Type}.
Variable idx : D -> Z.
Variable truthy : Z -> bool.
Variable usage : frame -> Z.
Notation stream := (stream D P SB PB).
Variables (fs : @filters D) (gs : list (nat * (D -> bool))).
Hypothesis Hfs : filters_are fs gs.
Variable pre : option (list D -> P -> list D * P * bool).
Hypothesis Hpre : neutral pre.

Lemma pre_neutral : forall chunk p, match pre with Some f => f chunk p | None => (chunk, p, true) end = (chunk, p, true).
Proof. intros. unfold neutral in Hpre. destruct pre; auto. Qed.
Lemma filter_true : forall A (f : A -> bool) l, (forall x, In x l -> f x = true) -> filter f l = l.
Proof. induction l as [|a l IH]; intro H; auto. cbn [filter]. rewrite (H a) by (left; auto). f_equal. apply IH. intros; apply H; right; auto. Qed.
Lemma filter_false : forall A (f : A -> bool) l, (forall x, In x l -> f x = false) -> filter f l = [].
Proof. induction l as [|a l IH]; intro H; auto. cbn [filter]. rewrite (H a) by (left; auto). apply IH. intros; apply H; right; auto. Qed.
Lemma rows_from_all : forall R seed, (forall c, In c seed -> c <> []) -> (forall r, In r (concat seed) -> R <= idx r) -> rows_from idx R seed = seed.
Proof.
  intros R. induction seed as [|c seed IH]; intros Hne Hr; auto. unfold rows_from in *. cbn [map].
  assert (Ec : filter (fun r => R <=? idx r) c = c).
  { apply filter_true. intros r Hi. apply Z.leb_le. apply Hr. cbn [concat]. apply in_or_app. auto. }
  rewrite Ec. cbn [filter]. assert (c <> []) by (apply Hne; left; auto). destruct c; [congruence|]. cbn [has_rows]. f_equal. apply IH; [intros; apply Hne; right; auto|].
  intros r Hi. apply Hr. cbn [concat]. apply in_or_app. auto.
Qed.

(** The loop over chunks, in one step. *)
Lemma trim_step : forall R discard p chunk seed, chunk <> [] -> sorted (map idx chunk) -> let L := last_index idx chunk in
  iter_chunks idx R pre fs discard true [] p (chunk :: seed)
  = if L <? R then iter_chunks idx R pre fs discard true [] p seed
    else let ys := yields gs L (keep idx true R discard L) chunk in
         let '(ys', p') := iter_chunks idx R pre fs discard false (if discard then filter (fun r => negb (idx r <? L)) chunk else []) p seed in
         (ys ++ ys', p').
Proof.
  intros R discard p chunk seed Hne Hs L. cbn [iter_chunks].
  replace (sortedb (map idx chunk)) with true by (symmetry; apply sortedb_iff; auto).
  cbn [negb app]. rewrite pre_neutral. cbn [negb].
  destruct (rev chunk) as [|r l] eqn:Er.
  { exfalso. apply (f_equal (@length D)) in Er. rewrite rev_length in Er. destruct chunk; [congruence|]. discriminate. }
  assert (Eall : chunk = rev l ++ [r]) by (rewrite <- (rev_involutive chunk), Er; auto).
  assert (EL : L = idx r) by (unfold L; rewrite Eall; apply last_index_snoc).
  rewrite <- EL. cbn [andb]. destruct (L <? R); auto.
  match goal with |- context [filter_chunk fs L chunk ?m] => replace m with (map (keep idx true R discard L) chunk) end.
  - rewrite (filter_chunk_ok fs gs Hfs). fold (yields gs L (keep idx true R discard L) chunk).
    replace (stopped _) with false by (symmetry; apply no_error_not_stopped; apply yields_no_error).
    destruct discard; auto. rewrite map_map, compress_map_. auto.
  - unfold keep. destruct discard; rewrite ?map2_map_; apply map_ext; intro; rewrite ?andb_true_r; auto.
Qed.

Lemma iter_cut : forall R discard seed p, (forall c, In c seed -> c <> []) -> sorted (map idx (concat seed)) ->
  iter_chunks idx R pre fs discard true [] p (rows_from idx R seed) = iter_chunks idx R pre fs discard true [] p seed.
Proof.
  intros R discard. induction seed as [|c seed IH]; intros p Hne Hs; auto. cbn [concat] in Hs.
  assert (Hc : c <> []) by (apply Hne; left; auto). assert (Hne' : forall x, In x seed -> x <> []) by (intros; apply Hne; right; auto).
  assert (Sc : sorted (map idx c)) by (eapply sorted_app_l; eauto). assert (Ss : sorted (map idx (concat seed))) by (eapply sorted_app_r; eauto).
  rewrite (trim_step R discard p c seed Hc Sc). cbv zeta. set (L := last_index idx c).
  assert (Hz : exists z, In z c /\ idx z = L /\ forall r, In r c -> idx r <= L).
  { destruct (exists_last Hc) as (c0 & z & E). exists z. unfold L. rewrite E, last_index_snoc. split; [apply in_or_app; right; left; auto|]. split; auto.
    intros r Hr. apply in_app_or in Hr as [Hr|[<-|[]]]; [|lia]. rewrite E in Sc. eapply (sorted_app_le idx c0 [z]); eauto. left; auto. }
  destruct Hz as (z & Hz & Ez & Hle). destruct (Z.ltb_spec L R).
  - rewrite <- (IH p Hne' Ss). unfold rows_from. cbn [map]. rewrite (filter_false _ (fun r => R <=? idx r) c); auto.
    intros r Hr. apply Z.leb_gt. apply Hle in Hr. lia.
  - assert (Er : rows_from idx R seed = seed).
    { apply rows_from_all; auto. intros r Hr. pose proof (sorted_app_le idx c (concat seed) z r Hs Hz Hr). lia. }
    unfold rows_from in *. cbn [map filter]. rewrite Er. set (c' := filter (fun r => R <=? idx r) c).
    assert (Hc' : In z c') by (apply filter_In; split; auto; apply Z.leb_le; lia).
    assert (Sc' : sorted (map idx c')) by (apply sorted_filter; auto).
    assert (EL : last_index idx c' = L).
    { assert (Hn : c' <> []) by (intro Q; rewrite Q in Hc'; destruct Hc'). destruct (exists_last Hn) as (c0 & y & E). rewrite E, last_index_snoc.
      assert (Hy : In y c') by (rewrite E; apply in_or_app; right; left; auto). apply filter_In in Hy as [Hy _]. apply Hle in Hy.
      assert (idx z <= idx y); [|lia]. rewrite E in Hc', Sc'. apply in_app_or in Hc' as [Hc'|[<-|[]]]; [|lia]. eapply (sorted_app_le idx c0 [y]); eauto. left; auto. }
    assert (Eh : has_rows c' = true) by (destruct c'; [destruct Hc'|reflexivity]). rewrite Eh.
    rewrite trim_step; auto; [|intro Q; rewrite Q in Hc'; destruct Hc']. cbv zeta. rewrite EL. replace (L <? R) with false by (symmetry; apply Z.ltb_ge; auto).
    assert (Ey : yields gs L (keep idx true R discard L) c' = yields gs L (keep idx true R discard L) c).
    { unfold yields, c'. apply flat_map_ext. intros [id g]. cbn [fst snd].
      replace (filter (fun r => g r && keep idx true R discard L r) (filter (fun r => R <=? idx r) c)) with (filter (fun r => g r && keep idx true R discard L r) c); auto.
      rewrite filter_filter. apply filter_ext. intro r. unfold keep. destruct (R <=? idx r); cbn [andb]; rewrite ?andb_true_r, ?andb_false_r; auto. }
    rewrite Ey.
    replace (if discard then filter (fun r => negb (idx r <? L)) c' else []) with (if discard then filter (fun r => negb (idx r <? L)) c else []); auto.
    destruct discard; auto. unfold c'. rewrite filter_filter. apply filter_ext_in. intros r Hr. destruct (Z.leb_spec R (idx r)); cbn [andb]; rewrite ?andb_true_r, ?andb_false_r; auto.
    destruct (Z.ltb_spec (idx r) L); auto. exfalso. apply Hle in Hr. lia.
Qed.

Lemma agg_t_cut : forall (g : stream) R seed discard final, g_restart g = Some R -> (forall c, In c seed -> c <> []) -> sorted (map idx (concat seed)) ->
  agg_t idx truthy usage pre fs g (rows_from idx R seed) true discard final = agg_t idx truthy usage pre fs g seed true discard final.
Proof.
  intros g R seed discard final Er Hne Hs. unfold agg_t.
  assert (A : forall sd, (match sd with [] => (g, Ok None) | _ :: _ => let '(ys, p) := iter_data idx (g_restart g) pre fs true discard (g_pre g) sd in
      let '(g0, r) := consume_t truthy usage g ys in (mkStream (g_restart g0) p (g_keys g0) (g_log g0), r) end)
    = (let '(ys, p) := iter_chunks idx R pre fs discard true [] (g_pre g) sd in let '(g0, r) := consume_t truthy usage g ys in (mkStream (g_restart g0) p (g_keys g0) (g_log g0), r))).
  { intros sd. destruct sd; [|unfold iter_data; rewrite Er; auto]. cbn [iter_chunks consume_t]. destruct g; auto. }
  rewrite (A seed), (A (rows_from idx R seed)), iter_cut; auto.
Qed.
Lemma agg_cut : forall (g : stream) R seed discard final, g_restart g = Some R -> (forall c, In c seed -> c <> []) -> sorted (map idx (concat seed)) ->
  agg idx truthy usage pre fs g (rows_from idx R seed) true discard final = agg idx truthy usage pre fs g seed true discard final.
Proof. intros. rewrite !agg_same, agg_t_cut; auto. Qed.

Lemma step_cut : forall pre0 seg0 post0 (g : stream) x, (forall c, In c (r_seed (run_of (snd x))) -> c <> []) -> sorted (map idx (concat (r_seed (run_of (snd x))))) ->
  feed_once idx truthy usage pre fs pre0 seg0 post0 g x = step_once idx truthy usage pre fs pre0 seg0 post0 g (snd x).
Proof.
  intros pre0 seg0 post0 g [recent x] Hne Hs. cbn [fst snd] in *. unfold feed_once. cbn [fst snd]. 
  assert (W : forall e, (if r_fresh (run_of x) then init pre0 seg0 post0 (map (fun x => let '(k, b, s) := x in (k, s)) (g_keys g)) else Ok g) = Err e ->
    step_once idx truthy usage pre fs pre0 seg0 post0 g x = Err e).
  { intros e E. destruct x as [r|r n]; cbn [run_of step_once] in *; [unfold run_once|]; rewrite E; auto. }
  match goal with |- bind ?X _ = _ => destruct X as [g1|e] eqn:E end; cbn [bind]; [|symmetry; apply W; auto]. clear W.
  assert (Same : with_seed x (r_seed (run_of x)) = x) by (destruct x as [[]|[] n]; auto).
  destruct recent; [|rewrite Same; auto]. destruct (g_restart g1) as [R|] eqn:Er; [|rewrite Same; auto].
  destruct x as [r|r n]; cbn [run_of with_seed step_once] in *; [unfold run_once|]; cbn [r_fresh r_seed r_final]; rewrite E; cbn [bind]; [rewrite agg_cut|rewrite agg_t_cut]; auto.
Qed.

Lemma feed_cut : forall pre0 seg0 post0 xs before (g : stream), growing idx before (map run_of (map snd xs)) ->
  feed_all idx truthy usage pre fs pre0 seg0 post0 g xs = step_all idx truthy usage pre fs pre0 seg0 post0 g (map snd xs).
Proof.
  intros pre0 seg0 post0. induction xs as [|x xs IH]; intros before g H; auto. cbn [map growing feed_all step_all] in *. destruct H as (_ & Hs & Hne & H).
  rewrite step_cut; auto. destruct (step_once _ _ _ _ _ _ _ _ _ _) as [g1|]; cbn [bind]; auto. eapply IH; eauto.
Qed.
End Cut.
