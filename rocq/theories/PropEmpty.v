(** C46, seed data with chunks without rows (oups/aggstream/aggstream.py:532-596). *)
Require Import List Arith ZArith Bool Lia.
Require Import Verif.Common Verif.SegModel Verif.SegSpec Verif.FilterModel Verif.WrModel Verif.StreamModel Verif.StreamSpec Verif.IterProofs Verif.FailProofs
  Verif.PropStream.
Import ListNotations.
Local Open Scope Z_scope.

(** Chunks with rows. *)
Definition with_rows {D} (seed : list (list D)) : list (list D) := filter (fun c => match c with [] => false | _ => true end) seed.
(** 'pre' leaves a chunk without rows as it is, its own buffer too, and raises nothing. *)
Definition quiet {D P} (pre : option (list D -> P -> list D * P * bool)) : Prop :=
  match pre with None => True | Some f => forall p, f [] p = ([], p, true) end.

Section Empty.
Context {D P SB PB : Type}.
Variable idx : D -> Z.
Variable truthy : Z -> bool.
Variable usage : frame -> Z.
Variable pre : option (list D -> P -> list D * P * bool).
Variable fs : list (nat * option (list D -> res (list bool))).
Variable gs : list (nat * (D -> bool)).
Hypothesis Hf : filters_are fs gs.

(** No row before the last one of them. *)
Definition one_index (l : list D) : Prop := exists l' r, l = l' ++ [r] /\ forall x, In x l -> idx r <= idx x.

Lemma filter_chunk_none : forall li chunk fs' gs', Forall2 (fun f g => fst f = fst g /\ filters_by (snd f) (snd g)) fs' gs' ->
  filter_chunk fs' li chunk (map (fun _ : D => false) chunk) = [].
Proof.
  intros li chunk fs' gs' F. induction F as [|[id f] [id' g] fs' gs' [Q1 Q2] F IH]; auto. cbn [filter_chunk].
  assert (N : existsb (fun b : bool => b) (map (fun _ : D => false) chunk) = false) by (clear; induction chunk; auto).
  destruct f as [f|].
  - cbn [snd filters_by] in Q2. rewrite Q2. cbn [bind].
    assert (E : map2 andb (map g chunk) (map (fun _ : D => false) chunk) = map (fun _ => false) chunk).
    { clear. induction chunk as [|r c IH]; auto. cbn [map map2]. rewrite andb_false_r. f_equal. auto. }
    rewrite E, N. auto.
  - rewrite N. auto.
Qed.
Lemma compress_all : forall (l : list D), compress (map (fun _ : D => true) l) l = l.
Proof. induction l as [|x l IH]; auto. cbn [map compress]. unfold compress in *. cbn. f_equal. auto. Qed.

Lemma iter_empty : forall r rem p seed, quiet pre -> one_index rem ->
  iter_chunks idx r pre fs true false rem p ([] :: seed) = iter_chunks idx r pre fs true false rem p seed.
Proof.
  intros r rem p seed Hq (l & x & -> & Hx). cbn [iter_chunks map sortedb negb].
  match goal with |- (let '(_, _) := ?X in _) = _ => replace X with (([] : list D), p, true) by (unfold quiet in Hq; destruct pre; auto) end. cbn [negb]. rewrite app_nil_r, rev_app_distr. cbn [rev app andb].
  assert (Em : map (fun r0 => idx r0 <? idx x) (l ++ [x]) = map (fun _ => false) (l ++ [x])).
  { apply map_ext_in. intros y Hy. apply Z.ltb_ge. auto. }
  rewrite Em.
  assert (Ef : map2 andb (repeat true (length (l ++ [x]))) (map (fun _ : D => false) (l ++ [x])) = map (fun _ => false) (l ++ [x])).
  { clear. induction (l ++ [x]) as [|y c IH]; auto. cbn [length repeat map map2 andb]. f_equal. auto. }
  rewrite Ef, (filter_chunk_none _ _ fs gs (proj2 Hf)). cbn [stopped existsb]. rewrite map_map. cbn [negb]. rewrite compress_all.
  destruct (iter_chunks idx r pre fs true false (l ++ [x]) p seed) as [ys' p']. auto.
Qed.

(** Filters raise nothing. *)
Lemma filter_chunk_runs : forall li (chunk : list D) m fs' gs', Forall2 (fun f g => fst f = fst g /\ filters_by (snd f) (snd g)) fs' gs' ->
  stopped (filter_chunk fs' li chunk m) = false.
Proof.
  intros li chunk m fs' gs' F. induction F as [|[id f] [id' g] fs' gs' [Q1 Q2] F IH]; auto. cbn [filter_chunk].
  destruct f as [f|]; [cbn [snd filters_by] in Q2; rewrite Q2; cbn [bind]|];
    match goal with |- context [if ?X then _ else _] => destruct X end; auto; match goal with |- context [if ?X then _ else _] => destruct X end; auto.
Qed.
(** After a chunk with rows which is not trimmed. *)
Lemma remainder_one : forall chunk (r : D) c, rev chunk = r :: c -> one_index (compress (map negb (map (fun x => idx x <? idx r) chunk)) chunk).
Proof.
  intros chunk r c E. assert (chunk = rev c ++ [r]) as -> by (rewrite <- (rev_involutive chunk), E; auto).
  rewrite map_map, compress_map_, filter_app. cbn [filter]. rewrite Z.ltb_irrefl. cbn [negb].
  eexists _, r. split; [reflexivity|]. intros x Hx. apply in_app_or in Hx as [Hx|[<-|[]]]; [|lia].
  apply filter_In in Hx as [_ Hx]. apply negb_true_iff, Z.ltb_ge in Hx. auto.
Qed.
Lemma iter_with_rows : forall r seed rem p, quiet pre -> one_index rem ->
  iter_chunks idx r pre fs true false rem p seed = iter_chunks idx r pre fs true false rem p (with_rows seed).
Proof.
  intros r seed. induction seed as [|c seed IH]; intros rem p Hq Hr; auto. unfold with_rows. cbn [filter]. fold (with_rows seed).
  destruct c as [|y c]; [rewrite iter_empty by auto; auto|]. cbn [iter_chunks]. destruct (negb (sortedb (map idx (y :: c)))); auto.
  match goal with |- (let '(_, _) := ?X in _) = _ => destruct X as [[c' p'] ok] end. destruct (negb ok); auto.
  destruct (rev (rem ++ c')) as [|x l] eqn:E; auto. cbn [andb].
  match goal with |- (if stopped ?Y then _ else _) = _ => destruct (stopped Y); auto end.
  rewrite IH; auto. eapply remainder_one; eauto.
Qed.
Lemma iter_then_rows : forall r seed1 seed2 trim p, quiet pre -> harmless pre -> (forall c, In c seed1 -> c <> []) -> seed1 <> [] ->
  (trim = true -> exists x, In x (concat seed1) /\ r <= idx x) ->
  iter_chunks idx r pre fs true trim [] p (seed1 ++ seed2) = iter_chunks idx r pre fs true trim [] p (seed1 ++ with_rows seed2).
Proof.
  intros r seed1. induction seed1 as [|c seed1 IH]; intros seed2 trim p Hq Hp Hne H0 Ht; [congruence|]. cbn [app iter_chunks].
  destruct (negb (sortedb (map idx c))) eqn:Es; auto. apply negb_false_iff, sortedb_iff in Es.
  match goal with |- (let '(_, _) := ?X in _) = _ => assert (Ep : exists p', X = (c, p', true)) by (unfold harmless in Hp; destruct pre as [f|]; [destruct (Hp c p) as [p' Q]|]; eauto) end.
  destruct Ep as [p' ->]. cbn [negb app]. destruct (rev c) as [|x l] eqn:E.
  - exfalso. apply (Hne c); [left; auto|]. rewrite <- (rev_involutive c), E. auto.
  - destruct (trim && (idx x <? r)) eqn:Et.
    + apply andb_true_iff in Et as [-> Et]. apply Z.ltb_lt in Et. destruct (Ht eq_refl) as (y & Hy & Hr).
      assert (Hc : ~ In y c).
      { intro Hc. assert (idx y <= idx x); [|lia]. assert (Ec : c = rev l ++ [x]) by (rewrite <- (rev_involutive c), E; auto).
        rewrite Ec in Hc. apply in_app_or in Hc as [Hc|[->|[]]]; [|lia].
        rewrite Ec in Es. eapply (sorted_app_le idx (rev l) [x]); eauto. left. auto. }
      cbn [concat] in Hy. apply in_app_or in Hy as [Hy|Hy]; [contradiction|].
      apply IH; auto; [intros c' Hc'; apply Hne; right; auto|intros ->; destruct Hy|eauto].
    + match goal with |- (if stopped ?Y then _ else _) = _ => destruct (stopped Y); auto end.
      assert (Hr := remainder_one c x l E). rewrite (iter_with_rows r (seed1 ++ seed2)), (iter_with_rows r (seed1 ++ with_rows seed2)) by auto.
      assert (Q : with_rows (seed1 ++ seed2) = with_rows (seed1 ++ with_rows seed2)).
      { unfold with_rows. rewrite !filter_app. f_equal. symmetry. rewrite filter_filter. apply filter_ext. intro. apply andb_diag. }
      rewrite Q. auto.
Qed.
End Empty.

(** *** C46: when the last rows of chunks wait for the next one (discard_last), chunks without rows are left out, once there has been a chunk with rows to aggregate. *)
Theorem C46_empty_chunks : forall {D P SB PB} (idx : D -> Z) truthy usage (pre : option (@pre_fun D P)) fs gs (g : stream D P SB PB) seed1 seed2 trim final,
  harmless pre -> quiet pre -> filters_are fs gs -> (forall c, In c seed1 -> c <> []) -> seed1 <> [] ->
  (forall r, g_restart g = Some r -> trim = true -> exists x, In x (concat seed1) /\ r <= idx x) ->
  agg idx truthy usage pre fs g (seed1 ++ seed2) trim true final = agg idx truthy usage pre fs g (seed1 ++ with_rows seed2) trim true final.
Proof.
  intros D P SB PB idx truthy usage pre fs gs g seed1 seed2 trim final Hp Hq Hf Hne H0 Hr. unfold agg.
  assert (E : iter_data idx (g_restart g) pre fs trim true (g_pre g) (seed1 ++ seed2) = iter_data idx (g_restart g) pre fs trim true (g_pre g) (seed1 ++ with_rows seed2)).
  { unfold iter_data. destruct (g_restart g) as [r|].
    - eapply iter_then_rows; eauto.
    - eapply iter_then_rows; eauto. discriminate. }
  rewrite E. destruct seed1 as [|c seed1]; [congruence|]. auto.
Qed.
Print Assumptions C46_empty_chunks.

(** *** C46: otherwise a chunk without rows is refused, without final write: before any chunk with rows to aggregate, *)
Theorem C46_empty_first : forall {D P SB PB} (idx : D -> Z) truthy usage (pre : option (@pre_fun D P)) fs (g : stream D P SB PB) seed1 seed2 trim discard final,
  harmless pre -> (forall c, In c seed1 -> c <> []) -> Forall (fun c => sorted (map idx c)) seed1 ->
  (seed1 <> [] -> trim = true /\ exists r, g_restart g = Some r /\ forall x, In x (concat seed1) -> idx x < r) ->
  agg idx truthy usage pre fs g (seed1 ++ [] :: seed2) trim discard final = Err IndexError.
Proof.
  intros D P SB PB idx truthy usage pre fs g seed1 seed2 trim discard final Hp Hne Hs Hr. unfold agg.
  assert (Hpre : forall c p, exists p', match pre return (list D * P * bool) with Some f => f c p | None => (c, p, true) end = (c, p', true)).
  { intros c p. unfold harmless in Hp. destruct pre as [f|]; [destruct (Hp c p) as [p' Q]|]; eauto. }
  assert (Q : forall r t p, (seed1 <> [] -> t = true /\ forall x, In x (concat seed1) -> idx x < r) ->
     fst (iter_chunks idx r pre fs discard t [] p (seed1 ++ [] :: seed2)) = [Err IndexError]).
  { clear Hr. intros r t. induction seed1 as [|c seed1 IH]; intros p Hr; cbn [app iter_chunks].
    - cbn [map sortedb negb]. destruct (Hpre [] p) as [p' ->]. auto.
    - inversion Hs as [|? ? S1 S2]; subst. assert (Es : sortedb (map idx c) = true) by (apply sortedb_iff; auto). rewrite Es. cbn [negb].
      destruct (Hpre c p) as [p' ->]. cbn [negb app]. destruct (rev c) as [|x l] eqn:E.
      + exfalso. apply (Hne c); [left; auto|]. rewrite <- (rev_involutive c), E. auto.
      + destruct Hr as [-> Hr]; [discriminate|]. assert (Hx : idx x < r).
        { apply Hr. cbn [concat]. apply in_or_app. left. rewrite in_rev, E. left. auto. }
        apply Z.ltb_lt in Hx. rewrite Hx. cbn [andb]. apply IH; auto; [intros c' Hc'; apply Hne; right; auto|].
        intros _. split; auto. intros y Hy. apply Hr. cbn [concat]. apply in_or_app. auto. }
  assert (E : fst (iter_data idx (g_restart g) pre fs trim discard (g_pre g) (seed1 ++ [] :: seed2)) = [Err IndexError]).
  { unfold iter_data. destruct (g_restart g) as [r|].
    - apply Q. intro H. destruct (Hr H) as [-> (r' & R & H')]. injection R as <-. auto.
    - apply Q. intro H. destruct (Hr H) as [_ (r' & R & _)]. discriminate. }
  destruct (iter_data _ _ _ _ _ _ _ _) as [ys p]. cbn [fst] in E. subst ys. destruct seed1; cbn [app consume bind]; auto.
Qed.
Print Assumptions C46_empty_first.
(** *** C46: and, when last rows of a chunk do not wait for the next one, anywhere. *)
Theorem C46_empty_kept_last : forall {D P SB PB} (idx : D -> Z) truthy usage (pre : option (@pre_fun D P)) fs gs (g : stream D P SB PB) seed1 seed2 trim final,
  harmless pre -> filters_are fs gs -> (forall c, In c seed1 -> c <> []) -> Forall (fun c => sorted (map idx c)) seed1 ->
  exists e, agg idx truthy usage pre fs g (seed1 ++ [] :: seed2) trim false final = Err e.
Proof.
  intros D P SB PB idx truthy usage pre fs gs g seed1 seed2 trim final Hp Hf Hne Hs. unfold agg.
  assert (Hpre : forall c p, exists p', match pre return (list D * P * bool) with Some f => f c p | None => (c, p, true) end = (c, p', true)).
  { intros c p. unfold harmless in Hp. destruct pre as [f|]; [destruct (Hp c p) as [p' Q]|]; eauto. }
  assert (Q : forall r t p, exists ys, fst (iter_chunks idx r pre fs false t [] p (seed1 ++ [] :: seed2)) = ys ++ [Err IndexError] /\ stopped ys = false).
  { intros r t. revert t. induction seed1 as [|c seed1 IH]; intros t p; cbn [app iter_chunks].
    - cbn [map sortedb negb]. destruct (Hpre [] p) as [p' ->]. exists []. auto.
    - inversion Hs as [|? ? S1 S2]; subst. assert (Es : sortedb (map idx c) = true) by (apply sortedb_iff; auto). rewrite Es. cbn [negb].
      destruct (Hpre c p) as [p' ->]. cbn [negb app]. destruct (rev c) as [|x l] eqn:E.
      + exfalso. apply (Hne c); [left; auto|]. rewrite <- (rev_involutive c), E. auto.
      + assert (Hne' : forall c, In c seed1 -> c <> []) by (intros c' Hc'; apply Hne; right; auto).
        destruct (t && (idx x <? r)); [apply IH; auto|].
        match goal with |- context [stopped ?Y] => assert (Ey : stopped Y = false) by apply (filter_chunk_runs _ _ _ _ _ (proj2 Hf)) end. rewrite Ey.
        destruct (IH Hne' S2 false p') as (ys & E1 & E2). destruct (iter_chunks idx r pre fs false false [] p' _) as [ys' p'']. cbn [fst] in *. subst ys'.
        eexists. split; [apply app_assoc|]. unfold stopped in *. rewrite existsb_app, Ey, E2. auto. }
  assert (E : exists ys, fst (iter_data idx (g_restart g) pre fs trim false (g_pre g) (seed1 ++ [] :: seed2)) = ys ++ [Err IndexError] /\ stopped ys = false).
  { unfold iter_data. destruct (g_restart g); apply Q. }
  destruct E as (ys & E1 & E2). destruct (iter_data _ _ _ _ _ _ _ _) as [ys' p]. cbn [fst] in E1. subst ys'.
  assert (C : exists e, consume truthy usage g (ys ++ [Err IndexError]) = Err e).
  { clear - E2. revert g. induction ys as [|y ys IH]; intro g; cbn [app consume]; eauto. cbn [stopped existsb] in E2. apply orb_false_iff in E2 as [E1 E2].
    destruct y as [y|e]; [|discriminate]. destruct (consume1 truthy usage g y) as [g'|e]; cbn [bind]; eauto. }
  destruct C as [e C]. exists e. destruct seed1; cbn [app]; rewrite C; auto.
Qed.
Print Assumptions C46_empty_kept_last.

(** A seed with empty chunks after the first one; the same with a first one which is trimmed. *)
Definition ex_holes : list (list ex_row) := [[]; [(4,5);(5,6)]; []; []; [(6,7)]; []].
Example ex_C46_empty :
  let g := new_stream tt [] tt [ex_rec 0; ex_rec 1] in let tr := fun z => negb (z =? 0) in
  agg ex_idx tr (fun _ => 1) None ex_fs g ([[(1,1);(2,2)]] ++ ex_holes) true true true
    = agg ex_idx tr (fun _ => 1) None ex_fs g ([[(1,1);(2,2)]] ++ [[(4,5);(5,6)]; [(6,7)]]) true true true /\
  (exists g1, agg ex_idx tr (fun _ => 1) None ex_fs g ([[(1,1);(2,2)]] ++ ex_holes) true true true = Ok (g1, None) /\ g_restart g1 = Some 6 /\
     map (fun x => b_seg (snd (fst x))) (g_keys g1) = [[(1,1);(2,2);(4,5);(5,6)]; [(2,2);(5,6)]] /\
     agg ex_idx tr (fun _ => 1) None ex_fs g1 ([[(1,1);(2,2)]] ++ ex_holes) true true true = Err IndexError) /\
  agg ex_idx tr (fun _ => 1) None ex_fs g ex_holes true true true = Err IndexError /\
  agg ex_idx tr (fun _ => 1) None ex_fs g ([[(1,1);(2,2)]] ++ ex_holes) true false true = Err IndexError.
Proof.
  cbv zeta. split; [|split; [|split]].
  - apply (C46_empty_chunks ex_idx _ _ None ex_fs ex_gs _ [[(1,1);(2,2)]] ex_holes true true I I ex_filters_are);
      [intros c [<-|[]]; discriminate|discriminate|discriminate].
  - eexists. split; [vm_compute; reflexivity|]. split; [reflexivity|]. split; [reflexivity|].
    apply C46_empty_first; [exact I|intros c [<-|[]]; discriminate|repeat constructor; simpl; lia|].
    intros _. split; auto. exists 6. split; [reflexivity|]. intros x Hx. cbn in Hx. destruct Hx as [<-|[<-|[]]]; reflexivity.
  - apply (C46_empty_first ex_idx _ _ None ex_fs _ [] (tl ex_holes)); [exact I|intros c []|constructor|congruence].
  - vm_compute. reflexivity.
Qed.
