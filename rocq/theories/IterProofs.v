(** Lemmas about the iteration over seed data. *)
Require Import List Arith ZArith Bool Lia Sorted.
Require Import Verif.Common Verif.SegModel Verif.SegSpec Verif.SegProofs Verif.CsaSegProofs Verif.FilterModel Verif.WrModel Verif.StreamModel Verif.StreamSpec.
Import ListNotations.
Local Open Scope Z_scope.

Lemma compress_map_ : forall {A} (g : A -> bool) l, compress (map g l) l = filter g l.
Proof. induction l as [|x l IH]; simpl; auto. destruct (g x); rewrite IH; auto. Qed.
Lemma map2_map_ : forall {A B C E} (f : B -> C -> E) (g : A -> B) (h : A -> C) l, map2 f (map g l) (map h l) = map (fun x => f (g x) (h x)) l.
Proof. induction l; simpl; congruence. Qed.
Lemma repeat_map_ : forall {A B} (b : B) (l : list A), repeat b (length l) = map (fun _ => b) l.
Proof. induction l; simpl; congruence. Qed.
Lemma filter_all : forall {A} (g : A -> bool) l, forallb g l = true -> filter g l = l.
Proof. induction l as [|x l IH]; simpl; auto. destruct (g x); simpl; [|discriminate]. intro H. rewrite IH; auto. Qed.
Lemma filter_none : forall {A} (g : A -> bool) l, (forall x, In x l -> g x = false) -> filter g l = [].
Proof. induction l as [|x l IH]; simpl; auto. intro H. rewrite (H x); auto. Qed.
Lemma existsb_none : forall {A} (g : A -> bool) l, existsb g l = false -> filter g l = [].
Proof. induction l as [|x l IH]; simpl; auto. destruct (g x); simpl; [discriminate|auto]. Qed.
Lemma existsb_map : forall {A} (g : A -> bool) l, existsb (fun b => b) (map g l) = existsb g l.
Proof. induction l; simpl; congruence. Qed.
Lemma forallb_map : forall {A} (g : A -> bool) l, forallb (fun b => b) (map g l) = forallb g l.
Proof. induction l; simpl; congruence. Qed.
Lemma filter_filter : forall {A} (f g : A -> bool) l, filter f (filter g l) = filter (fun x => g x && f x) l.
Proof. induction l as [|x l IH]; simpl; auto. destruct (g x); simpl; [destruct (f x)|]; rewrite IH; auto. Qed.
Lemma sortedb_iff : forall l, sortedb l = true <-> sorted l.
Proof.
  intro l. split; [|apply sortedb_sorted]. induction l as [|x l IH]; intro H; [constructor|].
  destruct l as [|y l]; [repeat constructor|].
  cbn [sortedb] in H. apply andb_true_iff in H as [H1 H2]. specialize (IH H2). constructor; auto.
  inversion IH; subst. constructor; [apply Z.leb_le in H1; auto|]. eapply Forall_impl; [|eauto]. apply Z.leb_le in H1. intros; lia.
Qed.

Section Iter.
Context {D P : Type}.
Variable idx : D -> Z.
Notation last_index := (last_index idx).

Lemma last_index_app : forall a b : list D, b <> [] -> last_index (a ++ b) = last_index b.
Proof.
  intros a b H. unfold StreamSpec.last_index. rewrite map_app. induction a as [|x a IH]; auto.
  simpl. destruct (map idx a ++ map idx b) eqn:E; [|exact IH].
  destruct (map idx a); [destruct b; [congruence|discriminate]|discriminate].
Qed.
Lemma last_index_snoc : forall a (x : D), last_index (a ++ [x]) = idx x.
Proof. intros a x. rewrite last_index_app by discriminate. auto. Qed.
Lemma le_last_index : forall (l : list D) x, sorted (map idx l) -> In x l -> idx x <= last_index l.
Proof.
  induction l as [|y l IH]; intros x Hs Hx; [destruct Hx|]. simpl in Hs. inversion Hs; subst. destruct l as [|z l].
  - destruct Hx as [->|[]]. unfold StreamSpec.last_index. simpl. lia.
  - change (y :: z :: l) with ([y] ++ z :: l). rewrite (last_index_app [y] (z :: l)) by discriminate. destruct Hx as [->|Hx]; [|auto].
    rewrite Forall_forall in H2. specialize (IH z H1 (or_introl eq_refl)). specialize (H2 (idx z) (or_introl eq_refl)). lia.
Qed.
Lemma sorted_app_le : forall (a b : list D) x y, sorted (map idx (a ++ b)) -> In x a -> In y b -> idx x <= idx y.
Proof.
  induction a as [|z a IH]; intros b x y Hs Hx Hy; [destruct Hx|]. simpl in Hs. inversion Hs; subst. destruct Hx as [->|Hx].
  - rewrite Forall_forall in H2. apply H2. rewrite map_app. apply in_or_app. right. apply in_map. auto.
  - eapply IH; eauto.
Qed.
Lemma sorted_app_l : forall a b : list D, sorted (map idx (a ++ b)) -> sorted (map idx a).
Proof.
  induction a as [|z a IH]; intros b Hs; simpl in *; [constructor|]. inversion Hs; subst. constructor; [eapply IH; eauto|].
  rewrite map_app in H2. apply Forall_app in H2. tauto.
Qed.
Lemma sorted_app_r : forall a b : list D, sorted (map idx (a ++ b)) -> sorted (map idx b).
Proof. induction a as [|z a IH]; intros b Hs; simpl in *; auto. inversion Hs; subst. auto. Qed.
Lemma split_below : forall (l : list D) v, sorted (map idx l) -> l = filter (fun r => idx r <? v) l ++ filter (fun r => negb (idx r <? v)) l.
Proof.
  induction l as [|x l IH]; intros v Hs; auto. simpl in Hs. inversion Hs; subst. simpl. destruct (idx x <? v) eqn:E; simpl.
  - f_equal. auto.
  - rewrite (filter_none (fun r => idx r <? v)).
    + simpl. f_equal. symmetry. apply filter_all. apply forallb_forall. intros y Hy. rewrite Forall_forall in H2.
      specialize (H2 (idx y) (in_map idx _ _ Hy)). apply Z.ltb_ge in E. apply negb_true_iff, Z.ltb_ge. lia.
    + intros y Hy. rewrite Forall_forall in H2. specialize (H2 (idx y) (in_map idx _ _ Hy)). apply Z.ltb_ge in E. apply Z.ltb_ge. lia.
Qed.

Variables (fs : @filters D) (gs : list (nat * (D -> bool))).
Hypothesis Hfs : filters_are fs gs.

(** Filters applied to a chunk. *)
Lemma filter_chunk_ok : forall L (chunk : list D) h,
  filter_chunk fs L chunk (map h chunk)
  = flat_map (fun g => let rows := filter (fun r => snd g r && h r) chunk in
                       match rows with [] => [] | _ => [Ok (L, fst g, rows)] end) gs.
Proof.
  intros L chunk h. destruct Hfs as [_ F]. clear Hfs. induction F as [|[id f] [id' g] fs' gs' [E Hf] F IH]; simpl in *; auto. subst id'.
  assert (M : match f with None => Ok (map h chunk) | Some f => let* m := f chunk in Ok (map2 andb m (map h chunk)) end
              = Ok (map (fun r => g r && h r) chunk)).
  { destruct f as [f|]; simpl in Hf.
    - rewrite Hf. simpl. rewrite map2_map_. auto.
    - f_equal. apply map_ext. intro r. rewrite Hf. auto. }
  rewrite M, existsb_map, forallb_map, compress_map_.
  destruct (existsb (fun r => g r && h r) chunk) eqn:Ex; simpl.
  - destruct (filter (fun r => g r && h r) chunk) as [|y l] eqn:Ef.
    + exfalso. apply existsb_exists in Ex as (x & Hx & Hg). assert (Q : In x []) by (rewrite <- Ef; apply filter_In; auto). destruct Q.
    + destruct (forallb _ chunk) eqn:Ea.
      * rewrite filter_all in Ef by auto. rewrite <- Ef, IH. auto.
      * rewrite IH. auto.
  - rewrite (existsb_none _ _ Ex). exact IH.
Qed.

Definition yields (L : Z) (h : D -> bool) (chunk : list D) : list (res (Z * nat * list D)) :=
  flat_map (fun g => let rows := filter (fun r => snd g r && h r) chunk in
                     match rows with [] => [] | _ => [Ok (L, fst g, rows)] end) gs.

Lemma yields_no_error : forall L h chunk, no_error (yields L h chunk).
Proof.
  intros L h chunk e H. apply in_flat_map in H as (g & _ & H). cbv zeta in H. destruct (filter _ chunk); [destruct H|].
  destruct H as [H|[]]. discriminate.
Qed.
Lemma no_error_not_stopped : forall (ys : list (res (Z * nat * list D))), no_error ys <-> stopped ys = false.
Proof.
  intro ys. unfold no_error, stopped. induction ys as [|[y|e] ys IH]; simpl.
  - split; auto.
  - rewrite <- IH. split; [intros H e Q; apply (H e); auto|intros H e [Q|Q]; [discriminate|apply (H e); auto]].
  - split; [intro H; exfalso; apply (H e); auto|discriminate].
Qed.
Lemma delivered_app : forall id (a b : list (res (Z * nat * list D))), delivered id (a ++ b) = delivered id a ++ delivered id b.
Proof. intros. unfold delivered. apply flat_map_app. Qed.

Lemma delivered_yields_no : forall L h chunk id gs', ~ In id (map fst gs') ->
  delivered id (flat_map (fun g : nat * (D -> bool) => let rows := filter (fun r => snd g r && h r) chunk in
                     match rows with [] => [] | _ => [Ok (L, fst g, rows)] end) gs') = [].
Proof.
  induction gs' as [|[i g] gs' IH]; auto. intro H. cbn [flat_map fst snd] in *. rewrite delivered_app, IH by (simpl in H; tauto).
  rewrite app_nil_r. cbv zeta. destruct (filter _ chunk); auto. unfold delivered. simpl. destruct (Nat.eqb_spec i id); auto.
  exfalso. apply H. simpl. auto.
Qed.
Lemma delivered_yields : forall L h chunk id g, In (id, g) gs -> delivered id (yields L h chunk) = filter (fun r => g r && h r) chunk.
Proof.
  intros L h chunk id g Hin. destruct Hfs as [Nd _]. clear Hfs. unfold yields.
  induction gs as [|[i g'] gs' IH]; [destruct Hin|]. simpl in Nd. inversion Nd; subst. cbn [flat_map fst snd]. rewrite delivered_app.
  destruct Hin as [Q|Hin].
  - injection Q as -> ->. rewrite delivered_yields_no by auto. rewrite app_nil_r. cbv zeta.
    destruct (filter _ chunk) eqn:E; auto. unfold delivered. simpl.
    rewrite Nat.eqb_refl, app_nil_r. auto.
  - rewrite IH by auto. cbv zeta. destruct (filter (fun r => g' r && h r) chunk); auto. unfold delivered. simpl. destruct (Nat.eqb_spec i id); auto.
    exfalso. subst i. apply H1. change id with (fst (id, g)). apply in_map. auto.
Qed.

(** Order of the items: all have the index [L], and there is one if a row is kept by a filter. *)
Lemma restart_app : forall r (a b : list (res (Z * nat * list D))), restart_after r (a ++ b) = restart_after (restart_after r a) b.
Proof. intros. unfold restart_after. apply fold_left_app. Qed.
Lemma restart_yields : forall L h chunk r,
  restart_after r (yields L h chunk) = if existsb (fun g => existsb (fun x => snd g x && h x) chunk) gs then Some L else r.
Proof.
  intros L h chunk. unfold yields. clear Hfs. induction gs as [|g gs' IH]; intro r; auto.
  cbn [flat_map existsb]. rewrite restart_app. cbv zeta. destruct (existsb (fun x => snd g x && h x) chunk) eqn:Ex.
  - destruct (filter (fun x => snd g x && h x) chunk) eqn:Ef.
    + exfalso. apply existsb_exists in Ex as (x & Hx & Hg). assert (Q : In x []) by (rewrite <- Ef; apply filter_In; auto). destruct Q.
    + simpl. rewrite IH. destruct (existsb _ gs'); auto.
  - rewrite (existsb_none _ _ Ex). simpl. apply IH.
Qed.

(** Rows which are neither trimmed nor discarded. *)
Definition keep (trim : bool) (R : Z) (discard : bool) (L : Z) (r : D) : bool :=
  (if trim then R <=? idx r else true) && (if discard then idx r <? L else true).

Variable pre : option (@pre_fun D P).
Hypothesis Hpre : harmless pre.

(** The loop over chunks, in one step. *)
Lemma iter_step : forall R discard trim rem p chunk seed, chunk <> [] -> sorted (map idx (rem ++ chunk)) ->
  (trim = true -> rem = []) -> (discard = false -> rem = []) ->
  let all := rem ++ chunk in let L := last_index all in
  exists p1, iter_chunks idx R pre fs discard trim rem p (chunk :: seed)
  = if trim && (L <? R) then iter_chunks idx R pre fs discard trim rem p1 seed
    else let ys := yields L (keep trim R discard L) all in
         let '(ys', p') := iter_chunks idx R pre fs discard false (if discard then filter (fun r => negb (idx r <? L)) all else []) p1 seed in
         (ys ++ ys', p').
Proof.
  intros R discard trim rem p chunk seed Hne Hs Htr Hdr all L.
  assert (exists p1, (match pre with Some f => f chunk p | None => (chunk, p, true) end) = (chunk, p1, true)) as [p1 Ep].
  { destruct pre as [f|]; simpl in Hpre; eauto. }
  exists p1. cbn [iter_chunks].
  replace (sortedb (map idx chunk)) with true by (symmetry; apply sortedb_iff; eapply sorted_app_r; eauto).
  cbn [negb]. rewrite Ep. cbn [negb]. fold all.
  destruct (rev all) as [|r l] eqn:Er.
  { exfalso. apply (f_equal (@length D)) in Er. rewrite rev_length in Er. unfold all in Er. rewrite app_length in Er. destruct chunk; [congruence|]. simpl in Er. lia. }
  assert (Eall : all = rev l ++ [r]) by (rewrite <- (rev_involutive all), Er; auto).
  assert (EL : L = idx r) by (unfold L; rewrite Eall; apply last_index_snoc).
  rewrite <- EL. destruct (trim && (L <? R)); auto.
  match goal with |- context [filter_chunk fs L all ?m] => replace m with (map (keep trim R discard L) all) end.
  - rewrite filter_chunk_ok. fold (yields L (keep trim R discard L) all).
    replace (stopped _) with false by (symmetry; apply no_error_not_stopped; apply yields_no_error).
    destruct discard.
    + rewrite map_map, compress_map_. auto.
    + rewrite (Hdr eq_refl). auto.
  - unfold keep. destruct trim, discard; rewrite ?repeat_map_, ?map2_map_; apply map_ext; intro; rewrite ?andb_true_r; auto.
Qed.

Definition all_keep trim R discard (l : list D) : D -> bool := keep trim R discard (last_index l).

Lemma keep_mono : forall trim R discard L L' r, L <= L' -> keep trim R discard L r = true -> keep trim R discard L' r = true.
Proof.
  intros trim R discard L L' r H. unfold keep. rewrite !andb_true_iff. intros [A B]. split; auto. destruct discard; auto.
  apply Z.ltb_lt in B. apply Z.ltb_lt. lia.
Qed.

(** Without anything left to trim. *)
Lemma iter_untrimmed : forall R discard seed rem p, (forall c, In c seed -> c <> []) -> sorted (map idx (rem ++ concat seed)) ->
  (discard = false -> rem = []) -> (forall r, In r rem -> idx r = last_index rem) ->
  let all := rem ++ concat seed in let L := last_index all in
  let ys := fst (iter_chunks idx R pre fs discard false rem p seed) in
  no_error ys /\
  (forall id g, In (id, g) gs -> delivered id ys = filter (fun r => g r && keep false R discard L r) all) /\
  (forall r0, (restart_after r0 ys = r0 /\ forall id g r, In (id, g) gs -> In r all -> g r = true -> keep false R discard L r = true -> False)
     \/ exists N, restart_after r0 ys = Some N /\ N <= L /\ (exists r, In r all /\ idx r = N) /\
         (forall r, In r rem -> idx r <= N) /\
         forall id g r, In (id, g) gs -> In r all -> g r = true -> keep false R discard L r = true -> if discard then idx r < N else idx r <= N).
Proof.
  intros R discard. induction seed as [|chunk seed IH]; intros rem p Hne Hs Hd Hrem all L ys.
  - unfold ys, all in *. simpl. assert (Eq : filter (fun r => keep false R discard L r) (rem ++ []) = []).
    { apply filter_none. intros r Hr. rewrite app_nil_r in Hr. unfold keep. simpl. destruct discard.
      - apply Z.ltb_ge. rewrite (Hrem r Hr). unfold L, all. simpl. rewrite app_nil_r. lia.
      - rewrite (Hd eq_refl) in Hr. destruct Hr. }
    assert (Eq' : forall r, In r (rem ++ []) -> keep false R discard L r = true -> False).
    { intros r A B. assert (Q : In r []) by (rewrite <- Eq; apply filter_In; auto). destruct Q. }
    split; [intros e []|]. split.
    + intros id g Hin. symmetry. apply filter_none. intros r Hr.
      destruct (keep false R discard L r) eqn:Ek; [|apply andb_false_r]. exfalso. eapply Eq'; eauto.
    + intro r0. left. split; auto. intros; eapply Eq'; eauto.
  - assert (Hc : chunk <> []) by (apply Hne; simpl; auto).
    cbn [concat] in *. rewrite app_assoc in Hs.
    destruct (iter_step R discard false rem p chunk seed Hc (sorted_app_l _ _ Hs)) as [p1 E]; [discriminate|auto|].
    cbv zeta in E. set (a1 := rem ++ chunk) in *. set (L1 := last_index a1) in *.
    cbn [andb] in E. set (rem' := if discard then filter (fun r => negb (idx r <? L1)) a1 else []) in *.
    assert (Ha1 : a1 <> []) by (unfold a1; intro Q; apply app_eq_nil in Q; tauto).
    assert (Hrem' : forall r, In r rem' -> In r a1 /\ idx r = L1).
    { intros r Hr. unfold rem' in Hr. destruct discard; [|destruct Hr]. apply filter_In in Hr as [A B]. split; auto.
      apply negb_true_iff, Z.ltb_ge in B. pose proof (le_last_index a1 r (sorted_app_l _ _ Hs) A). fold L1 in H. lia. }
    assert (Hsplit : discard = true -> a1 = filter (fun r => idx r <? L1) a1 ++ rem').
    { intro Ed. unfold rem'. rewrite Ed. apply split_below. eapply sorted_app_l; eauto. }
    assert (Hlast : discard = true -> last_index rem' = L1).
    { intro Ed. assert (R' : rem' <> []).
      { unfold rem'. rewrite Ed. destruct (exists_last Ha1) as (l & x & Q). rewrite Q, filter_app. simpl.
        replace (idx x <? L1) with false; [intro Q'; apply app_eq_nil in Q' as [_ Q']; discriminate|].
        symmetry. apply Z.ltb_ge. unfold L1. rewrite Q, last_index_snoc. lia. }
      destruct (exists_last R') as (l & x & Q). rewrite Q, last_index_snoc. apply Hrem'. rewrite Q. apply in_or_app. simpl. auto. }
    destruct (iter_chunks idx R pre fs discard false rem' p1 seed) as [ys' p'] eqn:Ei.
    assert (Eys : ys = yields L1 (keep false R discard L1) a1 ++ ys') by (unfold ys; rewrite E; auto).
    assert (Hs' : sorted (map idx (rem' ++ concat seed))).
    { destruct discard eqn:Ed; [|simpl; eapply sorted_app_r; eauto].
      rewrite (Hsplit eq_refl), <- app_assoc in Hs. eapply sorted_app_r; eauto. }
    destruct (IH rem' p1) as (I1 & I2 & I3); [intros; apply Hne; simpl; auto|auto|unfold rem'; intros ->; auto| |].
    { intros r Hr. destruct discard eqn:Ed; [|destruct Hr]. rewrite (Hlast eq_refl). apply Hrem'. auto. }
    rewrite Ei in I1, I2, I3. cbn [fst] in I1, I2, I3. set (L2 := last_index (rem' ++ concat seed)) in *.
    assert (EL : discard = true -> L = L2).
    { intro Ed. unfold L, L2, all. rewrite (app_assoc rem chunk). fold a1. destruct (concat seed) as [|d ds] eqn:Ec.
      - rewrite !app_nil_r. fold L1. symmetry. auto.
      - rewrite !last_index_app by discriminate. auto. }
    assert (Eall : all = a1 ++ concat seed) by (unfold all, a1; rewrite app_assoc; auto).
    assert (Hle : L1 <= L).
    { unfold L. rewrite Eall. destruct (exists_last Ha1) as (l & x & Q). unfold L1. rewrite Q, last_index_snoc.
      apply le_last_index; [rewrite <- Q; auto|]. apply in_or_app. left. apply in_or_app. simpl. auto. }
    assert (Hin1 : forall r, In r a1 -> idx r <= L1) by (intros r Hr; apply le_last_index; [eapply sorted_app_l; eauto|auto]).
    split; [|split].
    + rewrite Eys. intros e Q. apply in_app_or in Q as [Q|Q]; [eapply yields_no_error; eauto|eapply I1; eauto].
    + intros id g Hin. rewrite Eys, delivered_app, (delivered_yields _ _ _ id g Hin), (I2 id g Hin), Eall. destruct discard eqn:Ed.
      * rewrite (EL eq_refl). rewrite (Hsplit eq_refl) at 2. rewrite <- app_assoc, (filter_app _ (filter _ a1)). f_equal.
        rewrite filter_filter. apply filter_ext_in. intros r Hr. unfold keep. simpl.
        destruct (idx r <? L1) eqn:E1; simpl; [|rewrite andb_false_r; auto]. rewrite andb_true_r. apply Z.ltb_lt in E1.
        assert (idx r <? L2 = true) as -> by (apply Z.ltb_lt; rewrite <- (EL eq_refl); lia). rewrite andb_true_r. auto.
      * unfold keep. simpl. rewrite filter_app. f_equal.
    + intro r0. rewrite Eys, restart_app, restart_yields.
      destruct (existsb (fun g => existsb (fun x => snd g x && keep false R discard L1 x) a1) gs) eqn:Ex.
      * right. destruct (I3 (Some L1)) as [[E1 E2]|(N & E1 & E2 & E4 & E5 & E3)].
        -- exists L1. split; auto. split; auto. split; [|split].
           ++ destruct (exists_last Ha1) as (l & x & Q). exists x. split; [rewrite Eall, Q; apply in_or_app; left; apply in_or_app; simpl; auto|].
              unfold L1. rewrite Q, last_index_snoc. auto.
           ++ intros r Hr. apply Hin1. unfold a1. apply in_or_app. auto.
           ++ intros id g r Hg Hr Hgr Hk. rewrite Eall in Hr. apply in_app_or in Hr as [Hr|Hr].
              ** specialize (Hin1 r Hr). destruct discard eqn:Ed; [|auto]. destruct (Z.eq_dec (idx r) L1) as [Q|]; [|lia].
                 exfalso. apply (E2 id g r); auto; [apply in_or_app; left; unfold rem'; apply filter_In; split; auto; apply negb_true_iff, Z.ltb_ge; lia|].
                 rewrite <- (EL eq_refl). auto.
              ** exfalso. apply (E2 id g r); auto; [apply in_or_app; auto|]. destruct discard; [rewrite <- EL; auto|auto].
        -- exists N. split; auto. assert (NL : N <= L).
           { destruct discard eqn:Ed; [rewrite (EL eq_refl); auto|]. destruct E4 as (x & Hx & <-).
             apply le_last_index; [rewrite Eall; auto|]. rewrite Eall. apply in_or_app. right. exact Hx. }
           assert (LN : L1 <= N).
           { destruct E4 as (x & Hx & <-). apply in_app_or in Hx as [Hx|Hx]; [apply Hrem' in Hx; lia|].
             destruct (exists_last Ha1) as (l & y & Q). unfold L1. rewrite Q, last_index_snoc.
             eapply (sorted_app_le a1 (concat seed)); eauto. rewrite Q. apply in_or_app. simpl. auto. }
           split; auto. split; [|split].
           ++ destruct E4 as (x & Hx & <-). exists x. split; auto. rewrite Eall. apply in_app_or in Hx as [Hx|Hx]; apply in_or_app; auto.
              left. apply Hrem'. auto.
           ++ intros r Hr. specialize (Hin1 r (in_or_app _ _ _ (or_introl Hr))). lia.
           ++ intros id g r Hg Hr Hgr Hk. rewrite Eall in Hr. apply in_app_or in Hr as [Hr|Hr].
              ** specialize (Hin1 r Hr). destruct discard eqn:Ed; [|lia]. destruct (Z.eq_dec (idx r) L1) as [Q|]; [|lia].
                 apply (E3 id g r); auto; [apply in_or_app; left; unfold rem'; apply filter_In; split; auto; apply negb_true_iff, Z.ltb_ge; lia|].
                 rewrite <- (EL eq_refl). auto.
              ** apply (E3 id g r); auto; [apply in_or_app; auto|]. destruct discard; [rewrite <- EL; auto|auto].
      * assert (No : forall id g r, In (id, g) gs -> In r a1 -> g r = true -> keep false R discard L1 r = true -> False).
        { intros id g r Hg Hr Hgr Hk. assert (Q : existsb (fun g => existsb (fun x => snd g x && keep false R discard L1 x) a1) gs = true).
          { apply existsb_exists. exists (id, g). split; auto. apply existsb_exists. exists r. split; auto. simpl. rewrite Hgr, Hk. auto. }
          congruence. }
        destruct (I3 r0) as [[E1 E2]|(N & E1 & E2 & E4 & E5 & E3)].
        -- left. split; auto. intros id g r Hg Hr Hgr Hk. rewrite Eall in Hr. apply in_app_or in Hr as [Hr|Hr].
           ++ destruct discard eqn:Ed; [|apply (No id g r); auto]. destruct (idx r <? L1) eqn:El; [apply (No id g r); auto; unfold keep; simpl; auto|].
              apply (E2 id g r); auto; [apply in_or_app; left; unfold rem'; apply filter_In; rewrite El; auto|]. rewrite <- (EL eq_refl). auto.
           ++ apply (E2 id g r); auto; [apply in_or_app; auto|]. destruct discard; [rewrite <- EL; auto|auto].
        -- right. exists N. split; auto.
           assert (LN : L1 <= N).
           { destruct E4 as (x & Hx & <-). apply in_app_or in Hx as [Hx|Hx]; [apply Hrem' in Hx; lia|].
             destruct (exists_last Ha1) as (l & y & Q). unfold L1. rewrite Q, last_index_snoc.
             eapply (sorted_app_le a1 (concat seed)); eauto. rewrite Q. apply in_or_app. simpl. auto. }
           split; [|split; [|split]].
           ++ destruct discard eqn:Ed; [rewrite (EL eq_refl); auto|]. destruct E4 as (x & Hx & <-).
              apply le_last_index; [rewrite Eall; auto|]. rewrite Eall. apply in_or_app. right. exact Hx.
           ++ destruct E4 as (x & Hx & <-). exists x. split; auto. rewrite Eall. apply in_app_or in Hx as [Hx|Hx]; apply in_or_app; auto.
              left. apply Hrem'. auto.
           ++ intros r Hr. specialize (Hin1 r (in_or_app _ _ _ (or_introl Hr))). lia.
           ++ intros id g r Hg Hr Hgr Hk. rewrite Eall in Hr. apply in_app_or in Hr as [Hr|Hr].
              ** specialize (Hin1 r Hr). destruct discard eqn:Ed; [|exfalso; apply (No id g r); auto].
                 destruct (idx r <? L1) eqn:El; [exfalso; apply (No id g r); auto; unfold keep; simpl; auto|].
                 apply (E3 id g r); auto; [apply in_or_app; left; unfold rem'; apply filter_In; rewrite El; auto|]. rewrite <- (EL eq_refl). auto.
              ** apply (E3 id g r); auto; [apply in_or_app; auto|]. destruct discard; [rewrite <- EL; auto|auto].
Qed.

(** Trimming: as if rows before restart index were not in seed data. *)
Lemma filter_ge_app : forall (l : list D) R, sorted (map idx l) -> l <> [] -> R <= last_index l ->
  filter (fun r => R <=? idx r) l <> [] /\ last_index (filter (fun r => R <=? idx r) l) = last_index l.
Proof.
  intros l R Hs Hne Hl. destruct (exists_last Hne) as (l' & x & ->). rewrite last_index_snoc in *. rewrite filter_app. simpl.
  replace (R <=? idx x) with true by (symmetry; apply Z.leb_le; auto). split.
  - intro Q. apply app_eq_nil in Q as [_ Q]. discriminate.
  - apply last_index_snoc.
Qed.
Lemma sorted_filter : forall h (l : list D), sorted (map idx l) -> sorted (map idx (filter h l)).
Proof.
  induction l as [|x l IH]; intro Hs; [constructor|]. simpl in Hs. inversion Hs; subst. simpl. destruct (h x); auto.
  simpl. apply SSorted_cons; [apply IH; auto|]. rewrite Forall_forall in H2. apply Forall_forall. intros v Hv. apply in_map_iff in Hv as (y & <- & Hy). apply filter_In in Hy as [Hy _].
  apply H2. apply in_map. auto.
Qed.
Lemma iter_trim : forall R discard seed p, (forall c, In c seed -> c <> []) -> sorted (map idx (concat seed)) ->
  exists seed' p', fst (iter_chunks idx R pre fs discard true [] p seed) = fst (iter_chunks idx R pre fs discard false [] p' seed') /\
    (forall c, In c seed' -> c <> []) /\ concat seed' = filter (fun r => R <=? idx r) (concat seed).
Proof.
  intros R discard. induction seed as [|chunk seed IH]; intros p Hne Hs.
  - exists [], p. repeat split; auto; intros c [].
  - assert (Hc : chunk <> []) by (apply Hne; simpl; auto).
    cbn [concat] in *.
    destruct (iter_step R discard true [] p chunk seed Hc) as [p1 E]; [exact (sorted_app_l _ _ Hs)|auto|auto|].
    cbv zeta in E. cbn [app] in E. set (L := last_index chunk) in *. destruct (L <? R) eqn:El.
    + cbn [andb] in E. destruct (IH p1) as (seed' & p' & I1 & I2 & I3); [intros; apply Hne; simpl; auto|eapply sorted_app_r; eauto|].
      exists seed', p'. rewrite E, I1. split; auto. split; auto. rewrite I3, filter_app, (filter_none _ chunk); auto.
      intros r Hr. apply Z.ltb_lt in El. pose proof (le_last_index chunk r (sorted_app_l _ _ Hs) Hr). fold L in H. apply Z.leb_gt. lia.
    + cbn [andb] in E. apply Z.ltb_ge in El. set (chunk' := filter (fun r => R <=? idx r) chunk).
      destruct (filter_ge_app chunk R (sorted_app_l _ _ Hs) Hc El) as [Hc' HL]. fold chunk' in Hc', HL. fold L in HL.
      assert (Hpast : forall r, In r (concat seed) -> (R <=? idx r) = true).
      { intros r Hr. apply Z.leb_le. destruct (exists_last Hc) as (l & x & Q). transitivity L; auto. unfold L. rewrite Q, last_index_snoc.
        eapply (sorted_app_le chunk (concat seed)); eauto. rewrite Q. apply in_or_app. simpl. auto. }
      assert (Hs' : sorted (map idx (chunk' ++ concat seed))).
      { replace (concat seed) with (filter (fun r => R <=? idx r) (concat seed)) by (apply filter_all, forallb_forall; auto).
        unfold chunk'. rewrite <- filter_app. apply sorted_filter. auto. }
      assert (Hrem : filter (fun r => negb (idx r <? L)) chunk = filter (fun r => negb (idx r <? L)) chunk').
      { unfold chunk'. rewrite filter_filter. apply filter_ext. intro r. destruct (idx r <? L) eqn:Q; simpl; [rewrite andb_false_r; auto|].
        apply Z.ltb_ge in Q. symmetry. rewrite andb_true_r. apply Z.leb_le. lia. }
      assert (Hy : yields L (keep true R discard L) chunk = yields L (keep false R discard L) chunk').
      { unfold yields. apply flat_map_ext. intro g. unfold chunk'. rewrite filter_filter.
        replace (filter (fun x => (R <=? idx x) && (snd g x && keep false R discard L x)) chunk) with (filter (fun r => snd g r && keep true R discard L r) chunk); auto.
        apply filter_ext. intro r. unfold keep. destruct (R <=? idx r), (snd g r); simpl; auto. }
      (* a buffer for 'pre' which gives the same next buffer is not needed: results do not depend on it *)
      exists (chunk' :: seed), p.
      destruct (iter_step R discard false [] p chunk' seed Hc') as [p2 E2]; [exact (sorted_app_l _ _ Hs')|auto|auto|].
      cbv zeta in E2. cbn [app] in E2. rewrite HL in E2. cbn [andb] in E2.
      split; [|split].
      * rewrite E, E2, Hy, Hrem.
        set (rem' := if discard then filter (fun r => negb (idx r <? L)) chunk' else []).
        assert (Ind : fst (iter_chunks idx R pre fs discard false rem' p1 seed) = fst (iter_chunks idx R pre fs discard false rem' p2 seed)).
        { assert (Hsr : sorted (map idx (rem' ++ concat seed))).
          { unfold rem'. destruct discard; [|simpl; eapply sorted_app_r; eauto].
            replace (concat seed) with (filter (fun r => negb (idx r <? L)) (concat seed)).
            - rewrite <- filter_app. apply sorted_filter. auto.
            - apply filter_all, forallb_forall. intros r Hr. apply negb_true_iff, Z.ltb_ge. destruct (exists_last Hc) as (l & x & Q).
              unfold L. rewrite Q, last_index_snoc. eapply (sorted_app_le chunk (concat seed)); eauto. rewrite Q. apply in_or_app. simpl. auto. }
          assert (Hdr : discard = false -> rem' = []) by (unfold rem'; intros ->; auto).
          assert (Hne' : forall c, In c seed -> c <> []) by (intros; apply Hne; simpl; auto).
          clearbody rem'. clear - Hsr Hdr Hne' Hfs Hpre. revert rem' p1 p2 Hsr Hdr Hne'. induction seed as [|c seed IH]; intros rem' p1 p2 Hsr Hdr Hne'; auto.
          cbn [concat] in Hsr. rewrite app_assoc in Hsr.
          destruct (iter_step R discard false rem' p1 c seed (Hne' c (or_introl eq_refl)) (sorted_app_l _ _ Hsr)) as [q1 E1]; [discriminate|auto|].
          destruct (iter_step R discard false rem' p2 c seed (Hne' c (or_introl eq_refl)) (sorted_app_l _ _ Hsr)) as [q2 E2]; [discriminate|auto|].
          cbv zeta in E1, E2. rewrite E1, E2. cbn [andb].
          set (rem2 := if discard then _ else _).
          assert (I : fst (iter_chunks idx R pre fs discard false rem2 q1 seed) = fst (iter_chunks idx R pre fs discard false rem2 q2 seed)).
          { apply IH; [| unfold rem2; intros ->; auto|intros; apply Hne'; simpl; auto].
            unfold rem2. destruct discard; [|simpl; eapply sorted_app_r; eauto].
            rewrite (split_below (rem' ++ c) (last_index (rem' ++ c))) in Hsr by (eapply sorted_app_l; eauto).
            rewrite <- app_assoc in Hsr. eapply sorted_app_r; eauto. }
          destruct (iter_chunks idx R pre fs discard false rem2 q1 seed), (iter_chunks idx R pre fs discard false rem2 q2 seed). simpl in *. congruence. }
        destruct (iter_chunks idx R pre fs discard false rem' p1 seed), (iter_chunks idx R pre fs discard false rem' p2 seed). simpl in *. congruence.
      * intros c [<-|Hin]; auto. apply Hne. simpl. auto.
      * cbn [concat]. rewrite filter_app. f_equal. symmetry. apply filter_all, forallb_forall. auto.
Qed.

(** Rows of a run: from restart index if there is one, and before the last index of seed data if requested. *)
Definition wanted (restart : option Z) (trim discard : bool) (L : Z) (r : D) : bool :=
  match restart with Some R => keep trim R discard L r | None => keep false 0 discard L r end.

Theorem iter_data_spec : forall restart trim discard seed p, (forall c, In c seed -> c <> []) -> sorted (map idx (concat seed)) ->
  let S := concat seed in let L := last_index S in let W := wanted restart trim discard L in
  let ys := fst (iter_data idx restart pre fs trim discard p seed) in
  no_error ys /\
  (forall id g, In (id, g) gs -> delivered id ys = filter (fun r => g r && W r) S) /\
  ((restart_after restart ys = restart /\ forall id g r, In (id, g) gs -> In r S -> g r = true -> W r = true -> False)
   \/ exists N, restart_after restart ys = Some N /\ N <= L /\ (exists r, In r S /\ idx r = N) /\
        (trim = true -> match restart with Some R => R <= N | None => True end) /\
        forall id g r, In (id, g) gs -> In r S -> g r = true -> W r = true -> if discard then idx r < N else idx r <= N).
Proof.
  intros restart trim discard seed p Hne Hs S L W ys.
  assert (No : forall R q r0, let ys := fst (iter_chunks idx R pre fs discard false [] q seed) in
     no_error ys /\ (forall id g, In (id, g) gs -> delivered id ys = filter (fun r => g r && keep false R discard L r) S) /\
     ((restart_after r0 ys = r0 /\ forall id g r, In (id, g) gs -> In r S -> g r = true -> keep false R discard L r = true -> False)
   \/ exists N, restart_after r0 ys = Some N /\ N <= L /\ (exists r, In r S /\ idx r = N) /\
        forall id g r, In (id, g) gs -> In r S -> g r = true -> keep false R discard L r = true -> if discard then idx r < N else idx r <= N)).
  { intros R q r0. destruct (iter_untrimmed R discard seed [] q Hne Hs) as (I1 & I2 & I3); [auto|intros r []|]. cbv zeta.
    split; auto. split; auto. destruct (I3 r0) as [A|(N & A1 & A2 & A3 & _ & A5)]; [left; auto|right; exists N; auto]. }
  destruct restart as [R|].
  2:{ destruct (No 0 p None) as (I1 & I2 & [I3|(N & A1 & A2 & A3 & A4)]); split; auto; split; auto. right. exists N. auto. }
  unfold ys, iter_data, W, wanted. destruct trim.
  2:{ destruct (No R p (Some R)) as (I1 & I2 & [I3|(N & A1 & A2 & A3 & A4)]); split; auto; split; auto. right. exists N. repeat split; auto. discriminate. }
  destruct (iter_trim R discard seed p Hne Hs) as (seed' & p' & E & Hne' & Hc). rewrite E.
  assert (Hs' : sorted (map idx (concat seed'))) by (rewrite Hc; apply sorted_filter; auto).
  destruct (iter_untrimmed R discard seed' [] p' Hne' Hs') as (I1 & I2 & I3); [auto|intros r []|].
  cbn [app] in *. rewrite Hc in *. set (S' := filter (fun r => R <=? idx r) (concat seed)) in *.
  assert (EL : S' <> [] -> last_index S' = L).
  { intro Q. unfold S', L. apply filter_ge_app; auto.
    - intro Q2. apply Q. unfold S'. fold S. rewrite Q2. auto.
    - destruct S' as [|x l] eqn:E2; [congruence|]. assert (Hx : In x S') by (rewrite E2; left; auto). unfold S' in Hx. apply filter_In in Hx as [Hx1 Hx2].
      apply Z.leb_le in Hx2. pose proof (le_last_index S x Hs Hx1). fold S in H. lia. }
  assert (In1 : forall r, In r S -> keep true R discard L r = true -> In r S' /\ keep false R discard (last_index S') r = true).
  { intros r Hr Hk. unfold keep in *. apply andb_true_iff in Hk as [Hk1 Hk2]. assert (Hi : In r S') by (apply filter_In; auto). split; auto.
    rewrite EL; auto. intro Q. rewrite Q in Hi. destruct Hi. }
  split; auto. split; [|].
  - intros id g Hin. rewrite (I2 id g Hin). fold S. destruct S' as [|x l] eqn:E2.
    + symmetry. apply filter_none. intros r Hr. destruct (keep true R discard L r) eqn:Ek; [|apply andb_false_r].
      destruct (In1 r Hr Ek) as [[] _].
    + rewrite <- E2 in *. rewrite EL by (rewrite E2; discriminate). unfold S'. rewrite filter_filter. apply filter_ext. intro r.
      unfold keep. destruct (R <=? idx r), (g r); auto.
  - destruct (I3 (Some R)) as [[A B]|(N & A1 & A2 & (x & A3 & A3') & _ & A5)].
    + left. split; auto. intros id g r Hg Hr Hgr Hk. destruct (In1 r Hr Hk). eapply B; eauto.
    + right. exists N. split; auto. assert (Q : S' <> []) by (intro Q; rewrite Q in A3; destruct A3). split; [rewrite <- (EL Q); auto|].
      split; [exists x; split; auto; unfold S' in A3; apply filter_In in A3; tauto|].
      split; [intros _; unfold S' in A3; apply filter_In in A3 as [_ A3]; apply Z.leb_le in A3; lia|].
      intros id g r Hg Hr Hgr Hk. destruct (In1 r Hr Hk). eapply A5; eauto.
Qed.

End Iter.
