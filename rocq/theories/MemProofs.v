(** The compiled loop writes within its arrays. *)
Require Import List Arith ZArith Bool Lia Sorted.
Require Import Verif.Common Verif.AggModel Verif.AggSpec Verif.AggProofs.
Require Import Verif.SegModel Verif.SegSpec Verif.SegProofs Verif.MergeProofs Verif.EventProofs.
Require Import Verif.CsaModel Verif.CalModel Verif.CalSpec Verif.CsaLoopProofs Verif.CsaSegProofs Verif.MemSpec.
Require Verif.IterProofs.
Import ListNotations.
Local Open Scope nat_scope.

(** * Null chunks of a run *)
Fixpoint null_b (bs : option nat) (evs : list (nat * bool)) : nat :=
  match evs with
  | [] => 0
  | (p, true) :: evs' => match bs with Some b => if b =? p then 1 else 0 | None => 0 end + null_b (Some p) evs'
  | (p, false) :: evs' => null_b bs evs'
  end.
Fixpoint null_s (bs : option nat) (evs : list (nat * bool)) : nat :=
  match evs with
  | [] => 0
  | (p, true) :: evs' => null_s (Some p) evs'
  | (p, false) :: evs' => match bs with Some b => if b =? p then 1 else 0 | None => 0 end + null_s bs evs'
  end.

Lemma length_nonzero : forall {A} (p : A -> bool) l k, length (nonzero_from k p l) = length (filter p l).
Proof. induction l as [|x l IH]; intros k; simpl; auto. destruct (p x); simpl; rewrite IH; auto. Qed.

Lemma jrun_nulls : forall {V} (N : num V) data aggs ncs idx p s,
  let evs := fst (jrun N data aggs idx p ncs s) in
  let ks := kinds idx p ncs in
  length (bins_of evs) = length (filter snd ks) /\
  length (snaps_of evs) = length (filter (fun e => negb (snd e)) ks) /\
  length (filter is_none (bins_of evs)) = null_b (AggModel.bin_start s) ks /\
  length (filter is_none (snaps_of evs)) = null_s (AggModel.bin_start s) ks.
Proof.
  intros V N data aggs. induction ncs as [|x ncs IH]; intros idx p s; simpl; auto.
  destruct (is_update idx p) as [u p'] eqn:Hu. unfold jstep, is_null.
  assert (E : (match AggModel.bin_start s with Some b => b =? x | None => false end) = true -> AggModel.bin_start s = Some x).
  { destruct (AggModel.bin_start s) as [b|]; [|discriminate]. intro H. apply Nat.eqb_eq in H. congruence. }
  destruct (match AggModel.bin_start s with Some b => b =? x | None => false end) eqn:Hn.
  - specialize (E eq_refl). rewrite E.
    destruct u; cbn [negb].
    + match goal with |- context [jrun N data aggs (S idx) p' ncs ?s'] => specialize (IH (S idx) p' s') end. cbv zeta in IH.
      destruct (jrun N data aggs (S idx) p' ncs _) as [evs cr]. simpl in IH |- *. try rewrite E in IH. rewrite ?Nat.eqb_refl. intuition (simpl; lia).
    + match goal with |- context [jrun N data aggs (S idx) p' ncs ?s'] => specialize (IH (S idx) p' s') end. cbv zeta in IH.
      destruct (jrun N data aggs (S idx) p' ncs _) as [evs cr]. simpl in IH |- *. try rewrite E in IH. rewrite ?Nat.eqb_refl. intuition (simpl; lia).
  - assert (Z0 : match AggModel.bin_start s with Some b => if b =? x then 1 else 0 | None => 0 end = 0).
    { destruct (AggModel.bin_start s) as [b|]; auto. rewrite Hn. auto. }
    destruct u; cbn [negb].
    + match goal with |- context [jrun N data aggs (S idx) p' ncs ?s'] => specialize (IH (S idx) p' s') end. cbv zeta in IH.
      destruct (jrun N data aggs (S idx) p' ncs _) as [evs cr]. simpl in IH |- *. rewrite ?Z0. intuition (simpl; lia).
    + match goal with |- context [jrun N data aggs (S idx) p' ncs ?s'] => specialize (IH (S idx) p' s') end. cbv zeta in IH.
      destruct (jrun N data aggs (S idx) p' ncs _) as [evs cr]. simpl in IH |- *. rewrite ?Z0. intuition (simpl; lia).
Qed.

(** * Bounds on null chunks *)
Lemma null_b_bound : forall evs b, null_b (Some b) evs = n_empty b (map fst (filter snd evs)).
Proof.
  induction evs as [|[p []] evs IH]; intros b; simpl; auto. rewrite IH. destruct (b =? p); lia.
Qed.
Lemma null_b_none : forall evs, null_b None evs = match map fst (filter snd evs) with [] => 0 | p :: ps => n_empty p ps end.
Proof.
  induction evs as [|[p []] evs IH]; simpl; auto. rewrite null_b_bound. auto.
Qed.
Lemma null_b_announced : forall (restart : bool) evs sg, map fst (filter snd evs) = s_starts sg -> null_announced restart sg ->
  null_b (if restart then None else Some 0) evs <= s_nnull sg.
Proof.
  intros restart evs sg E H. unfold null_announced in H. rewrite <- E in H. destruct restart; [rewrite null_b_none|rewrite null_b_bound; auto].
  destruct (map fst (filter snd evs)); auto.
Qed.
Lemma null_announced_any : forall restart sg, n_empty 0 (s_starts sg) <= s_nnull sg -> null_announced restart sg.
Proof.
  intros [] sg H; unfold null_announced; auto. destruct (s_starts sg) as [|p ps]; auto. simpl in H. destruct p; lia.
Qed.

(** Snapshots which come after a bin start at or after it, for bins which start within data. *)
Fixpoint after_bins (n : nat) (evs : list (nat * bool)) : Prop :=
  match evs with
  | [] => True
  | (p, true) :: evs' => (forall s, In (s, false) evs' -> p <= n -> p <= s) /\ after_bins n evs'
  | (_, false) :: evs' => after_bins n evs'
  end.

Lemma null_s_bound : forall n evs bs q prev,
  nondecr q (snap_positions evs) -> (forall s, In s (snap_positions evs) -> s <= n) -> after_bins n evs ->
  match prev with
  | Some b => bs = Some b /\ (b <= n -> forall s, In s (snap_positions evs) -> b <= s)
  | None => match bs with Some b => b <= n -> b <= q | None => True end
  end ->
  null_s bs evs <= n_empty q (snap_positions evs) + adjc prev evs.
Proof.
  intros n. induction evs as [|[p isb] evs IH]; intros bs q prev Hn Hl Ha Hp; simpl; [lia|].
  destruct isb; simpl.
  - destruct Ha as [A1 A2]. unfold snap_positions in *. simpl in *. apply IH; auto. split; auto.
    intros Hpn s Hs. apply A1; auto. apply in_map_iff in Hs as ([s' k] & <- & Hs). apply filter_In in Hs as [Hs Hk]. simpl in *. destruct k; [discriminate|auto].
  - unfold snap_positions in *. simpl in *. destruct Hn as [Hq Hn].
    assert (Hpn : p <= n) by (apply Hl; auto).
    assert (I := IH bs p None Hn (fun s Hs => Hl s (or_intror Hs)) Ha).
    destruct prev as [b|].
    + destruct Hp as [-> Hp]. specialize (I (fun Hb => Hp Hb p (or_introl eq_refl))).
      destruct (b =? p), (q =? p); lia.
    + destruct bs as [b|].
      * specialize (I (fun Hb => Nat.le_trans _ _ _ (Hp Hb) Hq)).
        destruct (b =? p) eqn:Eb; destruct (q =? p) eqn:Eq; try lia.
        apply Nat.eqb_eq in Eb. apply Nat.eqb_neq in Eq. subst. specialize (Hp Hpn). lia.
      * specialize (I Logic.I). destruct (q =? p); lia.
Qed.

(** * 'by_scale' with any buffer *)
Lemma ncs_loop_nulls : forall data right edges d n0 starts nn tr,
  ncs_loop data right edges d d n0 = (starts, nn, tr) -> n0 + n_empty d starts <= nn.
Proof.
  intros data right. induction edges as [|e edges IH]; intros d n0 starts nn tr H; simpl in H.
  - injection H as <- <- _. simpl. lia.
  - destruct (scan _ _ 0) as [loc pb]. destruct ((d + loc =? length data - 1) && pb).
    + injection H as <- <- _. simpl. destruct (d =? S (d + loc)) eqn:E; [apply Nat.eqb_eq in E; lia|lia].
    + destruct (d =? d + loc) eqn:E.
      * apply Nat.eqb_eq in E. destruct (ncs_loop data right edges (d + loc) d (S n0)) as [[rest nn'] tr'] eqn:R.
        injection H as <- <- _. rewrite <- E in R. apply IH in R. simpl. rewrite <- E, Nat.eqb_refl. lia.
      * destruct (ncs_loop data right edges (d + loc) (d + loc) n0) as [[rest nn'] tr'] eqn:R.
        injection H as <- <- _. apply IH in R. simpl. rewrite E. lia.
Qed.

Lemma by_scale_finish_nulls : forall is_tg k off on c labels ends b sg b',
  by_scale_finish is_tg k off on c labels ends b = Ok (sg, b') -> n_empty 0 (s_starts sg) <= s_nnull sg.
Proof.
  intros is_tg k off on c labels ends b sg b'. unfold by_scale_finish, next_chunk_starts.
  destruct (ncs_loop on _ ends 0 0 0) as [[starts nn] tr] eqn:E. apply ncs_loop_nulls in E. simpl in E.
  destruct tr; match goal with |- context [bind ?X _] => destruct X end; cbn [bind]; try discriminate;
    intro H; injection H as <- <-; simpl; auto.
Qed.

Lemma by_scale_nulls : forall on x c b sg b', by_scale on x c b = Ok (sg, b') -> n_empty 0 (s_starts sg) <= s_nnull sg.
Proof.
  intros on x c b sg b' H. unfold by_scale in H. destruct x as [tg|cg|k labels ends].
  - match type of H with bind ?X _ = _ => destruct X end; [|discriminate]. cbn [bind] in H.
    destruct (gtre _ _ _ _ _ _). eapply by_scale_finish_nulls; eauto.
  - match type of H with bind ?X _ = _ => destruct X end; [|discriminate]. cbn [bind] in H.
    destruct (gtre_cal _ _ _ _ _). eapply by_scale_finish_nulls; eauto.
  - destruct c as [c|]; [|discriminate]. destruct (negb _); [discriminate|].
    match type of H with bind ?X _ = _ => destruct X as [[[[off l'] e'] bb]|] end; [|discriminate]. cbn [bind] in H.
    destruct e' as [|e0 e'].
    + injection H as <- <-. simpl. lia.
    + destruct (by_scale_finish false k off on c l' (e0 :: e') bb) as [[sg0 b0]|] eqn:E; [|discriminate]. cbn [bind] in H.
      apply by_scale_finish_nulls in E. injection H as <- <-. destruct k; auto.
Qed.

Lemma sorted_tl : forall l, sorted l -> sorted (tl l).
Proof. destruct l; simpl; auto. intro H. inversion H; auto. Qed.
Lemma sorted_map_seq : forall (g : nat -> Z) n a, (forall i j, i <= j -> (g i <= g j)%Z) -> sorted (map g (seq a n)).
Proof.
  intros g. induction n as [|n IH]; intros a Hg; simpl; [constructor|]. constructor; [apply IH; auto|].
  apply Forall_forall. intros y Hy. apply in_map_iff in Hy as (i & <- & Hi). apply in_seq in Hi. apply Hg. lia.
Qed.
Lemma sorted_filter_ge : forall k l, sorted l -> let kept := filter (fun e => (k <=? e)%Z) l in
  sorted kept /\ kept = skipn (length l - length kept) l.
Proof.
  intros k. induction l as [|x l IH]; intros H; simpl; [split; [constructor|auto]|].
  inversion H; subst. destruct (IH H2) as [I1 I2]. simpl in I1, I2.
  assert (Hall : (k <= x)%Z -> filter (fun e => (k <=? e)%Z) l = l).
  { intro Q. clear - H3 Q. induction l as [|y l IH]; simpl; auto. inversion H3; subst. replace (k <=? y)%Z with true by (symmetry; apply Z.leb_le; lia).
    f_equal. auto. }
  destruct (k <=? x)%Z eqn:E.
  - apply Z.leb_le in E. specialize (Hall E). rewrite Hall. split; auto. simpl. rewrite ?Nat.sub_diag. reflexivity.
  - split; auto. assert (length (filter (fun e => (k <=? e)%Z) l) <= length l) by (clear; induction l as [|y l IH]; simpl; [lia|destruct (k <=? y)%Z; simpl; lia]).
    match goal with |- _ = skipn ?n _ => replace n with (S (length l - length (filter (fun e => (k <=? e)%Z) l)))
      by (destruct (length (filter (fun e => (k <=? e)%Z) l)); lia) end.
    simpl. auto.
Qed.

Record snaps_fit (c : side) (on : list Z) (ss : seg) : Prop := {
  sf_labels : length (s_labels ss) = length (s_starts ss);
  sf_sorted : sorted (s_ends ss);
  sf_starts : s_starts ss = map (n_before c on) (s_ends ss);
  sf_known : s_unknown_last_end ss = false }.

Lemma by_scale_finish_fit : forall is_tg k off on c labels ends b sg b',
  on <> [] -> sorted on -> sorted ends -> length labels = length ends ->
  by_scale_finish is_tg k off on c labels ends b = Ok (sg, b') -> snaps_fit c on sg.
Proof.
  intros is_tg k off on c labels ends b sg b' Hne Hon He Hl. unfold by_scale_finish.
  rewrite next_chunk_starts_spec by auto. cbv zeta.
  set (ps := until (length on) (map (n_before c on) ends)).
  assert (U : ps = map (n_before c on) (firstn (length ps) ends)).
  { unfold ps. rewrite <- firstn_map. clear. generalize (map (n_before c on) ends) as l. induction l as [|x l IH]; simpl; auto.
    destruct (x =? length on); simpl; auto. f_equal. auto. }
  destruct (existsb _ _) eqn:Ex.
  - match goal with |- context [bind ?X _] => destruct X end; cbn [bind]; [|discriminate]. intro H. injection H as <- <-.
    assert (Hlen : length ps <= length ends).
    { rewrite U at 1. rewrite map_length. rewrite firstn_length. lia. }
    constructor; simpl; auto.
    + rewrite firstn_length. lia.
    + apply sorted_firstn; auto.
  - match goal with |- context [bind ?X _] => destruct X end; cbn [bind]; [|discriminate]. intro H. injection H as <- <-.
    assert (Hps : ps = map (n_before c on) ends).
    { unfold ps. revert Ex. clear. generalize (map (n_before c on) ends) as l. induction l as [|x l IH]; simpl; auto.
      intro H. apply orb_false_iff in H as [H1 H2]. rewrite Nat.eqb_sym in H1. rewrite H1. f_equal. auto. }
    constructor; simpl; auto. rewrite Hps, map_length. auto.
Qed.

Lemma date_range_sorted : forall a b f, (0 < f)%Z -> sorted (date_range a b f).
Proof. intros. unfold date_range. apply sorted_map_seq. intros. nia. Qed.
Lemma date_range_cal_sorted : forall cal n a b, calendar_ok cal -> (0 < n)%Z -> sorted (date_range_cal cal n a b).
Proof.
  intros cal n a b C Hn. unfold date_range_cal. apply sorted_map_seq. intros i j H.
  destruct (Z.eq_dec (number cal a + Z.of_nat i * n) (number cal a + Z.of_nat j * n)) as [->|Q]; [lia|].
  apply Z.lt_le_incl, (cal_order _ C). nia.
Qed.
Lemma length_tl_removelast : forall {A} (l : list A), length (removelast l) = length (tl l).
Proof. induction l as [|x [|y l] IH]; simpl in *; auto. Qed.

Lemma by_scale_fit : forall on x c b sg b', on <> [] -> sorted on -> points_in_order x ->
  by_scale on x c b = Ok (sg, b') ->
  snaps_fit (match c with Some s => s | None => s_closed sg end) on sg /\ s_closed sg = match c with Some s => s | None => s_closed sg end.
Proof.
  intros on x c b sg b' Hne Hon Hx H. unfold by_scale in H.
  assert (C : forall is_tg k off c labels ends b sg b', by_scale_finish is_tg k off on c labels ends b = Ok (sg, b') -> s_closed sg = c).
  { clear. intros is_tg k off c labels ends b sg b'. unfold by_scale_finish. destruct (next_chunk_starts _ _ _) as [[st nn] tr].
    destruct tr; match goal with |- context [bind ?X _] => destruct X end; cbn [bind]; try discriminate;
      intro H; injection H as <- <-; auto. }
  destruct x as [tg|cg|k labels ends].
  - match type of H with bind ?X _ = _ => destruct X end; [|discriminate]. cbn [bind] in H.
    destruct (gtre _ _ _ _ _ _) as [g1 g2]. pose proof (C _ _ _ _ _ _ _ _ _ H) as Hc.
    apply by_scale_finish_fit in H; auto.
    + rewrite Hc. destruct c; auto.
    + apply sorted_tl, date_range_sorted; auto.
    + destruct (tg_label tg); auto. apply length_tl_removelast.
  - match type of H with bind ?X _ = _ => destruct X end; [|discriminate]. cbn [bind] in H.
    destruct (gtre_cal _ _ _ _ _) as [g1 g2]. pose proof (C _ _ _ _ _ _ _ _ _ H) as Hc. destruct Hx.
    apply by_scale_finish_fit in H; auto.
    + rewrite Hc. destruct c; auto.
    + apply sorted_tl, date_range_cal_sorted; auto.
    + destruct (cg_label cg); auto. apply length_tl_removelast.
  - destruct c as [c|]; [|discriminate]. destruct (length labels =? length ends) eqn:El; [|discriminate]. apply Nat.eqb_eq in El. cbn [negb] in H.
    match type of H with bind ?X _ = _ => destruct X as [[[[off l'] e'] bb]|] eqn:R end; [|discriminate]. cbn [bind] in H.
    assert (R' : sorted e' /\ length l' = length e').
    { simpl in Hx. destruct b as [b|]; [|injection R as <- <- <- <-; auto]. destruct (sbuf_true b); [|injection R as <- <- <- <-; auto].
      destruct (by_vals_restart k c labels ends b) as [[[[o l] e] b0]|] eqn:V; [|discriminate]. injection R as <- <- <- <-.
      unfold by_vals_restart in V.
      match type of V with bind ?X _ = _ => destruct X as [[[off1 l1] e1]|] eqn:V1 end; [|discriminate]. cbn [bind] in V.
      assert (Q : sorted e1 /\ length l1 = length e1).
      { destruct (sb_restart b) as [rk|]; [|injection V1 as <- <- <-; auto].
        destruct (getitem k 0 ends 0) as [g|]; [|discriminate]. cbn [bind] in V1.
        destruct (rk =? g)%Z; [injection V1 as <- <- <-; auto|].
        match type of V1 with bind ?X _ = _ => destruct X as [g'|] end; [|discriminate]. cbn [bind] in V1.
        destruct (rk =? g')%Z; [|discriminate]. injection V1 as <- <- <-.
        destruct (sorted_filter_ge rk ends Hx) as [F1 F2]. split; auto. rewrite F2 at 2. rewrite !skipn_length. lia. }
      destruct Q as [Q1 Q2]. destruct (sb_last_on b) as [lo|]; [|injection V as <- <- <- <-; auto].
      match type of V with bind ?X _ = _ => destruct X as [[]|] end; [discriminate| |discriminate]. cbn [bind] in V.
      match type of V with bind ?X _ = _ => destruct X as [g|] end; [|discriminate]. cbn [bind] in V.
      match type of V with (if ?X then _ else _) = _ => destruct X end; injection V as <- <- <- <-; auto.
      split; [apply (sorted_skipn 1 e1); auto|]. destruct l1, e1; simpl in *; lia. }
    destruct R' as [R1 R2]. destruct e' as [|e0 e'].
    + injection H as <- <-. split; auto. constructor; simpl; auto.
    + destruct (by_scale_finish false k off on c l' (e0 :: e') bb) as [[sg0 b0]|] eqn:E; [|discriminate]. cbn [bind] in H.
      pose proof (C _ _ _ _ _ _ _ _ _ E) as Hc. apply by_scale_finish_fit in E; auto. injection H as <- <-. destruct k; auto.
      destruct E. split; auto. constructor; auto.
Qed.

(** * Merged bins and snapshots *)
Lemma n_before_all : forall c l p e e', (forall v, In v (firstn p l) -> (v <= e)%Z) -> (e < e')%Z ->
  Nat.min p (length l) <= n_before c l e'.
Proof.
  intros c l p e e' H He. unfold n_before. rewrite <- (firstn_skipn p l) at 2. rewrite filter_app, app_length.
  replace (filter (before c e') (firstn p l)) with (firstn p l); [rewrite firstn_length; lia|].
  symmetry. apply filter_all. intros v Hv. specialize (H v Hv). unfold before. destruct c; [apply Z.ltb_lt|apply Z.leb_le]; lia.
Qed.

Lemma after_bins_app_bin : forall n evs p, after_bins n evs -> after_bins n (evs ++ [(p, true)]).
Proof.
  induction evs as [|[q []] evs IH]; intros p H; simpl in *; auto.
  - split; auto. intros s [].
  - destruct H. split; auto. intros s Hs. apply in_app_iff in Hs as [Hs|[Hs|[]]]; [auto|discriminate].
Qed.

Lemma after_bins_sorted : forall n (m : list event),
  StronglySorted ev_le m ->
  (forall kb p ks s, In (kb, (p, true)) m -> In (ks, (s, false)) m -> (kb < ks)%Z -> p <= n -> p <= s) ->
  after_bins n (map snd m).
Proof.
  intros n. induction m as [|[k [p isb]] m IH]; intros H Hb; simpl; auto. inversion H; subst.
  assert (after_bins n (map snd m)) by (apply IH; auto; intros; eapply Hb; eauto; right; auto).
  destruct isb; auto. split; auto. intros s Hs Hp. apply in_map_iff in Hs as ([ks [s' isb]] & Q & Hs). simpl in Q. injection Q as -> ->.
  rewrite Forall_forall in H3. specialize (H3 _ Hs). unfold ev_le, ev_is_bin in H3. simpl in H3.
  apply (Hb k p ks s); [left; auto|right; auto| |auto]. destruct H3 as [H3|[_ [H3|H3]]]; [auto|discriminate|discriminate].
Qed.

Lemma In_combine_nth : forall {A B} (l1 : list A) (l2 : list B) a b, In (a, b) (combine l1 l2) ->
  exists i, nth_error l1 i = Some a /\ nth_error l2 i = Some b.
Proof.
  induction l1 as [|x l1 IH]; intros [|y l2] a b H; simpl in H; try contradiction.
  destruct H as [H|H]; [injection H as -> ->; exists 0; auto|]. apply IH in H as (i & ? & ?). exists (S i). auto.
Qed.
Lemma In_removelast_combine : forall {A B} (l1 : list A) (l2 : list B) a b, length l1 = length l2 -> In (a, b) (removelast (combine l1 l2)) ->
  exists i, nth_error l1 i = Some a /\ nth_error l2 i = Some b /\ S i < length l1.
Proof.
  induction l1 as [|x l1 IH]; intros [|y l2] a b Hl H; simpl in H; try contradiction.
  simpl in Hl. injection Hl as Hl.
  destruct (combine l1 l2) as [|q t] eqn:E; [contradiction|]. rewrite <- E in H.
  assert (l1 <> []) by (intro Q; rewrite Q in E; discriminate).
  destruct H as [H|H].
  - injection H as -> ->. exists 0. repeat split; auto. destruct l1; [congruence|simpl; lia].
  - apply IH in H as (i & ? & ? & ?); auto. exists (S i). simpl. repeat split; auto. lia.
Qed.

Lemma merged_nulls : forall {D} (o : D -> Z) data sg ss m (restart : bool), let bs := if restart then None else Some 0 in
  length (s_starts sg) = length (s_ends sg) -> null_announced restart sg -> ends_after_rows o data sg ->
  snaps_fit (s_closed sg) (map o data) ss -> n_empty 0 (s_starts ss) <= s_nnull ss ->
  is_merge (seg_bins ss) (seg_bins sg) (s_unknown_last_end sg) m ->
  null_b bs (map snd m) <= s_nnull sg /\ null_s bs (map snd m) <= s_nnull ss + adjc None (map snd m)
  /\ length (filter snd (map snd m)) = length (s_starts sg)
  /\ length (filter (fun e => negb (snd e)) (map snd m)) = length (s_starts ss).
Proof.
  intros D o data sg ss m restart bs Hlen Hnull (He0 & He1 & He2) [F1 F2 F3 F4] Hns (M1 & M2 & M3).
  assert (Bs : map snd (seg_bins sg) = s_starts sg) by (apply map_snd_combine_; auto).
  assert (Hle : length (s_ends ss) = length (s_starts ss)) by (rewrite F3, map_length; auto).
  assert (Ss : map snd (seg_bins ss) = s_starts ss) by (apply map_snd_combine_; auto).
  assert (P1 : map fst (filter snd (map snd m)) = s_starts sg).
  { rewrite <- Bs. rewrite (map_ext snd (fun x => ev_pos (bin_ev x))) by auto. rewrite <- (map_map bin_ev ev_pos), <- M2.
    clear. induction m as [|[k [p []]] m IH]; simpl; auto. f_equal. auto. }
  assert (P2 : snap_positions (map snd m) = s_starts ss).
  { rewrite <- Ss. rewrite (map_ext snd (fun x => ev_pos (snap_ev x))) by auto. rewrite <- (map_map snap_ev ev_pos), <- M1.
    unfold snap_positions. clear. induction m as [|[k [p []]] m IH]; simpl; auto. f_equal. auto. }
  split; [|split; [|split]].
  - apply null_b_announced; auto.
  - etransitivity; [apply (null_s_bound (length data) (map snd m) bs 0 None)|].
    + rewrite P2, F3. revert F2. clear. intro F2. apply sorted_nondecr.
      induction (s_ends ss) as [|e l IH]; simpl; [constructor|]. inversion F2; subst. constructor; auto.
      apply Forall_forall. intros p Hp. apply in_map_iff in Hp as (e' & <- & Hp). rewrite Forall_forall in H2. apply n_before_mono; auto.
    + rewrite P2, F3. intros s Hs. apply in_map_iff in Hs as (e & <- & _). rewrite <- (map_length o data). apply n_before_le.
    + assert (K : forall (m' : list event) (ok : nat -> Prop), (forall x, In x m' -> In x m) ->
         (forall kb p, In (kb, (p, true)) m' -> exists i, nth_error (s_ends sg) i = Some kb /\ nth_error (s_starts sg) i = Some p
            /\ (s_unknown_last_end sg = true -> S i < length (s_starts sg))) ->
         StronglySorted ev_le m' -> after_bins (length data) (map snd m')).
      { intros m' _ Hin Hb Hsort. apply after_bins_sorted; auto. intros kb p ks s Hp Hs Hk Hpn.
        destruct (Hb _ _ Hp) as (i & I1 & I2 & I3).
        assert (Q : In (ks, (s, false)) (filter (fun e => negb (ev_is_bin e)) m)) by (apply filter_In; auto).
        rewrite M1 in Q. apply in_map_iff in Q as ([k1 p1] & Q & Q2). unfold snap_ev in Q. simpl in Q. injection Q as -> ->.
        apply In_combine_nth in Q2 as (j & J1 & J2). rewrite F3 in J2. rewrite nth_error_map, J1 in J2. simpl in J2. injection J2 as <-.
        etransitivity; [|apply (n_before_all (s_closed sg) (map o data) p kb ks); auto].
        - rewrite map_length. lia.
        - intros v Hv. rewrite firstn_map in Hv. apply in_map_iff in Hv as (r & <- & Hr). eapply He2; eauto. }
      assert (Kb : forall kb p, In (kb, (p, true)) m -> In (kb, p) (seg_bins sg)).
      { intros kb p Hp. assert (Q : In (kb, (p, true)) (filter ev_is_bin m)) by (apply filter_In; auto).
        rewrite M2 in Q. apply in_map_iff in Q as ([k1 p1] & Q & Q2). unfold bin_ev in Q. simpl in Q. injection Q as -> ->. auto. }
      destruct (s_unknown_last_end sg) eqn:Eu.
      * destruct M3 as (m' & [kb [pb isb]] & -> & Eb & Hsort). unfold ev_is_bin in Eb. simpl in Eb. subst isb.
        rewrite map_app. simpl. apply after_bins_app_bin. apply (K m' (fun _ => True)); auto.
        -- intros x Hx. apply in_app_iff; auto.
        -- intros k p Hp. rewrite filter_app in M2. simpl in M2.
           assert (Q : In (k, p) (removelast (seg_bins sg))).
           { assert (E : map bin_ev (removelast (seg_bins sg)) = filter ev_is_bin m').
             { rewrite <- map_removelast, <- M2. apply removelast_last. }
             assert (Q : In (k, (p, true)) (filter ev_is_bin m')) by (apply filter_In; auto). rewrite <- E in Q.
             apply in_map_iff in Q as ([k1 p1] & Q & Q2). unfold bin_ev in Q. simpl in Q. injection Q as -> ->. auto. }
           apply In_removelast_combine in Q as (i & ? & ? & ?); [|auto]. exists i. repeat split; auto. rewrite Hlen. auto.
      * apply (K m (fun _ => True)); auto. intros k p Hp. apply Kb in Hp. apply In_combine_nth in Hp as (i & ? & ?). exists i. repeat split; auto; discriminate.
    + unfold bs. destruct restart; auto.
    + rewrite P2. lia.
  - rewrite <- P1, map_length. auto.
  - rewrite <- P2. unfold snap_positions. rewrite map_length. auto.
Qed.

(** * 'segmentby' *)
Lemma getitem_safe : forall k off l i, getitem k off l i <> Err OutOfBounds.
Proof. intros k off l i. unfold getitem. destruct k; [destruct (nth_error l i); discriminate|]. destruct (off <=? i); [destruct (nth_error l _); discriminate|discriminate]. Qed.

Lemma bind_safe : forall {A B} (x : res A) (f : A -> res B), x <> Err OutOfBounds -> (forall a, x = Ok a -> f a <> Err OutOfBounds) ->
  bind x f <> Err OutOfBounds.
Proof. intros A B [a|e] f H1 H2; cbn [bind]; auto. congruence. Qed.

Ltac safe :=
  repeat (try discriminate;
    match goal with
    | |- bind _ _ <> _ => apply bind_safe; [|intros ? ?]
    | |- getitem _ _ _ _ <> _ => apply getitem_safe
    | |- context [match ?x with _ => _ end] => match type of x with
        | option _ => destruct x | bool => destruct x | list _ => destruct x | prod _ _ => destruct x | side => destruct x | sum _ _ => destruct x
        | pkind => destruct x | byspec => destruct x end
    | |- (let '(_, _) := ?x in _) <> _ => destruct x
    end).

Lemma by_scale_finish_safe : forall is_tg k off on c labels ends b, by_scale_finish is_tg k off on c labels ends b <> Err OutOfBounds.
Proof. intros. unfold by_scale_finish. safe. Qed.
Lemma by_scale_safe : forall on x c b, by_scale on x c b <> Err OutOfBounds.
Proof.
  intros. unfold by_scale, by_vals_restart. destruct x.
  - safe; apply by_scale_finish_safe.
  - safe; apply by_scale_finish_safe.
  - safe; apply by_scale_finish_safe.
Qed.
Lemma by_x_rows_safe : forall x c on b, by_x_rows x c on b <> Err OutOfBounds.
Proof.
  intros. unfold by_x_rows. safe.
Qed.

Section Safe.
Context {D B : Type}.
Variable bin_by : list D -> option B -> res (seg * option B).
Variable empty : B.
Variable ordered : option (D -> Z).
Variable snap : option byspec.
Variable data : list D.
Variable buffer : option (mainbuf B).
Let bb0 := match buffer with None => None | Some m => Some (match mb_bin m with Some x => x | None => empty end) end.

Lemma setup_mainbuffer_bin : forall ws bb bs main, setup_mainbuffer empty buffer ws = Ok (bb, bs, main) -> bb = bb0.
Proof.
  intros ws bb bs main H. unfold setup_mainbuffer in H. unfold bb0. destruct buffer as [m|]; [|congruence].
  destruct (mb_bin m) as [x|] eqn:E; destruct ws; simpl in H; try rewrite E in H; try destruct (mb_snap m); try congruence.
Qed.

Lemma segmentby_safe : bin_by data bb0 <> Err OutOfBounds -> segmentby bin_by empty ordered snap data buffer <> Err OutOfBounds.
Proof.
  intros Hsafe. unfold segmentby. apply bind_safe; [unfold setup_mainbuffer; safe|].
  intros [[bb bs] main] E. apply setup_mainbuffer_bin in E. subst bb. unfold mergesort.
  safe; try apply by_scale_safe; auto.
Qed.

Hypothesis Hdata : data <> [].
Let restart := match buffer with Some m => match mb_last_label m with Some _ => true | None => false end | None => false end.
Hypothesis Hnull : forall sg b', bin_by data bb0 = Ok (sg, b') -> null_announced restart sg.
Hypothesis Hends : forall o x, ordered = Some o -> snap = Some x ->
  points_in_order x /\ forall sg b', bin_by data bb0 = Ok (sg, b') -> ends_after_rows o data sg.

Lemma segmentby_fits : forall so main', segmentby bin_by empty ordered snap data buffer = Ok (so, main') ->
  let n_snaps := match g_snap_labels so with Some (l, _) => length l | None => 0 end in
  let p := if n_snaps =? 0 then SnapsOff else SnapsOn (g_bin_indices so) (last (g_bin_indices so) 0) in
  let ks := kinds 0 p (g_starts so) in
  let bs := if restart then None else Some 0 in
  length (filter snd ks) <= length (g_bin_labels so) /\
  length (filter (fun e => negb (snd e)) ks) <= n_snaps /\
  null_b bs ks <= g_n_null_bins so /\
  null_s bs ks <= match snap with Some _ => g_n_max_null_snaps so | None => 0 end.
Proof.
  intros so main' H. unfold segmentby in H.
  destruct (setup_mainbuffer _ _ _) as [[[bb bsn] main]|] eqn:Em0; [|discriminate]. cbn [bind] in H.
  apply setup_mainbuffer_bin in Em0. subst bb.
  match type of H with bind ?X _ = _ => destruct X eqn:Ho end; [|discriminate]. cbn [bind] in H.
  destruct (bin_by data bb0) as [[sg bb']|] eqn:Hb; [|discriminate]. cbn [bind] in H.
  destruct (length (s_starts sg) =? length (s_labels sg)) eqn:El; [|discriminate]. apply Nat.eqb_eq in El. cbn [negb] in H.
  destruct (length (s_starts sg) =? length (s_ends sg)) eqn:Ee; [|discriminate]. apply Nat.eqb_eq in Ee. cbn [negb] in H.
  match type of H with bind ?X _ = _ => destruct X end; [|discriminate]. cbn [bind] in H.
  assert (Off : let bs := if restart then None else Some 0 in
    length (filter snd (kinds 0 SnapsOff (s_starts sg))) <= length (s_labels sg) /\
    length (filter (fun e => negb (snd e)) (kinds 0 SnapsOff (s_starts sg))) <= 0 /\
    null_b bs (kinds 0 SnapsOff (s_starts sg)) <= s_nnull sg /\ null_s bs (kinds 0 SnapsOff (s_starts sg)) <= 0).
  { intros bs. rewrite kinds_off.
    assert (F : forall l : list nat, filter snd (map (fun x => (x, true)) l) = map (fun x => (x, true)) l) by (induction l; simpl; congruence).
    split; [rewrite F, map_length, El; auto|]. split; [clear; induction (s_starts sg); simpl; auto|]. split.
    - apply null_b_announced; [|exact (Hnull _ _ eq_refl)]. rewrite F, map_map. apply map_id.
    - generalize bs. clear. induction (s_starts sg); intro bs; simpl; auto. }
  destruct snap as [x|].
  - destruct ordered as [o|]; [|discriminate].
    destruct (Hends o x eq_refl eq_refl) as [Hx He]. specialize (He _ _ eq_refl).
    assert (Hso : sorted (map o data)).
    { destruct (sortedb (map o data)) eqn:E; [|discriminate]. apply IterProofs.sortedb_iff; auto. }
    destruct (by_scale (map o data) x (Some (s_closed sg)) bsn) as [[ss bs']|] eqn:Es; [|discriminate]. cbn [bind] in H.
    pose proof (by_scale_nulls _ _ _ _ _ _ Es) as Hns.
    apply by_scale_fit in Es; [|destruct data; [congruence|discriminate]|auto|auto]. destruct Es as [Fit _].
    pose proof Fit as [F1 F2 F3 F4].
    assert (Hle : length (s_ends ss) = length (s_starts ss)) by (rewrite F3, map_length; auto).
    pose proof He as (He0 & He1 & He2).
    assert (Hsb : seg_bins sg <> []).
    { unfold seg_bins. destruct (s_starts sg), (s_ends sg); simpl in *; try discriminate; congruence. }
    destruct (mergesort_spec (seg_bins ss) (seg_bins sg) (s_unknown_last_end sg)) as (m & E1 & E2);
      [apply combine_fst_sorted; auto|apply combine_fst_sorted; auto|auto|].
    unfold seg_bins in E1. rewrite !map_fst_combine_, !map_snd_combine_ in E1 by auto. rewrite E1 in H. cbn [bind] in H.
    pose proof (bins_followed_adjc m []) as Hadj. cbv zeta in Hadj. simpl app in Hadj. simpl length in Hadj at 2.
    rewrite nonzero_from_0 in Hadj. rewrite Hadj in H.
    injection H as <- _. cbn [g_starts g_bin_indices g_bin_labels g_snap_labels g_n_null_bins g_n_max_null_snaps].
    cbv zeta.
    pose proof (merged_nulls o data sg ss m restart Ee (Hnull _ _ eq_refl) He Fit Hns E2) as (Q1 & Q2 & Q3 & Q4).
    assert (Ek : kinds 0 (SnapsOn (indices ev_is_bin m) (last (indices ev_is_bin m) 0)) (map ev_pos m) = map snd m).
    { rewrite <- nonzero_from_0. apply kinds_on. 
      destruct (nonzero_from 0 ev_is_bin m) as [|i0 l0]; auto. clear. revert i0. induction l0 as [|i1 l0 IH]; intros i0; auto.
      change (last (i1 :: l0) (last (i1 :: l0) 0) = last (i1 :: l0) 0). apply IH. }
    destruct (length (s_labels ss) =? 0) eqn:E0.
    + apply Nat.eqb_eq in E0. rewrite F1 in E0. destruct (s_starts ss) eqn:Ess; [|discriminate].
      assert (Em : map ev_pos m = s_starts sg).
      { assert (Z0 : filter (fun e => negb (ev_is_bin e)) m = []).
        { destruct E2 as [-> _]. unfold seg_bins. rewrite Ess. destruct (s_ends ss); auto. }
        assert (Em : filter ev_is_bin m = m).
        { apply filter_all. intros e Hin. destruct (ev_is_bin e) eqn:Q; auto. exfalso.
          assert (In e (filter (fun e => negb (ev_is_bin e)) m)) by (apply filter_In; rewrite Q; auto). rewrite Z0 in H. contradiction. }
        destruct E2 as (_ & E2 & _). rewrite Em in E2. rewrite E2, map_map. unfold ev_pos, bin_ev. simpl. apply map_snd_combine_; auto. }
      rewrite Em. rewrite F1. simpl. destruct Off as (O1 & O2 & O3 & O4). repeat split; auto; lia.
    + rewrite Ek. repeat split; auto; try lia.
  - injection H as <- _. cbn [g_starts g_bin_indices g_bin_labels g_snap_labels g_n_null_bins g_n_max_null_snaps].
    exact Off.
Qed.
End Safe.

Lemma segmentby_continues : forall {D B} (bin_by : list D -> option B -> res (seg * option B)) empty ordered snap data m so main' l,
  segmentby bin_by empty ordered snap data (Some m) = Ok (so, main') -> mb_last_label m = Some l -> (l =? hd 0 (g_bin_labels so))%Z = true.
Proof.
  intros D B bin_by empty ordered snap data m so main' l H Hl. unfold segmentby in H.
  destruct (setup_mainbuffer _ _ _) as [[[bb bsn] main]|] eqn:Em0; [|discriminate]. cbn [bind] in H.
  assert (Q : exists m', main = Some m' /\ mb_last_label m' = Some l).
  { unfold setup_mainbuffer in Em0. destruct (mb_bin m) eqn:E; destruct snap; simpl in Em0; try destruct (mb_snap m); try discriminate;
      injection Em0 as _ _ <-; eexists; split; eauto. }
  destruct Q as (m' & -> & Hl').
  match type of H with bind ?X _ = _ => destruct X eqn:Ho end; [|discriminate]. cbn [bind] in H.
  destruct (bin_by data bb) as [[sg bb']|] eqn:Hb; [|discriminate]. cbn [bind] in H.
  destruct (negb (length (s_starts sg) =? length (s_labels sg))); [discriminate|].
  destruct (negb (length (s_starts sg) =? length (s_ends sg))); [discriminate|].
  destruct (s_starts sg) as [|p ps] eqn:Es; [discriminate|]. rewrite Hl' in H.
  destruct (negb _); [discriminate|]. destruct (_ && _); [discriminate|].
  destruct (l =? hd 0 (s_labels sg))%Z eqn:E; [|discriminate]. cbn [bind] in H.
  match type of H with bind ?X _ = _ => destruct X as [[[[[? ?] ?] ?] ?]|] end; [|discriminate]. cbn [bind] in H. injection H as <- _. exact E.
Qed.

(** * The loop *)
Lemma write_slots_length : forall arr idx, length idx <= length arr -> length (write_slots arr idx) = length arr.
Proof. intros. unfold write_slots. rewrite app_length, map_length, skipn_length. lia. Qed.

Lemma lookup_all_safe : forall {V} names (d : list (cname * V)), lookup_all names d <> Err OutOfBounds.
Proof.
  intros V. induction names as [|n names IH]; intros d; simpl; [discriminate|]. destruct (dict_get Nat.eqb n d); [|discriminate].
  apply bind_safe; auto. discriminate.
Qed.
Lemma take_labels_safe : forall off labels idx, take_labels off labels idx <> Err OutOfBounds.
Proof.
  intros off labels. induction idx as [|i idx IH]; [discriminate|].
  cbn [take_labels]. apply bind_safe; [apply getitem_safe|]. intros a _. apply bind_safe; auto. discriminate.
Qed.
Lemma setup_step1_safe : forall agg dtypes cfg, setup_step1 agg dtypes cfg <> Err OutOfBounds.
Proof.
  induction agg as [|[oc [ic f]] agg IH]; intros dtypes cfg; [discriminate|]. cbn [setup_step1].
  destruct (dict_get Nat.eqb ic dtypes); [|discriminate]. apply bind_safe; [|auto].
  unfold tmp_add. destruct (index_of Nat.eqb ic _); destruct f; try discriminate; destruct (index_of afun_eqb _ _);
    match goal with |- context [if ?b then _ else _] => destruct b end; discriminate.
Qed.

Section SafeLoop.
Context {D V : Type}.
Variable N : dtype -> num V.
Variable val : D -> cname -> V.
Variables (data : list D) (so : segout) (preserve : bool) (chunk_prev : list (cname * V)) (n_bins n_snaps nb ns : nat).
Let p := if n_snaps =? 0 then SnapsOff else SnapsOn (g_bin_indices so) (last (g_bin_indices so) 0).
Let ks := kinds 0 p (g_starts so).
Let bs := if preserve then None else Some 0.
Hypothesis H :
  length (filter snd ks) <= n_bins /\ length (filter (fun e => negb (snd e)) ks) <= n_snaps /\
  null_b bs ks <= nb /\ null_s bs ks <= ns.

Lemma jcsagg_fits : forall (NV : num V) rows aggs c0 ncols,
  exists o, jcsagg NV rows aggs (g_starts so) (g_bin_indices so) preserve c0 ncols n_bins n_snaps nb ns = Ok o
    /\ length (o_null_bins o) <= nb /\ length (o_null_snaps o) <= ns.
Proof.
  intros NV rows aggs c0 ncols. unfold jcsagg. fold p.
  pose proof (jrun_nulls NV rows aggs (g_starts so) 0 p (mkJ (if preserve then None else Some 0) 0 preserve c0)) as J. cbv zeta in J.
  fold ks in J. cbn [AggModel.bin_start] in J.
  destruct (jrun NV rows aggs 0 p (g_starts so) _) as [evs cr]. cbn [fst] in J. destruct J as (J1 & J2 & J3 & J4).
  fold bs in J3, J4. destruct H as (H1 & H2 & H3 & H4).
  rewrite !length_nonzero.
  replace (length (bins_of evs) <=? n_bins) with true by (symmetry; apply Nat.leb_le; lia).
  replace (length (snaps_of evs) <=? n_snaps) with true by (symmetry; apply Nat.leb_le; lia).
  replace (length (filter is_none (bins_of evs)) <=? nb) with true by (symmetry; apply Nat.leb_le; lia).
  replace (length (filter is_none (snaps_of evs)) <=? ns) with true by (symmetry; apply Nat.leb_le; lia).
  cbn [andb]. eexists. split; [reflexivity|]. cbn [o_null_bins o_null_snaps]. rewrite !length_nonzero. lia.
Qed.

Lemma csa_loop_safe : forall cfg a, length (c_nullb a) = nb -> length (c_nulls a) = ns ->
  csa_loop N val data so preserve chunk_prev n_bins n_snaps cfg a <> Err OutOfBounds.
Proof.
  induction cfg as [|[d c] cfg IH]; intros a E1 E2; [discriminate|]. cbn [csa_loop]. apply bind_safe.
  - unfold csa_dtype. apply bind_safe; [apply lookup_all_safe|]. intros c0 _. rewrite E1, E2.
    destruct (jcsagg_fits (N d) (map (fun r => map (val r) (ac_in c)) data) (ac_aggs c) c0 (ac_ncols c)) as (o & -> & _). discriminate.
  - intros a' Ha. unfold csa_dtype in Ha. destruct (lookup_all _ _) as [c0|]; [|discriminate]. cbn [bind] in Ha. rewrite E1, E2 in Ha.
    destruct (jcsagg_fits (N d) (map (fun r => map (val r) (ac_in c)) data) (ac_aggs c) c0 (ac_ncols c)) as (o & Ho & L1 & L2).
    rewrite Ho in Ha. injection Ha as <-. apply IH; simpl; rewrite write_slots_length; lia.
Qed.
End SafeLoop.

Lemma cumsegagg_safe : forall {D B V} (N : dtype -> num V) (val : D -> cname -> V) agg dtypes
    (bin_by : list D -> option B -> res (seg * option B)) empty ordered snap eo data buffer,
  bin_by data (bin_state empty buffer) <> Err OutOfBounds ->
  (forall sg b', bin_by data (bin_state empty buffer) = Ok (sg, b') -> null_announced (restarted buffer) sg) ->
  (forall o x, ordered = Some o -> snap = Some x ->
     points_in_order x /\ forall sg b', bin_by data (bin_state empty buffer) = Ok (sg, b') -> ends_after_rows o data sg) ->
  cumsegagg N val agg dtypes bin_by empty ordered snap eo data buffer <> Err OutOfBounds.
Proof.
  intros D B V N val agg dtypes bin_by empty ordered snap eo data buffer H1 H2 H3. unfold cumsegagg.
  destruct data as [|r data]; [discriminate|]. set (rows := r :: data) in *. destruct agg as [|a0 agg]; [discriminate|].
  apply bind_safe. { unfold setup_cumsegagg. apply bind_safe; [apply setup_step1_safe|discriminate]. }
  intros cfg _. unfold cumsegagg_cfg. change (match rows with [] => ?X | _ :: _ => ?Y end) with Y.
  assert (Hne : rows <> []) by discriminate.
  assert (Eb : bin_state empty buffer = match option_map cb_main buffer with None => None | Some m => Some (match mb_bin m with Some x => x | None => empty end) end)
    by (destruct buffer; auto).
  rewrite Eb in H1, H2, H3.
  assert (Er : restarted buffer = match option_map cb_main buffer with Some m => match mb_last_label m with Some _ => true | None => false end | None => false end)
    by (destruct buffer; auto).
  rewrite Er in H2.
  apply bind_safe; [apply segmentby_safe; auto|]. intros [so main'] Hs.
  pose proof (segmentby_fits bin_by empty ordered snap rows _ Hne H2 H3 so main' Hs) as F. cbv zeta in F.
  assert (Ep : match buffer with
             | Some b => match mb_last_label (cb_main b) with Some l => (l =? hd 0 (g_bin_labels so))%Z | None => false end
             | None => false end = restarted buffer).
  { destruct buffer as [b|]; auto. simpl. destruct (mb_last_label (cb_main b)) as [l|] eqn:El; auto.
    apply (segmentby_continues bin_by empty ordered snap rows (cb_main b) so main' l); auto. }
  rewrite <- Er in F.
  match goal with |- context [csa_loop N val rows so ?pr _ _ _ _ _] => replace pr with (restarted buffer) end; cycle 1.
  { rewrite <- Ep; destruct buffer as [b|]; auto; destruct (mb_last_label (cb_main b)); auto. }
  apply bind_safe.
  - eapply csa_loop_safe; [exact F|simpl; apply repeat_length|simpl; apply repeat_length].
  - intros a _. apply bind_safe.
    + destruct (g_snap_labels so) as [[l off]|]; [|discriminate]. apply bind_safe; [apply take_labels_safe|discriminate].
    + intros sr _. match goal with |- (if ?b then _ else _) <> _ => destruct b end; discriminate.
Qed.
