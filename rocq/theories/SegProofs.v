(** Proofs about the model of segmentby.py. *)
Require Import List Arith ZArith Bool Lia Sorted Permutation.
Require Import Verif.Common Verif.SegModel Verif.SegSpec.
Import ListNotations.
Local Open Scope Z_scope.

(** * Sorted lists *)
Lemma sorted_app : forall l m, sorted (l ++ m) <->
  sorted l /\ sorted m /\ (forall x y, In x l -> In y m -> x <= y).
Proof.
  unfold sorted; induction l as [|a l IH]; intros m; simpl.
  - split; [intro H; split; [constructor|split; [auto|intros; contradiction]] | intuition].
  - split.
    + intro H; inversion H; subst. apply IH in H2 as (A & B & C).
      rewrite Forall_app in H3. destruct H3 as [F1 F2].
      split; [constructor; auto|]. split; auto.
      intros x y [->|Hx] Hy; auto. rewrite Forall_forall in F2; auto.
    + intros (A & B & C). inversion A; subst. constructor.
      * apply IH; split; auto. 
      * rewrite Forall_app; split; auto. apply Forall_forall; intros; apply C; auto.
Qed.

Lemma sorted_cons_le : forall x l y, sorted (x :: l) -> In y l -> x <= y.
Proof. intros x l y H Hy; inversion H; subst. rewrite Forall_forall in H3; auto. Qed.

Lemma sorted_hd_le : forall l y, sorted l -> In y l -> hd 0 l <= y.
Proof.
  intros [|x l] y H Hy; [contradiction|]. simpl. destruct Hy as [->|Hy]; [lia|].
  eapply sorted_cons_le; eauto.
Qed.

Lemma last_In : forall {A} (l : list A) d, l <> [] -> In (last l d) l.
Proof.
  induction l as [|x [|y l] IH]; intros d H; [congruence|left; auto|].
  right. apply IH. congruence.
Qed.

Lemma sorted_last_ge : forall l y, sorted l -> In y l -> y <= last l 0.
Proof.
  induction l as [|x l IH]; intros y H Hy; [contradiction|].
  inversion H; subst.
  destruct l as [|z l]; [destruct Hy as [->|[]]; simpl; lia|].
  change (last (x :: z :: l) 0) with (last (z :: l) 0).
  destruct Hy as [->|Hy]; [|apply IH; auto].
  assert (HI : In (last (z :: l) 0) (z :: l)) by (apply last_In; congruence).
  rewrite Forall_forall in H3; auto.
Qed.

(** * [scan] and chunk starts *)
Lemma before_mono_v : forall c e x y, x <= y -> before c e y = true -> before c e x = true.
Proof. intros [] e x y; simpl; intros; [apply Z.ltb_lt in H0; apply Z.ltb_lt|apply Z.leb_le in H0; apply Z.leb_le]; lia. Qed.

Lemma before_mono_e : forall c e e' x, e <= e' -> before c e x = true -> before c e' x = true.
Proof. intros [] e e' x; simpl; intros; [apply Z.ltb_lt in H0; apply Z.ltb_lt|apply Z.leb_le in H0; apply Z.leb_le]; lia. Qed.

Lemma stops_before : forall c e v, stops (side_eqb c SRight) e v = negb (before c e v).
Proof.
  intros [] e v; unfold stops, before; simpl.
  - rewrite Z.leb_antisym; auto.
  - rewrite Z.ltb_antisym; auto.
Qed.

(** On sorted data the values before an edge are a prefix. *)
Lemma filter_before_all_false : forall c e l, sorted l ->
  before c e (hd e l) = false -> l <> [] -> filter (before c e) l = [].
Proof.
  intros c e [|x l] H Hb Hn; [auto|]. simpl in Hb.
  simpl. rewrite Hb.
  assert (forall y, In y l -> before c e y = false).
  { intros y Hy. destruct (before c e y) eqn:E; auto.
    apply before_mono_v with (x := x) in E; [congruence|]. eapply sorted_cons_le; eauto. }
  clear -H0. induction l as [|y l IH]; simpl; auto. rewrite H0 by (left; auto). apply IH.
  intros; apply H0; right; auto.
Qed.

Lemma filter_before_split : forall c e l, sorted l ->
  l = filter (before c e) l ++ filter (fun v => negb (before c e v)) l.
Proof.
  induction l as [|x l IH]; intros H; auto. inversion H; subst.
  destruct (before c e x) eqn:E.
  - simpl; rewrite E; simpl. f_equal. auto.
  - rewrite (filter_before_all_false c e (x :: l)) by (auto || congruence). simpl app.
    simpl; rewrite E; simpl. f_equal.
    rewrite IH at 1 by auto.
    destruct l as [|y l]; auto.
    rewrite (filter_before_all_false c e (y :: l)); [reflexivity|auto| |congruence].
    simpl. destruct (before c e y) eqn:E2; auto.
    apply before_mono_v with (x := x) in E2; [congruence|].
    eapply sorted_cons_le; eauto; left; auto.
Qed.

Lemma scan_spec : forall c e l i, sorted l ->
  scan (stops (side_eqb c SRight) e) l i =
  if (n_before c l e =? length l)%nat then (Nat.pred (i + length l), true)
  else ((i + n_before c l e)%nat, false).
Proof.
  unfold n_before.
  induction l as [|x l IH]; intros i H; simpl.
  - f_equal. lia.
  - inversion H; subst. rewrite stops_before.
    destruct (before c e x) eqn:E; simpl.
    + rewrite IH by auto. destruct (_ =? _)%nat; f_equal; lia.
    + assert (F : filter (before c e) (x :: l) = []).
      { apply filter_before_all_false; auto; congruence. }
      simpl in F. rewrite E in F. rewrite F. simpl. f_equal; lia.
Qed.

Lemma n_before_le : forall c l e, (n_before c l e <= length l)%nat.
Proof. intros; unfold n_before. induction l; simpl; [lia|destruct (before c e a); simpl; lia]. Qed.

Lemma n_before_mono : forall c l e e', e <= e' -> (n_before c l e <= n_before c l e')%nat.
Proof.
  intros c l e e' H; unfold n_before. induction l as [|x l IH]; simpl; [lia|].
  destruct (before c e x) eqn:E.
  - rewrite (before_mono_e c e e' x H E). simpl; lia.
  - destruct (before c e' x); simpl; lia.
Qed.

Lemma n_before_app : forall c l m e, n_before c (l ++ m) e = (n_before c l e + n_before c m e)%nat.
Proof. intros; unfold n_before. rewrite filter_app, app_length. auto. Qed.

Lemma firstn_n_before : forall c l e, sorted l -> firstn (n_before c l e) l = filter (before c e) l.
Proof.
  intros c l e H. rewrite (filter_before_split c e l H) at 2. unfold n_before.
  rewrite firstn_app, Nat.sub_diag, firstn_all. simpl. apply app_nil_r.
Qed.

Lemma skipn_n_before : forall c l e, sorted l -> skipn (n_before c l e) l = filter (fun v => negb (before c e v)) l.
Proof.
  intros c l e H. rewrite (filter_before_split c e l H) at 2. unfold n_before.
  rewrite skipn_app, Nat.sub_diag, skipn_all. auto.
Qed.

Lemma sorted_skipn : forall n l, sorted l -> sorted (skipn n l).
Proof. intros n l H. rewrite <- (firstn_skipn n l) in H. apply sorted_app in H. tauto. Qed.
Lemma sorted_firstn : forall n l, sorted l -> sorted (firstn n l).
Proof. intros n l H. rewrite <- (firstn_skipn n l) in H. apply sorted_app in H. tauto. Qed.

(** If the first [d] values are before [e], the scan from [d] ends at [n_before]. *)
Lemma n_before_skipn : forall c l e d, sorted l -> (d <= n_before c l e)%nat ->
  n_before c (skipn d l) e = (n_before c l e - d)%nat.
Proof.
  intros c l e d H Hd.
  rewrite <- (firstn_skipn d l) at 2. rewrite n_before_app.
  assert (n_before c (firstn d l) e = d).
  { pose proof (n_before_le c l e).
    assert (firstn d (firstn (n_before c l e) l) = firstn d l).
    { rewrite firstn_firstn. f_equal. lia. }
    rewrite firstn_n_before in H1 by auto. rewrite <- H1.
    unfold n_before. 
    assert (G : forall m k, (forall x, In x m -> before c e x = true) ->
       length (filter (before c e) (firstn k m)) = length (firstn k m)).
    { induction m as [|y m IHm]; intros [|k] Hm; simpl; auto.
      rewrite Hm by (left; auto). simpl. rewrite IHm; auto. intros; apply Hm; right; auto. }
    rewrite G.
    - rewrite firstn_length. unfold n_before in Hd. lia.
    - intros x Hx; apply filter_In in Hx; tauto. }
  lia.
Qed.

(** Positions until the data is exhausted. *)
Fixpoint until (n : nat) (ps : list nat) : list nat :=
  match ps with
  | [] => []
  | p :: ps' => if (p =? n)%nat then [p] else p :: until n ps'
  end.

Lemma ncs_loop_spec : forall c data edges d n0,
  sorted data -> data <> [] -> sorted edges ->
  (d < length data)%nat -> (forall e, In e edges -> (d <= n_before c data e)%nat) ->
  ncs_loop data (side_eqb c SRight) edges d d n0 =
  (let ps := until (length data) (map (n_before c data) edges) in
   (ps, (n0 + n_empty d ps)%nat, existsb (Nat.eqb (length data)) (map (n_before c data) edges))).
Proof.
  intros c data edges. induction edges as [|e edges IH]; intros d n0 Hs Hn He Hd Hle; simpl.
  - f_equal; f_equal; lia.
  - rewrite scan_spec by (apply sorted_skipn; auto).
    rewrite n_before_skipn by (auto; apply Hle; left; auto).
    rewrite skipn_length.
    pose proof (Hle e (or_introl eq_refl)) as Hde. pose proof (n_before_le c data e) as Hl.
    destruct (n_before c data e =? length data)%nat eqn:E.
    + apply Nat.eqb_eq in E. rewrite E. rewrite Nat.eqb_refl.
      replace (d + Nat.pred (0 + (length data - d)))%nat with (length data - 1)%nat by lia.
      rewrite Nat.eqb_refl. simpl. rewrite Nat.eqb_refl. simpl.
      destruct (d =? length data)%nat eqn:E2; [apply Nat.eqb_eq in E2; lia|].
      f_equal; f_equal; [f_equal|]; lia.
    + apply Nat.eqb_neq in E.
      destruct (n_before c data e - d =? length data - d)%nat eqn:E2; [apply Nat.eqb_eq in E2; lia|].
      replace (d + (0 + (n_before c data e - d)))%nat with (n_before c data e) by lia.
      rewrite andb_false_r.
      replace (length data =? n_before c data e)%nat with false by (symmetry; apply Nat.eqb_neq; lia).
      inversion He; subst.
      assert (G : forall n1,
        ncs_loop data (side_eqb c SRight) edges (n_before c data e) (n_before c data e) n1 =
        (let ps := until (length data) (map (n_before c data) edges) in
         (ps, (n1 + n_empty (n_before c data e) ps)%nat,
          existsb (Nat.eqb (length data)) (map (n_before c data) edges)))).
      { intro n1; apply IH; auto; [lia|]. intros e' He'. apply n_before_mono.
        rewrite Forall_forall in H2; auto. }
      destruct (d =? n_before c data e)%nat eqn:E3.
      * apply Nat.eqb_eq in E3. rewrite E3 at 1. rewrite G. simpl. rewrite E3, Nat.eqb_refl.
        f_equal; f_equal; lia.
      * rewrite G. simpl. rewrite E3. auto.
Qed.

Lemma next_chunk_starts_spec : forall c data edges,
  sorted data -> data <> [] -> sorted edges ->
  next_chunk_starts data edges (side_eqb c SRight) =
  (let ps := until (length data) (map (n_before c data) edges) in
   (ps, n_empty 0 ps, existsb (Nat.eqb (length data)) (map (n_before c data) edges))).
Proof.
  intros. unfold next_chunk_starts. rewrite ncs_loop_spec; auto.
  - destruct data; [congruence|simpl; lia].
  - intros; lia.
Qed.

(** * Rows with a time stamp *)
Section Rows.
Context {D : Type} (t : D -> Z).

Lemma filter_map_comm : forall (p : Z -> bool) (rows : list D),
  filter p (map t rows) = map t (filter (fun r => p (t r)) rows).
Proof. intros p rows; induction rows as [|r rows IH]; simpl; auto. destruct (p (t r)); simpl; f_equal; auto. Qed.

Lemma n_before_map : forall c rows e,
  n_before c (map t rows) e = length (filter (fun r => before c e (t r)) rows).
Proof. intros. unfold n_before. rewrite filter_map_comm, map_length. auto. Qed.

Lemma rows_filter_all_false : forall (p : Z -> bool) rows, (forall r, In r rows -> p (t r) = false) ->
  filter (fun r => p (t r)) rows = [].
Proof.
  induction rows as [|r rows IH]; simpl; intros H; auto.
  rewrite H by auto. apply IH; auto.
Qed.

Lemma rows_split : forall c e rows, sorted (map t rows) ->
  rows = filter (fun r => before c e (t r)) rows ++ filter (fun r => negb (before c e (t r))) rows.
Proof.
  induction rows as [|x rows IH]; intros H; auto. simpl in H. inversion H; subst.
  destruct (before c e (t x)) eqn:E.
  - simpl; rewrite E; simpl. f_equal. auto.
  - assert (F : forall r, In r rows -> before c e (t r) = false).
    { intros r Hr. destruct (before c e (t r)) eqn:E2; auto.
      apply before_mono_v with (x := t x) in E2; [congruence|].
      rewrite Forall_forall in H3. apply H3. apply in_map; auto. }
    simpl; rewrite E; simpl.
    rewrite (rows_filter_all_false (before c e)) by auto. simpl. f_equal.
    rewrite IH at 1 by auto. rewrite (rows_filter_all_false (before c e)) by auto. auto.
Qed.

Lemma rows_firstn : forall c e rows, sorted (map t rows) ->
  firstn (n_before c (map t rows) e) rows = filter (fun r => before c e (t r)) rows.
Proof.
  intros c e rows H. rewrite n_before_map. rewrite (rows_split c e rows H) at 2.
  rewrite firstn_app, Nat.sub_diag, firstn_all. simpl. apply app_nil_r.
Qed.

Lemma rows_skipn : forall c e rows, sorted (map t rows) ->
  skipn (n_before c (map t rows) e) rows = filter (fun r => negb (before c e (t r))) rows.
Proof.
  intros c e rows H. rewrite n_before_map. rewrite (rows_split c e rows H) at 2.
  rewrite skipn_app, Nat.sub_diag, skipn_all. auto.
Qed.

Lemma filter_filter : forall {A} (p q : A -> bool) l, filter p (filter q l) = filter (fun x => q x && p x) l.
Proof.
  induction l as [|x l IH]; simpl; auto. destruct (q x); simpl; [destruct (p x)|]; rewrite IH; auto.
Qed.

Lemma firstn_skipn_sub : forall {A} (l : list A) a b,
  firstn (b - a) (skipn a l) = skipn a (firstn b l).
Proof. intros. rewrite skipn_firstn_comm. auto. Qed.

(** Rows between two edges. *)
Lemma rows_between : forall c e1 e2 rows, sorted (map t rows) -> e1 <= e2 ->
  firstn (n_before c (map t rows) e2 - n_before c (map t rows) e1)
    (skipn (n_before c (map t rows) e1) rows)
  = filter (fun r => negb (before c e1 (t r)) && before c e2 (t r)) rows.
Proof.
  intros c e1 e2 rows H He.
  rewrite firstn_skipn_sub, rows_firstn by auto.
  set (m := filter (fun r => before c e2 (t r)) rows).
  assert (S : sorted (map t m)).
  { unfold m. rewrite <- rows_firstn by auto. rewrite <- firstn_map. apply sorted_firstn; auto. }
  assert (L : n_before c (map t rows) e1 = n_before c (map t m) e1).
  { rewrite !n_before_map. unfold m. rewrite filter_filter. f_equal. apply filter_ext. intro r.
    destruct (before c e1 (t r)) eqn:E; [|rewrite andb_false_r; auto].
    rewrite (before_mono_e c e1 e2 (t r)); auto. }
  rewrite L, rows_skipn by auto. unfold m. rewrite filter_filter. apply filter_ext.
  intro r. apply andb_comm.
Qed.

End Rows.

(** * Periods *)

Lemma in_period_kappa : forall c a f k t, 0 < f -> in_period c a f k t = true <-> k = kappa c a f t.
Proof.
  intros c a f k t Hf. unfold in_period, kappa. destruct c; rewrite andb_true_iff.
  - rewrite Z.leb_le, Z.ltb_lt. split.
    + intros [A B]. apply Z.div_unique with (r := t - a - f * k); [left; nia|lia].
    + intros ->. pose proof (Z.div_mod (t - a) f ltac:(lia)). pose proof (Z.mod_pos_bound (t - a) f Hf). nia.
  - rewrite Z.ltb_lt, Z.leb_le. split.
    + intros [A B]. apply Z.div_unique with (r := t - a - 1 - f * k); [left; nia|lia].
    + intros ->. pose proof (Z.div_mod (t - a - 1) f ltac:(lia)). pose proof (Z.mod_pos_bound (t - a - 1) f Hf). nia.
Qed.

Lemma in_period_before : forall c a f k t,
  in_period c a f k t = negb (before c (a + k * f) t) && before c (a + (k + 1) * f) t.
Proof.
  intros [] a f k t; simpl; f_equal.
  - rewrite Z.leb_antisym; auto.
  - rewrite Z.ltb_antisym; auto.
Qed.

Lemma before_kappa : forall c a f k t, 0 < f ->
  before c (a + k * f) t = (kappa c a f t <? k).
Proof.
  intros c a f k t Hf. apply eq_true_iff_eq.
  assert (P : in_period c a f (kappa c a f t) t = true) by (apply in_period_kappa; auto).
  set (q := kappa c a f t) in *. clearbody q.
  unfold in_period in P. rewrite Z.ltb_lt.
  destruct c; simpl; apply andb_true_iff in P as [A B].
  - apply Z.leb_le in A; apply Z.ltb_lt in B. rewrite Z.ltb_lt. nia.
  - apply Z.ltb_lt in A; apply Z.leb_le in B. rewrite Z.leb_le. nia.
Qed.

Lemma kappa_mono : forall c a f x y, 0 < f -> x <= y -> kappa c a f x <= kappa c a f y.
Proof. intros [] a f x y Hf H; simpl; apply Z.div_le_mono; lia. Qed.

Lemma kappa_shift : forall c a f m t, 0 < f -> kappa c (a + m * f) f t = kappa c a f t - m.
Proof.
  intros [] a f m t Hf; simpl.
  - replace (t - (a + m * f)) with ((t - a) + (- m) * f) by ring.
    rewrite Z.div_add by lia. lia.
  - replace (t - (a + m * f) - 1) with ((t - a - 1) + (- m) * f) by ring.
    rewrite Z.div_add by lia. lia.
Qed.

(** gtre gives the limits of the periods of its first and last arguments. *)
Lemma gtre_spec : forall first last_ f c o off, 0 < f ->
  gtre first last_ f c o off =
  (let a := origin_ts o off first in (a + kappa c a f first * f, a + (kappa c a f last_ + 1) * f)).
Proof.
  intros first last_ f c o off Hf. unfold gtre. cbv zeta. set (a := origin_ts o off first).
  pose proof (Z.div_mod (first - a) f ltac:(lia)) as F1.
  pose proof (Z.mod_pos_bound (first - a) f Hf) as F2.
  pose proof (Z.div_mod (last_ - a) f ltac:(lia)) as L1.
  pose proof (Z.mod_pos_bound (last_ - a) f Hf) as L2.
  destruct c; simpl.
  - f_equal.
    + destruct (0 <? (first - a) mod f) eqn:E; [nia|apply Z.ltb_ge in E; nia].
    + destruct (0 <? (last_ - a) mod f) eqn:E; [nia|apply Z.ltb_ge in E; nia].
  - assert (K : forall t, (t - a - 1) / f = if 0 <? (t - a) mod f then (t - a) / f else (t - a) / f - 1).
    { intro t. symmetry.
      pose proof (Z.div_mod (t - a) f ltac:(lia)) as T1.
      pose proof (Z.mod_pos_bound (t - a) f Hf) as T2.
      destruct (0 <? (t - a) mod f) eqn:E.
      - apply Z.ltb_lt in E. apply Z.div_unique with (r := (t - a) mod f - 1); [left|]; lia.
      - apply Z.ltb_ge in E. apply Z.div_unique with (r := f - 1); [left|]; nia. }
    rewrite !K. f_equal.
    + destruct (0 <? (first - a) mod f) eqn:E; [nia|apply Z.ltb_ge in E; nia].
    + destruct (0 <? (last_ - a) mod f) eqn:E; [nia|apply Z.ltb_ge in E; nia].
Qed.

Lemma gtre_fixed : forall tg c first last_, 0 < tg_freq tg -> fixed_periods tg ->
  gtre first last_ (tg_freq tg) c (tg_origin tg) (tg_offset tg) =
  (let a := anchor tg in
   (a + kappa c a (tg_freq tg) first * tg_freq tg,
    a + (kappa c a (tg_freq tg) last_ + 1) * tg_freq tg)).
Proof.
  intros tg c first last_ Hf Hfix. rewrite gtre_spec by auto. cbv zeta.
  assert (exists m, origin_ts (tg_origin tg) (tg_offset tg) first = anchor tg + m * tg_freq tg) as [m ->].
  { unfold fixed_periods, anchor, origin_ts in *. destruct (tg_origin tg).
    - exists 0; lia.
    - destruct Hfix as [q Hq]. exists ((first / day) * q). unfold normalize.
      pose proof (Z.div_mod first day ltac:(unfold day; lia)). rewrite Hq in *. nia.
    - contradiction.
    - exists 0; lia. }
  rewrite !kappa_shift by auto. f_equal; ring.
Qed.

Lemma zrange_cons : forall k0 k1, k0 <= k1 -> zrange k0 k1 = k0 :: zrange (k0 + 1) k1.
Proof.
  intros. unfold zrange. replace (Z.to_nat (k1 - k0 + 1)) with (S (Z.to_nat (k1 - (k0 + 1) + 1))) by lia.
  simpl. f_equal; [lia|]. rewrite <- seq_shift, map_map. apply map_ext. intros; lia.
Qed.
Lemma zrange_nil : forall k0 k1, k1 < k0 -> zrange k0 k1 = [].
Proof. intros. unfold zrange. replace (Z.to_nat (k1 - k0 + 1)) with 0%nat by lia. auto. Qed.
Lemma zrange_snoc : forall k0 k1, k0 <= k1 -> zrange k0 k1 = zrange k0 (k1 - 1) ++ [k1].
Proof.
  intros. unfold zrange. replace (Z.to_nat (k1 - k0 + 1)) with (S (Z.to_nat (k1 - 1 - k0 + 1))) by lia.
  rewrite seq_S, map_app. simpl. f_equal. f_equal. lia.
Qed.
Lemma zrange_In : forall k0 k1 k, In k (zrange k0 k1) <-> k0 <= k <= k1.
Proof.
  intros. unfold zrange. rewrite in_map_iff. split.
  - intros (i & <- & Hi). apply in_seq in Hi. lia.
  - intros. exists (Z.to_nat (k - k0)). split; [lia|]. apply in_seq. lia.
Qed.
Lemma zrange_length : forall k0 k1, length (zrange k0 k1) = Z.to_nat (k1 - k0 + 1).
Proof. intros. unfold zrange. rewrite map_length, seq_length. auto. Qed.
Lemma zrange_app : forall k0 k1 k2, k0 <= k1 + 1 -> k1 <= k2 ->
  zrange k0 k2 = zrange k0 k1 ++ zrange (k1 + 1) k2.
Proof.
  intros k0 k1 k2 H0 H. remember (Z.to_nat (k1 + 1 - k0)) as n eqn:En. revert k0 H0 En.
  induction n as [|n IH]; intros k0 H0 En.
  - replace (k1 + 1) with k0 by lia. rewrite (zrange_nil k0 k1) by lia. auto.
  - rewrite (zrange_cons k0 k2), (zrange_cons k0 k1) by lia. simpl. f_equal. apply IH; lia.
Qed.

Lemma date_range_spec : forall a f k0 k1, 0 < f ->
  date_range (a + k0 * f) (a + (k1 + 1) * f) f = map (fun k => a + k * f) (zrange k0 (k1 + 1)).
Proof.
  intros. unfold date_range, zrange. rewrite map_map.
  replace (a + (k1 + 1) * f - (a + k0 * f)) with ((k1 + 1 - k0) * f) by ring.
  rewrite Z.div_mul by lia. apply map_ext. intro; ring.
Qed.

Lemma sorted_zrange : forall a f k0 k1, 0 < f -> sorted (map (fun k => a + k * f) (zrange k0 k1)).
Proof.
  intros a f k0 k1 Hf.
  remember (Z.to_nat (k1 - k0 + 1)) as n eqn:En. revert k0 En.
  induction n as [|n IH]; intros k0 En.
  - rewrite zrange_nil by lia. constructor.
  - rewrite zrange_cons by lia. simpl. constructor; [apply IH; lia|].
    apply Forall_forall. intros x Hx. apply in_map_iff in Hx as (k & <- & Hk).
    apply zrange_In in Hk. nia.
Qed.

Lemma map_shift_zrange : forall {A} (g : Z -> A) k0 k1,
  map g (zrange (k0 + 1) (k1 + 1)) = map (fun k => g (k + 1)) (zrange k0 k1).
Proof.
  intros. unfold zrange. rewrite !map_map. replace (k1 + 1 - (k0 + 1) + 1) with (k1 - k0 + 1) by ring.
  apply map_ext. intro; f_equal; lia.
Qed.

Lemma until_app : forall n l p, Forall (fun q => q <> n) l -> p = n -> until n (l ++ [p]) = l ++ [p].
Proof.
  induction l as [|q l IH]; intros p H Hp; simpl.
  - destruct (p =? n)%nat; auto.
  - inversion H; subst. destruct (q =? n)%nat eqn:E; [apply Nat.eqb_eq in E; congruence|]. f_equal; auto.
Qed.

(** Positions of the ends of periods k0..k1 when the last row lies in period k1. *)
Definition pstarts (c : side) (a f : Z) (on : list Z) (k0 k1 : Z) : list nat :=
  map (fun k => n_before c on (period_end a f k)) (zrange k0 k1).

Lemma n_before_all : forall c a f on k, 0 < f -> on <> [] -> sorted on ->
  (n_before c on (period_end a f k) = length on <-> kappa c a f (last on 0) <= k).
Proof.
  intros c a f on k Hf Hn Hs. unfold n_before, period_end. split.
  - intro H.
    assert (before c (a + (k + 1) * f) (last on 0) = true).
    { assert (G : forall l, length (filter (before c (a + (k + 1) * f)) l) = length l ->
                forall x, In x l -> before c (a + (k + 1) * f) x = true).
      { clear. induction l as [|y l IH]; simpl; intros H x Hx; [contradiction|].
        assert (length (filter (before c (a + (k + 1) * f)) l) <= length l)%nat.
        { clear. induction l as [|z l IH]; simpl; [lia|]. destruct (before _ _ z); simpl; lia. }
        destruct (before c (a + (k + 1) * f) y) eqn:E; simpl in H; [|lia].
        destruct Hx as [->|Hx]; auto. }
      apply (G on); auto. apply last_In; auto. }
    rewrite before_kappa in H0 by auto. apply Z.ltb_lt in H0. lia.
  - intro H.
    assert (G : forall x, In x on -> before c (a + (k + 1) * f) x = true).
    { intros x Hx. rewrite before_kappa by auto. apply Z.ltb_lt.
      pose proof (kappa_mono c a f x (last on 0) Hf (sorted_last_ge on x Hs Hx)). lia. }
    clear -G. induction on as [|x l IH]; simpl; auto. rewrite G by (left; auto). simpl. f_equal.
    apply IH. intros; apply G; right; auto.
Qed.

Lemma pstarts_until : forall c a f on k0, 0 < f -> on <> [] -> sorted on ->
  k0 <= kappa c a f (last on 0) ->
  let k1 := kappa c a f (last on 0) in
  until (length on) (pstarts c a f on k0 k1) = pstarts c a f on k0 k1 /\
  existsb (Nat.eqb (length on)) (pstarts c a f on k0 k1) = true.
Proof.
  intros c a f on k0 Hf Hn Hs Hk k1. unfold pstarts. rewrite zrange_snoc, map_app by auto. simpl map.
  split.
  - apply until_app.
    + apply Forall_forall. intros q Hq. apply in_map_iff in Hq as (k & <- & Hk').
      apply zrange_In in Hk'. rewrite n_before_all by auto. unfold k1 in *. lia.
    + apply n_before_all; auto. unfold k1; lia.
  - rewrite existsb_app. apply orb_true_iff. right. simpl. rewrite orb_false_r. apply Nat.eqb_eq.
    symmetry. apply n_before_all; auto. unfold k1; lia.
Qed.

Lemma pstarts_length : forall c a f on k0 k1, length (pstarts c a f on k0 k1) = length (zrange k0 k1).
Proof. intros. unfold pstarts. apply map_length. Qed.

(** * The tail of 'by_scale' on a TimeGrouper *)
Definition tg_next_buffer (c : side) (a f : Z) (on : list Z) (k0 k1 : Z) : sbuf :=
  mkSbuf (Some (match c with
                | SLeft => if k0 <? k1 then period_end a f (k1 - 1) else hd 0 on
                | SRight => period_end a f k1
                end)) None.

Lemma by_scale_finish_tg : forall c lab a f on k0 buffer, 0 < f -> on <> [] -> sorted on ->
  k0 <= kappa c a f (last on 0) ->
  (forall b, buffer = Some b -> sb_last_on b = None) ->
  let k1 := kappa c a f (last on 0) in
  by_scale_finish true PIndex 0 on c (map (period_label lab a f) (zrange k0 k1))
    (map (period_end a f) (zrange k0 k1)) buffer
  = Ok (mkSeg (pstarts c a f on k0 k1) (map (period_label lab a f) (zrange k0 k1))
          (n_empty 0 (pstarts c a f on k0 k1)) c (map (period_end a f) (zrange k0 k1)) false 0,
        match buffer with None => None | Some _ => Some (tg_next_buffer c a f on k0 k1) end).
Proof.
  intros c lab a f on k0 buffer Hf Hn Hs Hk Hb k1. unfold by_scale_finish.
  rewrite next_chunk_starts_spec; auto.
  2:{ pose proof (sorted_zrange (a + f) f k0 k1 Hf) as S. 
      erewrite map_ext; [exact S|]. intro; unfold period_end; simpl; ring. }
  rewrite map_map. change (map (fun x => n_before c on (period_end a f x)) (zrange k0 k1)) with (pstarts c a f on k0 k1).
  destruct (pstarts_until c a f on k0 Hf Hn Hs Hk) as [U X]. fold k1 in U, X. cbv zeta.
  rewrite U, X. rewrite pstarts_length.
  assert (FN : forall (g : Z -> Z), firstn (length (zrange k0 k1)) (map g (zrange k0 k1)) = map g (zrange k0 k1)).
  { intro g. rewrite <- (map_length g (zrange k0 k1)). apply firstn_all. }
  rewrite !FN.
  destruct buffer as [b|]; simpl.
  2: auto.
  rewrite (Hb b eq_refl).
  assert (L : length (zrange k0 k1) = S (Z.to_nat (k1 - k0))) by (rewrite zrange_length; unfold k1 in *; lia).
  assert (NE : forall i, (i < length (zrange k0 k1))%nat ->
          nth_error (map (period_end a f) (zrange k0 k1)) i = Some (period_end a f (k0 + Z.of_nat i))).
  { intros i Hi. rewrite nth_error_map. unfold zrange. rewrite nth_error_map.
    rewrite zrange_length in Hi.
    rewrite (nth_error_nth' (seq 0 (Z.to_nat (k1 - k0 + 1))) 0%nat) by (rewrite seq_length; auto).
    rewrite seq_nth by auto. simpl. auto. }
  rewrite ?map_length, ?L in *.
  destruct c; simpl.
  - unfold tg_next_buffer. destruct (k0 <? k1) eqn:E.
    + apply Z.ltb_lt in E. 
      destruct (1 <? S (Z.to_nat (k1 - k0)))%nat eqn:E2; [|apply Nat.ltb_ge in E2; lia].
      rewrite NE by lia. cbn [bind].
      match goal with |- context [period_end a f (k0 + Z.of_nat ?i)] => replace (k0 + Z.of_nat i) with (k1 - 1) by lia end; reflexivity.
    + apply Z.ltb_ge in E.
      destruct (1 <? S (Z.to_nat (k1 - k0)))%nat eqn:E2; [apply Nat.ltb_lt in E2; lia|]. auto.
  - rewrite Nat.sub_0_r. rewrite NE by lia. cbn [bind]. unfold tg_next_buffer.
    match goal with |- context [period_end a f (k0 + Z.of_nat ?i)] => replace (k0 + Z.of_nat i) with (k1) by lia end; reflexivity.
Qed.

(** * 'by_scale' on a TimeGrouper *)
Lemma by_scale_tg_gen : forall tg oc on first a k0 buffer,
  let f := tg_freq tg in
  let c := match oc with Some c => c | None => tg_closed tg end in
  let k1 := kappa c a f (last on 0) in
  0 < f -> on <> [] -> sorted on -> k0 <= k1 ->
  match buffer with
  | None => first = hd 0 on
  | Some b => sb_last_on b = None /\ first = match sb_restart b with Some r => r | None => hd 0 on end
  end ->
  gtre first (last on 0) f c (tg_origin tg) (tg_offset tg) = (a + k0 * f, a + (k1 + 1) * f) ->
  by_scale on (ByTG tg) oc buffer =
  Ok (mkSeg (pstarts c a f on k0 k1) (map (period_label (tg_label tg) a f) (zrange k0 k1))
        (n_empty 0 (pstarts c a f on k0 k1)) c (map (period_end a f) (zrange k0 k1)) false 0,
      match buffer with None => None | Some _ => Some (tg_next_buffer c a f on k0 k1) end).
Proof.
  intros tg oc on first a k0 buffer f c k1 Hf Hn Hs Hk Hb Hg. unfold by_scale. fold f.
  match goal with |- context [bind ?x _] => replace x with (Ok first : res Z) end.
  2:{ destruct buffer as [b|]; [|subst; auto]. destruct Hb as [B1 B2].
      destruct b as [[r|] lo]; simpl in *; subst; auto. }
  cbn [bind]. fold c. rewrite Hg. rewrite date_range_spec by auto.
  assert (E1 : tl (map (fun k => a + k * f) (zrange k0 (k1 + 1))) = map (period_end a f) (zrange k0 k1)).
  { rewrite zrange_cons by lia. simpl. rewrite map_shift_zrange. apply map_ext. intro; auto. }
  assert (E2 : removelast (map (fun k => a + k * f) (zrange k0 (k1 + 1))) = map (fun k => a + k * f) (zrange k0 k1)).
  { rewrite (zrange_snoc k0 (k1 + 1)) by lia. rewrite map_app. simpl. rewrite removelast_last.
    do 2 f_equal. lia. }
  rewrite E1, E2.
  replace (match tg_label tg with
           | SLeft => map (fun k => a + k * f) (zrange k0 k1)
           | SRight => map (period_end a f) (zrange k0 k1) end)
    with (map (period_label (tg_label tg) a f) (zrange k0 k1)).
  2:{ unfold period_label, period_end. destruct (tg_label tg); auto. }
  apply by_scale_finish_tg; auto.
  intros b ->. tauto.
Qed.

(** Buffers met when the periods are fixed: empty, or remembering period [K] as the last one. *)
Definition tg_buf_ok (c : side) (tg : tgrouper) (b : sbuf) (K : option Z) : Prop :=
  sb_last_on b = None /\
  match sb_restart b, K with
  | None, None => True
  | Some r, Some k => kappa c (anchor tg) (tg_freq tg) r = k
  | _, _ => False
  end.

Lemma tg_next_buffer_ok : forall c tg on k0,
  let a := anchor tg in let f := tg_freq tg in
  let k1 := kappa c a f (last on 0) in
  0 < f -> on <> [] -> sorted on -> k0 <= kappa c a f (hd 0 on) ->
  tg_buf_ok c tg (tg_next_buffer c a f on k0 k1) (Some k1).
Proof.
  intros c tg on k0 a f k1 Hf Hn Hs Hk. unfold tg_buf_ok, tg_next_buffer. simpl. split; auto.
  fold a f. assert (Hh : kappa c a f (hd 0 on) <= k1).
  { apply kappa_mono; auto. apply sorted_last_ge; auto. destruct on; [congruence|left; auto]. }
  destruct c.
  - destruct (k0 <? k1) eqn:E.
    + unfold period_end; simpl. replace (a + (k1 - 1 + 1) * f - a) with (k1 * f) by ring. apply Z.div_mul; lia.
    + apply Z.ltb_ge in E. lia.
  - unfold period_end; simpl. replace (a + (k1 + 1) * f - a - 1) with (k1 * f + (f - 1)) by ring.
    rewrite Z.add_comm, Z.div_add by lia. rewrite Z.div_small by lia. lia.
Qed.

Lemma by_scale_tg_fixed : forall tg oc on b K,
  let f := tg_freq tg in let a := anchor tg in
  let c := match oc with Some c => c | None => tg_closed tg end in
  let k0 := match K with Some k => k | None => kappa c a f (hd 0 on) end in
  let k1 := kappa c a f (last on 0) in
  0 < f -> fixed_periods tg -> on <> [] -> sorted on -> tg_buf_ok c tg b K ->
  k0 <= kappa c a f (hd 0 on) ->
  by_scale on (ByTG tg) oc (Some b) =
  Ok (mkSeg (pstarts c a f on k0 k1) (map (period_label (tg_label tg) a f) (zrange k0 k1))
        (n_empty 0 (pstarts c a f on k0 k1)) c (map (period_end a f) (zrange k0 k1)) false 0,
      Some (tg_next_buffer c a f on k0 k1))
  /\ tg_buf_ok c tg (tg_next_buffer c a f on k0 k1) (Some k1).
Proof.
  intros tg oc on b K f a c k0 k1 Hf Hfix Hn Hs Hb Hk. split.
  2: apply tg_next_buffer_ok; auto.
  assert (Hh : kappa c a f (hd 0 on) <= k1).
  { apply kappa_mono; auto. apply sorted_last_ge; auto. destruct on; [congruence|left; auto]. }
  destruct Hb as [B1 B2].
  apply (by_scale_tg_gen tg oc on (match sb_restart b with Some r => r | None => hd 0 on end) a k0 (Some b));
    auto; fold c f; fold k1; [lia|].
  unfold f at 1. rewrite gtre_fixed by auto. cbv zeta. fold a f. f_equal. unfold k0.
  destruct (sb_restart b) as [r|], K as [k|]; try contradiction; auto.
  fold a f in B2. rewrite B2. auto.
Qed.

(** * Rows cut at period ends *)
Section Cut.
Context {D : Type} (t : D -> Z).

Lemma cut_periods : forall c a f rows k0 k1, 0 < f -> sorted (map t rows) ->
  cut (n_before c (map t rows) (a + k0 * f)) (pstarts c a f (map t rows) k0 k1) rows =
  map (fun k => filter (fun r => in_period c a f k (t r)) rows) (zrange k0 k1).
Proof.
  intros c a f rows k0 k1 Hf Hs. unfold pstarts.
  remember (Z.to_nat (k1 - k0 + 1)) as n eqn:En. revert k0 En.
  induction n as [|n IH]; intros k0 En.
  - rewrite zrange_nil by lia. auto.
  - rewrite zrange_cons by lia. simpl map. simpl cut. f_equal.
    + unfold period_end. rewrite (rows_between t) by (auto; nia).
      apply filter_ext. intro r. rewrite in_period_before. auto.
    + unfold period_end at 1. apply IH. lia.
Qed.

Lemma n_before_start : forall c a f rows k0, 0 < f -> sorted (map t rows) -> rows <> [] ->
  k0 <= kappa c a f (hd 0 (map t rows)) -> n_before c (map t rows) (a + k0 * f) = 0%nat.
Proof.
  intros c a f rows k0 Hf Hs Hn Hk. rewrite n_before_map.
  rewrite (rows_filter_all_false t (before c (a + k0 * f))); auto.
  intros r Hr. rewrite before_kappa by auto. apply Z.ltb_ge.
  etransitivity; [exact Hk|]. apply kappa_mono; auto. apply sorted_hd_le; auto. apply in_map; auto.
Qed.

End Cut.

Lemma n_empty_cut : forall {A} (rows : list A) ps from,
  StronglySorted le (from :: ps) -> (forall p, In p ps -> (p <= length rows)%nat) ->
  n_empty from ps = length (filter is_nil (cut from ps rows)).
Proof.
  induction ps as [|p ps IH]; intros from H Hl; simpl; auto.
  inversion H; subst. inversion H3; subst.
  assert (length (firstn (p - from) (skipn from rows)) = p - from)%nat.
  { rewrite firstn_length, skipn_length. specialize (Hl p (or_introl eq_refl)). lia. }
  destruct (from =? p)%nat eqn:E.
  - apply Nat.eqb_eq in E; subst. rewrite Nat.sub_diag in *. simpl. f_equal. apply IH; auto.
    intros; apply Hl; right; auto.
  - apply Nat.eqb_neq in E.
    destruct (firstn (p - from) (skipn from rows)) eqn:F; simpl in *; [lia|].
    apply IH; auto; intros; apply Hl; right; auto.
Qed.

Lemma pstarts_sorted : forall c a f on k0 k1, 0 < f -> StronglySorted le (0%nat :: pstarts c a f on k0 k1).
Proof.
  intros. constructor.
  - unfold pstarts. remember (Z.to_nat (k1 - k0 + 1)) as n eqn:En. revert k0 En.
    induction n as [|n IH]; intros k0 En.
    + rewrite zrange_nil by lia. constructor.
    + rewrite zrange_cons by lia. simpl. constructor; [apply IH; lia|].
      apply Forall_forall. intros x Hx. apply in_map_iff in Hx as (k & <- & Hk).
      apply zrange_In in Hk. apply n_before_mono. unfold period_end. nia.
  - apply Forall_forall. intros; lia.
Qed.

Lemma pstarts_le : forall c a f on k0 k1 p, In p (pstarts c a f on k0 k1) -> (p <= length on)%nat.
Proof. intros c a f on k0 k1 p H. apply in_map_iff in H as (k & <- & Hk). apply n_before_le. Qed.
