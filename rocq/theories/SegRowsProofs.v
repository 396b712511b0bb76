(** Proofs about 'by_x_rows'. *)
Require Import List Arith ZArith Bool Lia.
Require Import Verif.Common Verif.SegModel Verif.SegSpec Verif.SegProofs.
Import ListNotations.
Local Open Scope nat_scope.

Lemma set_last_map_seq : forall {A} (g : nat -> A) m v,
  set_last (map g (seq 0 (S m))) v = map g (seq 0 m) ++ [v].
Proof.
  intros. rewrite seq_S, map_app. simpl. unfold set_last.
  destruct (map g (seq 0 m) ++ [g m]) eqn:E.
  - destruct (map g (seq 0 m)); discriminate.
  - rewrite <- E, removelast_last. auto.
Qed.

Lemma map_seq_snoc : forall {A} (g : nat -> A) b m, map g (seq b (S m)) = map g (seq b m) ++ [g (b + m)].
Proof. intros. rewrite seq_S, map_app. auto. Qed.

Lemma map_seq_off : forall {A} (g h : nat -> A) b m, (forall i, i < m -> g i = h (b + i)) ->
  map g (seq 0 m) = map h (seq b m).
Proof.
  intros A g h b m. revert b g. induction m as [|m IH]; intros b g H; simpl; auto.
  f_equal; [rewrite H by lia; f_equal; lia|].
  rewrite <- seq_shift, map_map. apply IH. intros i Hi. rewrite H by lia. f_equal; lia.
Qed.

(** Values of the buffer after [n] rows (history [H]). *)
Definition xbuf_ok (x : nat) (c : side) (H : list Z) (ob : option xbuf) : Prop :=
  match ob with
  | None => H = []
  | Some b => H <> [] /\ xb_rows b = S ((length H - 1) mod x) /\
              xb_label b = nth ((length H - 1) / x * x) H 0%Z /\
              (c = SRight -> xb_end b = Some (last H 0%Z))
  end.

Definition xb0 (x n : nat) : nat := (n - 1) / x.
Definition xb1 (x n L : nat) : nat := (n + L - 1) / x.
Definition xbins (x n L : nat) : list nat := seq (xb0 x n) (S (xb1 x n L - xb0 x n)).

Definition xstart (x n L b : nat) : nat := Nat.min L ((b + 1) * x - n).
Definition xlabel (x : nat) (all : list Z) (b : nat) : Z := nth (b * x) all 0%Z.
Definition xend (x : nat) (c : side) (all : list Z) (b : nat) : Z :=
  nth (Nat.min (length all - 1) ((b + 1) * x - match c with SLeft => 0 | SRight => 1 end)) all 0%Z.

Lemma ceil_div_S : forall a b, 0 < b -> 0 < a -> ceil_div a b = S ((a - 1) / b).
Proof.
  intros. unfold ceil_div. replace (a + b - 1) with ((a - 1) + 1 * b) by lia.
  rewrite Nat.div_add by lia. lia.
Qed.

Lemma last_nth : forall {A} (l : list A) d, last l d = nth (length l - 1) l d.
Proof.
  induction l as [|x [|y l] IH]; intros d; simpl; auto.
  specialize (IH d). simpl in IH. rewrite Nat.sub_0_r in IH. auto.
Qed.

Lemma hd_nth : forall {A} (l : list A) d, hd d l = nth 0 l d.
Proof. destruct l; auto. Qed.

Lemma nth_app_r : forall {A} (l m : list A) i d, length l <= i -> nth i (l ++ m) d = nth (i - length l) m d.
Proof. intros. apply app_nth2. lia. Qed.

(** Division facts used below: [N = x * b1 + q]. *)
Lemma quot_ge : forall x b1 q k, q < x -> k * x <= x * b1 + q -> k <= b1.
Proof. intros. nia. Qed.
Lemma quot_sub : forall x b1 q k m, 0 < x -> q < x -> m + k * x = x * b1 + q ->
  m mod x = q /\ m / x = b1 - k /\ k <= b1.
Proof.
  intros x b1 q k m Hx Hq H. assert (K : k <= b1) by (apply quot_ge with (x := x) (q := q); lia).
  assert (E : m = x * (b1 - k) + q).
  { assert (b1 = k + (b1 - k)) by lia. set (d := b1 - k) in *. clearbody d. subst b1. nia. }
  repeat split; auto.
  - symmetry. apply Nat.mod_unique with (q := b1 - k); auto.
  - symmetry. apply Nat.div_unique with (r := q); auto.
Qed.
(** Number of rows in the last bin, from the number of rows of new bins. *)
Lemma last_rows : forall x m, 0 < x -> 0 < m ->
  (if m <=? x then m else if m mod x =? 0 then x else m mod x) = S ((m - 1) mod x).
Proof.
  intros x m Hx Hm. destruct (m <=? x) eqn:E2.
  - apply Nat.leb_le in E2. rewrite Nat.mod_small by lia. lia.
  - pose proof (Nat.div_mod m x ltac:(lia)). pose proof (Nat.mod_upper_bound m x ltac:(lia)).
    apply Nat.leb_gt in E2. assert (m / x <> 0) by (intro Q; rewrite Q in H; lia).
    destruct (m mod x =? 0) eqn:E3.
    + apply Nat.eqb_eq in E3.
      enough ((m - 1) mod x = x - 1) by lia.
      symmetry. apply Nat.mod_unique with (q := m / x - 1); [lia|].
      assert (Q : m / x = S (m / x - 1)) by lia. set (d := m / x - 1) in *. clearbody d. rewrite Q in H. nia.
    + apply Nat.eqb_neq in E3.
      enough ((m - 1) mod x = m mod x - 1) by lia.
      symmetry. apply Nat.mod_unique with (q := m / x); lia.
Qed.

(** Closed form of one call. *)
Lemma by_x_rows_spec : forall x c H on ob, 0 < x -> on <> [] -> xbuf_ok x c H ob ->
  let n := length H in let L := length on in let all := H ++ on in
  exists b',
  by_x_rows x c on (Some ob) =
  Ok (mkSeg (map (xstart x n L) (xbins x n L)) (map (xlabel x all) (xbins x n L))
        (if (0 <? n) && (n mod x =? 0) then 1 else 0) c (map (xend x c all) (xbins x n L))
        (match c with SLeft => true | SRight => negb ((n + L) mod x =? 0) end) 0,
      Some (Some b')) /\ xbuf_ok x c all (Some b').
Proof.
  intros x c H on ob Hx Hon Hb n L all.
  assert (HL : 0 < L) by (unfold L; destruct on; [congruence|simpl; lia]).
  assert (Hall : length all = n + L) by (unfold all; rewrite app_length; auto).
  set (b1 := xb1 x n L). assert (Hb1 : n + L - 1 = x * b1 + (n + L - 1) mod x) by (apply Nat.div_mod; lia).
  assert (Hq : (n + L - 1) mod x < x) by (apply Nat.mod_upper_bound; lia).
  set (q := (n + L - 1) mod x) in *. clearbody q.
  set (b0 := xb0 x n).
  assert (Hlast : last on 0%Z = nth (n + L - 1) all 0%Z).
  { rewrite last_nth. unfold all. rewrite nth_app_r by (fold n; lia). f_equal. fold n L. lia. }
  assert (Hnth : forall i, i < L -> nth i on 0%Z = nth (n + i) all 0%Z).
  { intros. unfold all. rewrite nth_app_r by (fold n; lia). f_equal. fold n; lia. }
  (* rows already in the last bin, and in its continuation *)
  set (continued := match ob with
                    | Some b => if xb_rows b =? x then 0 else Nat.min L (x - xb_rows b)
                    | None => 0 end).
  set (prev := match ob with Some b => xb_rows b | None => 0 end).
  assert (HB0 : match ob with
                | None => n = 0 /\ b0 = 0
                | Some b => 0 < n /\ n = b0 * x + prev /\ 1 <= prev <= x
                end).
  { destruct ob as [b|]; simpl in Hb.
    - destruct Hb as (A & B & _). unfold n, b0, xb0, prev. fold n.
      assert (0 < n) by (unfold n; destruct H; [congruence|simpl; lia]).
      pose proof (Nat.div_mod (n - 1) x ltac:(lia)). pose proof (Nat.mod_upper_bound (n - 1) x ltac:(lia)).
      unfold n in *. rewrite B. lia.
    - subst H. split; auto. unfold b0, xb0, n. simpl. apply Nat.div_0_l. lia. }
  assert (Hle : b0 <= b1).
  { unfold b0, b1, xb0, xb1. apply Nat.div_le_mono; lia. }
  assert (Hm0 : (0 <? n) && (n mod x =? 0) = match ob with Some b => prev =? x | None => false end).
  { destruct ob as [b|].
    - destruct HB0 as (P1 & P2 & P3). destruct (0 <? n) eqn:E; [|apply Nat.ltb_ge in E; lia]. simpl.
      rewrite P2 at 1. rewrite Nat.add_comm, Nat.mod_add by lia.
      destruct (prev =? x) eqn:E2.
      + apply Nat.eqb_eq in E2. rewrite E2, Nat.mod_same by lia. auto.
      + apply Nat.eqb_neq in E2. rewrite Nat.mod_small by lia. apply Nat.eqb_neq. lia.
    - destruct HB0 as [-> _]. auto. }
  (* number of rows in the last bin *)
  assert (Hlastrows : (if L - continued =? 0 then continued + prev
     else if L - continued <=? x then L - continued
     else if (L - continued) mod x =? 0 then x else (L - continued) mod x) = S q).
  { destruct ob as [b|].
    - destruct HB0 as (P1 & P2 & P3). unfold continued. fold prev. destruct (prev =? x) eqn:E.
      + apply Nat.eqb_eq in E. rewrite Nat.sub_0_r.
        destruct (L =? 0) eqn:E1; [apply Nat.eqb_eq in E1; lia|].
        rewrite last_rows by lia. f_equal. apply (quot_sub x b1 q (b0 + 1)); nia.
      + apply Nat.eqb_neq in E. destruct (Nat.le_gt_cases L (x - prev)).
        * rewrite Nat.min_l by lia. rewrite Nat.sub_diag. simpl.
          destruct (quot_sub x b1 q b0 (prev + L - 1)) as (Q & _); [lia|lia|nia|].
          rewrite Nat.mod_small in Q by lia. lia.
        * rewrite Nat.min_r by lia.
          destruct (L - (x - prev) =? 0) eqn:E1; [apply Nat.eqb_eq in E1; lia|].
          rewrite last_rows by lia. f_equal. apply (quot_sub x b1 q (b0 + 1)); nia.
    - destruct HB0 as (P1 & P2). unfold continued, prev. rewrite Nat.sub_0_r.
      destruct (L =? 0) eqn:E1; [apply Nat.eqb_eq in E1; lia|].
      rewrite last_rows by lia. f_equal. apply (quot_sub x b1 q 0); lia. }
  assert (Hunk : (S q =? x) = ((n + L) mod x =? 0)).
  { destruct (Nat.eq_dec (S q) x) as [E|E].
    - rewrite E, Nat.eqb_refl. symmetry. apply Nat.eqb_eq.
      symmetry. apply Nat.mod_unique with (q := S b1); [lia|nia].
    - rewrite (proj2 (Nat.eqb_neq (S q) x)) by auto. symmetry. apply Nat.eqb_neq.
      assert ((n + L) mod x = S q); [|lia].
      symmetry. apply Nat.mod_unique with (q := b1); [lia|nia]. }
  (* buffer after the call *)
  assert (Hnext : forall labels2 e,
     labels2 = map (xlabel x all) (xbins x n L) -> (c = SRight -> e = Some (last all 0%Z)) ->
     xbuf_ok x c all (Some (mkXbuf (S q) (last labels2 0%Z) e))).
  { intros labels2 e -> He. unfold xbuf_ok. cbn [xb_rows xb_label xb_end]. rewrite Hall.
    assert (all <> []) by (intro Q; rewrite Q in Hall; simpl in Hall; lia).
    assert (Q : (n + L - 1) mod x = q) by (symmetry; apply Nat.mod_unique with (q := b1); [lia|nia]).
    rewrite Q. repeat split; auto.
    unfold xbins. rewrite map_seq_snoc, last_last. fold b0 b1.
    replace (b0 + (b1 - b0)) with b1 by lia. reflexivity. }
  (* main computation, common to the three situations: bins from bs, with [cont] rows for the first *)
  assert (Hcomp : forall bs first_ncs nb,
     bs <= b1 -> n < (bs + 1) * x -> bs * x <= n + L - 1 ->
     first_ncs = Nat.min L ((bs + 1) * x - n) ->
     nb = S (b1 - bs) ->
     let ncs := map (fun i => first_ncs + i * x) (seq 0 nb) in
     set_last ncs L = map (xstart x n L) (seq bs (S (b1 - bs))) /\
     match ncs with [] => [] | _ :: t => 0 :: map (fun y => y - x) t end
       = 0 :: map (fun b => b * x - n) (seq (S bs) (b1 - bs)) /\
     match c with
     | SLeft => map (fun i => nth i on 0%Z) (set_last ncs (L - 1))
     | SRight => map (fun i => nth (i - 1) on 0%Z) (set_last ncs L)
     end = map (xend x c all) (seq bs (S (b1 - bs)))).
  { clear - Hx HL Hall Hb1 Hq Hlast Hnth. intros bs first_ncs nb Hbs Hn Hbl -> -> ncs.
    assert (G1 : forall i, i < b1 - bs -> Nat.min L ((bs + 1) * x - n) + i * x = xstart x n L (bs + i)
                          /\ (bs + i + 1) * x - n < L).
    { intros i Hi. assert ((bs + i + 1) * x <= b1 * x) by (apply Nat.mul_le_mono_r; lia).
      unfold xstart. nia. }
    assert (G2 : xstart x n L b1 = L) by (unfold xstart; nia).
    assert (S1 : set_last ncs L = map (xstart x n L) (seq bs (S (b1 - bs)))).
    { unfold ncs. rewrite set_last_map_seq, map_seq_snoc.
      replace (bs + (b1 - bs)) with b1 by lia. rewrite G2. f_equal.
      apply map_seq_off. intros i Hi. apply G1; auto. }
    split; auto. split.
    - unfold ncs. simpl. f_equal. rewrite <- !seq_shift, !map_map.
      apply map_seq_off. intros i Hi. destruct (G1 i Hi) as [E1 E2].
      assert ((bs + i + 1) * x <= b1 * x) by (apply Nat.mul_le_mono_r; lia).
      unfold xstart in E1. nia.
    - assert (E : forall d, (d = 0 \/ d = 1) -> nth (L - 1) on 0%Z = 
                    nth (Nat.min (length all - 1) ((b1 + 1) * x - d)) all 0%Z).
      { intros d Hd. rewrite Hnth by lia. f_equal. rewrite Hall. nia. }
      destruct c.
      + unfold ncs. rewrite set_last_map_seq, map_app, map_map, map_seq_snoc.
        replace (bs + (b1 - bs)) with b1 by lia. f_equal.
        * apply map_seq_off. intros i Hi. destruct (G1 i Hi) as [E1 E2].
          rewrite E1. unfold xend, xstart.
          assert ((bs + i + 1) * x > n) by nia.
          rewrite Nat.min_r by lia. rewrite Hnth by lia. f_equal. rewrite Hall.
          assert ((bs + i + 1) * x <= b1 * x) by (apply Nat.mul_le_mono_r; lia). nia.
        * simpl. f_equal. unfold xend. apply E; auto.
      + rewrite S1. rewrite map_map. apply map_ext_in. intros b Hbi. apply in_seq in Hbi.
        unfold xend. destruct (Nat.eq_dec b b1) as [->|Hne].
        * rewrite G2. apply E; auto.
        * destruct (G1 (b - bs) ltac:(lia)) as [E1 E2]. replace (bs + (b - bs)) with b in * by lia.
          unfold xstart. assert ((b + 1) * x > n) by nia. rewrite Nat.min_r by lia.
          rewrite Hnth by lia. f_equal. rewrite Hall.
          assert ((b + 1) * x <= b1 * x) by (apply Nat.mul_le_mono_r; lia). nia. }
  assert (Hlab : forall bs, n <= bs * x \/ True -> forall b, In b (seq (S bs) (b1 - bs)) -> n < (bs + 1) * x ->
     nth (b * x - n) on 0%Z = xlabel x all b).
  { intros bs _ b Hbi Hbx. apply in_seq in Hbi. 
    assert (b * x <= b1 * x) by (apply Nat.mul_le_mono_r; lia).
    assert ((bs + 1) * x <= b * x) by (apply Nat.mul_le_mono_r; lia).
    rewrite Hnth by nia. unfold xlabel. f_equal. lia. }
  unfold by_x_rows. fold L.
  replace (match Some ob with
           | Some (Some b) => (xb_rows b, if xb_rows b =? x then 0 else Nat.min L (x - xb_rows b))
           | _ => (0, 0) end) with (prev, continued) by (unfold prev, continued; destruct ob; auto).
  cbv beta iota zeta. rewrite Hlastrows, Hunk.
  destruct ob as [b|].
  - destruct HB0 as (P1 & P2 & P3). destruct Hb as (B1 & B2 & B3 & B4).
    unfold continued. fold prev. destruct (prev =? x) eqn:E.
    + (* new bin right at start, an empty one is inserted *)
      apply Nat.eqb_eq in E. simpl (0 =? 0). cbv iota. rewrite Nat.sub_0_r.
      assert (Hb01 : b0 + 1 <= b1).
      { destruct (Nat.eq_dec b0 b1) as [Q|]; [|lia]. rewrite <- Q in Hb1. nia. }
      destruct (Hcomp (b0 + 1) (Nat.min x L) (ceil_div L x)) as (C1 & C2 & C3).
      * lia.
      * nia.
      * nia.
      * rewrite Nat.min_comm. f_equal. nia.
      * rewrite ceil_div_S by lia. f_equal. symmetry. apply Nat.div_unique with (r := q); [lia|nia].
      * cbv zeta in C1, C2, C3. rewrite C3, C1, C2.
        rewrite Hm0. try rewrite E. rewrite ?Nat.eqb_refl.
        assert (XB : xbins x n L = b0 :: seq (b0 + 1) (S (b1 - (b0 + 1)))).
        { unfold xbins. fold b0 b1. replace (b1 - b0) with (S (b1 - (b0 + 1))) by lia.
          simpl. rewrite Nat.add_1_r. auto. }
        assert (LB : xb_label b :: map (fun i => nth i on 0%Z)
                       (0 :: map (fun b => b * x - n) (seq (S (b0 + 1)) (b1 - (b0 + 1))))
                     = map (xlabel x all) (xbins x n L)).
        { rewrite XB. simpl. f_equal; [|f_equal].
          - rewrite B3. unfold xlabel, all. fold n. fold (xb0 x n). fold b0.
            rewrite app_nth1; auto. fold n. nia.
          - rewrite Hnth by lia. unfold xlabel. f_equal. nia.
          - rewrite map_map. apply map_ext_in. intros b' Hb'. apply Hlab with (bs := b0 + 1); auto. nia. }
        assert (ST : 0 :: map (xstart x n L) (seq (b0 + 1) (S (b1 - (b0 + 1)))) = map (xstart x n L) (xbins x n L)).
        { rewrite XB. simpl. f_equal. unfold xstart. nia. }
        destruct c.
        -- cbn [bind]. simpl negb. cbv iota. cbn [bind].
           eexists. split.
           ++ rewrite LB, ST. repeat f_equal.
              rewrite XB. simpl. f_equal. unfold xend. rewrite Hall.
              rewrite hd_nth, Hnth by lia. f_equal. nia.
           ++ apply Hnext; auto. discriminate.
        -- rewrite (B4 eq_refl). simpl negb. cbv iota. cbn [bind].
           assert (EN : last H 0%Z :: map (xend x SRight all) (seq (b0 + 1) (S (b1 - (b0 + 1))))
                        = map (xend x SRight all) (xbins x n L)).
           { rewrite XB. simpl. f_equal. unfold xend. rewrite Hall. rewrite last_nth. fold n.
             unfold all. rewrite app_nth1 by (fold n; nia). f_equal. nia. }
           eexists. split.
           ++ rewrite LB, ST, EN. reflexivity.
           ++ apply Hnext; auto. intros _. f_equal.
              unfold xbins. rewrite map_seq_snoc, last_last. fold b0 b1.
              replace (b0 + (b1 - b0)) with b1 by lia. rewrite last_nth. unfold xend. f_equal. rewrite Hall. nia.
    + (* the last bin is continued *)
      apply Nat.eqb_neq in E.
      assert (Hc : (Nat.min L (x - prev) =? 0) = false) by (apply Nat.eqb_neq; lia).
      rewrite Hc. cbv iota.
      destruct (Hcomp b0 (Nat.min L (x - prev)) (S (ceil_div (L - Nat.min L (x - prev)) x))) as (C1 & C2 & C3).
      * lia.
      * nia.
      * nia.
      * f_equal. nia.
      * f_equal. destruct (Nat.le_gt_cases L (x - prev)).
        -- rewrite Nat.min_l by lia. rewrite Nat.sub_diag. unfold ceil_div.
           rewrite Nat.div_small by lia.
           assert (b1 = b0) by (symmetry; apply Nat.div_unique with (r := prev + L - 1); nia). lia.
        -- rewrite Nat.min_r by lia. rewrite ceil_div_S by lia.
           assert ((L - (x - prev) - 1) / x = b1 - b0 - 1).
           { symmetry. apply Nat.div_unique with (r := q); [lia|nia]. }
           assert (b1 <> b0) by (intro Q; rewrite Q in Hb1; nia). lia.
      * cbv zeta in C1, C2, C3. rewrite C3, C1, C2. rewrite Hm0.
        try rewrite (proj2 (Nat.eqb_neq prev x)) by auto.
        assert (LB : xb_label b :: tl (map (fun i => nth i on 0%Z)
                       (0 :: map (fun b => b * x - n) (seq (S b0) (b1 - b0))))
                     = map (xlabel x all) (xbins x n L)).
        { unfold xbins. fold b0 b1. simpl. f_equal.
          - rewrite B3. unfold xlabel, all. fold n. fold (xb0 x n). fold b0.
            rewrite app_nth1; auto. fold n. nia.
          - rewrite map_map. apply map_ext_in. intros b' Hb'. apply Hlab with (bs := b0); auto. nia. }
        simpl negb. cbv iota. cbn [bind]. rewrite LB.
        eexists. split; [reflexivity|].
        apply Hnext; auto. intros ->. f_equal.
        rewrite map_seq_snoc, last_last. replace (b0 + (b1 - b0)) with b1 by lia.
        rewrite last_nth. unfold xend. f_equal. rewrite Hall. nia.
  - destruct HB0 as (P1 & P2). unfold continued, prev. simpl (0 =? 0). cbv iota. rewrite Nat.sub_0_r.
    destruct (Hcomp 0 (Nat.min x L) (ceil_div L x)) as (C1 & C2 & C3).
    + lia.
    + lia.
    + lia.
    + rewrite Nat.min_comm. f_equal. lia.
    + rewrite ceil_div_S by lia. f_equal. rewrite Nat.sub_0_r. symmetry. apply Nat.div_unique with (r := q); [lia|nia].
    + cbv zeta in C1, C2, C3. rewrite C3, C1, C2. rewrite Hm0. cbn [bind].
      assert (XB : xbins x n L = seq 0 (S (b1 - 0))) by (unfold xbins; fold b0 b1; rewrite P2; auto).
      assert (LB : map (fun i => nth i on 0%Z) (0 :: map (fun b => b * x - n) (seq 1 (b1 - 0)))
                   = map (xlabel x all) (xbins x n L)).
      { rewrite XB. simpl. f_equal.
        - rewrite Hnth by lia. unfold xlabel. f_equal. lia.
        - rewrite map_map. apply map_ext_in. intros b' Hb'. apply (Hlab 0); auto. lia. }
      rewrite LB, <- XB.
      eexists. split; [reflexivity|].
      apply Hnext; auto. intros ->. f_equal. rewrite XB.
      rewrite map_seq_snoc, last_last. replace (0 + (b1 - 0)) with b1 by lia.
      rewrite last_nth. unfold xend. f_equal. rewrite Hall. nia.
Qed.
