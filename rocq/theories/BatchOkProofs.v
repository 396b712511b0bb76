(** Runs which are accepted: nothing is raised. *)
Require Import List Arith ZArith Bool Lia Sorting.Sorted.
Require Import Verif.Common Verif.SegModel Verif.SegSpec Verif.FilterModel Verif.WrModel Verif.WrSpec Verif.WrHistProofs Verif.StreamModel Verif.StreamSpec Verif.IterProofs Verif.StreamProofs Verif.RecordProofs
  Verif.TableProofs Verif.BatchSpec Verif.LabelProofs Verif.BatchProofs Verif.BatchRunProofs.
Import ListNotations.
Local Open Scope Z_scope.

(** ** A key *)
Section KeyOk.
Context {D P SB PB : Type}.
Variable truthy : Z -> bool.
Variable usage : frame -> Z.
Notation kbuf := (kbuf SB PB).
Notation kstore := (kstore P SB PB).
Notation act := (@act P SB PB).
Variable k : kconf D SB PB.
Variables (seg0 : SB) (ok : list D -> Prop) (T TS : list D -> list row) (Inv : list D -> SB -> Prop) (m ms : row -> row).
Hypothesis Htab : tabular k seg0 ok T TS Inv.
Hypothesis Hpost : post_is k m ms.
Hypothesis Hpar : writes_as_labels k ok T TS m ms.
Variable Hf : list D.
Hypothesis Hok : ok Hf.
Hypothesis ok_app : forall a b, ok (a ++ b) -> ok a.
Variable Con : Z -> list D -> Prop.
Variable Q : Prop.
Notation kinv := (kinv k T TS Inv m ms Hf Con Q).
Notation chans := (@chans D P SB PB k T TS m ms).

Definition wide (f : frame) : Prop := (reach k < ncols f)%nat.
Hypothesis Hagg : forall H p b, p <> [] -> starts (H ++ p) Hf -> Inv H b ->
  exists f sn b', k_agg k p b = Ok (Some (f, sn), b') /\ wide f /\ (forall s, sn = Some s -> wide s).
Hypothesis Hwide : post_wide k.
Hypothesis Hsize : positive_size (max_row_group_size (k_write k)) /\ (k_type k = BOTH -> positive_size (max_row_group_size (k_write_snap k))).
Hypothesis Hnc : no_coalescing k.
Variable w : Z.
Hypothesis Hw : 0 <= w.
Hypothesis Husage : forall f, usage f <= w * Z.of_nat (S (length (rows f))).
Variable n_max : nat.
Hypothesis Hlim : match k_type k with
  | BINS => 4 * w * Z.of_nat n_max <= k_max k
  | _ => 2 * w * Z.of_nat (4 * n_max + length (T Hf) + length (TS Hf)) <= k_max k
  end.

Definition count (l : list frame) : nat := length (concat (map rows l)).
Lemma count_app : forall a b, count (a ++ b) = (count a + count b)%nat.
Proof using Type. clear. intros a b. unfold count. rewrite map_app, concat_app, app_length. auto. Qed.
Definition in_memory (n : nat) (b : kbuf) : Prop :=
  Forall wide (b_bins b) /\ Forall wide (b_snaps b) /\
  b_size b <= w * Z.of_nat (count (b_bins b) + count (b_snaps b) + 2 * length (b_bins b) + 2 * length (b_snaps b)) /\
  (length (b_bins b) <= n)%nat /\ (length (b_snaps b) <= n)%nat /\ (k_type k = BINS -> b_snaps b = []).
(** Results in memory, once [n] chunks have been given. *)
Definition small (n : nat) (H : list D) (b : kbuf) : Prop :=
  in_memory n b /\ (forall f, b_bin b = Some f -> wide f) /\ (forall f, b_snap b = Some f -> wide f) /\
  match b_bin b with
  | None => b_bins b = [] /\ b_snaps b = []
  | Some f => (count (b_bins b) + length (rows f) <= length (T H))%nat /\
      (k_type k <> BINS -> exists s, b_snap b = Some s /\ (count (b_snaps b) + length (rows s) <= length (TS H))%nat)
  end.
Definition small_mid (n : nat) (H : list D) (b : kbuf) : Prop :=
  in_memory n b /\ (count (b_bins b) <= length (T H) - 1)%nat /\ (k_type k <> BINS -> (count (b_snaps b) <= length (TS H) - 1)%nat).

Lemma store_write_ok : forall p (e : option (entry P SB PB)) f pd U, as_by_label U p -> (last_named p <= reach k)%nat -> max_nirgs p = None -> positive_size (max_row_group_size p) ->
  wide f -> rows f <> [] -> exists e', store_write p e f pd = Ok e'.
Proof using Type. clear.
  intros p e f pd U (j & D0 & B1 & B2 & _) Hl Hn Hs Hf Hr. unfold last_named in Hl. rewrite B1, B2 in Hl. unfold wide in Hf. unfold store_write. destruct (write_accepted p false (data_of e) f) as [ds ->]; auto.
  - right. exists j. split; auto. lia.
  - intros _. split; [right; exists j, D0; split; auto; split; auto|auto]. apply Forall_forall. intros x Hx.
    assert (x <= fold_right Nat.max 0 D0)%nat by (clear - Hx; induction D0 as [|d D0 IH]; simpl in *; [tauto|destruct Hx as [->|Hx]; [|specialize (IH Hx)]; lia]). lia.
  - cbn [bind]. eauto.
Qed.
Lemma concat_ok : forall bufs cur last, Forall wide bufs -> wide cur -> (last = false -> bufs <> []) ->
  exists f, concat_agg_res bufs cur last = Ok f /\ wide f /\ rows f = concat (map rows bufs) ++ (if last then rows cur else []).
Proof using Type. clear.
  intros bufs cur last Fb Fc Hl.
  assert (E : exists x l, (if last then bufs ++ [cur] else bufs) = x :: l).
  { destruct last; [destruct bufs; simpl; eauto|]. specialize (Hl eq_refl). destruct bufs; [congruence|eauto]. }
  destruct E as (x & l & E). eexists. split; [unfold concat_agg_res; rewrite E; reflexivity|]. split.
  - unfold wide. cbn [ncols]. assert (F : Forall wide (x :: l)).
    { rewrite <- E. destruct last; auto. apply Forall_app. auto. }
    inversion F; auto.
  - cbn [rows]. rewrite <- E. destruct last; [|rewrite app_nil_r; auto]. rewrite map_app, concat_app. simpl. rewrite app_nil_r. auto.
Qed.

Lemma pnw_ok : forall b s last r p fb, b_bin b = Some fb -> (k_type k = BINS -> b_snap b = None) -> (k_type k <> BINS -> exists fs, b_snap b = Some fs) ->
  Forall wide (b_bins b) -> Forall wide (b_snaps b) -> wide fb -> (forall f, b_snap b = Some f -> wide f) ->
  (last = false -> b_bins b <> [] /\ (k_type k <> BINS -> b_snaps b <> [])) ->
  (forall c, In c chans -> outgoing c b last <> []) ->
  exists b' acts, @post_n_write D P SB PB truthy k b s last r p = Ok (b', acts).
Proof using Hpost Hpar Hok Hwide Hsize Hnc. clear Hlim Husage Hagg.
  intros b s last r p fb Hb Hs1 Hs2 Fb Fs Wb Ws Hl Ho. unfold post_n_write.
  destruct (concat_ok (b_bins b) fb last Fb Wb (fun E => proj1 (Hl E))) as (bin & Eb & Wbin & Rb).
  assert (NE : forall (f : row -> row) l, l <> [] -> map f l <> []) by (intros f [|x l]; [congruence|discriminate]).
  destruct Hpost as (_ & _ & Hp).
  assert (P1 : exists U, as_by_label U (k_write k)) by (pose proof (Hpar Hf Hok) as P0; clear - P0; destruct (k_type k); [eexists; exact P0|eexists; exact P0|eexists; exact (proj1 P0)]). destruct P1 as [U1 P1].
  assert (P2 : k_type k = BOTH -> exists U, as_by_label U (k_write_snap k)) by (intro P2; pose proof (Hpar Hf Hok) as P0; rewrite P2 in P0; eexists; exact (proj2 P0)).
  assert (L1 : (last_named (k_write k) <= reach k)%nat) by (unfold reach; lia). assert (L2 : (last_named (k_write_snap k) <= reach k)%nat) by (unfold reach; lia).
  destruct Hsize as [Z1 Z2]. destruct Hnc as [N1 N2].
  assert (R : exists main snap pb, results k b last = Ok (Some main, snap, pb) /\ wide main /\ rows main <> [] /\
            (k_type k = BOTH -> exists sn, snap = Some sn /\ wide sn /\ rows sn <> [])).
  { unfold results. rewrite Hb, Eb. cbn [bind]. unfold chans, outgoing in Ho. unfold post_wide, post_keeps in Hwide. destruct (k_type k) eqn:Ek.
    - rewrite (Hs1 eq_refl). cbn [bind]. specialize (Ho _ (or_introl eq_refl)). cbn [c_bufs c_cur] in Ho. rewrite Hb, <- Rb in Ho.
      destruct (k_post k) as [post|].
      + destruct (Hwide (b_post b) bin None) as (r0 & pb' & E & W). destruct (Hp _ _ _ _ _ E) as (n & n' & ->). rewrite E. cbn [bind]. do 3 eexists. split; [reflexivity|]. split; [exact W|]. split; [apply NE; auto|discriminate].
      + do 3 eexists. split; [reflexivity|]. split; auto. split; auto. discriminate.
    - destruct (Hs2 ltac:(discriminate)) as [fs Ef]. rewrite Ef. specialize (Ho _ (or_introl eq_refl)). cbn [c_bufs c_cur] in Ho. rewrite Ef in Ho.
      destruct (concat_ok (b_snaps b) fs last Fs (Ws _ Ef) (fun E => proj2 (Hl E) ltac:(discriminate))) as (sn & Es & Wsn & Rs). rewrite Es. cbn [bind]. rewrite <- Rs in Ho.
      destruct (k_post k) as [post|].
      + destruct (Hwide (b_post b) bin (Some sn)) as (r0 & pb' & E & W). destruct (Hp _ _ _ _ _ E) as (n & n' & ->). rewrite E. cbn [bind]. do 3 eexists. split; [reflexivity|]. split; [exact W|]. split; [apply NE; auto|discriminate].
      + do 3 eexists. split; [reflexivity|]. split; auto. split; auto. discriminate.
    - destruct (Hs2 ltac:(discriminate)) as [fs Ef]. rewrite Ef. pose proof (Ho _ (or_introl eq_refl)) as Ho1. specialize (Ho _ (or_intror (or_introl eq_refl))).
      cbn [c_bufs c_cur] in Ho, Ho1. rewrite Ef in Ho. rewrite Hb, <- Rb in Ho1.
      destruct (concat_ok (b_snaps b) fs last Fs (Ws _ Ef) (fun E => proj2 (Hl E) ltac:(discriminate))) as (sn & Es & Wsn & Rs). rewrite Es. cbn [bind]. rewrite <- Rs in Ho.
      destruct (k_post k) as [post|].
      + destruct (Hwide (b_post b) bin (Some sn)) as (r0 & pb' & E & W). destruct (Hp _ _ _ _ _ E) as (n & n' & ->). rewrite E. cbn [bind]. destruct W as [W1 W2].
        do 3 eexists. split; [reflexivity|]. split; [exact W1|]. split; [apply NE; auto|]. intros _. eexists. split; [reflexivity|]. split; [exact W2|]. apply NE; auto.
      + do 3 eexists. split; [reflexivity|]. split; auto. split; auto. intros _. eexists. split; [reflexivity|]. auto. }
  destruct R as (main & snap & pb & -> & W1 & R1 & W2). cbn [bind].
  match goal with |- context [store_write (k_write k) (s_main s) main ?pd] => destruct (store_write_ok (k_write k) (s_main s) main pd U1 P1 L1 N1 Z1 W1 R1) as [e ->] end. cbn [bind].
  destruct (k_type k) eqn:Ek; cbn [bind]; eauto.
  destruct (W2 eq_refl) as (sn & -> & W3 & R3). destruct (P2 eq_refl) as [U2 P3]. destruct (store_write_ok (k_write_snap k) (s_snap s) sn None U2 P3 L2 (N2 eq_refl) (Z2 eq_refl) W3 R3) as [e' ->]. cbn [bind]. eauto.
Qed.

Lemma starts_tab : forall H, starts H Hf -> (length (T H) <= length (T Hf))%nat /\ (length (TS H) <= length (TS Hf))%nat.
Proof using Htab Hok.
  intros H [q E]. pose proof Hok as Ho. rewrite E in Ho. split.
  - pose proof (tab_labels _ _ _ _ _ _ Htab H q Ho) as L. apply starts_length in L. rewrite !map_length, <- E in L. auto.
  - pose proof (tab_labels_snap _ _ _ _ _ _ Htab H q Ho) as L. apply starts_length in L. rewrite !map_length, <- E in L. auto.
Qed.
Lemma chop_rows : forall f, rows (chop f) = removelast (rows f).
Proof using Type. auto. Qed.
Lemma removelast_length : forall {A} (l : list A), length (removelast l) = (length l - 1)%nat.
Proof using Type. clear. intros A l. destruct (rev l) as [|x l'] eqn:E. - rewrite <- (rev_involutive l), E. auto. - rewrite <- (rev_involutive l), E. simpl. rewrite removelast_last, app_length, rev_length. simpl. lia. Qed.
Lemma count_one : forall f, count [chop f] = (length (rows f) - 1)%nat.
Proof using Type. clear. intro f. unfold count. cbn [map concat]. rewrite app_nil_r. apply removelast_length. Qed.
Lemma count_ne : forall l, (0 < count l)%nat -> concat (map rows l) <> [].
Proof using Type. clear. intros l H E. unfold count in H. rewrite E in H. simpl in H. lia. Qed.

Lemma buffer_small : forall n H b (s : kstore) pb, kinv H b s -> small n H b -> (n <= n_max)%nat ->
  exists b1 acts, buffer_results truthy usage k b s pb = Ok (b1, acts) /\ small_mid (S n) H b1 /\ b_seg b1 = b_seg b.
Proof using All.
  intros n H b s pb (St & _ & Me & _) ((M1 & M2 & M3 & M4 & M5 & M6) & Wb & Ws & Mm) Hn. pose proof Me as (_ & Hs1 & Mc). unfold buffer_results.
  destruct (b_bin b) as [fb|] eqn:Eb.
  - destruct Mc as [Hne Mc]. destruct Mm as [C1 C2]. specialize (Wb _ eq_refl).
    destruct (rows fb) as [|r0 l0] eqn:Er; [congruence|]. rewrite <- Er in *. clear Er.
    assert (Lf : (0 < length (rows fb))%nat) by (destruct (rows fb); [congruence|simpl; lia]).
    assert (Hs2 : k_type k <> BINS -> exists fs, b_snap b = Some fs) by (intro Hk; destruct (C2 Hk) as (fs & E & _); eauto).
    assert (Ls : forall fs, b_snap b = Some fs -> k_type k <> BINS /\ (0 < length (rows fs))%nat).
    { intros fs E. assert (Hk : k_type k <> BINS) by (intro Q0; rewrite (Hs1 Q0) in E; discriminate). split; auto.
      unfold BatchProofs.chans in Mc. destruct (k_type k); [congruence|specialize (Mc _ (or_introl eq_refl))|specialize (Mc _ (or_intror (or_introl eq_refl)))];
        destruct Mc as (f0 & A & E0 & N0 & _); cbn [c_cur] in E0; rewrite E in E0; injection E0 as <-; destruct (rows fs); [congruence|simpl; lia|congruence|simpl; lia]. }
    destruct (starts_tab H St) as [L1 L2].
    cbv zeta. set (b1 := match b_snap b with None => _ | Some _ => _ end).
    assert (E1 : b_bin b1 = Some fb /\ b_snap b1 = b_snap b /\ b_bins b1 = b_bins b ++ [chop fb] /\ b_snaps b1 = b_snaps b ++ match b_snap b with None => [] | Some sn => [chop sn] end /\
                 b_seg b1 = b_seg b /\ b_size b1 = b_size b + (usage fb + match b_snap b with None => 0 | Some sn => usage sn end)).
    { unfold b1. destruct (b_snap b); cbn; rewrite ?app_nil_r; repeat split; lia. }
    destruct E1 as (E1 & E2 & E3 & E4 & E5 & E6). clearbody b1.
    assert (I1 : in_memory (S n) b1).
    { split; [rewrite E3; apply Forall_app; auto|]. split; [rewrite E4; apply Forall_app; split; auto; destruct (b_snap b) as [f|]; auto; constructor; auto; exact (Ws f eq_refl)|]. split; [|split; [|split]].
      - rewrite E6, E3, E4, !count_app, !app_length, count_one. pose proof (Husage fb) as U1. destruct (b_snap b) as [fs|] eqn:Es.
        + pose proof (Husage fs) as U2. destruct (Ls fs eq_refl) as [_ L3]. rewrite count_one. cbn [length]. nia.
        + cbn [length]. change (count []) with 0%nat. nia.
      - rewrite E3, app_length. simpl. lia.
      - rewrite E4, app_length. destruct (b_snap b); simpl; lia.
      - intro Hk. rewrite E4, (M6 Hk), (Hs1 Hk). auto. }
    match goal with |- context [if ?X then _ else _] => destruct X eqn:Elim end.
    + (* written *)
      destruct (pnw_ok b1 s false None pb fb) as (b2 & acts & E); auto.
      * rewrite E2; auto.
      * rewrite E2; auto.
      * apply I1.
      * apply I1.
      * intros f. rewrite E2. apply Ws.
      * intros _. rewrite E3, E4. split; [intro Q0; symmetry in Q0; apply app_cons_not_nil in Q0; auto|]. intro Hk. destruct (Hs2 Hk) as [fs ->]. intro Q0; symmetry in Q0; apply app_cons_not_nil in Q0; auto.
      * intros c Hc. unfold outgoing. rewrite app_nil_r. apply Z.ltb_lt in Elim.
        assert (D0 : b_size b / Z.of_nat (length (b_bins b ++ [chop fb])) <= Z.max 0 (b_size b)).
        { rewrite app_length. cbn [length]. apply Z.div_le_upper_bound; nia. }
        assert (Goal : count (c_bufs c b1) <> 0%nat); [|intro Q0; apply Goal; unfold count; rewrite Q0; auto].
        intro Q0. unfold BatchProofs.chans in Hc. destruct (k_type k) eqn:Ek; simpl in Hc.
        -- destruct Hc as [<-|[]]. cbn [c_bufs] in Q0. rewrite E3, count_app in Q0. rewrite (M6 eq_refl) in M3. change (count []) with 0%nat in M3. simpl in M3.
           replace (count (b_bins b)) with 0%nat in M3 by lia. nia.
        -- destruct (C2 ltac:(congruence)) as (fs & _ & C3). nia.
        -- destruct (C2 ltac:(congruence)) as (fs & _ & C3). nia.
      * pose proof E as Ew. apply (post_n_write_spec truthy k T TS m ms Hpost) with (fb := fb) in Ew; auto; [|rewrite E2; auto|rewrite E2; auto].
        destruct Ew as (pb' & e & rest & -> & _). exists (mkBuf 0 None None [] [] (b_seg b1) pb'), acts. split; auto. split; auto.
        split; [split; [constructor|split; [constructor|cbn; split; [lia|split; [lia|split; [lia|auto]]]]]|]. cbn. unfold count. simpl. split; [lia|intros; lia].
    + exists b1, []. split; auto. split; auto. split; auto. rewrite E3, E4, !count_app, count_one. split; [lia|]. intro Hk.
      destruct (C2 Hk) as (fs & Ef & C3). rewrite Ef, count_one. destruct (Ls fs Ef). lia.
  - destruct Mm as [C1 C2]. exists b, []. split; auto. split; auto. split.
    + repeat (split; [auto; lia|]). auto.
    + rewrite C1, C2. unfold count. simpl. split; [lia|intros; lia].
Qed.

Lemma agg_iter_small : forall n H b (s : kstore) pb p, kinv H b s -> small n H b -> (n <= n_max)%nat -> p <> [] -> starts (H ++ p) Hf ->
  exists b' acts, agg_iter truthy usage k b s pb p = Ok (b', acts) /\ small (S n) (H ++ p) b'.
Proof using All.
  intros n H b s pb p Hk Hsm Hn Hp St. destruct (buffer_small n H b s pb Hk Hsm Hn) as (b1 & a1 & E1 & (I1 & C1 & C2) & Es).
  destruct Hk as (_ & _ & (HI & _) & _). destruct (Hagg H p (b_seg b1) Hp St ltac:(rewrite Es; auto)) as (f & sn & seg' & E2 & W1 & W2).
  unfold agg_iter. rewrite E1. cbn [bind]. rewrite E2. cbn [bind]. do 2 eexists. split; [reflexivity|].
  destruct (tab_step _ _ _ _ _ _ Htab H p (b_seg b1) _ _ Hp (ok_starts ok Hf Hok ok_app _ St) ltac:(rewrite Es; auto) E2) as (f' & sn' & Q0 & _ & T1 & T2 & T3).
  injection Q0 as <- <-. split; [exact I1|]. cbn [b_bin b_snap b_bins b_snaps]. split; [intros f0 Q0; injection Q0 as <-; auto|]. split; [auto|].
  rewrite T1, app_length, removelast_length. split; [lia|]. intro Hk. specialize (C2 Hk). destruct (k_type k); [congruence| |].
  - destruct sn as [s0|]; [|destruct T3]. destruct T3 as [T3 _]. exists s0. split; auto. rewrite T3, app_length, removelast_length. lia.
  - destruct sn as [s0|]; [|destruct T3]. destruct T3 as [T3 _]. exists s0. split; auto. rewrite T3, app_length, removelast_length. lia.
Qed.
Lemma key_run_small : forall chunks n H b (s : kstore) pb, kinv H b s -> small n H b -> (n + length chunks <= n_max)%nat -> (forall p, In p chunks -> p <> []) -> starts (H ++ concat chunks) Hf ->
  exists b' acts, key_run truthy usage k pb b s chunks = Ok (b', acts) /\ small (n + length chunks) (H ++ concat chunks) b'.
Proof using All.
  induction chunks as [|p chunks IH]; intros n H b s pb Hk Hsm Hn Hp St.
  - exists b, []. split; auto. cbn [length concat]. rewrite Nat.add_0_r, app_nil_r. auto.
  - cbn [concat length] in *. rewrite app_assoc in St. assert (St1 : starts (H ++ p) Hf) by (destruct St as [q ->]; exists (concat chunks ++ q); rewrite <- !app_assoc; auto).
    destruct (agg_iter_small n H b s pb p Hk Hsm ltac:(lia) (Hp p (or_introl eq_refl)) St1) as (b1 & a1 & E1 & S1).
    destruct (agg_iter_inv truthy usage k seg0 ok T TS Inv m ms Htab Hpost Hpar Hf Hok ok_app Con Q H b s pb p b1 a1 Hk (Hp p (or_introl eq_refl)) St1 E1) as (K1 & _).
    destruct (IH (S n) (H ++ p) b1 (apply_acts s a1) pb K1 S1 ltac:(lia) (fun q Hq => Hp q (or_intror Hq)) St) as (b2 & a2 & E2 & S2).
    exists b2, (a1 ++ a2). cbn [key_run]. rewrite E1. cbn [bind]. rewrite E2. cbn [bind]. split; auto. rewrite app_assoc, Nat.add_succ_r. auto.
Qed.
Lemma final_small : forall n H b (s : kstore) r p, kinv H b s -> small n H b ->
  exists b' acts, post_n_write truthy k b s true r p = Ok (b', acts) /\ small 0 H b'.
Proof using All.
  intros n H b s r p (St & _ & Me & _) ((M1 & M2 & M3 & M4 & M5 & M6) & Wb & Ws & Mm). pose proof Me as (_ & Hs1 & Mc).
  destruct (b_bin b) as [fb|] eqn:Eb.
  - destruct Mc as [Hne Mc]. destruct Mm as [C1 C2].
    assert (Hs2 : k_type k <> BINS -> exists fs, b_snap b = Some fs) by (intro Hk; destruct (C2 Hk) as (fs & E & _); eauto).
    destruct (pnw_ok b s true r p fb) as (b2 & acts & E); auto.
    + intros Q0; discriminate.
    + intros c Hc. destruct (Mc c Hc) as (f0 & A & E0 & N0 & _). unfold outgoing. rewrite E0. intro Q0. apply app_eq_nil in Q0 as [_ Q0]. auto.
    + exists b2, acts. split; auto. apply (post_n_write_spec truthy k T TS m ms Hpost) with (fb := fb) in E; auto. destruct E as (pb' & e & rest & -> & _).
      split; [split; [constructor|split; [constructor|cbn; split; [lia|split; [lia|split; [lia|auto]]]]]|]. cbn. split; [discriminate|]. split; [discriminate|auto].
  - destruct Mm as [C1 C2].
    assert (E : exists acts, post_n_write truthy k b s true r p = Ok (mkBuf (b_size b) (b_bin b) (b_snap b) (b_bins b) (b_snaps b) (b_seg b) (b_post b), acts)).
    { unfold post_n_write, results. rewrite Eb. cbn [bind]. match goal with |- context [match ?X with Some md => Ok [_] | None => Ok [] end] => destruct X end; cbn [bind]; eauto. }
    destruct E as [acts E]. exists (mkBuf (b_size b) (b_bin b) (b_snap b) (b_bins b) (b_snaps b) (b_seg b) (b_post b)), acts. split; auto.
    rewrite C1, C2 in *. split; [split; [constructor|split; [constructor|cbn; split; [auto|split; [lia|split; [lia|auto]]]]]|]. cbn. rewrite Eb. split; [discriminate|]. split; auto.
Qed.
Lemma small_fresh : forall H seg post, small 0 H (mkBuf 0 None None [] [] seg post).
Proof using Hw. intros. split; [split; [constructor|split; [constructor|cbn; split; [lia|split; [lia|split; [lia|auto]]]]]|]. cbn. split; [discriminate|]. split; [discriminate|auto]. Qed.
End KeyOk.

(** ** Number of chunks given to a key *)
Section Count.
Context {D P : Type}.
Variable idx : D -> Z.
Variables (fs : @filters D) (gs : list (nat * (D -> bool))).
Hypothesis Hfs : filters_are fs gs.
Lemma chunks_of_app : forall id (a b : list (res (Z * nat * list D))), chunks_of id (a ++ b) = chunks_of id a ++ chunks_of id b.
Proof using Type. clear. intros. unfold chunks_of. apply flat_map_app. Qed.
Lemma filter_chunk_count : forall id L chunk fa, (exists h, fa = map h chunk) -> (length (chunks_of id (filter_chunk fs L chunk fa)) <= 1)%nat.
Proof.
  intros id L chunk fa [h ->]. rewrite (filter_chunk_ok fs gs Hfs). destruct Hfs as [Hnd _]. clear Hfs.
  assert (N0 : forall l : list (nat * (D -> bool)), ~ In id (map fst l) -> chunks_of id (flat_map (fun g => let rows := filter (fun r => snd g r && h r) chunk in match rows with [] => [] | _ => [Ok (L, fst g, rows)] end) l) = []).
  { induction l as [|g l IH]; intro Hn; auto. cbn [flat_map map] in *. rewrite chunks_of_app, IH by (intro; apply Hn; right; auto). rewrite app_nil_r. cbv zeta.
    destruct (filter _ chunk); auto. unfold chunks_of. cbn. destruct (Nat.eqb_spec (fst g) id); auto. exfalso. apply Hn. left. auto. }
  induction gs as [|g l IH]; [simpl; lia|]. cbn [flat_map map] in *. inversion Hnd as [|? ? Hn Hnd']; subst. rewrite chunks_of_app, app_length. cbv zeta in *.
  destruct (filter _ chunk) as [|r0 l0]; [simpl; apply IH; auto|]. unfold chunks_of at 1. cbn [flat_map app]. destruct (Nat.eqb_spec (fst g) id) as [<-|Hne].
  - rewrite N0 by auto. simpl. lia.
  - simpl. apply IH; auto.
Qed.
Lemma iter_count : forall id R (pre : option (@pre_fun D P)) discard seed trim rem p,
  (length (chunks_of id (fst (iter_chunks idx R pre fs discard trim rem p seed))) <= length seed)%nat.
Proof.
  intros id R pre discard. induction seed as [|chunk seed IH]; intros trim rem p.
  - simpl. lia.
  - cbn [iter_chunks]. destruct (negb (sortedb (map idx chunk))); [simpl; lia|].
    destruct (match pre with Some f => f chunk p | None => (chunk, p, true) end) as [[c p'] passed]. destruct (negb passed); [simpl; lia|].
    destruct (rev (rem ++ c)) as [|r l]; [simpl; lia|]. cbv zeta. set (all := rem ++ c). destruct (trim && (idx r <? R)); [specialize (IH trim rem p'); cbn [length]; lia|].
    match goal with |- context [filter_chunk fs (idx r) all ?fa] => assert (F : (length (chunks_of id (filter_chunk fs (idx r) all fa)) <= 1)%nat); [apply filter_chunk_count|set (ys := filter_chunk fs (idx r) all fa) in *] end.
    { rewrite repeat_map_. destruct trim, discard; try rewrite map2_map_; eexists; reflexivity. }
    destruct (stopped ys); [cbn [fst length]; lia|].
    specialize (IH false (if discard then compress (map negb (map (fun r0 => idx r0 <? idx r) all)) all else rem) p').
    destruct (iter_chunks idx R pre fs discard false _ p' seed) as [ys' p'']. cbn [fst] in *. rewrite chunks_of_app, app_length. cbn [length]. lia.
Qed.
End Count.

(** ** Runs *)
Section Jobs.
Context {D P SB PB : Type}.
Variable truthy : Z -> bool.
Variable usage : frame -> Z.
Notation stream := (stream D P SB PB).
Notation kconf := (kconf D SB PB).
Notation kbuf := (kbuf SB PB).
Notation kstore := (kstore P SB PB).
Notation act := (@act P SB PB).
Lemma run_jobs_ok : forall (j : kconf -> kbuf -> kstore -> res (kbuf * list act)) ks n, (forall k b s, In (k, b, s) ks -> exists r, j k b s = Ok r) -> exists l log, run_jobs j n ks = Ok (l, log).
Proof.
  intro j. induction ks as [|[[k b] s] ks IH]; intros n H; cbn [run_jobs]; [eauto|].
  destruct (H k b s (or_introl eq_refl)) as [[b1 a1] ->]. cbn [bind]. destruct (IH (S n) (fun k b s Hin => H k b s (or_intror Hin))) as (l & log & ->). cbn [bind]. eauto.
Qed.
Lemma consume_ok : forall ys (g : stream), no_error ys ->
  (forall k b s, In (k, b, s) (g_keys g) -> exists r, key_run truthy usage k (g_pre g) b s (chunks_of (k_filter k) ys) = Ok r) -> exists g', consume truthy usage g ys = Ok (g', None).
Proof.
  induction ys as [|y ys IH]; intros g Ne H; cbn [consume]; [eauto|].
  destruct y as [[[L0 id] rows]|e]; [|exfalso; apply (Ne e); left; auto]. unfold consume1.
  set (j := fun k b s => if (k_filter k =? id)%nat then agg_iter truthy usage k b s (g_pre g) rows else Ok (b, [])).
  assert (Hj : forall k b s, In (k, b, s) (g_keys g) -> exists b1 a1, j k b s = Ok (b1, a1) /\ exists r, key_run truthy usage k (g_pre g) b1 (apply_acts s a1) (chunks_of (k_filter k) ys) = Ok r).
  { intros k b s Hin. destruct (H k b s Hin) as [r E]. unfold chunks_of in E. cbn [flat_map] in E. fold (chunks_of (k_filter k) ys) in E. unfold j. rewrite Nat.eqb_sym in E.
    destruct (k_filter k =? id)%nat.
    - cbn [app key_run] in E. destruct (agg_iter truthy usage k b s (g_pre g) rows) as [[b1 a1]|]; cbn [bind] in E; [|discriminate]. exists b1, a1. split; auto.
      destruct (key_run truthy usage k (g_pre g) b1 (apply_acts s a1) (chunks_of (k_filter k) ys)) as [r1|]; [eauto|discriminate].
    - exists b, []. split; auto. change (apply_acts s []) with s. eauto. }
  destruct (run_jobs_ok j (g_keys g) 0) as (l & log & E).
  { intros k b s Hin. destruct (Hj k b s Hin) as (b1 & a1 & E & _). eauto. }
  rewrite E. cbn [bind]. apply IH; [intros e He; apply (Ne e); right; auto|]. cbn [g_keys g_pre]. intros k b s Hin.
  apply run_jobs_log in E as [[Ln I1] _]. apply In_nth_error in Hin as [i Hin].
  assert (Hi : (i < length (g_keys g))%nat) by (rewrite <- Ln; apply nth_error_Some; congruence). apply nth_error_Some in Hi.
  destruct (nth_error (g_keys g) i) as [[[k0 b0] s0]|] eqn:En; [|congruence]. destruct (I1 i k0 b0 s0 En) as (b1 & a1 & A1 & B1 & _). rewrite Hin in B1. injection B1 as -> -> ->.
  destruct (Hj k0 b0 s0 (nth_error_In _ _ En)) as (b1' & a1' & A1' & R). rewrite A1 in A1'. injection A1' as <- <-. auto.
Qed.
End Jobs.

Section RunOk.
Context {D P SB PB : Type}.
Variable idx : D -> Z.
Variable truthy : Z -> bool.
Variable usage : frame -> Z.
Notation stream := (stream D P SB PB).
Notation kconf := (kconf D SB PB).
Notation kbuf := (kbuf SB PB).
Notation kstore := (kstore P SB PB).
Notation act := (@act P SB PB).
Notation last_index := (last_index idx).
Variables (fs : @filters D) (gs : list (nat * (D -> bool))).
Hypothesis Hfs : filters_are fs gs.
Variable pre : option (@pre_fun D P).
Hypothesis Hpre : harmless pre.
Variables (pre0 : P) (seg0 : SB) (post0 : PB).
Context {X : Type}.
Variable conf : X -> kconf.
Variable keys : list X.
Variables (T TS : X -> list D -> list row) (Inv : X -> list D -> SB -> Prop) (m ms : X -> row -> row) (kp : X -> D -> bool).
Variable good : X -> list D -> Prop.
Hypothesis good_app : forall x a b, good x (a ++ b) -> good x a.
Notation ok := (ok idx good).
Hypothesis Htab : forall x, In x keys -> tabular (conf x) seg0 (ok x) (T x) (TS x) (Inv x).
Hypothesis Hpost : forall x, In x keys -> post_is (conf x) (m x) (ms x).
Hypothesis Hpar : forall x, In x keys -> writes_as_labels (conf x) (ok x) (T x) (TS x) (m x) (ms x).
Hypothesis Hkp : forall x, In x keys -> In (k_filter (conf x), kp x) gs.
Variable Sf : list D.
Hypothesis Hsf : sorted (map idx Sf).
Notation rows_of := (rows_of idx kp).
Hypothesis Hgood : forall x, In x keys -> good x (rows_of x Sf).
Hypothesis Q : forall i, truthy i = true.
Notation kinv_ S k := (kinv (conf k) (T k) (TS k) (Inv k) (m k) (ms k) (rows_of k Sf) (fun r H => consistent idx S (Some r) (kp k) H) (forall i, truthy i = true)).
Notation mem_inv := (mem_inv idx truthy conf keys T TS Inv m ms kp Sf).
(** Conditions for runs to be accepted. *)
Hypothesis Hagg : forall x H p b, In x keys -> p <> [] -> starts (H ++ p) (rows_of x Sf) -> Inv x H b ->
  exists f sn b', k_agg (conf x) p b = Ok (Some (f, sn), b') /\ wide (conf x) f /\ (forall s, sn = Some s -> wide (conf x) s).
Hypothesis Hwide : forall x, In x keys -> post_wide (conf x).
Hypothesis Hsize : forall x, In x keys -> positive_size (max_row_group_size (k_write (conf x))) /\ (k_type (conf x) = BOTH -> positive_size (max_row_group_size (k_write_snap (conf x)))).
Hypothesis Hnc : forall x, In x keys -> no_coalescing (conf x).
Variable w : Z.
Hypothesis Hw : 0 <= w.
Hypothesis Husage : forall f, usage f <= w * Z.of_nat (S (length (rows f))).
Variable n_max : nat.
Hypothesis Hlim : forall x, In x keys -> match k_type (conf x) with
  | BINS => 4 * w * Z.of_nat n_max <= k_max (conf x)
  | _ => 2 * w * Z.of_nat (4 * n_max + length (T x (rows_of x Sf)) + length (TS x (rows_of x Sf))) <= k_max (conf x)
  end.
Definition smalls (n : nat) (S : list D) (g : stream) : Prop :=
  forall i k b s x H, nth_error (g_keys g) i = Some (k, b, s) -> nth_error keys i = Some x -> consistent idx S (g_restart g) (kp x) H -> small (conf x) (T x) (TS x) w n H b.
(** Nothing is stored as long as nothing is given. *)
Definition unborn (g : stream) : Prop := g_restart g = None -> forall k b s, In (k, b, s) (g_keys g) -> s_main s = None.
(** Stores with which a new instance can be created. *)
Definition restartable (g : stream) : Prop :=
  (forall k b s, In (k, b, s) (g_keys g) -> s_main s = None) \/
  exists i, forall k b s, In (k, b, s) (g_keys g) -> exists md, md_of (s_main s) = Some md /\ m_restart md = i.

Lemma consistent_unique : forall S R x H H', consistent idx S R (kp x) H -> consistent idx S R (kp x) H' -> H = H'.
Proof using Type. clear. intros S R x H H' A B. destruct R as [r|]; simpl in *; [destruct A as [_ ->], B as [_ ->]|rewrite A, B]; auto. Qed.
Lemma restart_none : forall r (ys : list (res (Z * nat * list D))), restart_after r ys = None -> no_error ys -> r = None /\ ys = [].
Proof using Type. clear.
  intros r ys H Ne. destruct ys as [|y ys]; [auto|]. exfalso.
  assert (G : forall ys r, r <> None -> @restart_after D r ys <> None).
  { clear. induction ys as [|[[[i id] l]|e] ys IH]; intros r Hr; simpl; auto; apply IH; congruence. }
  destruct y as [[[i id] l]|e]; [|apply (Ne e); left; auto]. simpl in H. revert H. apply G. congruence.
Qed.

(** A call to 'agg'. *)
Lemma agg_ok : forall S (g : stream) seed final n, mem_inv S g -> smalls n S g -> unborn g -> (n + length seed <= n_max)%nat ->
  concat seed = S -> grows idx S Sf -> (forall c, In c seed -> c <> []) ->
  exists g', agg idx truthy usage pre fs g seed true true final = Ok (g', None) /\
    smalls (if final then 0 else n + length seed) S g' /\ unborn g' /\ (final = true -> restartable g').
Proof using All.
  intros S g seed final n [Hm Hd] Hsm Hub Hn Eseed HSf Hne.
  pose proof (proj1 (proj2 HSf)) as Hs.
  destruct (iter_data_spec idx fs gs Hfs pre Hpre (g_restart g) true true seed (g_pre g) Hne) as (Ne & Dl & Rs); [rewrite Eseed; auto|].
  fold (ys_of idx fs pre g true true seed) in Ne, Dl, Rs.
  assert (Rw : forall id c, In c (chunks_of id (ys_of idx fs pre g true true seed)) -> c <> []).
  { intros id c. apply chunks_rows. unfold ys_of, iter_data. destruct (g_restart g); apply (iter_rows idx fs gs Hfs). }
  assert (Lc : forall id, (length (chunks_of id (ys_of idx fs pre g true true seed)) <= length seed)%nat).
  { intro id. unfold ys_of, iter_data. destruct (g_restart g); apply (iter_count idx fs gs Hfs). }
  set (R' := restart_after (g_restart g) (ys_of idx fs pre g true true seed)) in *.
  assert (KR : forall i k b s, nth_error (g_keys g) i = Some (k, b, s) -> exists x b1 a1, k = conf x /\ nth_error keys i = Some x /\
     key_run truthy usage k (g_pre g) b s (chunks_of (k_filter k) (ys_of idx fs pre g true true seed)) = Ok (b1, a1) /\
     kinv_ S x (rows_of x S) b1 (apply_acts s a1) /\ small (conf x) (T x) (TS x) w (n + length seed) (rows_of x S) b1 /\ consistent idx S R' (kp x) (rows_of x S)).
  { intros i k b s Hin. destruct (Hm i k b s Hin) as (x & Ex & Hk0 & H & HC & HK). pose proof (Hsm i k b s x H Hin Hk0 HC) as Sm. subst k. pose proof (nth_error_In _ _ Hk0) as Hk.
    destruct (consistent_run idx S (g_restart g) (kp x) H R' Hs HC) as [C1 C2].
    { destruct Rs as [[Rs1 Rs2]|(N & R2 & R3 & R4 & R5 & R6)]; [left; split; auto; intros; rewrite Eseed in Rs2; eapply Rs2; eauto|].
      rewrite Eseed in *. right. exists N. split; auto. split; auto. split; auto. split; [destruct (g_restart g); auto|]. intros r0 Hr0 Hg0 Hw0. eapply (R6 _ _ _ (Hkp x Hk)); eauto. }
    cbv zeta in C1, C2. rewrite <- Eseed in C1, C2. rewrite <- (Dl _ _ (Hkp x Hk)), delivered_chunks in C1, C2. rewrite Eseed in C1, C2. fold (rows_of x S) in C1.
    assert (St : starts (H ++ concat (chunks_of (k_filter (conf x)) (ys_of idx fs pre g true true seed))) (rows_of x Sf)).
    { apply (consistent_starts idx kp Sf Hsf S R' x); auto. }
    destruct (key_run_small truthy usage (conf x) seg0 (ok x) (T x) (TS x) (Inv x) (m x) (ms x) (Htab x Hk) (Hpost x Hk) (Hpar x Hk) (rows_of x Sf) (Hokf idx keys kp good Sf Hsf Hgood x Hk) (ok_app idx good good_app x)
      (fun r H => consistent idx S (Some r) (kp x) H) (forall i, truthy i = true) (fun H p b => Hagg x H p b Hk) (Hwide x Hk) (Hsize x Hk) (Hnc x Hk) w Hw Husage n_max (Hlim x Hk)
      (chunks_of (k_filter (conf x)) (ys_of idx fs pre g true true seed)) n H b s (g_pre g) HK Sm) as (b1 & a1 & E1 & S1).
    - specialize (Lc (k_filter (conf x))). lia.
    - apply Rw.
    - auto.
    - exists x, b1, a1. split; auto. split; auto. split; auto.
      destruct (key_run_inv truthy usage (conf x) seg0 (ok x) (T x) (TS x) (Inv x) (m x) (ms x) (Htab x Hk) (Hpost x Hk) (Hpar x Hk) (rows_of x Sf) (Hokf idx keys kp good Sf Hsf Hgood x Hk) (ok_app idx good good_app x) _ (forall i, truthy i = true)
        _ H b s (g_pre g) b1 a1 HK (fun c => Rw (k_filter (conf x)) c) St E1) as (K1 & _).
      rewrite C1 in *. split; auto. split; auto. destruct S1 as ((M1 & M2 & M3 & M4 & M5 & M6) & S2). split; auto. specialize (Lc (k_filter (conf x))).
      split; auto. split; auto. split; auto. split; [lia|]. split; [lia|]. auto. }
  (* the call completes *)
  assert (Ex : exists g' ex, agg idx truthy usage pre fs g seed true true final = Ok (g', ex)).
  { unfold agg.
    assert (C : exists g1, match seed with [] => Ok (g, None) | _ :: _ => let '(ys, p) := iter_data idx (g_restart g) pre fs true true (g_pre g) seed in let* '(g0, ex) := consume truthy usage g ys in Ok (mkStream (g_restart g0) p (g_keys g0) (g_log g0), ex) end = Ok (g1, None) /\
       g_restart g1 = R' /\ forall k b s, In (k, b, s) (g_keys g1) -> exists x, k = conf x /\ In x keys /\ kinv_ S x (rows_of x S) b s /\ small (conf x) (T x) (TS x) w (n + length seed) (rows_of x S) b).
    { destruct seed as [|c0 seed0].
      - exists g. split; auto. split; [unfold R', ys_of, iter_data; destruct (g_restart g); auto|]. intros k b s Hin. apply In_nth_error in Hin as [i Hin].
        destruct (KR i k b s Hin) as (x & b1 & a1 & E1 & E2 & E3 & E4 & E5 & _). exists x. split; auto. split; [eapply nth_error_In; eauto|].
        assert (Z : chunks_of (k_filter k) (ys_of idx fs pre g true true []) = []) by (unfold ys_of, iter_data; destruct (g_restart g); auto). rewrite Z in E3. injection E3 as <- <-. auto.
      - unfold ys_of in *. destruct (iter_data idx (g_restart g) pre fs true true (g_pre g) (c0 :: seed0)) as [ys p]. cbn [fst] in *.
        destruct (consume_ok truthy usage ys g Ne) as [g1 E1].
        { intros k b s Hin. apply In_nth_error in Hin as [i Hin]. destruct (KR i k b s Hin) as (x & b1 & a1 & _ & _ & E3 & _). eauto. }
        rewrite E1. cbn [bind]. eexists. split; [reflexivity|]. cbn [g_restart g_keys].
        destruct (consume_inv _ _ _ _ _ _ E1 Ne) as (_ & A & _). split; [auto|].
        destruct (consume_log _ _ _ _ _ _ E1 Ne) as (L & _ & Ln & LL). intros k b s Hin. apply In_nth_error in Hin as [i Hin].
        assert (Hi : (i < length (g_keys g))%nat) by (rewrite <- Ln; apply nth_error_Some; congruence). apply nth_error_Some in Hi.
        destruct (nth_error (g_keys g) i) as [[[k0 b0] s0]|] eqn:En; [|congruence].
        destruct (LL i k0 b0 s0 En) as (b1 & a1 & A1 & B1 & _). rewrite Hin in B1. injection B1 as -> -> ->.
        destruct (KR i k0 b0 s0 En) as (x & b2 & a2 & E2 & E3 & E4 & E5 & E6 & _). rewrite A1 in E4. injection E4 as <- <-. exists x. split; auto. split; [eapply nth_error_In; eauto|]. auto. }
    destruct C as (g1 & -> & Hr & Hk1). cbn [bind]. destruct final; cbn [bind]; [|eauto].
    unfold final_write. match goal with |- context [run_jobs ?j 0 (g_keys g1)] => destruct (run_jobs_ok j (g_keys g1) 0) as (l & log & E) end.
    { intros k b s Hin. destruct (Hk1 k b s Hin) as (x & -> & Hx & K1 & S1).
      destruct (final_small truthy usage (conf x) seg0 (ok x) (T x) (TS x) (Inv x) (m x) (ms x) (Htab x Hx) (Hpost x Hx) (Hpar x Hx) (rows_of x Sf) (Hokf idx keys kp good Sf Hsf Hgood x Hx) (ok_app idx good good_app x)
        (fun r H => consistent idx S (Some r) (kp x) H) (forall i, truthy i = true) (fun H p b => Hagg x H p b Hx) (Hwide x Hx) (Hsize x Hx) (Hnc x Hx) w Hw Husage n_max (Hlim x Hx)
        (n + length seed) (rows_of x S) b s (g_restart g1) (g_pre g1) K1 S1) as (b' & acts & E & _). eauto. }
    rewrite E. cbn [bind]. eauto. }
  destruct Ex as (g' & ex & E). exists g'.
  destruct (agg_log idx truthy usage fs gs Hfs pre Hpre g g' seed true true final ex Hne) as (-> & Hr & L & EL & Ln & LL); [rewrite Eseed; auto|auto|]. fold R' in Hr.
  split; auto.
  assert (Back : forall i k b' s', nth_error (g_keys g') i = Some (k, b', s') -> exists b s x b1 a1 a2, nth_error (g_keys g) i = Some (k, b, s) /\ k = conf x /\ nth_error keys i = Some x /\
     key_run truthy usage k (g_pre g) b s (chunks_of (k_filter k) (ys_of idx fs pre g true true seed)) = Ok (b1, a1) /\
     s' = apply_acts (apply_acts s a1) a2 /\ kinv_ S x (rows_of x S) b1 (apply_acts s a1) /\ small (conf x) (T x) (TS x) w (n + length seed) (rows_of x S) b1 /\ consistent idx S R' (kp x) (rows_of x S) /\
     if final then post_n_write truthy k b1 (apply_acts s a1) true R' (g_pre g') = Ok (b', a2) else b' = b1 /\ a2 = []).
  { intros i k b' s' Hin. assert (Hi : (i < length (g_keys g))%nat) by (rewrite <- Ln; apply nth_error_Some; congruence). apply nth_error_Some in Hi.
    destruct (nth_error (g_keys g) i) as [[[k0 b0] s0]|] eqn:En; [|congruence]. destruct (LL i k0 b0 s0 En) as (b2 & a & (b1 & a1 & a2 & A1 & -> & A2) & B1 & _). rewrite Hin in B1. injection B1 as -> -> ->.
    destruct (KR i k0 b0 s0 En) as (x & b3 & a3 & E2 & E3 & E4 & E5 & E6 & E7). rewrite A1 in E4. injection E4 as <- <-. rewrite Hr in A2.
    exists b0, s0, x, b1, a1, a2. rewrite apply_acts_app. do 8 (split; [auto|]). auto. }
  assert (Unb : R' = None -> forall i k b' s', nth_error (g_keys g') i = Some (k, b', s') -> s_main s' = None).
  { intros Rn i k b' s' Hin. destruct (Back i k b' s' Hin) as (b & s & x & b1 & a1 & a2 & B1 & B2 & B3 & B4 & -> & B5 & B6 & B7 & B8).
    destruct (restart_none _ _ Rn Ne) as [Rn1 Rn2]. rewrite Rn2 in B4. cbn [chunks_of flat_map key_run] in B4. injection B4 as <- <-. change (apply_acts s []) with s in *.
    assert (A2 : a2 = []).
    { destruct final; [|apply B8]. rewrite Rn in B7, B8. cbn [consistent] in B7.
      assert (Eb : b_bin b = None).
      { destruct B5 as (_ & _ & (_ & _ & Mc) & _). destruct (b_bin b) as [f0|] eqn:Eb; auto. exfalso.
        assert (Nz : forall c : @chan D P SB PB, In c (chans (conf x) (T x) (TS x) (m x) (ms x)) -> False).
        { intros c Hc. destruct Mc as [_ Mc]. destruct (Mc c Hc) as (f1 & A & _ & Hf0 & ET & _).
          destruct (chan_facts (conf x) seg0 (ok x) (T x) (TS x) (Inv x) (m x) (ms x) (Htab x (nth_error_In _ _ B3)) (Hpost x (nth_error_In _ _ B3)) (Hpar x (nth_error_In _ _ B3)) c Hc) as (_ & _ & ET0 & _).
          rewrite B7, ET0 in ET. symmetry in ET. apply app_eq_nil in ET as [_ ET]. apply app_eq_nil in ET as [_ ET]. auto. }
        unfold chans in Nz. destruct (k_type (conf x)); eapply Nz; left; reflexivity. }
      unfold post_n_write, results in B8. rewrite Eb in B8. cbn [bind] in B8. injection B8 as _ <-. auto. }
    subst a2. change (apply_acts s []) with s. apply (Hub Rn1 k b s). eapply nth_error_In; eauto. }
  split; [|split].
  - intros i k b' s' x H Hin Hx HC. rewrite Hr in HC. destruct (Back i k b' s' Hin) as (b & s & x' & b1 & a1 & a2 & B1 & -> & B3 & B4 & -> & B5 & B6 & B7 & B8).
    rewrite Hx in B3. injection B3 as <-. rewrite (consistent_unique S R' x H (rows_of x S) HC B7). pose proof (nth_error_In _ _ Hx) as Hk. destruct final.
    + destruct (final_small truthy usage (conf x) seg0 (ok x) (T x) (TS x) (Inv x) (m x) (ms x) (Htab x Hk) (Hpost x Hk) (Hpar x Hk) (rows_of x Sf) (Hokf idx keys kp good Sf Hsf Hgood x Hk) (ok_app idx good good_app x)
        (fun r H => consistent idx S (Some r) (kp x) H) (forall i, truthy i = true) (fun H p b => Hagg x H p b Hk) (Hwide x Hk) (Hsize x Hk) (Hnc x Hk) w Hw Husage n_max (Hlim x Hk)
        (n + length seed) (rows_of x S) b1 (apply_acts s a1) R' (g_pre g') B5 B6) as (b2 & acts & E2 & S2). rewrite B8 in E2. injection E2 as <- <-. auto.
    + destruct B8 as [-> _]. auto.
  - intros Rn k b s Hin. rewrite Hr in Rn. apply In_nth_error in Hin as [i Hin]. eapply Unb; eauto.
  - intros ->. destruct R' as [r|] eqn:ER; [right; exists r|left; intros k b s Hin; apply In_nth_error in Hin as [i Hin]; eapply Unb; eauto].
    intros k b' s' Hin. apply In_nth_error in Hin as [i Hin]. destruct (Back i k b' s' Hin) as (b & s & x & b1 & a1 & a2 & B1 & -> & B3 & B4 & -> & B5 & B6 & B7 & B8).
    pose proof (nth_error_In _ _ B3) as Hk.
    destruct (final_inv truthy usage (conf x) seg0 (ok x) (T x) (TS x) (Inv x) (m x) (ms x) (Htab x Hk) (Hpost x Hk) (Hpar x Hk) (rows_of x Sf) (Hokf idx keys kp good Sf Hsf Hgood x Hk) (ok_app idx good good_app x) _ (forall i, truthy i = true)
      (rows_of x S) b1 (apply_acts s a1) (Some r) (g_pre g') b' a2 B5) as (_ & _ & _ & _ & F5); auto.
    { intros j Ej. injection Ej as <-. auto. }
    { intros _. exists r. auto. }
    rewrite (Q r) in F5. auto.
Qed.

Lemma small_mono : forall k T TS n H b, small (D := D) (PB := PB) (SB := SB) k T TS w 0 H b -> small k T TS w n H b.
Proof using Type. intros k0 T0 TS0 n H b ((M1 & M2 & M3 & M4 & M5 & M6) & R). split; auto. do 3 (split; auto). split; [lia|]. split; [lia|auto]. Qed.

Lemma start_ok : forall S (g : stream) (r : @run D) n, mem_inv S g -> smalls n S g -> unborn g -> (r_fresh r = true -> restartable g) ->
  exists g1, (if r_fresh r then init pre0 seg0 post0 (map (fun x => let '(k, b, s) := x in (k, s)) (g_keys g)) else Ok g) = Ok g1 /\ mem_inv S g1 /\ smalls n S g1 /\ unborn g1.
Proof using All.
  intros S g r n Hm Hsm Hub Hr. destruct (r_fresh r) eqn:Ef; [|eauto]. specialize (Hr eq_refl).
  set (ks := map (fun x : kconf * kbuf * kstore => let '(k, b, s) := x in (k, s)) (g_keys g)).
  assert (Hks : forall k s, In (k, s) ks -> exists b, In (k, b, s) (g_keys g)).
  { intros k s Hin. apply in_map_iff in Hin as ([[k' b] s'] & E & Hin). injection E as <- <-. eauto. }
  assert (Hrs : forall z, In z (restarts_of ks) -> exists k b s e md, In (k, b, s) (g_keys g) /\ s_main s = Some e /\ e_md e = Some md /\ m_restart md = z).
  { intros z Hz. unfold restarts_of in Hz. apply in_flat_map in Hz as ([k s] & Hin & Hz). cbn [snd] in Hz. destruct (s_main s) as [e|] eqn:Es; [|destruct Hz].
    destruct (e_md e) as [md|] eqn:Em; [|destruct Hz]. destruct Hz as [Hz|[]]. destruct (Hks k s Hin) as [b Hb]. exists k, b, s, e, md. auto. }
  destruct (init_ok pre0 seg0 post0 ks) as [g1 E1].
  - intros k s e Hin Es. destruct (Hks k s Hin) as [b Hb]. destruct Hr as [Hr|[i Hr]]; [rewrite (Hr k b s Hb) in Es; discriminate|].
    destruct (Hr k b s Hb) as (md & Em & _). rewrite Es in Em. cbn [md_of] in Em. congruence.
  - intros z z' Hz Hz'. destruct (Hrs z Hz) as (k & b & s & e & md & A & B & C & <-). destruct (Hrs z' Hz') as (k' & b' & s' & e' & md' & A' & B' & C' & <-).
    destruct Hr as [Hr|[i Hr]]; [rewrite (Hr k b s A) in B; discriminate|]. destruct (Hr k b s A) as (m1 & M1 & <-). destruct (Hr k' b' s' A') as (m2 & M2 & M3).
    rewrite B in M1. rewrite B' in M2. cbn [md_of] in M1, M2. congruence.
  - exists g1. split; auto.
    destruct (start_step idx truthy pre0 seg0 post0 conf keys T TS Inv m ms kp good Htab Hpost Hpar Sf S g r g1 (or_introl Hm) (or_introl Hnc)) as (M & Ms & _).
    { rewrite Ef. auto. }
    split; auto. destruct (init_inv _ _ _ _ _ E1) as [F HR]. split.
    + intros i k b s x H Hin Hx HC. apply small_mono. destruct (Forall2_nth_r _ _ _ _ _ F Hin) as ([k' s'] & Hks0 & Hf). unfold fresh_key in Hf.
      destruct (s_main s'); [destruct Hf as (md & _ & Q0)|rename Hf into Q0]; injection Q0 as -> -> ->; apply small_fresh; auto.
    + intros Rn k b s Hin. rewrite Rn in HR. assert (Hs' : In s (map snd (g_keys g))) by (rewrite <- Ms; apply in_map_iff; exists (k, b, s); auto).
      apply in_map_iff in Hs' as ([[k' b'] s'] & Es & Hin'). cbn [snd] in Es. subst s'. destruct Hr as [Hr|[i0 Hr]]; [apply (Hr k' b' s Hin')|].
      destruct (Hr k' b' s Hin') as (md & Em & _). destruct (s_main s) as [e|] eqn:Es; auto. cbn [md_of] in Em. exfalso.
      assert (Hz : In (m_restart md) (restarts_of ks)).
      { unfold restarts_of. apply in_flat_map. exists (k', s). split; [apply in_map_iff; exists (k', b', s); auto|]. cbn [snd]. rewrite Es, Em. left. auto. }
      rewrite HR in Hz. destruct Hz.
Qed.
Lemma smalls_grow : forall n S S' g, grows idx S S' -> mem_inv S g -> smalls n S g -> smalls n S' g.
Proof using Type.
  intros n S S' g Hs [Hm _] H i k b s x H0 Hin Hx HC. destruct (Hm i k b s Hin) as (x' & _ & Hx' & H1 & HC1 & _). rewrite Hx in Hx'. injection Hx' as <-.
  pose proof (consistent_grow idx S S' (g_restart g) (kp x) H1 Hs HC1) as HC2. rewrite (consistent_unique _ _ _ _ _ HC HC2). eapply H; eauto.
Qed.

Lemma run_all_ok : forall rs S (g : stream) n wr, mem_inv S g -> smalls n S g -> unborn g -> (wr = true -> restartable g) ->
  sorted (map idx S) -> growing idx S rs -> Sf = whole_seed S rs -> all_written wr rs -> (chunks_between n rs <= n_max)%nat ->
  exists g', run_all idx truthy usage pre fs pre0 seg0 post0 g rs = Ok g'.
Proof using All.
  induction rs as [|r rs IH]; intros S g n wr Hm Hsm Hub Hr HS Hg Ef Hwr Hn; [simpl; eauto|]. cbn [growing run_all all_written chunks_between] in *.
  destruct Hg as (En & Hs & Hch & Hg). pose proof (conj En (conj HS Hs) : grows idx _ _) as G1. destruct Hwr as [Hf1 Hwr]. pose proof (growing_starts idx _ _ Hg Hs) as E2. rewrite whole_seed_cons in Ef. rewrite <- Ef in E2.
  destruct (start_ok S g r n Hm Hsm Hub (fun E => Hr (Hf1 E))) as (g1 & E1 & M1 & S1 & U1).
  pose proof (smalls_grow n S _ g1 G1 M1 S1) as S1'.
  pose proof (mem_inv_grow idx truthy conf keys T TS Inv m ms kp Sf S _ g1 G1 M1) as M1'.
  destruct (agg_ok (concat (r_seed r)) g1 (r_seed r) (r_final r) n M1' S1' U1 ltac:(lia) eq_refl E2 Hch) as (g2 & E & S2 & U2 & R2).
  unfold run_once. rewrite E1. cbn [bind]. rewrite E. cbn [bind].
  destruct (agg_step idx truthy usage fs gs Hfs pre Hpre seg0 conf keys T TS Inv m ms kp good good_app Htab Hpost Hpar Hkp Sf Hsf Hgood _ g1 g2 (r_seed r) (r_final r) None M1' eq_refl E2 Hch E) as (_ & M2 & _).
  apply (IH (concat (r_seed r)) g2 (if r_final r then 0%nat else (n + length (r_seed r))%nat) (r_final r)); auto. lia.
Qed.
Lemma new_ok : smalls 0 [] (new_stream pre0 seg0 post0 (map conf keys)) /\ unborn (new_stream pre0 seg0 post0 (map conf keys)) /\ restartable (new_stream pre0 seg0 post0 (map conf keys)).
Proof using Hw.
  assert (A : forall k b s, In (k, b, s) (g_keys (new_stream (P := P) pre0 seg0 post0 (map conf keys))) -> b = mkBuf 0 None None [] [] seg0 post0 /\ s = mkStore None None).
  { intros k b s Hin. unfold new_stream in Hin. cbn [g_keys] in Hin. apply in_map_iff in Hin as (k' & E & _). injection E as <- <- <-. auto. }
  split; [|split].
  - intros i k b s x H Hin _ _. destruct (A k b s (nth_error_In _ _ Hin)) as [-> ->]. apply small_fresh; auto.
  - intros _ k b s Hin. destruct (A k b s Hin) as [-> ->]. auto.
  - left. intros k b s Hin. destruct (A k b s Hin) as [-> ->]. auto.
Qed.
End RunOk.
