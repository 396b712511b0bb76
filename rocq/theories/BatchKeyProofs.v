(** Keys with bins of time, or of a number of rows, make up tables. *)
Require Import List Arith ZArith Bool Lia Sorting.Sorted Sorting.Permutation.
Require Import Verif.Common Verif.AggModel Verif.AggSpec Verif.AggProofs.
Require Import Verif.SegModel Verif.SegSpec Verif.SegProofs Verif.SegRowsProofs.
Require Import Verif.CsaModel Verif.CsaSpec Verif.CsaTimeProofs Verif.CsaPiecesProofs Verif.CsaRowsProofs.
Require Import Verif.KeyModel.
Require Verif.WrModel Verif.StreamModel Verif.StreamSpec.
Require Import Verif.TableProofs Verif.BatchSpec.
Import ListNotations.
Local Open Scope Z_scope.

Lemma zrange_lt_head : forall {A} (P : A -> Prop) (g : Z -> A) k0 k1, (forall k, k0 <= k -> P (g k)) -> Forall P (map g (zrange k0 k1)).
Proof. intros A P g k0 k1 H. apply Forall_forall. intros y Hy. apply in_map_iff in Hy as (k & <- & Hk). apply zrange_In in Hk. apply H. lia. Qed.
Lemma row_bin_incl : forall {A} x b (l : list A), incl (row_bin x b l) l.
Proof.
  intros A x b l r Hr. unfold row_bin in Hr. rewrite <- (firstn_skipn (b * x) l). apply in_or_app. right.
  rewrite <- (firstn_skipn x (skipn (b * x) l)). apply in_or_app. left. exact Hr.
Qed.
Lemma labels_strict : forall lab a f k0 k1, 0 < f -> StronglySorted Z.lt (map (period_label lab a f) (zrange k0 k1)).
Proof.
  intros lab a f k0 k1 Hf. remember (Z.to_nat (k1 - k0 + 1)) as n eqn:En. revert k0 En. induction n as [|n IH]; intros k0 En.
  - rewrite zrange_nil by lia. constructor.
  - rewrite zrange_cons by lia. simpl. constructor; [apply IH; lia|]. apply zrange_lt_head. intros k Hk. unfold period_label. destruct lab; nia.
Qed.

Section Generic.
Context {D V B : Type}.
Variable N : dtype -> num V.
Variable val : D -> cname -> V.
Variables (agg : aggspec) (dtypes : list (cname * dtype)).
Variable enc : option V -> Z.
Hypothesis Hvalid : agg_valid agg dtypes.

(** Row of a table, from the rows of a group. *)
Definition value (o : cname * (cname * option afun)) (rows : list D) : option V :=
  match dict_get Nat.eqb (fst (snd o)) dtypes, snd (snd o) with
  | Some d, Some f => agg_of N val d f (fst (snd o)) rows
  | _, _ => None
  end.
Definition group_row (g : Z * list D) : list Z := fst g :: map (fun o => enc (value o (snd g))) agg.

Lemma table_rows : forall groups fr, frame_is N val agg dtypes groups fr -> WrModel.rows (table enc agg fr) = map group_row groups.
Proof.
  intros groups fr (E1 & _ & E3). unfold table. cbn [WrModel.rows]. rewrite E1, map_length.
  assert (C : forall i, (i < length groups)%nat -> nth i (map fst groups) 0 :: map (fun o => enc (nth i (fcol (fst o) fr) None)) agg = group_row (nth i groups (0, []))).
  { intros i Hi. unfold group_row. f_equal; [apply (map_nth fst groups (0, []))|]. apply map_ext_in. intros [out [i0 f]] Ho. cbn [fst]. f_equal.
    destruct (Hvalid out i0 f Ho) as [[d Hd] Hf]. destruct f as [f|]; [|congruence]. unfold value. cbn [fst snd]. rewrite Hd. unfold fcol. rewrite (E3 out i0 f d Ho Hd).
    rewrite (nth_indep _ None (agg_of N val d f i0 (snd (0, @nil D)))) by (rewrite map_length; auto). apply (map_nth (fun g : Z * list D => agg_of N val d f i0 (snd g)) groups (0, [])). }
  transitivity (map (fun i => group_row (nth i groups (0, []))) (seq 0 (length groups))).
  - apply map_ext_in. intros i Hi. apply in_seq in Hi. apply C. lia.
  - clear. induction groups as [|g groups IH]; auto. cbn [length seq map nth]. f_equal. rewrite <- seq_shift, map_map. auto.
Qed.
Lemma labels_group : forall groups, map (WrModel.col 0) (map group_row groups) = map fst groups.
Proof. intro groups. rewrite map_map. apply map_ext. auto. Qed.

Variable ok : list D -> Prop.
Hypothesis ok_app : forall H p, ok (H ++ p) -> ok H.
Variable call : list D -> option (csabuf B V) -> res (option (frame V * option (frame V)) * option (csabuf B V)).
Variable Inv : list D -> option (csabuf B V) -> Prop.
Variables (gb : list D -> list D -> list (Z * list D)) (gs : list D -> list D -> option (list (Z * list D))).
Hypothesis call_step : forall H p b, p <> [] -> ok (H ++ p) -> Inv H b ->
  outcome N val agg dtypes true (gb H p) (gs H p) (Inv (H ++ p)) (call p b).
Hypothesis gb_stitch : forall H p, H <> [] -> p <> [] -> ok (H ++ p) -> gb [] (H ++ p) = removelast (gb [] H) ++ gb H p.
Hypothesis gs_stitch : forall H p, H <> [] -> p <> [] -> ok (H ++ p) ->
  gs [] (H ++ p) = match gs [] H, gs H p with Some x, Some y => Some (removelast x ++ y) | _, _ => None end.
Hypothesis gs_same : forall H p H' p', (gs H p = None <-> gs H' p' = None).
Hypothesis gb_ne : forall H p, p <> [] -> ok (H ++ p) -> gb H p <> [].
Hypothesis gs_ne : forall H p, p <> [] -> ok (H ++ p) -> gs H p <> Some [].
Hypothesis gb_strict : forall H, H <> [] -> ok H -> StronglySorted Z.lt (map fst (gb [] H)).
Hypothesis gs_strict : forall H g, H <> [] -> ok H -> gs [] H = Some g -> StronglySorted Z.lt (map fst g).
Hypothesis gb_labels : forall H p, H <> [] -> p <> [] -> ok (H ++ p) -> starts (map fst (gb [] H)) (map fst (gb [] (H ++ p))).
Hypothesis gs_labels : forall H p g g', H <> [] -> p <> [] -> ok (H ++ p) -> gs [] H = Some g -> gs [] (H ++ p) = Some g' -> starts (map fst g) (map fst g').

Definition tab (H : list D) : list WrModel.row := match H with [] => [] | _ => map group_row (gb [] H) end.
Definition tab_snap (H : list D) : list WrModel.row :=
  match H with [] => [] | _ => match gs [] H with Some g => map group_row g | None => [] end end.

Lemma tab_cons : forall H, H <> [] -> tab H = map group_row (gb [] H).
Proof. intros [|h H] Hn; [congruence|auto]. Qed.
Lemma tab_snap_cons : forall H, H <> [] -> tab_snap H = match gs [] H with Some g => map group_row g | None => [] end.
Proof. intros [|h H] Hn; [congruence|auto]. Qed.
Lemma app_ne : forall (H p : list D), p <> [] -> H ++ p <> [].
Proof. intros [|h H] p Hp; simpl; congruence. Qed.
Lemma map_removelast_ : forall {A A'} (g : A -> A') l, map g (removelast l) = removelast (map g l).
Proof. intros A A' g l. destruct l as [|a l _] using rev_ind; auto. rewrite map_app. cbn [map]. rewrite !removelast_last. auto. Qed.

Lemma step_table : forall H p b r b', p <> [] -> ok (H ++ p) -> Inv H b -> call p b = Ok (r, b') ->
  exists f sn, r = Some (f, sn) /\ Inv (H ++ p) b' /\ tab (H ++ p) = removelast (tab H) ++ WrModel.rows (table enc agg f) /\ WrModel.rows (table enc agg f) <> [] /\
    match sn with
    | None => forall X Y, gs X Y = None
    | Some s => (forall X Y, gs X Y <> None) /\ tab_snap (H ++ p) = removelast (tab_snap H) ++ WrModel.rows (table enc agg s) /\ WrModel.rows (table enc agg s) <> []
    end.
Proof.
  intros H p b r b' Hp Hok Hi E. destruct (call_step H p b Hp Hok Hi) as [O1 O2].
  destruct O2 as (f & sn & b2 & E2 & F & Fs & Hb2). { intro Z0. rewrite (O1 Z0) in E. discriminate. }
  rewrite E in E2. injection E2 as -> <-. exists f, sn. split; auto. split; auto. rewrite (table_rows _ _ F).
  assert (Hn : H ++ p <> []) by (apply app_ne; auto). split; [|split].
  - rewrite (tab_cons _ Hn). destruct H as [|h H']; [reflexivity|]. rewrite (tab_cons (h :: H')) by discriminate.
    rewrite (gb_stitch (h :: H') p ltac:(discriminate) Hp Hok), map_app, map_removelast_. auto.
  - intro Q0. apply map_eq_nil in Q0. exact (gb_ne H p Hp Hok Q0).
  - destruct sn as [s|].
    + destruct (gs H p) as [g|] eqn:Eg; [|contradiction]. rewrite (table_rows _ _ Fs).
      assert (Sm : forall X Y, gs X Y <> None). { intros X Y Q0. apply (gs_same X Y H p) in Q0. congruence. }
      split; auto. split.
      * rewrite (tab_snap_cons _ Hn). destruct H as [|h H']; [cbn [app] in *; rewrite Eg; reflexivity|]. rewrite (tab_snap_cons (h :: H')) by discriminate.
        rewrite (gs_stitch (h :: H') p ltac:(discriminate) Hp Hok), Eg. destruct (gs [] (h :: H')) as [g0|] eqn:E0; [|exfalso; eapply Sm; eauto].
        rewrite map_app, map_removelast_. auto.
      * intro Q0. apply map_eq_nil in Q0. subst g. exact (gs_ne H p Hp Hok Eg).
    + intros X Y. destruct (gs H p) eqn:Eg; [contradiction|]. apply (gs_same X Y H p). auto.
Qed.
Lemma tab_strict_ : forall H, ok H -> StronglySorted Z.lt (map (WrModel.col 0) (tab H)).
Proof. intros [|h H] Ho; [constructor|]. rewrite tab_cons, labels_group by discriminate. apply gb_strict; auto. discriminate. Qed.
Lemma tab_snap_strict_ : forall H, ok H -> StronglySorted Z.lt (map (WrModel.col 0) (tab_snap H)).
Proof.
  intros [|h H] Ho; [constructor|]. rewrite tab_snap_cons by discriminate. destruct (gs [] (h :: H)) eqn:E; [|constructor]. rewrite labels_group. eapply gs_strict; eauto. discriminate.
Qed.
Lemma tab_labels_ : forall H p, ok (H ++ p) -> starts (map (WrModel.col 0) (tab H)) (map (WrModel.col 0) (tab (H ++ p))).
Proof.
  intros H p Ho. destruct p as [|q p]; [rewrite app_nil_r; apply starts_refl|]. destruct H as [|h H]; [apply starts_nil|].
  rewrite !tab_cons, !labels_group by discriminate. apply gb_labels; auto; discriminate.
Qed.
Lemma tab_snap_labels_ : forall H p, ok (H ++ p) -> starts (map (WrModel.col 0) (tab_snap H)) (map (WrModel.col 0) (tab_snap (H ++ p))).
Proof.
  intros H p Ho. destruct p as [|q p]; [rewrite app_nil_r; apply starts_refl|]. destruct H as [|h H]; [apply starts_nil|].
  rewrite !tab_snap_cons by discriminate. destruct (gs [] (h :: H)) as [g|] eqn:E; [|apply starts_nil].
  destruct (gs [] ((h :: H) ++ q :: p)) as [g'|] eqn:E'; [|exfalso; apply (gs_same [] (h :: H)) in E'; congruence].
  rewrite !labels_group. eapply gs_labels; eauto; discriminate.
Qed.
Lemma tab_keep_ : forall H p, ok (H ++ p) -> starts (removelast (tab H)) (tab (H ++ p)).
Proof.
  intros H p Ho. destruct p as [|q p]; [rewrite app_nil_r; apply starts_removelast|]. destruct H as [|h H]; [apply starts_nil|].
  rewrite !tab_cons by discriminate. rewrite gb_stitch by (auto; discriminate). rewrite map_app, map_removelast_. apply starts_app.
Qed.
Lemma tab_snap_keep_ : forall H p, ok (H ++ p) -> starts (removelast (tab_snap H)) (tab_snap (H ++ p)).
Proof.
  intros H p Ho. destruct p as [|q p]; [rewrite app_nil_r; apply starts_removelast|]. destruct H as [|h H]; [apply starts_nil|].
  rewrite !tab_snap_cons by discriminate. rewrite gs_stitch by (auto; discriminate).
  destruct (gs [] (h :: H)) as [g|] eqn:E; [|apply starts_nil].
  destruct (gs (h :: H) (q :: p)) as [g'|] eqn:E'; [|exfalso; apply (gs_same [] (h :: H)) in E'; congruence].
  rewrite map_app, map_removelast_. apply starts_app.
Qed.
End Generic.

Section Periods.
Context {D : Type}.
Variable t : D -> Z.
Variables (c : side) (a f : Z).
Hypothesis Hf : 0 < f.
Notation first := (fun H p : list D => match H with [] => kappa c a f (hd 0 (map t p)) | _ => kappa c a f (last (map t H) 0) end).
Notation final := (fun l : list D => kappa c a f (last (map t l) 0)).

Lemma first_le_final : forall H p, p <> [] -> sorted (map t (H ++ p)) -> first H p <= final (H ++ p).
Proof.
  intros H p Hp Hs. cbv beta. assert (Hmn := map_ne t p Hp). rewrite map_app in *. rewrite (last_app_ne (map t H) (map t p)) by auto. apply sorted_app in Hs as (HsH & Hsp & Hcross).
  destruct H as [|h H]; [apply kappa_hd_le; auto; apply last_In; auto|]. apply kappa_mono; auto. apply Hcross; [apply last_In; discriminate|apply last_In; auto].
Qed.
Lemma period_groups_ne : forall {A} (g : Z -> A) H p, p <> [] -> sorted (map t (H ++ p)) -> map g (zrange (first H p) (final (H ++ p))) <> [].
Proof. intros A g H p Hp Hs. rewrite zrange_cons by (apply first_le_final; auto). discriminate. Qed.
Lemma period_groups_labels : forall {A} (g : Z -> A) H p, H <> [] -> p <> [] -> sorted (map t (H ++ p)) ->
  starts (map g (zrange (kappa c a f (hd 0 (map t H))) (final H))) (map g (zrange (kappa c a f (hd 0 (map t (H ++ p)))) (final (H ++ p)))).
Proof.
  intros A g H p HH Hp Hs. replace (hd 0 (map t (H ++ p))) with (hd 0 (map t H)) by (destruct H; [congruence|auto]). apply starts_map.
  pose proof (first_le_final H p Hp Hs) as L. rewrite map_app in Hs. apply sorted_app in Hs as (HsH & _ & _).
  assert (L2 : kappa c a f (hd 0 (map t H)) <= final H) by (apply kappa_hd_le; auto; apply last_In; apply map_ne; auto).
  assert (L3 : final H <= final (H ++ p)) by (destruct H; [congruence|auto]).
  cbv beta in *. rewrite (zrange_app (kappa c a f (hd 0 (map t H))) (kappa c a f (last (map t H) 0)) (kappa c a f (last (map t (H ++ p)) 0))) by lia. apply starts_app.
Qed.
End Periods.

Section Inst.
Context {D V PB : Type}.
Variable N : dtype -> num V.
Variable val : D -> cname -> V.
Variable dtypes : list (cname * dtype).
Variable idx : D -> Z.
Variable enc : option V -> Z.
Notation bconf := (bconf PB).

Definition kgb (c : bconf) : list D -> list D -> list (Z * list D) :=
  match c_by c with ByTime tg => tgb idx tg | ByRows x _ => rgb idx x end.
Definition kgs (c : bconf) : list D -> list D -> option (list (Z * list D)) :=
  match c_by c with ByTime tg => tgs idx tg (c_snap c) | ByRows x cl => rgs idx x cl (c_snap c) end.
Definition kT (c : bconf) : list D -> list WrModel.row := tab N val (c_agg c) dtypes enc (kgb c).
Definition kTS (c : bconf) : list D -> list WrModel.row := tab_snap N val (c_agg c) dtypes enc (kgs c).
Definition kInv (c : bconf) (H : list D) (b : segbuf) : Prop :=
  match c_by c with
  | ByTime tg => tinv N val (c_agg c) dtypes idx tg (c_snap c) H (fst b)
  | ByRows x cl => rinv N val (c_agg c) dtypes idx x cl (c_snap c) H (snd b)
  end.
Definition kok (c : bconf) (l : list D) : Prop := sorted (map idx l) /\ no_tie idx c l.

Lemma no_tie_app : forall (c : bconf) (a b : list D), no_tie idx c (a ++ b) -> no_tie idx c a.
Proof.
  intros c a b. unfold no_tie. destruct (c_by c) as [|x cl]; auto. intros B2 i Hi Hlt. specialize (B2 i Hi).
  rewrite app_length in B2. specialize (B2 ltac:(lia)). rewrite map_app, !app_nth1 in B2 by (rewrite map_length; lia). auto.
Qed.
Lemma kok_app : forall c a b, kok c (a ++ b) -> kok c a.
Proof. intros c a b [H H']. split; [rewrite map_app in H; apply sorted_app in H; tauto|eapply no_tie_app; eauto]. Qed.
Lemma kok_rok : forall c x cl l, c_by c = ByRows x cl -> kok c l -> rok idx x cl (c_snap c) true l.
Proof. intros c x cl l E [H H']. unfold no_tie in H'. rewrite E in H'. split; auto. Qed.

Variable c : bconf.
Hypothesis Hc : conf_ok dtypes c.

Lemma kgb_stitch : forall H p, H <> [] -> p <> [] -> kok c (H ++ p) -> kgb c [] (H ++ p) = removelast (kgb c [] H) ++ kgb c H p.
Proof.
  intros H p HH Hp [Hs _]. destruct Hc as (_ & _ & _ & _ & Hb). unfold kgb. destruct (c_by c); [apply tgb_stitch|apply rgb_stitch]; tauto.
Qed.
Lemma kgs_stitch : forall H p, H <> [] -> p <> [] -> kok c (H ++ p) ->
  kgs c [] (H ++ p) = match kgs c [] H, kgs c H p with Some x, Some y => Some (removelast x ++ y) | _, _ => None end.
Proof.
  intros H p HH Hp [Hs _]. destruct Hc as (_ & _ & _ & Hsn & Hb). unfold kgs. destruct (c_by c); [apply tgs_stitch|apply rgs_stitch]; tauto.
Qed.
Lemma kgs_none : forall H p, kgs c H p = None <-> c_snap c = None.
Proof. intros H p. unfold kgs. destruct (c_by c); unfold tgs, rgs; destruct (c_snap c); simpl; split; congruence. Qed.
Lemma kgs_same : forall H p H' p', kgs c H p = None <-> kgs c H' p' = None.
Proof. intros. rewrite !kgs_none. tauto. Qed.
Lemma kgb_ne : forall H p, p <> [] -> kok c (H ++ p) -> kgb c H p <> [].
Proof.
  intros H p Hp [Hs _]. destruct Hc as (_ & _ & _ & _ & Hb). unfold kgb. destruct (c_by c) as [tg|x cl].
  - apply period_groups_ne; tauto.
  - unfold rgb, row_groups. discriminate.
Qed.
Lemma kgs_ne : forall H p, p <> [] -> kok c (H ++ p) -> kgs c H p <> Some [].
Proof.
  intros H p Hp [Hs _]. destruct Hc as (_ & _ & _ & Hsn & Hb). unfold kgs, tgs, rgs. destruct (c_snap c) as [s|]; [|destruct (c_by c); discriminate].
  destruct (Hsn s eq_refl) as [Hf _].
  destruct (c_by c) as [tg|x cl]; cbn [option_map]; intro Q; injection Q as Q; revert Q; apply period_groups_ne; auto.
Qed.
Lemma row_labels_strict : forall x l, (0 < x)%nat -> l <> [] -> sorted (map idx l) -> no_straddle idx x l -> StronglySorted Z.lt (map fst (rgb idx x [] l)).
Proof.
  intros x l Hx Hl Hs Hn. unfold rgb, row_groups. cbn [length app]. rewrite map_map. cbn [fst].
  assert (HL : (0 < length l)%nat) by (destruct l; [congruence|simpl; lia]).
  destruct (xb_facts x 0 (length l) Hx HL) as (_ & _ & _ & F4 & F5 & _).
  assert (E0 : xb0 x 0 = 0%nat) by (unfold xb0; apply Nat.div_small; lia). rewrite E0 in *. set (b1 := xb1 x 0 (length l)) in *. rewrite Nat.sub_0_r.
  assert (G : forall n b, (b + n <= S b1)%nat -> StronglySorted Z.lt (map (fun b => nth (b * x) (map idx l) 0) (seq b n))).
  { induction n as [|n IH]; intros b Hb; [constructor|]. cbn [seq map]. constructor; [apply IH; lia|]. apply Forall_forall. intros z Hz.
    apply in_map_iff in Hz as (b' & <- & Hb'). apply in_seq in Hb'.
    assert (M : (b * x <= b' * x - 1)%nat) by nia. assert (M2 : (b' * x < length l)%nat) by nia.
    pose proof (sorted_nth_le (map idx l) (b * x) (b' * x - 1) Hs M ltac:(rewrite map_length; lia)) as L1. specialize (Hn b' ltac:(lia) M2). lia. }
  apply (G (S b1) 0%nat). lia.
Qed.
Lemma kgb_strict : forall H, H <> [] -> kok c H -> StronglySorted Z.lt (map fst (kgb c [] H)).
Proof.
  intros H HH [Hs Ht]. destruct Hc as (_ & _ & _ & _ & Hb). unfold kgb, no_tie in *. destruct (c_by c) as [tg|x cl].
  - unfold tgb, time_groups. rewrite map_map. apply labels_strict. tauto.
  - apply row_labels_strict; auto.
Qed.
Lemma kgs_strict : forall H g, H <> [] -> kok c H -> kgs c [] H = Some g -> StronglySorted Z.lt (map fst g).
Proof.
  intros H g HH [Hs Ht] E. destruct Hc as (_ & _ & _ & Hsn & Hb). unfold kgs, tgs, rgs in E. destruct (c_snap c) as [s|]; [|destruct (c_by c); discriminate].
  destruct (Hsn s eq_refl) as [Hf _].
  destruct (c_by c); cbn [option_map] in E; injection E as <-; unfold time_snaps, row_snaps; rewrite map_map; apply labels_strict; auto.
Qed.
Lemma kgb_labels : forall H p, H <> [] -> p <> [] -> kok c (H ++ p) -> starts (map fst (kgb c [] H)) (map fst (kgb c [] (H ++ p))).
Proof.
  intros H p HH Hp [Hs Ht]. destruct Hc as (_ & _ & _ & _ & Hb). unfold kgb, no_tie in *. destruct (c_by c) as [tg|x cl].
  - unfold tgb, time_groups. rewrite !map_map. exact (period_groups_labels idx (tg_closed tg) (anchor tg) (tg_freq tg) (proj1 Hb) (period_label (tg_label tg) (anchor tg) (tg_freq tg)) H p HH Hp Hs).
  - rewrite rgb_stitch by auto. rewrite map_app, map_removelast_. unfold rgb, row_groups. rewrite !map_map. cbn [fst length app].
    assert (HL : (0 < length p)%nat) by (destruct p; [congruence|simpl; lia]). assert (Hn : (0 < length H)%nat) by (destruct H; [congruence|simpl; lia]).
    destruct (xb_facts x (length H) (length p) Hb HL) as (F1 & F2 & F3 & F4 & F5 & F6). specialize (F3 Hn).
    assert (E0 : xb0 x 0 = 0%nat) by (unfold xb0; apply Nat.div_small; lia). rewrite E0.
    replace (xb1 x 0 (length H)) with (xb0 x (length H)) by reflexivity. rewrite Nat.sub_0_r.
    rewrite (map_seq_snoc _ 0 (xb0 x (length H))), removelast_last. cbn [Nat.add seq map].
    eexists. rewrite <- app_assoc. f_equal. cbn [app]. f_equal. rewrite map_app, app_nth1 by (rewrite map_length; auto). auto.
Qed.
Lemma kgs_labels : forall H p g g', H <> [] -> p <> [] -> kok c (H ++ p) -> kgs c [] H = Some g -> kgs c [] (H ++ p) = Some g' -> starts (map fst g) (map fst g').
Proof.
  intros H p g g' HH Hp [Hs Ht] E E'. destruct Hc as (_ & _ & _ & Hsn & Hb). unfold kgs, tgs, rgs in E, E'. destruct (c_snap c) as [s|]; [|destruct (c_by c); discriminate].
  destruct (Hsn s eq_refl) as [Hf _].
  destruct (c_by c) as [tg|x cl]; cbn [option_map] in E, E'; injection E as <-; injection E' as <-; unfold time_snaps, row_snaps; rewrite !map_map.
  - exact (period_groups_labels idx (tg_closed tg) (anchor s) (tg_freq s) Hf (period_label (tg_label s) (anchor s) (tg_freq s)) H p HH Hp Hs).
  - exact (period_groups_labels idx cl (anchor s) (tg_freq s) Hf (period_label (tg_label s) (anchor s) (tg_freq s)) H p HH Hp Hs).
Qed.

Lemma key_tabular : tabular (key_of N val dtypes idx enc c) segbuf_empty (kok c) (kT c) (kTS c) (kInv c).
Proof.
  pose proof Hc as (Hv & Hnd & Hne & Hsn & Hb). constructor.
  - unfold kInv. destruct (c_by c); exists csabuf_empty; split; auto.
  - reflexivity.
  - reflexivity.
  - intros H p b r b' Hp Hok Hi E. cbn [StreamModel.k_agg key_of] in E. unfold segagg in E. unfold kInv in *.
    assert (G : forall B0 (call : list D -> option (csabuf B0 V) -> res (option (frame V * option (frame V)) * option (csabuf B0 V))) (Iv : list D -> option (csabuf B0 V) -> Prop) b0 r0 b1,
       (forall H p b, p <> [] -> kok c (H ++ p) -> Iv H b -> outcome N val (c_agg c) dtypes true (kgb c H p) (kgs c H p) (Iv (H ++ p)) (call p b)) ->
       Iv H b0 -> call p b0 = Ok (r0, b1) -> exists f sn, tables enc (c_agg c) r0 = Some (f, sn) /\ Iv (H ++ p) b1 /\ kT c (H ++ p) = removelast (kT c H) ++ WrModel.rows f /\ WrModel.rows f <> [] /\
       match type_of c, sn with
       | StreamModel.BINS, None => True
       | StreamModel.BINS, Some _ | _, None => False
       | _, Some s => kTS c (H ++ p) = removelast (kTS c H) ++ WrModel.rows s /\ WrModel.rows s <> []
       end).
    { intros B0 call Iv b0 r0 b1 Hcall Hi0 E0.
      destruct (step_table N val (c_agg c) dtypes enc Hv (kok c) call Iv (kgb c) (kgs c) Hcall kgb_stitch kgs_stitch kgs_same kgb_ne kgs_ne H p b0 r0 b1 Hp Hok Hi0 E0) as (f & sn & -> & I1 & T1 & T2 & T3).
      exists (table enc (c_agg c) f), (option_map (table enc (c_agg c)) sn). split; auto. split; auto. split; auto. split; auto. unfold type_of. destruct sn as [s|]; cbn [option_map].
      - destruct T3 as (T3 & T4 & T5). destruct (c_snap c) as [s0|] eqn:Es; [|exfalso; apply (T3 [] []); apply kgs_none; auto].
        destruct (c_two c); auto.
      - specialize (T3 [] []). apply kgs_none in T3. rewrite T3. auto. }
    destruct (c_by c) as [tg|x cl] eqn:Eb.
    + match type of E with bind ?X _ = _ => destruct X as [[r0 b1]|] eqn:E0 end; cbn [bind] in E; [|discriminate]. injection E as <- <-.
      apply (G _ (fun p b => cumsegagg N val (c_agg c) dtypes (time_bins idx tg) sbuf_empty (Some idx) (option_map ByTG (c_snap c)) true p b) (tinv N val (c_agg c) dtypes idx tg (c_snap c)) (fst b) r0 b1); auto.
      intros H0 p0 b0 Hp0 [Hs0 _] Hi0. unfold kgb, kgs. rewrite Eb. apply time_step; tauto.
    + match type of E with bind ?X _ = _ => destruct X as [[r0 b1]|] eqn:E0 end; cbn [bind] in E; [|discriminate]. injection E as <- <-.
      apply (G _ (fun p b => cumsegagg N val (c_agg c) dtypes (row_bins idx x cl) None (Some idx) (option_map ByTG (c_snap c)) true p b) (rinv N val (c_agg c) dtypes idx x cl (c_snap c)) (snd b) r0 b1); auto.
      intros H0 p0 b0 Hp0 Hk0 Hi0. unfold kgb, kgs. rewrite Eb. apply (row_step N val (c_agg c) dtypes Hv Hnd Hne idx x Hb cl (c_snap c) Hsn true true); auto. apply kok_rok; auto.
  - apply tab_strict_. apply kgb_strict.
  - apply tab_labels_. apply kgb_labels.
  - apply tab_keep_. apply kgb_stitch.
  - apply tab_snap_strict_. apply kgs_strict.
  - apply tab_snap_labels_. apply kgs_same. apply kgs_labels.
  - apply tab_snap_keep_. apply kgs_stitch. apply kgs_same.
Qed.

(** Groups are made of rows which have been given. *)
Lemma kgb_rows : forall H p g, In g (kgb c H p) -> incl (snd g) (H ++ p).
Proof.
  intros H p g Hg. unfold kgb in Hg. destruct (c_by c) as [tg|x cl]; unfold tgb, time_groups, rgb, row_groups in Hg; apply in_map_iff in Hg as (k & <- & _); cbn [snd].
  - apply incl_filter.
  - apply row_bin_incl.
Qed.
Lemma kgs_rows : forall H p l g, kgs c H p = Some l -> In g l -> incl (snd g) (H ++ p).
Proof.
  intros H p l g E Hg. unfold kgs, tgs, rgs in E. destruct (c_by c) as [tg|x cl]; destruct (c_snap c) as [s|]; cbn [option_map] in E; try discriminate; injection E as <-;
    unfold time_snaps, row_snaps in Hg; apply in_map_iff in Hg as (k & <- & _); cbn [snd].
  - apply incl_filter.
  - unfold snap_of_rows. eapply incl_tran; [apply row_bin_incl|apply incl_filter].
Qed.
(** Without zeros, rows are accepted. *)
Lemma key_accepts : forall H p b, p <> [] -> kok c (H ++ p) -> kInv c H b -> never_zero N val dtypes c (H ++ p) ->
  exists f sn b', StreamModel.k_agg (key_of N val dtypes idx enc c) p b = Ok (Some (f, sn), b') /\ (0 < WrModel.ncols f)%nat /\ (forall s, sn = Some s -> (0 < WrModel.ncols s)%nat).
Proof.
  intros H p b Hp Hok Hi Hz. pose proof Hc as (Hv & Hnd & Hne & Hsn & Hb).
  assert (NZ : ~ zero_refused N val (c_agg c) dtypes true (kgb c H p) (kgs c H p)).
  { intros [_ Z]. assert (Z' : forall l, (forall g, In g l -> incl (snd g) (H ++ p)) -> ~ some_zero N val (c_agg c) dtypes l).
    { intros l Hl (out & i & f & d & g & v & A & B & C & E & F). rewrite (Hz out i f d (snd g) v A B (Hl g C) E) in F. discriminate. }
    destruct Z as [Z|(l & El & Z)]; revert Z; apply Z'; intros g Hg; [eapply kgb_rows; eauto|eapply kgs_rows; eauto]. }
  assert (G : forall B0 (P : option (csabuf B0 V) -> Prop) r, outcome N val (c_agg c) dtypes true (kgb c H p) (kgs c H p) P r -> exists fb fs b', r = Ok (Some (fb, fs), b')).
  { intros B0 P r [_ O]. destruct (O NZ) as (fb & fs & b' & E & _). eauto. }
  cbn [StreamModel.k_agg key_of]. unfold segagg, kInv, kgb, kgs in *. destruct (c_by c) as [tg|x cl] eqn:Eb.
  - destruct (G _ _ _ (time_step N val (c_agg c) dtypes Hv Hnd Hne idx tg (c_snap c) (proj1 Hb) (proj2 Hb) Hsn true H p (fst b) Hp (proj1 Hok) Hi)) as (fb & fs & b' & E).
    rewrite E. cbn [bind tables option_map fst snd]. do 3 eexists. split; [reflexivity|]. split; [cbn; lia|]. intros s Es. destruct fs; cbn [option_map] in Es; [injection Es as <-; cbn; lia|discriminate].
  - destruct (G _ _ _ (row_step N val (c_agg c) dtypes Hv Hnd Hne idx x Hb cl (c_snap c) Hsn true true H p (snd b) Hp (kok_rok c x cl _ Eb Hok) Hi)) as (fb & fs & b' & E).
    rewrite E. cbn [bind tables option_map fst snd]. do 3 eexists. split; [reflexivity|]. split; [cbn; lia|]. intros s Es. destruct fs; cbn [option_map] in Es; [injection Es as <-; cbn; lia|discriminate].
Qed.

(** Tables are those of a single aggregation. *)
Lemma batch_tables : forall l, l <> [] -> kok c l -> exists bins snaps, batch N val dtypes idx c l = Ok (Some (bins, snaps)) /\
  WrModel.rows (table enc (c_agg c) bins) = kT c l /\
  match snaps with None => c_snap c = None | Some s => c_snap c <> None /\ WrModel.rows (table enc (c_agg c) s) = kTS c l end.
Proof.
  intros l Hl Hok. pose proof Hc as (Hv & Hnd & Hne & Hsn & Hb).
  assert (G : forall B0 (P : option (csabuf B0 V) -> Prop) call, outcome N val (c_agg c) dtypes false (kgb c [] l) (kgs c [] l) P call ->
    exists bins snaps b, call = Ok (Some (bins, snaps), b) /\ WrModel.rows (table enc (c_agg c) bins) = kT c l /\
    match snaps with None => c_snap c = None | Some s => c_snap c <> None /\ WrModel.rows (table enc (c_agg c) s) = kTS c l end).
  { intros B0 P call [_ O]. destruct O as (f & sn & b & E & F & Fs & _); [intros [Q _]; discriminate|]. exists f, sn, b. split; auto. split.
    - rewrite (table_rows N val (c_agg c) dtypes enc Hv _ _ F). unfold kT. rewrite tab_cons; auto.
    - destruct sn as [s|]; destruct (kgs c [] l) as [g|] eqn:Eg; try contradiction.
      + split; [intro Q; apply (kgs_none [] l) in Q; congruence|]. rewrite (table_rows N val (c_agg c) dtypes enc Hv _ _ Fs). unfold kTS. rewrite tab_snap_cons, Eg; auto.
      + apply kgs_none in Eg. auto. }
  unfold batch. unfold kgb, kgs in G. destruct (c_by c) as [tg|x cl] eqn:Eb.
  - destruct (G _ _ _ (time_fixed_once N val (c_agg c) dtypes Hv Hnd Hne idx tg (c_snap c) (proj1 Hb) (proj2 Hb) Hsn false l Hl (proj1 Hok))) as (f & sn & b & E & R). exists f, sn. rewrite E. auto.
  - destruct (G _ _ _ (row_fixed_once N val (c_agg c) dtypes Hv Hnd Hne idx x Hb cl (c_snap c) Hsn true false l Hl (kok_rok c x cl l Eb Hok))) as (f & sn & b & E & R). exists f, sn. rewrite E. auto.
Qed.
End Inst.
