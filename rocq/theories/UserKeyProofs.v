(** Keys with bins made by a function of the user make up tables. *)
Require Import List Arith ZArith Bool Lia Sorting.Sorted.
Require Import Verif.Common Verif.AggModel Verif.AggSpec Verif.SegModel Verif.SegSpec Verif.SegProofs Verif.CsaModel Verif.CsaSpec Verif.WrModel Verif.StreamModel Verif.StreamSpec
  Verif.KeyModel Verif.TableProofs Verif.BatchSpec Verif.BatchProofs Verif.BatchRunProofs Verif.BatchKeyProofs Verif.BatchHoldProofs Verif.BatchOkProofs
  Verif.UserBinsSpec Verif.UserBinsProofs Verif.UserSnapSpec Verif.UserSnapProofs Verif.UserKeyModel Verif.UserKeySpec.
Require Verif.CsaProofs Verif.IterProofs.
Import ListNotations.
Local Open Scope Z_scope.

Section Parts.
Context {D SB SB' PB : Type}.
Lemma tabular_left : forall (k : kconf D SB PB) seg0 (seg' : SB') ok T TS Inv, tabular k seg0 ok T TS Inv ->
  tabular (on_left k) (seg0, seg') ok T TS (fun H b => Inv H (fst b)).
Proof.
  intros k seg0 seg' ok T TS Inv [A1 A2 A3 A4 A5 A6 A7 A8 A9 A10]. constructor; auto.
  intros H p b r b' Hp Hok Hi E. cbn [k_agg k_type on_left] in *. destruct (k_agg k p (fst b)) as [[r0 b0]|] eqn:E0; cbn [bind] in E; [|discriminate]. injection E as <- <-.
  cbn [fst]. eapply A4; eauto.
Qed.
Lemma tabular_right : forall (k : kconf D SB' PB) seg0 (seg' : SB) ok T TS Inv, tabular k seg0 ok T TS Inv ->
  tabular (on_right k) (seg', seg0) ok T TS (fun H b => Inv H (snd b)).
Proof.
  intros k seg0 seg' ok T TS Inv [A1 A2 A3 A4 A5 A6 A7 A8 A9 A10]. constructor; auto.
  intros H p b r b' Hp Hok Hi E. cbn [k_agg k_type on_right] in *. destruct (k_agg k p (snd b)) as [[r0 b0]|] eqn:E0; cbn [bind] in E; [|discriminate]. injection E as <- <-.
  cbn [snd]. eapply A4; eauto.
Qed.
Lemma tabular_weaken : forall (k : kconf D SB PB) seg0 (ok ok' : list D -> Prop) T TS Inv, (forall l, ok' l -> ok l) -> tabular k seg0 ok T TS Inv -> tabular k seg0 ok' T TS Inv.
Proof.
  intros k seg0 ok ok' T TS Inv Hw [A1 A2 A3 A4 A5 A6 A7 A8 A9 A10]. constructor; auto. intros. eapply A4; eauto.
Qed.
End Parts.

Section User.
Context {D V B PB : Type}.
Variable N : dtype -> num V.
Variable val : D -> cname -> V.
Variable dtypes : list (cname * dtype).
Variable idx : D -> Z.
Variable enc : option V -> Z.
Variable u : uconf D B PB.
Variable sp : uspec D B.
Hypothesis Hu : user_ok dtypes idx u sp.
Notation bins := (us_bins sp).
Notation after := (us_after sp).
Notation good := (us_good sp).

(** Snapshots given for rows [p] after rows [H]. *)
Definition ugs (H p : list D) : option (list (Z * list D)) :=
  option_map (fun _ => new_shots idx (us_closed sp) bins (us_ends sp) (us_points sp) H p) (u_snap u).
Definition uT : list D -> list row := tab N val (u_agg u) dtypes enc (new_bins bins).
Definition uTS : list D -> list row := tab_snap N val (u_agg u) dtypes enc ugs.
Definition uInv : list D -> option (csabuf B V) -> Prop :=
  match u_snap u with
  | None => uinv N val (u_agg u) dtypes bins after
  | Some _ => sinv N val (u_agg u) dtypes idx bins after (us_safter sp)
  end.
Definition ugood (l : list D) : Prop := sorted (map idx l) /\ good l.

Lemma new_nil : forall p, new_bins bins [] p = bins p.
Proof. intro p. destruct Hu as (_ & _ & _ & Hb & _). unfold new_bins. destruct (bn_nothing _ _ _ _ _ Hb) as [-> _]. auto. Qed.
Lemma ugood_uok : forall l, ugood l -> uok good (Some idx) l.
Proof. intros l [A B0]. split; auto. Qed.
Lemma ugood_sok : forall l, ugood l -> sok idx good l.
Proof. intros l [A B0]. split; auto. Qed.
Lemma ugb_stitch : forall H p, H <> [] -> p <> [] -> ugood (H ++ p) -> new_bins bins [] (H ++ p) = removelast (new_bins bins [] H) ++ new_bins bins H p.
Proof. intros H p HH Hp [_ Hg]. destruct Hu as (_ & _ & _ & Hb & _). rewrite !new_nil. eapply new_bins_stitch; eauto. Qed.
Lemma ugb_ne : forall H p, p <> [] -> ugood (H ++ p) -> new_bins bins H p <> [].
Proof.
  intros H p Hp [_ Hg]. destruct Hu as (_ & _ & _ & Hb & _). destruct H as [|h H]; [rewrite new_nil; eapply bins_ne; eauto|].
  apply (new_bins_hd _ _ _ _ _ Hb (h :: H) p ltac:(discriminate) Hp Hg).
Qed.
Lemma ugb_strict : forall H, H <> [] -> ugood H -> StronglySorted Z.lt (map fst (new_bins bins [] H)).
Proof. intros H _ [Hs Hg]. rewrite new_nil. destruct Hu as (_ & _ & _ & _ & Hl & _). auto. Qed.
Lemma ugb_labels : forall H p, H <> [] -> p <> [] -> ugood (H ++ p) -> starts (map fst (new_bins bins [] H)) (map fst (new_bins bins [] (H ++ p))).
Proof.
  intros H p HH Hp [_ Hg]. rewrite !new_nil. destruct Hu as (_ & _ & _ & Hb & _). destruct (bn_more _ _ _ _ _ Hb H p HH Hg) as (bs & l & r & r' & bs' & E1 & _ & E2).
  rewrite E1, E2, !map_app. exists (map fst bs'). rewrite <- app_assoc. auto.
Qed.

(** Snapshots. *)
Lemma shots_labels : forall l, map fst (shots idx (us_closed sp) bins (us_ends sp) (us_points sp) l) = map fst (us_points sp (map idx l)).
Proof. intro l. unfold shots. rewrite map_map. auto. Qed.
Lemma ugs_none : forall H p, ugs H p = None <-> u_snap u = None.
Proof. intros H p. unfold ugs. destruct (u_snap u); simpl; split; congruence. Qed.
Lemma ugs_same : forall H p H' p', ugs H p = None <-> ugs H' p' = None.
Proof. intros. rewrite !ugs_none. tauto. Qed.
Lemma ugs_nil : forall l g, ugs [] l = Some g -> g = shots idx (us_closed sp) bins (us_ends sp) (us_points sp) l /\ exists by_, u_snap u = Some by_.
Proof.
  intros l g E. unfold ugs in E. destruct (u_snap u) as [by_|] eqn:Es; [|discriminate]. injection E as <-. split; [|eauto].
  destruct Hu as (_ & _ & _ & _ & _ & Hsn). destruct (Hsn by_ Es) as (_ & Hp & _). exact (new_shots_hd idx (us_closed sp) bins (us_ends sp) by_ (us_points sp) (us_safter sp) Hp l).
Qed.
Lemma ugs_stitch : forall H p, H <> [] -> p <> [] -> ugood (H ++ p) ->
  ugs [] (H ++ p) = match ugs [] H, ugs H p with Some x, Some y => Some (removelast x ++ y) | _, _ => None end.
Proof.
  intros H p HH Hp [Hs Hg]. unfold ugs. destruct (u_snap u) as [by_|] eqn:Es; [|reflexivity]. cbn [option_map]. f_equal.
  destruct Hu as (_ & _ & _ & Hb & _ & Hsn). destruct (Hsn by_ Es) as (He & Hq & _).
  rewrite !(new_shots_hd idx (us_closed sp) bins (us_ends sp) by_ (us_points sp) (us_safter sp) Hq). eapply new_shots_stitch; eauto.
Qed.
Lemma ugs_ne : forall H p, p <> [] -> ugood (H ++ p) -> ugs H p <> Some [].
Proof.
  intros H p Hp [Hs Hg] E. unfold ugs in E. destruct (u_snap u) as [by_|] eqn:Es; [|discriminate]. cbn [option_map] in E. injection E as E.
  destruct Hu as (_ & _ & _ & Hb & _ & Hsn). destruct (Hsn by_ Es) as (He & Hq & _).
  unfold new_shots, shots in E. rewrite skipn_map in E. apply map_eq_nil in E.
  destruct H as [|h H].
  - cbn [app map] in E. destruct (sn_nothing _ _ _ _ Hq) as [E0 _]. rewrite E0 in E. cbn [length Nat.sub skipn] in E.
    assert (Hm : map idx p <> []) by (destruct p; simpl; congruence).
    destruct (sn_more _ _ _ _ Hq (map idx p) [] Hm) as (ps & x & ps' & E1 & _); [rewrite app_nil_r; exact Hs|]. cbn [app] in E. rewrite E1 in E. destruct ps; discriminate.
  - destruct (new_points idx (us_closed sp) by_ (us_points sp) (us_safter sp) Hq (h :: H) p ltac:(discriminate) Hs) as (ps & x & ps' & _ & _ & E3 & _). rewrite E3 in E. discriminate.
Qed.
Lemma ugs_strict : forall H g, H <> [] -> ugood H -> ugs [] H = Some g -> StronglySorted Z.lt (map fst g).
Proof.
  intros H g _ [Hs Hg] E. destruct (ugs_nil _ _ E) as (-> & by_ & Es). rewrite shots_labels. destruct Hu as (_ & _ & _ & _ & _ & Hsn). apply (Hsn by_ Es). auto.
Qed.
Lemma ugs_labels : forall H p g g', H <> [] -> p <> [] -> ugood (H ++ p) -> ugs [] H = Some g -> ugs [] (H ++ p) = Some g' -> starts (map fst g) (map fst g').
Proof.
  intros H p g g' HH Hp [Hs Hg] E E'. destruct (ugs_nil _ _ E) as (-> & by_ & Es). destruct (ugs_nil _ _ E') as (-> & _). rewrite !shots_labels.
  destruct Hu as (_ & _ & _ & _ & _ & Hsn). destruct (Hsn by_ Es) as (_ & Hq & _).
  destruct (new_points idx (us_closed sp) by_ (us_points sp) (us_safter sp) Hq H p HH Hs) as (ps & x & ps' & E1 & E2 & _). rewrite E1, E2, !map_app. cbn [map].
  exists (map fst ps'). rewrite <- app_assoc. auto.
Qed.

(** A call. *)
Lemma ucall : forall eo H p b, p <> [] -> ugood (H ++ p) -> uInv H b ->
  outcome N val (u_agg u) dtypes eo (new_bins bins H p) (ugs H p) (uInv (H ++ p)) (cumsegagg N val (u_agg u) dtypes (u_bins u) (u_empty u) (Some idx) (u_snap u) eo p b).
Proof.
  intros eo H p b Hp Hok Hi. pose proof Hu as (Hv & Hnd & Hne & Hb & _ & Hsn). unfold uInv, ugs in *. destruct (u_snap u) as [by_|]; cbn [option_map].
  - destruct (Hsn by_ eq_refl) as (He & Hq & _).
    exact (snap_step N val (u_agg u) dtypes Hv Hnd Hne idx (us_closed sp) (u_bins u) (u_empty u) bins after good (us_ends sp) Hb He by_ (us_points sp) (us_safter sp) Hq eo H p b Hp (ugood_sok _ Hok) Hi).
  - exact (user_step N val (u_agg u) dtypes Hv Hnd Hne (u_bins u) (u_empty u) bins after good Hb (Some idx) eo H p b Hp (ugood_uok _ Hok) Hi).
Qed.
Lemma ucall_once : forall eo l, l <> [] -> ugood l ->
  outcome N val (u_agg u) dtypes eo (new_bins bins [] l) (ugs [] l) (fun b => b = None) (cumsegagg N val (u_agg u) dtypes (u_bins u) (u_empty u) (Some idx) (u_snap u) eo l None).
Proof.
  intros eo l Hl Hok. pose proof Hu as (Hv & Hnd & Hne & Hb & _ & Hsn). rewrite new_nil. unfold ugs. destruct (u_snap u) as [by_|]; cbn [option_map].
  - destruct (Hsn by_ eq_refl) as (He & Hq & _). rewrite (new_shots_hd idx (us_closed sp) bins (us_ends sp) by_ (us_points sp) (us_safter sp) Hq).
    exact (snap_once N val (u_agg u) dtypes Hv Hnd Hne idx (us_closed sp) (u_bins u) (u_empty u) bins after good (us_ends sp) Hb He by_ (us_points sp) eo l (sn_points _ _ _ _ Hq) Hl (ugood_sok _ Hok)).
  - exact (user_once N val (u_agg u) dtypes Hv Hnd Hne (u_bins u) (u_empty u) bins after good Hb (Some idx) eo l Hl (ugood_uok _ Hok)).
Qed.

Lemma user_tabular : tabular (user_key N val dtypes idx enc u) (Some csabuf_empty) ugood uT uTS uInv.
Proof.
  pose proof Hu as (Hv & Hnd & Hne & Hb & _). constructor.
  - unfold uInv. destruct (u_snap u); exists csabuf_empty; auto.
  - reflexivity.
  - reflexivity.
  - intros H p b r b' Hp Hok Hi E. cbn [k_agg user_key] in E. unfold user_segagg in E.
    match type of E with bind ?X _ = _ => destruct X as [[r0 b1]|] eqn:E0 end; cbn [bind] in E; [|discriminate]. injection E as <- <-.
    destruct (step_table N val (u_agg u) dtypes enc Hv ugood (fun p b => cumsegagg N val (u_agg u) dtypes (u_bins u) (u_empty u) (Some idx) (u_snap u) true p b) uInv (new_bins bins) ugs
      (ucall true) ugb_stitch ugs_stitch ugs_same ugb_ne ugs_ne H p b r0 b1 Hp Hok Hi E0) as (f & sn & -> & I1 & T1 & T2 & T3).
    exists (table enc (u_agg u) f), (option_map (table enc (u_agg u)) sn). split; auto. split; auto. split; auto. split; auto.
    cbn [k_type user_key]. unfold user_type. destruct sn as [s|]; cbn [option_map].
    + destruct T3 as (T3 & T4 & T5). destruct (u_snap u) as [s0|] eqn:Es; [|exfalso; apply (T3 [] []); apply ugs_none; auto]. destruct (u_two u); auto.
    + specialize (T3 [] []). apply ugs_none in T3. rewrite T3. auto.
  - apply tab_strict_. apply ugb_strict.
  - apply tab_labels_. apply ugb_labels.
  - apply tab_keep_. apply ugb_stitch.
  - apply tab_snap_strict_. apply ugs_strict.
  - apply tab_snap_labels_. apply ugs_same. apply ugs_labels.
  - apply tab_snap_keep_. apply ugs_stitch. apply ugs_same.
Qed.

Lemma cut_incl : forall (l : list D) ps from r, In r (cut from ps l) -> incl r l.
Proof.
  intros l ps. induction ps as [|p ps IH]; intros from r H; [destruct H|]. destruct H as [<-|H]; [|eapply IH; eauto].
  intros x Hx. rewrite <- (firstn_skipn from l). apply in_or_app. right. rewrite <- (firstn_skipn (p - from) (skipn from l)). apply in_or_app. left. auto.
Qed.
Lemma bins_incl : forall l g, good l -> In g (bins l) -> incl (snd g) l.
Proof.
  intros l g Hg Hin. destruct Hu as (_ & _ & _ & Hb & _). destruct l as [|a l0] eqn:El; [destruct (bn_nothing _ _ _ _ _ Hb) as [E _]; rewrite E in Hin; destruct Hin|]. rewrite <- El in *.
  destruct (bn_once _ _ _ _ _ Hb l ltac:(congruence) Hg) as (sg & _ & Hd). apply (in_map snd) in Hin. rewrite (ds_rows _ _ _ _ Hd) in Hin.
  apply (cut_incl l (s_starts sg) 0%nat). destruct (cut 0 (s_starts sg) l); auto.
Qed.
Lemma new_bins_incl : forall H p g, good (H ++ p) -> In g (new_bins bins H p) -> incl (snd g) (H ++ p).
Proof.
  intros H p g Hg Hin. apply bins_incl; auto. unfold new_bins in Hin. rewrite <- (firstn_skipn (length (bins H) - 1) (bins (H ++ p))). apply in_or_app. auto.
Qed.
Lemma ugs_incl : forall H p l g, good (H ++ p) -> ugs H p = Some l -> In g l -> incl (snd g) (H ++ p).
Proof.
  intros H p l g Hg E Hin. unfold ugs in E. destruct (u_snap u) as [by_|]; [|discriminate]. injection E as <-. unfold new_shots in Hin.
  assert (Hin' : In g (shots idx (us_closed sp) bins (us_ends sp) (us_points sp) (H ++ p))).
  { rewrite <- (firstn_skipn (length (us_points sp (map idx H)) - 1)). apply in_or_app. auto. }
  apply in_map_iff in Hin' as (pt & <- & _). cbn [snd]. unfold shot. intros x Hx. apply filter_In in Hx as [Hx _].
  set (i := length (filter (fun k => k <? snd pt) (us_ends sp (H ++ p)))) in *. destruct (nth_in_or_default i (map snd (bins (H ++ p))) []) as [Hn|Hn]; [|rewrite Hn in Hx; destruct Hx].
  apply in_map_iff in Hn as (g0 & E0 & Hg0). rewrite <- E0 in Hx. exact (bins_incl (H ++ p) g0 Hg Hg0 x Hx).
Qed.

Lemma user_accepts : forall H p b, p <> [] -> ugood (H ++ p) -> uInv H b ->
  (forall out i f d l v, In (out, (i, Some f)) (u_agg u) -> dict_get Nat.eqb i dtypes = Some d -> incl l (H ++ p) -> agg_of N val d f i l = Some v -> is0 (N d) v = false) ->
  exists f sn b', k_agg (user_key N val dtypes idx enc u) p b = Ok (Some (f, sn), b') /\ (0 < ncols f)%nat /\ (forall s, sn = Some s -> (0 < ncols s)%nat).
Proof.
  intros H p b Hp Hok Hi Hz. destruct (ucall true H p b Hp Hok Hi) as [_ O].
  destruct O as (fb & fs & b' & E & _ & Fs & _).
  { intros [_ Z0]. assert (Z' : forall l, (forall g, In g l -> incl (snd g) (H ++ p)) -> ~ some_zero N val (u_agg u) dtypes l).
    { intros l Hl (out & i & f & d & g & v & A & A1 & C & E & F). rewrite (Hz out i f d (snd g) v A A1 (Hl g C) E) in F. discriminate. }
    destruct Z0 as [Z0|(l & El & Z0)]; revert Z0; apply Z'; intros g Hg; [eapply new_bins_incl|eapply ugs_incl]; eauto; apply Hok. }
  cbn [k_agg user_key]. unfold user_segagg. rewrite E. cbn [bind tables option_map fst snd]. do 3 eexists. split; [reflexivity|]. split; [cbn; lia|].
  intros s Es. destruct fs; cbn [option_map] in Es; [injection Es as <-; cbn; lia|discriminate].
Qed.

Lemma user_batch_tables : forall l, l <> [] -> ugood l -> exists fb fs, user_batch N val dtypes idx u l = Ok (Some (fb, fs)) /\ rows (table enc (u_agg u) fb) = uT l /\
  match fs with None => u_snap u = None | Some s => u_snap u <> None /\ rows (table enc (u_agg u) s) = uTS l end.
Proof.
  intros l Hl Hok. pose proof Hu as (Hv & _). destruct (ucall_once false l Hl Hok) as [_ O].
  destruct O as (f & sn & b & E & F & Fs & _); [intros [Q _]; discriminate|]. exists f, sn. unfold user_batch. rewrite E. split; auto. split.
  - rewrite (table_rows N val (u_agg u) dtypes enc Hv _ _ F). unfold uT. rewrite tab_cons; auto.
  - destruct sn as [s|]; destruct (ugs [] l) as [g|] eqn:Eg; try contradiction.
    + split; [intro Q; apply (ugs_none [] l) in Q; congruence|]. rewrite (table_rows N val (u_agg u) dtypes enc Hv _ _ Fs). unfold uTS. rewrite tab_snap_cons, Eg; auto.
    + apply ugs_none in Eg. auto.
Qed.
Lemma user_results : forall l, ugood l -> user_type u <> BINS ->
  (length (uT l) + length (uTS l))%nat = match user_batch N val dtypes idx u l with Ok (Some (bs, Some ss)) => (length (f_labels bs) + length (f_labels ss))%nat | _ => 0%nat end.
Proof.
  intros l Hok Ht. assert (R : forall fr, length (rows (table enc (u_agg u) fr)) = length (f_labels fr)).
  { intro fr. unfold table. cbn [rows]. rewrite map_length, seq_length. auto. }
  destruct l as [|a l].
  - unfold user_batch. cbn. unfold cumsegagg. reflexivity.
  - destruct (user_batch_tables (a :: l) ltac:(discriminate) Hok) as (b & s & -> & E1 & E2). rewrite <- E1, R.
    destruct s as [s|]; [destruct E2 as [_ <-]; rewrite R; auto|]. exfalso. apply Ht. unfold user_type. rewrite E2. auto.
Qed.
End User.
