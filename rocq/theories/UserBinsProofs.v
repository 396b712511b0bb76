(** 'cumsegagg' with any binning function. *)
Require Import List Arith ZArith Bool Lia Sorted Permutation.
Require Import Verif.Common Verif.AggModel Verif.AggSpec Verif.AggProofs.
Require Import Verif.SegModel Verif.SegSpec Verif.SegProofs Verif.SegRowsProofs Verif.MergeProofs Verif.EventProofs.
Require Import Verif.CsaModel Verif.CsaSpec Verif.CsaProofs Verif.CsaLoopProofs Verif.CsaSegProofs Verif.CsaTimeProofs.
Require Import Verif.CsaPiecesProofs Verif.UserBinsSpec.
Import ListNotations.

Section User.
Context {D V B : Type}.
Variable N : dtype -> num V.
Variable val : D -> cname -> V.
Variables (agg : aggspec) (dtypes : list (cname * dtype)).
Hypothesis Hvalid : agg_valid agg dtypes.
Hypothesis Hnodup : NoDup (map fst agg).
Hypothesis Hagg : agg <> [].
Variable bin_by : list D -> option B -> res (seg * option B).
Variable empty : B.
Variable bins : list D -> list (Z * list D).
Variable after : list D -> B -> Prop.
Variable good : list D -> Prop.
Hypothesis Hbin : binning bin_by empty bins after good.
Variable ordered : option (D -> Z).
Notation csa := (cumsegagg N val agg dtypes).

Definition uok (l : list D) : Prop := good l /\ match ordered with Some o => sorted (map o l) | None => True end.

Lemma describes_seg_ok : forall sg (running more : list D) bs, more <> [] -> bs <> [] -> describes sg running more bs ->
  seg_ok more sg /\ combine (s_labels sg) (bin_groups running (s_starts sg) more) = bs /\
  bin_groups running (s_starts sg) more = map snd bs.
Proof.
  intros sg running more bs Hm Hb [D1 D2 D3 D4 D5 D6 D7 D8].
  assert (Hg : bin_groups running (s_starts sg) more = map snd bs).
  { rewrite D7. destruct (s_starts sg) as [|p ps]; auto. }
  split; [|split; auto].
  - constructor; auto.
    + rewrite D1, map_length. auto.
    + congruence.
    + intro Q. rewrite Q in D3. destruct bs; [congruence|discriminate].
    + intros Hl. destruct (length (s_starts sg)) as [|[|n]] eqn:E; try lia. specialize (D6 n eq_refl).
      replace (S (S n) - 2) with n by lia. lia.
  - rewrite Hg, D1. clear. induction bs as [|[x y] l IH]; simpl; f_equal; auto.
Qed.

Definition uinv (H : list D) (b : option (csabuf B V)) : Prop :=
  exists cb, b = Some cb /\
  match H with
  | [] => cb = csabuf_empty
  | _ => (exists bb, mb_bin (cb_main cb) = Some bb /\ after H bb) /\ mb_last_label (cb_main cb) = Some (last (map fst (bins H)) 0%Z) /\
         exists r, cb_last cb = Some r /\ last_is N val agg dtypes (last_rows (bins H)) r
  end.

Lemma bins_ne : forall rows, rows <> [] -> good rows -> bins rows <> [].
Proof. intros rows Hr Hg Q. destruct (bn_more _ _ _ _ _ Hbin rows [] Hr ltac:(rewrite app_nil_r; auto)) as (bs & l & r & r' & bs' & E & _). rewrite Q in E. destruct bs; discriminate. Qed.

Lemma new_bins_stitch : forall H p, H <> [] -> p <> [] -> good (H ++ p) -> bins (H ++ p) = removelast (bins H) ++ new_bins bins H p.
Proof.
  intros H p HH Hp Hg. destruct (bn_more _ _ _ _ _ Hbin H p HH Hg) as (bs & l & r & r' & bs' & E1 & _ & E2).
  unfold new_bins. rewrite E1, E2, removelast_last, app_length. simpl length. replace (length bs + 1 - 1) with (length bs) by lia.
  rewrite skipn_app, Nat.sub_diag, skipn_all. auto.
Qed.

Lemma new_bins_hd : forall H p, H <> [] -> p <> [] -> good (H ++ p) -> hd 0%Z (map fst (new_bins bins H p)) = last (map fst (bins H)) 0%Z
  /\ new_bins bins H p <> [] /\ last_rows (bins H) <> [] /\ NoDup (map fst (new_bins bins H p))
  /\ last (map fst (new_bins bins H p)) 0%Z = last (map fst (bins (H ++ p))) 0%Z
  /\ last_rows (bins (H ++ p)) = last (map snd (new_bins bins H p)) [].
Proof.
  intros H p HH Hp Hg. pose proof (new_bins_stitch H p HH Hp Hg) as Es.
  destruct (bn_more _ _ _ _ _ Hbin H p HH Hg) as (bs & l & r & r' & bs' & E1 & Er & E2).
  assert (E : new_bins bins H p = (l, r ++ r') :: bs').
  { rewrite E1, E2, removelast_last in Es. apply app_inv_head in Es. auto. }
  assert (Hnd := bn_labels _ _ _ _ _ Hbin (H ++ p) Hg).
  rewrite Es, map_app in Hnd. unfold last_rows. rewrite Es at 2. rewrite Es. rewrite E in *.
  rewrite E1, !map_app. cbn [map fst snd]. rewrite !last_last. split; auto. split; [discriminate|]. split; auto.
  split; [clear -Hnd; revert Hnd; generalize (map fst (removelast (bins H))); induction l0 as [|z l0 IH]; simpl; auto; intro Q; inversion Q; auto|].
  rewrite !last_app_ne by discriminate. auto.
Qed.

Lemma user_step : forall eo H p b, p <> [] -> uok (H ++ p) -> uinv H b ->
  outcome N val agg dtypes eo (new_bins bins H p) None (uinv (H ++ p)) (csa bin_by empty ordered None eo p b).
Proof.
  intros eo H p b Hp Hok (cb & -> & Hinv).
  assert (Hord : match ordered with Some o => sorted (map o p) | None => True end).
  { destruct Hok as [_ Hok]. destruct ordered; auto. rewrite map_app in Hok. apply sorted_app in Hok. tauto. }
  destruct Hok as [Hg _].
  destruct (bn_nothing _ _ _ _ _ Hbin) as [N1 N2].
  assert (Hb0 : exists bb, after H bb /\ bin_buffer empty (Some cb) = Some bb).
  { unfold bin_buffer. destruct H; [subst cb; simpl; eauto|]. destruct Hinv as ((bb & -> & Hb) & _). eauto. }
  destruct Hb0 as (bb0 & Hb0 & Eb0).
  destruct (bn_call _ _ _ _ _ Hbin H p bb0 Hp Hg Hb0) as (sg & bb' & E & Hb' & Hd).
  assert (Hnb : new_bins bins H p <> [] /\ NoDup (map fst (new_bins bins H p))
     /\ last (map fst (new_bins bins H p)) 0%Z = last (map fst (bins (H ++ p))) 0%Z
     /\ last_rows (bins (H ++ p)) = last (map snd (new_bins bins H p)) []).
  { destruct H as [|h0 H'].
    - unfold new_bins. rewrite N1. simpl. split; [apply bins_ne; auto|]. split; auto. apply (bn_labels _ _ _ _ _ Hbin); auto.
    - destruct (new_bins_hd (h0 :: H') p ltac:(discriminate) Hp Hg) as (_ & A1 & _ & A2 & A3 & A4). auto. }
  destruct Hnb as (Hnb & Hnd & Hll & Hlr).
  destruct (describes_seg_ok sg (last_rows (bins H)) p (new_bins bins H p) Hp Hnb Hd) as (Sok & Scomb & Sg).
  pose proof (cumsegagg_gen N val agg dtypes Hvalid Hnodup Hagg bin_by empty ordered eo p (Some cb) (last_rows (bins H)) sg (Some bb')) as G.
  cbv zeta in G. rewrite Scomb in G. rewrite Sg in G.
  eapply outcome_impl.
  - apply G; auto.
    + rewrite Eb0. exact E.
    + unfold running. destruct H as [|h0 H']; [subst cb; simpl; rewrite N1; auto|].
      destruct (new_bins_hd (h0 :: H') p ltac:(discriminate) Hp Hg) as (A1 & _ & A2 & _).
      destruct Hinv as (_ & -> & Hr). split; [|split; auto]. rewrite (ds_labels _ _ _ _ Hd). auto.
    + apply (ds_null _ _ _ _ Hd).
    + apply NoDup_consistent. auto.
  - intros b' (r & -> & Hr). eexists. split; [reflexivity|].
    destruct (H ++ p) as [|y l] eqn:Ex; [apply app_eq_nil in Ex as [_ Ex]; congruence|]. rewrite <- Ex in *.
    simpl. split; [eauto|]. split.
    + f_equal. rewrite (ds_labels _ _ _ _ Hd). auto.
    + exists r. split; auto. rewrite Hlr. auto.
Qed.

Lemma user_once : forall eo rows, rows <> [] -> uok rows ->
  outcome N val agg dtypes eo (bins rows) None (fun b => b = None) (csa bin_by empty ordered None eo rows None).
Proof.
  intros eo rows Hne [Hg Hok]. destruct (bn_once _ _ _ _ _ Hbin rows Hne Hg) as (sg & E & Hd).
  destruct (describes_seg_ok sg [] rows (bins rows) Hne (bins_ne rows Hne Hg) Hd) as (Sok & Scomb & Sg).
  pose proof (cumsegagg_gen N val agg dtypes Hvalid Hnodup Hagg bin_by empty ordered eo rows None [] sg None) as G.
  cbv zeta in G. rewrite Scomb in G. rewrite Sg in G. eapply outcome_impl.
  - apply G; auto; [reflexivity|apply (ds_null _ _ _ _ Hd)|]. apply NoDup_consistent. apply (bn_labels _ _ _ _ _ Hbin); auto.
  - auto.
Qed.

Lemma user_pieces : forall eo pieces, concat pieces <> [] -> uok (concat pieces) ->
  let piece p b := csa bin_by empty ordered None eo p b in
  (eo = false -> exists rs b', run_pieces piece (Some csabuf_empty) pieces = Ok (rs, b')) /\
  (forall rs b', run_pieces piece (Some csabuf_empty) pieces = Ok (rs, b') ->
   exists fw, csa bin_by empty ordered None false (concat pieces) None = Ok (Some (fw, None), None)
     /\ frames_make agg (bin_frames rs) fw /\ snap_frames rs = []).
Proof.
  intros eo pieces Hne Hok piece. destruct (bn_nothing _ _ _ _ _ Hbin) as [N1 N2].
  assert (Hinv : uinv [] (Some csabuf_empty)) by (exists csabuf_empty; split; auto).
  assert (Happ : forall H p : list D, uok (H ++ p) -> uok H).
  { intros H p [G Q]. split; [eapply bn_good; eauto|]. destruct ordered; auto. rewrite map_app in Q. apply sorted_app in Q. tauto. }
  assert (Hnil : forall p, new_bins bins [] p = bins p) by (intros p; unfold new_bins; rewrite N1; auto).
  split.
  - intros Heo. apply (run_total N val agg dtypes piece eo uok uinv (new_bins bins) (fun _ _ => None)) with (H := []); auto.
    intros H p b. apply user_step.
  - intros rs b' Hrun.
    pose proof (user_once false (concat pieces) Hne Hok) as O.
    destruct (proj2 O) as (fw0 & sw0 & bw0 & E0 & _ & Hsw & ->); [intros [Q _]; discriminate|].
    destruct sw0; [contradiction|].
    pose proof (pieces_whole N val agg dtypes Hvalid piece eo uok uinv (new_bins bins) (fun _ _ => None)
      Happ (fun b => eq_refl) (fun H p b => user_step eo H p b)) as W.
    destruct (W ltac:(intros H p A1 A2 [A3 _]; rewrite !Hnil; apply new_bins_stitch; auto) ltac:(auto) ltac:(tauto)
      pieces (Some csabuf_empty) rs b' (csa bin_by empty ordered None false (concat pieces) None))
      as (fw & sw & bw & E & F1 & F2); auto.
    + rewrite Hnil. apply (outcome_impl N val agg dtypes _ _ _ _ _ _ O). auto.
    + rewrite E0 in E. injection E as <- <- <-. eauto.
Qed.
End User.
