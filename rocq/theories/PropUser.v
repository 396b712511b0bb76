(** Properties: any binning function (C61). *)
Require Import List Arith ZArith Bool Lia Sorted.
Require Import Verif.Common Verif.AggModel Verif.AggSpec Verif.AggProofs.
Require Import Verif.SegModel Verif.SegSpec Verif.SegProofs Verif.MergeProofs Verif.EventProofs.
Require Import Verif.CsaModel Verif.CsaSpec Verif.CsaProofs Verif.CsaLoopProofs Verif.CsaSegProofs Verif.CsaTimeProofs.
Require Import Verif.CsaPiecesProofs Verif.UserBinsSpec Verif.UserBinsProofs Verif.PropSeg Verif.PropCsa.
Import ListNotations.

(** * C61: any binning function *)
(** One call. *)
Theorem C61_user_bins : forall {D V B} (N : dtype -> num V) (val : D -> cname -> V) agg dtypes bin_by (empty : B) bins after good ordered eo rows,
  agg_valid agg dtypes -> NoDup (map fst agg) -> agg <> [] -> binning bin_by empty bins after good ->
  rows <> [] -> good rows -> match ordered with Some o => sorted (map o rows) | None => True end ->
  outcome N val agg dtypes eo (bins rows) None (fun b => b = None) (cumsegagg N val agg dtypes bin_by empty ordered None eo rows None).
Proof. intros. eapply user_once; eauto. split; auto. Qed.
Print Assumptions C61_user_bins.

(** Successive calls. *)
Theorem C61_user_bins_pieces : forall {D V B} (N : dtype -> num V) (val : D -> cname -> V) agg dtypes bin_by (empty : B) bins after good ordered eo pieces,
  agg_valid agg dtypes -> NoDup (map fst agg) -> agg <> [] -> binning bin_by empty bins after good ->
  concat pieces <> [] -> good (concat pieces) -> match ordered with Some o => sorted (map o (concat pieces)) | None => True end ->
  let csa := cumsegagg N val agg dtypes bin_by empty ordered None in
  (eo = false -> exists rs b', run_pieces (csa eo) (Some csabuf_empty) pieces = Ok (rs, b')) /\
  (forall rs b', run_pieces (csa eo) (Some csabuf_empty) pieces = Ok (rs, b') ->
   exists fw, csa false (concat pieces) None = Ok (Some (fw, None), None) /\ frames_make agg (bin_frames rs) fw /\ snap_frames rs = []).
Proof.
  intros D V B N val agg dtypes bin_by empty bins after good ordered eo pieces Hv Hn Ha Hb Hne Hg Ho.
  exact (user_pieces N val agg dtypes Hv Hn Ha bin_by empty bins after good Hb ordered eo pieces Hne (conj Hg Ho)).
Qed.
Print Assumptions C61_user_bins_pieces.

(** Checks made on what the function returns, when a buffer is given: what is returned is accepted if and
    only if there are as many labels and ends as bins, the last bin stops at the last row and has rows,
    and the first label is the last one of the previous call. *)
Theorem C61_checks : forall {D B} (bin_by : list D -> option B -> res (seg * option B)) empty ordered data m sg bb',
  match ordered with Some o => sorted (map o data) | None => True end ->
  bin_by data (Some (match mb_bin m with Some b => b | None => empty end)) = Ok (sg, bb') ->
  (exists so m', segmentby bin_by empty ordered None data (Some m) = Ok (so, m')) <->
  (length (s_labels sg) = length (s_starts sg) /\ length (s_ends sg) = length (s_starts sg) /\
   (exists ps p, s_starts sg = ps ++ [p] /\ p = length data /\ (forall qs q, ps = qs ++ [q] -> q <> length data)) /\
   forall l, mb_last_label m = Some l -> hd 0%Z (s_labels sg) = l).
Proof.
  intros D B bin_by empty ordered data m sg bb' Hord Hbb. unfold segmentby.
  assert (Hsm : setup_mainbuffer empty (Some m) false =
     Ok (Some (match mb_bin m with Some b => b | None => empty end), None,
         Some (mkMain (Some (match mb_bin m with Some b => b | None => empty end)) (mb_snap m) (mb_last_label m)))).
  { unfold setup_mainbuffer. destruct m as [[b|] ms ml]; auto. }
  rewrite Hsm. cbn [bind].
  replace (match ordered with Some o => if sortedb (map o data) then Ok tt else Err ValueError | None => Ok tt end) with (Ok tt).
  2:{ destruct ordered; auto. rewrite sortedb_sorted; auto. }
  cbn [bind]. rewrite Hbb. cbn [bind]. clear Hbb Hsm Hord.
  destruct (Nat.eqb_spec (length (s_starts sg)) (length (s_labels sg))) as [E1|E1]; simpl negb; cbv iota.
  2:{ split; [intros (so & m' & Q); discriminate|]. intros (Q & _). congruence. }
  destruct (Nat.eqb_spec (length (s_starts sg)) (length (s_ends sg))) as [E2|E2]; simpl negb; cbv iota.
  2:{ split; [intros (so & m' & Q); discriminate|]. intros (_ & Q & _). congruence. }
  destruct (s_starts sg) as [|s0 ss] eqn:Es.
  { split; [intros (so & m' & Q); discriminate|]. intros (_ & _ & (ps & p & Q & _) & _). destruct ps; discriminate. }
  rewrite <- Es in *. destruct (exists_last (l := s_starts sg) ltac:(rewrite Es; discriminate)) as (ps & p & Ep). clear Es s0 ss.
  rewrite Ep in *. rewrite last_last.
  destruct (Nat.eqb_spec p (length data)) as [E3|E3]; simpl negb; cbv iota.
  2:{ split; [intros (so & m' & Q); discriminate|]. intros (_ & _ & (qs & q & Q & Hq & _) & _). apply app_inj_tail in Q as [_ ->]. congruence. }
  assert (H2 : ((1 <? length (ps ++ [p])) && (nth (length (ps ++ [p]) - 2) (ps ++ [p]) 0 =? length data) = true
     <-> exists qs q, ps = qs ++ [q] /\ q = length data)).
  { rewrite app_length. simpl. destruct ps as [|a ps'] eqn:Eps.
    - simpl. split; [discriminate|]. intros (qs & q & Q & _). destruct qs; discriminate.
    - rewrite <- Eps in *. destruct (exists_last (l := ps) ltac:(rewrite Eps; discriminate)) as (qs & q & Eq). rewrite Eq.
      rewrite app_length. simpl. assert (L : (1 <? length qs + 1 + 1) = true) by (apply Nat.ltb_lt; lia). rewrite L. simpl.
      replace (length qs + 1 + 1 - 2) with (length qs) by lia. rewrite <- app_assoc, app_nth2, Nat.sub_diag by lia. simpl. rewrite Nat.eqb_eq.
      split; [intros Q; exists qs, q; auto|]. intros (qs' & q' & Q & Hq). apply app_inj_tail in Q as [_ ->]. auto. }
  destruct ((1 <? length (ps ++ [p])) && (nth (length (ps ++ [p]) - 2) (ps ++ [p]) 0 =? length data)).
  { split; [intros (so & m' & Q); discriminate|]. intros (_ & _ & (ps' & p' & Q & _ & Hq) & _). apply app_inj_tail in Q as [<- _].
    destruct (proj1 H2 eq_refl) as (qs & q & Eq & Hd). exfalso. eapply Hq; eauto. }
  assert (H3 : forall qs q, ps = qs ++ [q] -> q <> length data).
  { intros qs q Eq Hd. assert (false = true) by (apply H2; eauto). discriminate. }
  cbn [mb_last_label].
  destruct (mb_last_label m) as [l|].
  - destruct (Z.eqb_spec l (hd 0%Z (s_labels sg))) as [El|Hl]; cbn [bind].
    + split; [|eauto]. intros _. split; auto. split; auto. split; [exists ps, p; auto|]. intros l' Q. congruence.
    + split; [intros (so & m' & Q); discriminate|]. intros (_ & _ & _ & Q). exfalso. apply Hl. symmetry. auto.
  - cbn [bind]. split; [|eauto]. intros _. split; auto. split; auto. split; [exists ps, p; auto|]. intros l' Q. discriminate.
Qed.
Print Assumptions C61_checks.

(** Without a buffer they are not made: a function whose bins stop before the last rows is accepted, and
    these rows are in no bin. *)
Theorem C61_unchecked_refuted : exists (bin_by : list (Z * Z) -> option unit -> res (seg * option unit)) data,
  sorted (map fst data) /\
  (exists fb, ex_csa bin_by tt (Some fst) None true data None = Ok (Some (fb, None), None) /\ fcol 10 fb = [Some 5%Z]) /\
  fold_right (fun r a => snd r + a)%Z 0%Z data = 12%Z.
Proof.
  exists (fun _ _ => Ok (mkSeg [1] [0%Z] 0 SLeft [10%Z] false 0, None)), [(1, 5); (4, 7)]%Z.
  split; [simpl; srt|]. split; [|reflexivity]. eexists. split; [vm_compute; reflexivity|]. reflexivity.
Qed.
Print Assumptions C61_unchecked_refuted.

(** Any way of making bins which grow with rows is that of some binning function: here the function keeps
    all rows in its buffer. *)
Fixpoint ends_from (n : nat) (lens : list nat) : list nat :=
  match lens with [] => [] | k :: ks => (n + k) :: ends_from (n + k) ks end.

Definition generic_bin_by {D} (bins : list D -> list (Z * list D)) (more : list D) (buffer : option (list D))
  : res (seg * option (list D)) :=
  let seen := match buffer with Some b => b | None => [] end in
  let bs := new_bins bins seen more in
  let lens := match map (fun b => length (snd b)) bs with [] => [] | k :: ks => (k - length (last_rows (bins seen))) :: ks end in
  Ok (mkSeg (ends_from 0 lens) (map fst bs) (length (filter is_nil (map snd bs))) SLeft (map fst bs) true 0,
      option_map (fun b => b ++ more) buffer).

Lemma cut_ends_from : forall {D} (gs : list (list D)) pre, cut (length pre) (ends_from (length pre) (map (@length D) gs)) (pre ++ concat gs) = gs.
Proof.
  intros D gs. induction gs as [|x gs IH]; intros pre; simpl; auto. f_equal.
  - rewrite skipn_app, Nat.sub_diag, skipn_all. simpl. replace (length pre + length x - length pre) with (length x) by lia.
    rewrite firstn_app, Nat.sub_diag, firstn_all. simpl. apply app_nil_r.
  - rewrite app_assoc. rewrite <- app_length. apply IH.
Qed.

Lemma ends_from_props : forall ks n, StronglySorted le (ends_from n ks) /\ length (ends_from n ks) = length ks /\
  (forall x, In x (ends_from n ks) -> n <= x) /\ last (n :: ends_from n ks) 0 = n + list_sum ks.
Proof.
  induction ks as [|k ks IH]; intros n; simpl.
  - repeat split; auto; try constructor; try contradiction; lia.
  - destruct (IH (n + k)) as (A1 & A2 & A3 & A4). repeat split; auto.
    + constructor; auto. rewrite Forall_forall. auto.
    + intros x [<-|Hx]; [lia|]. specialize (A3 x Hx). lia.
    + simpl in A4. destruct (ends_from (n + k) ks) eqn:E; simpl in *; lia.
Qed.

Lemma generic_binning : forall {D} (bins : list D -> list (Z * list D)) (good : list D -> Prop),
  (forall rows more, good (rows ++ more) -> good rows) ->
  bins [] = [] -> (forall rows, good rows -> NoDup (map fst (bins rows))) ->
  (forall rows more, rows <> [] -> good (rows ++ more) -> exists bs l r r' bs',
    bins rows = bs ++ [(l, r)] /\ r <> [] /\ bins (rows ++ more) = bs ++ (l, r ++ r') :: bs') ->
  (forall rows, good rows -> concat (map snd (bins rows)) = rows) ->
  binning (generic_bin_by bins) [] bins (fun rows b => b = rows) good.
Proof.
  intros D bins good Happ H0 Hnd Hmore Hall.
  (* groups of new rows *)
  assert (Hd : forall seen more, more <> [] -> good (seen ++ more) -> exists gs, gs <> [] /\ concat gs = more /\ last gs [] <> [] /\
     map snd (new_bins bins seen more) = match gs with [] => [] | r :: rs => (last_rows (bins seen) ++ r) :: rs end).
  { intros seen more Hm Hg. destruct seen as [|x seen'] eqn:Es.
    - exists (map snd (bins more)). unfold new_bins. rewrite H0. simpl.
      destruct (Hmore more [] Hm ltac:(rewrite app_nil_r; auto)) as (bs & l & r & r' & bs' & E & Er & _). rewrite E at 1 3. rewrite map_app. simpl. rewrite last_last.
      split; [destruct bs; discriminate|]. split; [apply Hall; auto|]. split; auto. rewrite E, map_app. destruct (map snd bs ++ map snd [(l, r)]); auto.
    - rewrite <- Es in *. assert (Hse : seen <> []) by (subst; discriminate). clear Es x seen'.
      destruct (Hmore seen more Hse Hg) as (bs & l & r & r' & bs' & E1 & Er & E2).
      assert (En : new_bins bins seen more = (l, r ++ r') :: bs').
      { unfold new_bins. rewrite E1, E2, app_length. simpl length. replace (length bs + 1 - 1) with (length bs) by lia.
        rewrite skipn_app, Nat.sub_diag, skipn_all. auto. }
      assert (Elr : last_rows (bins seen) = r) by (unfold last_rows; rewrite E1, map_app; simpl; apply last_last).
      assert (Ec : r' ++ concat (map snd bs') = more).
      { pose proof (Hall seen (Happ _ _ Hg)) as A1. pose proof (Hall (seen ++ more) Hg) as A2. rewrite E1, map_app, concat_app in A1. simpl in A1. rewrite app_nil_r in A1.
        rewrite E2, map_app, concat_app in A2. simpl in A2. rewrite <- A1 in A2. rewrite <- !app_assoc in A2.
        apply app_inv_head in A2. apply app_inv_head in A2. auto. }
      exists (r' :: map snd bs'). rewrite En, Elr. split; [discriminate|]. split; auto. split; auto.
      destruct (map snd bs') as [|y ys] eqn:Ey; [simpl in *; rewrite app_nil_r in Ec; congruence|].
      destruct (Hmore (seen ++ more) []) as (cs & l2 & r2 & r2' & cs' & E3 & Er2 & _); [intro Q; apply app_eq_nil in Q; tauto|rewrite app_nil_r; auto|].
      assert (last (map snd (bins (seen ++ more))) [] = r2) as El2 by (rewrite E3, map_app; simpl; apply last_last).
      rewrite E2, map_app in El2. simpl in El2. rewrite Ey in El2. rewrite last_app_ne in El2 by discriminate. simpl in El2.
      simpl. destruct ys; congruence. }
  assert (Hdesc : forall seen more b, more <> [] -> good (seen ++ more) -> match b with Some x => x | None => [] end = seen -> exists sg,
     generic_bin_by bins more b = Ok (sg, option_map (fun b => b ++ more) b) /\ describes sg (last_rows (bins seen)) more (new_bins bins seen more)).
  { intros seen more b Hm Hg Hb. unfold generic_bin_by. rewrite Hb. eexists. split; [reflexivity|].
    destruct (Hd seen more Hm Hg) as (gs & Hgne & Hgc & Hgl & Hgs).
    set (nb := new_bins bins seen more) in *. set (ru := last_rows (bins seen)) in *.
    assert (Hlens : match map (fun b => length (snd b)) nb with [] => [] | k :: ks => (k - length ru) :: ks end = map (@length D) gs).
    { rewrite <- (map_map snd (@length D)), Hgs. destruct gs as [|r rs]; auto. simpl. rewrite app_length. f_equal. lia. }
    rewrite Hlens. destruct (ends_from_props (map (@length D) gs) 0) as (P1 & P2 & P3 & P4). rewrite map_length in P2.
    assert (Hln : length gs = length nb) by (rewrite <- (map_length snd nb), Hgs; destruct gs; auto).
    assert (Hcut : cut 0 (ends_from 0 (map (@length D) gs)) more = gs) by (rewrite <- Hgc; apply (cut_ends_from gs [])).
    assert (Hlast : last (ends_from 0 (map (@length D) gs)) 0 = length more).
    { rewrite <- Hgc. assert (Hcl : length (concat gs) = list_sum (map (@length D) gs)).
      { clear. induction gs as [|x gs IH]; auto. simpl. rewrite app_length, IH. auto. }
      rewrite Hcl, <- (Nat.add_0_l (list_sum _)), <- P4. destruct gs; [congruence|]. reflexivity. }
    constructor; cbn [s_labels s_ends s_starts s_nnull]; auto.
    - rewrite map_length. auto.
    - congruence.
    - intros n Hn. destruct (exists_last Hgne) as (gi & gl & Eg). rewrite Eg in *. rewrite last_last in Hgl.
      rewrite P2, app_length in Hn. simpl in Hn.
      rewrite map_app in *. simpl in *.
      assert (Ha : forall a c n0, ends_from n0 (a ++ [c]) = ends_from n0 a ++ [n0 + list_sum a + c]).
      { clear. induction a as [|k ks IH]; intros c n0; simpl; [f_equal; lia|]. rewrite IH. f_equal. f_equal. f_equal. lia. }
      rewrite Ha in *. rewrite last_last in Hlast.
      destruct (ends_from_props (map (@length D) gi) 0) as (_ & Q2 & _ & Q4). rewrite map_length in Q2.
      rewrite app_nth1 by lia.
      assert (Hn2 : nth n (ends_from 0 (map (@length D) gi)) 0 = list_sum (map (@length D) gi)).
      { replace (list_sum (map (@length D) gi)) with (last (0 :: ends_from 0 (map (@length D) gi)) 0) by (rewrite Q4; lia).
        assert (Hln2 : length (ends_from 0 (map (@length D) gi)) = S n) by lia.
        destruct (exists_last (l := ends_from 0 (map (@length D) gi)) ltac:(intro Q; rewrite Q in Hln2; discriminate)) as (u & v & Eu).
        rewrite Eu in *. rewrite app_length in Hln2. simpl in Hln2. rewrite app_nth2 by lia. replace (n - length u) with 0 by lia.
        rewrite app_comm_cons, last_last. auto. }
      rewrite Hn2. destruct gl; [congruence|]. simpl in Hlast. lia.
    - rewrite Hcut. auto. }
  constructor; auto.
  - intros rows more b Hm Hg ->. destruct (Hdesc rows more (Some rows) Hm Hg eq_refl) as (sg & E & Ds). exists sg, (rows ++ more). auto.
  - intros rows Hm Hg. destruct (Hdesc [] rows None Hm Hg eq_refl) as (sg & E & Ds). exists sg. split; auto.
    unfold new_bins in Ds. rewrite H0 in Ds. exact Ds.
Qed.

(** A concrete case: a bin is a run of successive rows with the same value, numbered from 0. *)
Definition add_to_runs (bs : list (Z * list (Z * Z))) (r : Z * Z) : list (Z * list (Z * Z)) :=
  match rev bs with
  | (l, r0 :: rs) :: _ => if (snd r0 =? snd r)%Z then removelast bs ++ [(l, (r0 :: rs) ++ [r])] else bs ++ [((l + 1)%Z, [r])]
  | _ => [(0%Z, [r])]
  end.
Definition runs (rows : list (Z * Z)) : list (Z * list (Z * Z)) := fold_left add_to_runs rows [].

Lemma runs_snoc : forall rows r, runs (rows ++ [r]) = add_to_runs (runs rows) r.
Proof. intros. unfold runs. rewrite fold_left_app. auto. Qed.

Lemma runs_shape : forall rows, (rows = [] /\ runs rows = []) \/
  exists bs l r0 rs, rows <> [] /\ runs rows = bs ++ [(l, r0 :: rs)] /\ l = Z.of_nat (length bs) /\
    map fst (runs rows) = map Z.of_nat (seq 0 (length (runs rows))) /\ concat (map snd (runs rows)) = rows.
Proof.
  induction rows as [|r rows IH] using rev_ind; [left; auto|]. right. rewrite runs_snoc.
  assert (Hne : rows ++ [r] <> []) by (destruct rows; discriminate).
  destruct IH as [[-> E]|(bs & l & r0 & rs & Hr & E & El & Ef & Ec)].
  - rewrite E. exists [], 0%Z, r, []. repeat split; auto.
  - unfold add_to_runs. rewrite E, rev_app_distr in *. simpl rev. cbv iota. cbn [app].
    destruct (snd r0 =? snd r)%Z.
    + rewrite removelast_last. exists bs, l, r0, (rs ++ [r]). repeat split; auto.
      * rewrite !map_app, !app_length in *. exact Ef.
      * rewrite <- Ec. rewrite !map_app, !concat_app. simpl. rewrite !app_nil_r, <- app_assoc. auto.
    + exists (bs ++ [(l, r0 :: rs)]), (l + 1)%Z, r, []. repeat split; auto.
      * rewrite app_length. simpl. lia.
      * rewrite map_app, Ef, !app_length. simpl. rewrite (seq_app (length bs + 1) 1), map_app. simpl. f_equal. f_equal. lia.
      * rewrite map_app, concat_app, Ec. simpl. auto.
Qed.

Lemma runs_binning : binning (generic_bin_by runs) [] runs (fun rows b => b = rows) (fun _ => True).
Proof.
  apply generic_binning; auto.
  - intros rows _. destruct (runs_shape rows) as [[_ ->]|(bs & l & r0 & rs & _ & _ & _ & Ef & _)]; [constructor|].
    rewrite Ef. apply FinFun.Injective_map_NoDup; [intros a b Q; lia|apply seq_NoDup].
  - intros rows more Hne _. destruct (runs_shape rows) as [[Q _]|(bs & l & r0 & rs & _ & E & El & _)]; [congruence|].
    assert (exists r' bs', runs (rows ++ more) = bs ++ (l, (r0 :: rs) ++ r') :: bs') as (r' & bs' & E').
    { induction more as [|x more IH] using rev_ind; [exists [], []; rewrite !app_nil_r; auto|].
      destruct IH as (r' & bs' & IH). rewrite app_assoc, runs_snoc, IH. unfold add_to_runs.
      destruct (runs_shape (rows ++ more)) as [[Q _]|(bs2 & l2 & r2 & rs2 & _ & E2 & _)]; [apply app_eq_nil in Q; tauto|].
      rewrite <- IH, E2, rev_app_distr. simpl rev. cbn [app]. destruct (snd r2 =? snd x)%Z.
      - rewrite removelast_last. rewrite E2 in IH. destruct bs' as [|b0 bs0] eqn:Eb.
        + apply app_inj_tail in IH as [-> Q]. injection Q as -> -> ->. exists (r' ++ [x]), []. simpl. rewrite <- app_assoc. auto.
        + rewrite <- Eb in *. destruct (exists_last (l := bs') ltac:(subst; discriminate)) as (u & v & Eu). rewrite Eu in IH.
          rewrite app_comm_cons, app_assoc in IH. apply app_inj_tail in IH as [-> _]. rewrite <- app_assoc. simpl. eauto.
      - rewrite <- E2, IH, <- app_assoc. simpl. eauto. }
    exists bs, l, (r0 :: rs), r', bs'. repeat split; auto. discriminate.
  - intros rows _. destruct (runs_shape rows) as [[-> ->]|(bs & l & r0 & rs & _ & _ & _ & _ & Ec)]; auto.
Qed.

Example C61_case : binning (generic_bin_by runs) [] runs (fun rows b => b = rows) (fun _ => True) /\
  let rows := [(1, 5); (2, 5); (4, 3); (9, 3); (9, 3); (10, 5)]%Z in
  map fst (runs rows) = [0; 1; 2]%Z /\
  match run_pieces (ex_csa (generic_bin_by runs) [] (Some fst) None true) (Some csabuf_empty)
     [firstn 3 rows; []; [nth 3 rows (0, 0)%Z]; skipn 4 rows] with
  | Ok (rs, _) => map f_labels (bin_frames rs) = [[0; 1]; [1]; [1; 2]]%Z /\ map (fcol 10) (bin_frames rs) = [[Some 10; Some 3]; [Some 6]; [Some 9; Some 5]]%Z
  | Err _ => False
  end.
Proof. split; [apply runs_binning|]. vm_compute. auto. Qed.
