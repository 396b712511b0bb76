(** 'cumsegagg' called on successive pieces of data with one buffer. *)
Require Import List Arith ZArith Bool Lia Sorted Permutation.
Require Import Verif.Common Verif.AggModel Verif.AggSpec Verif.AggProofs.
Require Import Verif.SegModel Verif.SegSpec Verif.SegProofs Verif.SegRowsProofs Verif.MergeProofs Verif.EventProofs.
Require Import Verif.CsaModel Verif.CsaSpec Verif.CsaProofs Verif.CsaLoopProofs Verif.CsaSegProofs Verif.CsaTimeProofs.
Import ListNotations.
Local Open Scope Z_scope.

Lemma stitch_snoc : forall {A} (ls : list (list A)) g, stitch (ls ++ [g]) = removelast (stitch ls) ++ g.
Proof. intros A ls g. unfold stitch. rewrite fold_left_app. auto. Qed.

Lemma stitch_map : forall {A B} (h : A -> B) ls, stitch (map (map h) ls) = map h (stitch ls).
Proof.
  intros A B h ls. induction ls as [|g ls IH] using rev_ind; auto.
  rewrite map_app. simpl. rewrite !stitch_snoc, IH, map_removelast, map_app. auto.
Qed.

Section Pieces.
Context {D V B : Type}.
Variable N : dtype -> num V.
Variable val : D -> cname -> V.
Variables (agg : aggspec) (dtypes : list (cname * dtype)).
Hypothesis Hvalid : agg_valid agg dtypes.
Hypothesis Hnodup : NoDup (map fst agg).

Lemma outcome_impl : forall eo gb gs (P Q : option (csabuf B V) -> Prop) r,
  outcome N val agg dtypes eo gb gs P r -> (forall b, P b -> Q b) -> outcome N val agg dtypes eo gb gs Q r.
Proof.
  intros eo gb gs P Q r [H1 H2] H. split; auto. intro Z. destruct (H2 Z) as (fb & fs & b & A1 & A2 & A3 & A4).
  exists fb, fs, b. auto.
Qed.

Lemma agg_item : forall out, In out (map fst agg) -> exists i f d, In (out, (i, Some f)) agg /\ dict_get Nat.eqb i dtypes = Some d.
Proof.
  intros out H. apply in_map_iff in H as ([o [i f]] & Q & Hi). simpl in Q. subst o.
  destruct (Hvalid out i f Hi) as [[d Hd] Hf]. destruct f; [eauto|congruence].
Qed.

Lemma frames_make_groups : forall (gss : list (list (Z * list D))) fs w,
  Forall2 (frame_is N val agg dtypes) gss fs -> frame_is N val agg dtypes (stitch gss) w -> frames_make agg fs w.
Proof.
  intros gss fs w F Fw. split.
  - destruct Fw as (-> & _). rewrite <- stitch_map. f_equal.
    induction F as [|g fr gss fs Hf F IH]; simpl; auto. f_equal; auto. destruct Hf as (-> & _); auto.
  - intros out Hout. destruct (agg_item out Hout) as (i & f & d & Hi & Hd).
    assert (E : forall g fr, frame_is N val agg dtypes g fr -> fcol out fr = map (fun x => agg_of N val d f i (snd x)) g).
    { intros g fr (_ & _ & H). unfold fcol. rewrite (H out i f d Hi Hd). auto. }
    rewrite (E _ _ Fw), <- stitch_map. f_equal. clear Fw.
    induction F as [|g fr gss fs Hf F IH]; simpl; auto. f_equal; auto.
Qed.

Variable call : list D -> option (csabuf B V) -> res (option (frame V * option (frame V)) * option (csabuf B V)).
Variable eo : bool.
Variable ok : list D -> Prop.
Variable Inv : list D -> option (csabuf B V) -> Prop.
Variables (gb : list D -> list D -> list (Z * list D)) (gs : list D -> list D -> option (list (Z * list D))).
Hypothesis ok_app : forall H p, ok (H ++ p) -> ok H.
Hypothesis call_nil : forall b, call [] b = Ok (None, b).
Hypothesis call_step : forall H p b, p <> [] -> ok (H ++ p) -> Inv H b ->
  outcome N val agg dtypes eo (gb H p) (gs H p) (Inv (H ++ p)) (call p b).
Hypothesis gb_stitch : forall H p, H <> [] -> p <> [] -> ok (H ++ p) -> gb [] (H ++ p) = removelast (gb [] H) ++ gb H p.
Hypothesis gs_stitch : forall H p, H <> [] -> p <> [] -> ok (H ++ p) ->
  gs [] (H ++ p) = match gs [] H, gs H p with Some x, Some y => Some (removelast x ++ y) | _, _ => None end.
Hypothesis gs_same : forall H p H' p', (gs H p = None <-> gs H' p' = None).

(** Expected groups of the pieces that are not empty. *)
Fixpoint piece_groups {G} (g : list D -> list D -> G) (H : list D) (pieces : list (list D)) : list G :=
  match pieces with
  | [] => []
  | [] :: ps => piece_groups g H ps
  | p :: ps => g H p :: piece_groups g (H ++ p) ps
  end.

Lemma run_ok : forall pieces H b rs b',
  ok (H ++ concat pieces) -> Inv H b -> run_pieces call b pieces = Ok (rs, b') ->
  Inv (H ++ concat pieces) b'
  /\ Forall2 (frame_is N val agg dtypes) (piece_groups gb H pieces) (bin_frames rs)
  /\ Forall2 (frame_is N val agg dtypes) (flat_map (fun o => match o with Some g => [g] | None => [] end) (piece_groups gs H pieces)) (snap_frames rs).
Proof.
  induction pieces as [|p ps IH]; intros H b rs b' Hok Hinv Hrun; simpl in *.
  - injection Hrun as <- <-. rewrite app_nil_r. repeat split; auto; constructor.
  - destruct p as [|x p0] eqn:Ep.
    + rewrite call_nil in Hrun. destruct (run_pieces call b ps) as [[ss b'']|e] eqn:E; [|discriminate].
      injection Hrun as <- <-. simpl in *. destruct (IH H b ss b'' Hok Hinv E) as (A1 & A2 & A3). repeat split; auto.
    + rewrite <- Ep in *. assert (Hp : p <> []) by (subst p; discriminate). clear Ep x p0.
      rewrite app_assoc in Hok.
      pose proof (call_step H _ b Hp (ok_app _ _ Hok) Hinv) as [O1 O2].
      destruct (call _ b) as [[s b1]|e] eqn:Ec; [|discriminate].
      destruct O2 as (fb & fs & b2 & Q & F1 & F2 & F3).
      { intro Z. specialize (O1 Z). discriminate. }
      injection Q as -> ->.
      destruct (run_pieces call b2 ps) as [[ss b'']|e] eqn:E; [|discriminate].
      injection Hrun as <- <-. destruct (IH _ b2 ss b'' Hok F3 E) as (A1 & A2 & A3).
      rewrite app_assoc. split; auto. unfold bin_frames, snap_frames in *. simpl. split.
      * constructor; auto.
      * destruct (gs H _), fs; try contradiction; simpl; auto.
Qed.

Lemma run_total : eo = false -> forall pieces H b, ok (H ++ concat pieces) -> Inv H b ->
  exists rs b', run_pieces call b pieces = Ok (rs, b').
Proof.
  intros Heo. induction pieces as [|p ps IH]; intros H b Hok Hinv; simpl in *; [eauto|].
  destruct p as [|x p0] eqn:Ep.
  - rewrite call_nil. destruct (IH H b Hok Hinv) as (ss & b'' & ->). eauto.
  - rewrite <- Ep in *. assert (Hp : p <> []) by (subst p; discriminate). clear Ep x p0.
    rewrite app_assoc in Hok.
    pose proof (call_step H _ b Hp (ok_app _ _ Hok) Hinv) as [_ O2].
    destruct O2 as (fb & fs & b2 & -> & F1 & F2 & F3).
    { intros [Z _]. congruence. }
    destruct (IH _ b2 Hok F3) as (ss & b'' & ->). eauto.
Qed.

Lemma groups_stitch : forall pieces H, ok (H ++ concat pieces) -> H <> [] ->
  stitch (gb [] H :: piece_groups gb H pieces) = gb [] (H ++ concat pieces).
Proof.
  assert (G : forall pieces H acc, ok (H ++ concat pieces) -> H <> [] -> acc = gb [] H ->
     fold_left (fun a g => removelast a ++ g) (piece_groups gb H pieces) acc = gb [] (H ++ concat pieces)).
  { induction pieces as [|p ps IH]; intros H acc Hok Hne ->; simpl; [rewrite app_nil_r; auto|].
    simpl in Hok. destruct p as [|x p0] eqn:Ep; [simpl; apply IH; auto|]. rewrite <- Ep in *.
    assert (Hp : p <> []) by (subst p; discriminate). clear Ep x p0.
    rewrite app_assoc in Hok. simpl. rewrite IH; auto.
    - rewrite <- app_assoc. auto.
    - intro Q. apply app_eq_nil in Q. tauto.
    - symmetry. apply gb_stitch; auto. apply (ok_app _ _ Hok). }
  intros pieces H Hok Hne. unfold stitch. simpl. apply G; auto.
Qed.

Lemma groups_stitch0 : forall pieces, ok (concat pieces) -> concat pieces <> [] ->
  stitch (piece_groups gb [] pieces) = gb [] (concat pieces).
Proof.
  induction pieces as [|p ps IH]; intros Hok Hne; simpl in *; [congruence|].
  destruct p as [|x p0] eqn:Ep; [simpl in *; auto|]. rewrite <- Ep in *. simpl app at 1.
  apply groups_stitch; auto. subst p; discriminate.
Qed.

Lemma snaps_stitch0 : forall pieces, ok (concat pieces) -> concat pieces <> [] ->
  forall g, gs [] (concat pieces) = Some g ->
  stitch (flat_map (fun o => match o with Some g => [g] | None => [] end) (piece_groups gs [] pieces)) = g.
Proof.
  assert (G : forall pieces H acc, ok (H ++ concat pieces) -> H <> [] -> gs [] H = Some acc ->
     forall g, gs [] (H ++ concat pieces) = Some g ->
     fold_left (fun a g => removelast a ++ g) (flat_map (fun o => match o with Some g => [g] | None => [] end) (piece_groups gs H pieces)) acc = g).
  { induction pieces as [|p ps IH]; intros H acc Hok Hne Ha g Hg; simpl in *; [rewrite app_nil_r in Hg; congruence|].
    destruct p as [|x p0] eqn:Ep; [simpl in *; apply (IH H); auto|]. rewrite <- Ep in *.
    assert (Hp : p <> []) by (subst p; discriminate). clear Ep x p0.
    rewrite app_assoc in Hok, Hg.
    pose proof (gs_stitch H p Hne Hp (ok_app _ _ Hok)) as Hst. rewrite Ha in Hst.
    destruct (gs H p) as [y|] eqn:Ey.
    - simpl. eapply IH; eauto. intro Q. apply app_eq_nil in Q. tauto.
    - exfalso. apply (gs_same _ _ [] H) in Ey. congruence. }
  induction pieces as [|p ps IH]; intros Hok Hne g Hg; simpl in *; [congruence|].
  destruct p as [|x p0] eqn:Ep; [simpl in *; auto|]. rewrite <- Ep in *.
  assert (Hp : p <> []) by (subst p; discriminate). clear Ep x p0. simpl.
  destruct (gs [] p) as [y|] eqn:Ey.
  - simpl. unfold stitch. simpl. apply (G ps p y); auto.
  - exfalso. apply (gs_same _ _ [] (p ++ concat ps)) in Ey. congruence.
Qed.

(** Pieces against a single call, on the whole data. *)
Lemma pieces_whole : forall pieces b0 rs b' (whole_call : res (option (frame V * option (frame V)) * option (csabuf B V))),
  Inv [] b0 -> ok (concat pieces) -> concat pieces <> [] ->
  outcome N val agg dtypes false (gb [] (concat pieces)) (gs [] (concat pieces)) (fun _ => True) whole_call ->
  run_pieces call b0 pieces = Ok (rs, b') ->
  exists fw sw bw, whole_call = Ok (Some (fw, sw), bw)
    /\ frames_make agg (bin_frames rs) fw
    /\ match sw with Some w => frames_make agg (snap_frames rs) w | None => snap_frames rs = [] end.
Proof.
  intros pieces b0 rs b' w Hinv Hok Hne [_ Ow] Hrun.
  destruct Ow as (fw & sw & bw & -> & W1 & W2 & _); [intros [Q _]; discriminate|].
  destruct (run_ok pieces [] b0 rs b' Hok Hinv Hrun) as (_ & R1 & R2).
  exists fw, sw, bw. split; auto. split.
  - eapply frames_make_groups; [exact R1|]. rewrite groups_stitch0; auto.
  - destruct (gs [] (concat pieces)) as [g|] eqn:Eg, sw; try contradiction.
    + eapply frames_make_groups; [exact R2|]. rewrite (snaps_stitch0 pieces Hok Hne g Eg). auto.
    + assert (Hn : forall ps H, flat_map (fun o : option (list (Z * list D)) => match o with Some g => [g] | None => [] end) (piece_groups gs H ps) = []).
      { induction ps as [|p ps IH]; intros H; simpl; auto. destruct p as [|x p]; auto. simpl. rewrite IH.
        destruct (gs H (x :: p)) eqn:E; auto. exfalso. apply (gs_same _ _ H (x :: p)) in Eg. congruence. }
      rewrite Hn in R2. inversion R2. auto.
Qed.
End Pieces.

Lemma filter_length_le_ : forall {A} (p : A -> bool) l, (length (filter p l) <= length l)%nat.
Proof. induction l as [|x l IH]; simpl; auto. destruct (p x); simpl; lia. Qed.
Lemma firstn_In_ : forall {A} n (l : list A) x, In x (firstn n l) -> In x l.
Proof. induction n as [|n IH]; intros [|y l] x H; simpl in *; auto; try contradiction. destruct H; auto. Qed.

Lemma NoDup_firstn_ : forall {A} n (l : list A), NoDup l -> NoDup (firstn n l).
Proof.
  induction n as [|n IH]; intros [|x l] H; simpl; try constructor; inversion H; subst; auto.
  intro Q. apply firstn_In_ in Q. auto.
Qed.

(** * Bins of time *)
Section TimeCsa.
Context {D V : Type}.
Variable N : dtype -> num V.
Variable val : D -> cname -> V.
Variables (agg : aggspec) (dtypes : list (cname * dtype)).
Hypothesis Hvalid : agg_valid agg dtypes.
Hypothesis Hnodup : NoDup (map fst agg).
Hypothesis Hagg : agg <> [].
Variable t : D -> Z.

Notation csa := (cumsegagg N val agg dtypes).

Lemma map_ne : forall {A A'} (g : A -> A') l, l <> [] -> map g l <> [].
Proof. intros A A' g [|]; [congruence|discriminate]. Qed.

Lemma time_snap_ok : forall c lab a f p k0 n, 0 < f -> sorted (map t p) -> p <> [] ->
  k0 <= kappa c a f (last (map t p) 0) ->
  let k1 := kappa c a f (last (map t p) 0) in
  n = n_empty 0 (pstarts c a f (map t p) k0 k1) ->
  snap_ok p (mkSeg (pstarts c a f (map t p) k0 k1) (map (period_label lab a f) (zrange k0 k1))
              n c (map (period_end a f) (zrange k0 k1)) false 0).
Proof.
  intros c lab a f p k0 n Hf Hs Hne Hk k1 ->.
  constructor; simpl; auto.
  - unfold pstarts. rewrite !map_length. auto.
  - unfold pstarts. rewrite !map_length. auto.
  - apply sorted_ends; auto.
  - pose proof (pstarts_sorted c a f (map t p) k0 k1 Hf) as Q. inversion Q; auto.
  - intros q Hq. apply pstarts_le in Hq. rewrite map_length in Hq. auto.
Qed.

Lemma time_call : forall tg eo H p buffer bb' a k0, 0 < tg_freq tg -> p <> [] -> sorted (map t p) ->
  let c := tg_closed tg in let f := tg_freq tg in let k1 := kappa c a f (last (map t p) 0) in
  k0 <= kappa c a f (hd 0 (map t p)) -> (forall h, In h H -> kappa c a f (t h) <= k0) ->
  by_scale (map t p) (ByTG tg) None (bin_buffer sbuf_empty buffer) =
    Ok (mkSeg (pstarts c a f (map t p) k0 k1) (map (period_label (tg_label tg) a f) (zrange k0 k1))
        (n_empty 0 (pstarts c a f (map t p) k0 k1)) c (map (period_end a f) (zrange k0 k1)) false 0, bb') ->
  running N val agg dtypes buffer (filter (fun r => in_period c a f k0 (t r)) H) (period_label (tg_label tg) a f k0) ->
  outcome N val agg dtypes eo (time_groups t (tg_label tg) c a f k0 k1 (H ++ p)) None
    (main_next N val agg dtypes sbuf_empty buffer bb' false None (period_label (tg_label tg) a f k1)
       (filter (fun r => in_period c a f k1 (t r)) (H ++ p)))
    (csa (time_bins t tg) sbuf_empty (Some t) None eo p buffer).
Proof.
  intros tg eo H p buffer bb' a k0 Hf Hne Hs c f k1 Hk0 HH E Hrun.
  assert (Hmn := map_ne t p Hne).
  assert (Hk : k0 <= k1).
  { etransitivity; [exact Hk0|]. apply kappa_hd_le; auto. apply last_In. auto. }
  pose proof (period_groups t c a f H p k0 Hf Hs Hne Hk0 HH) as PG. cbv zeta in PG. fold k1 in PG.
  match type of E with _ = Ok (?x, _) => set (sg := x) in * end.
  assert (Hg : combine (s_labels sg) (bin_groups (filter (fun r => in_period c a f k0 (t r)) H) (s_starts sg) p)
               = time_groups t (tg_label tg) c a f k0 k1 (H ++ p)).
  { simpl. rewrite PG. apply combine_map2. }
  pose proof (cumsegagg_gen N val agg dtypes Hvalid Hnodup Hagg (time_bins t tg) sbuf_empty (Some t) eo p buffer
    (filter (fun r => in_period c a f k0 (t r)) H) sg bb') as G. cbv zeta in G. rewrite Hg in G.
  replace (last (s_labels sg) 0) with (period_label (tg_label tg) a f k1) in G.
  2:{ simpl. rewrite last_zrange; auto. }
  replace (last (bin_groups (filter (fun r => in_period c a f k0 (t r)) H) (s_starts sg) p) [])
    with (filter (fun r => in_period c a f k1 (t r)) (H ++ p)) in G.
  2:{ simpl. rewrite PG. rewrite last_zrange; auto. }
  apply G; auto.
  - apply period_seg_ok; auto.
  - replace (hd 0 (s_labels sg)) with (period_label (tg_label tg) a f k0); auto.
    simpl. rewrite hd_zrange; auto.
  - apply n_empty_bin_groups; auto.
  - apply NoDup_consistent. unfold time_groups. rewrite map_map. simpl. apply NoDup_labels; auto.
Qed.

Lemma time_call_snap : forall tg sb eo H p buffer bb' a k0 ss bs sbuf0, 0 < tg_freq tg -> p <> [] -> sorted (map t p) ->
  let c := tg_closed tg in let f := tg_freq tg in let k1 := kappa c a f (last (map t p) 0) in
  k0 <= kappa c a f (hd 0 (map t p)) -> (forall h, In h H -> kappa c a f (t h) <= k0) ->
  (H <> [] -> exists h, In h H /\ kappa c a f (t h) = k0) ->
  by_scale (map t p) (ByTG tg) None (bin_buffer sbuf_empty buffer) =
    Ok (mkSeg (pstarts c a f (map t p) k0 k1) (map (period_label (tg_label tg) a f) (zrange k0 k1))
        (n_empty 0 (pstarts c a f (map t p) k0 k1)) c (map (period_end a f) (zrange k0 k1)) false 0, bb') ->
  running N val agg dtypes buffer (filter (fun r => in_period c a f k0 (t r)) H) (period_label (tg_label tg) a f k0) ->
  snap_buffer buffer sbuf0 ->
  by_scale (map t p) sb (Some c) sbuf0 = Ok (ss, bs) ->
  snap_ok p ss -> s_starts ss = map (n_before c (map t p)) (s_ends ss) -> NoDup (s_labels ss) ->
  (forall h e, In h H -> In e (s_ends ss) -> before c e (t h) = true) ->
  outcome N val agg dtypes eo (time_groups t (tg_label tg) c a f k0 k1 (H ++ p))
    (Some (combine (s_labels ss) (map (fun e => snap_period t c a f e (H ++ p)) (s_ends ss))))
    (main_next N val agg dtypes sbuf_empty buffer bb' true bs (period_label (tg_label tg) a f k1)
       (filter (fun r => in_period c a f k1 (t r)) (H ++ p)))
    (csa (time_bins t tg) sbuf_empty (Some t) (Some sb) eo p buffer).
Proof.
  intros tg sb eo H p buffer bb' a k0 ss bs sbuf0 Hf Hne Hs c f k1 Hk0 HH Hl E Hrun Hsb Ebs Hsok Hst Hnd Hbe.
  assert (Hmn := map_ne t p Hne).
  assert (Hk : k0 <= k1).
  { etransitivity; [exact Hk0|]. apply kappa_hd_le; auto. apply last_In. auto. }
  pose proof (period_groups t c a f H p k0 Hf Hs Hne Hk0 HH) as PG. cbv zeta in PG. fold k1 in PG.
  match type of E with _ = Ok (?x, _) => set (sg := x) in * end.
  set (acc := filter (fun r => in_period c a f k0 (t r)) H) in *.
  assert (Hg : combine (s_labels sg) (bin_groups acc (s_starts sg) p)
               = time_groups t (tg_label tg) c a f k0 k1 (H ++ p)).
  { simpl. rewrite PG. apply combine_map2. }
  assert (Hgs : snap_groups p acc sg ss = map (fun e => snap_period t c a f e (H ++ p)) (s_ends ss)).
  { unfold snap_groups, done_bins, seg_bins. simpl s_unknown_last_end. cbv iota.
    rewrite Hst. replace (combine (s_ends ss) (map (n_before c (map t p)) (s_ends ss)))
      with (map (fun e => (e, n_before c (map t p) e)) (s_ends ss)).
    2:{ rewrite <- (map_id (s_ends ss)) at 2. rewrite combine_map2. auto. }
    rewrite map_map. apply map_ext_in. intros e He. simpl s_ends. simpl s_starts.
    apply (period_snap_rows t c a f H p k0 e); auto. }
  pose proof (cumsegagg_gen_snap N val agg dtypes Hvalid Hnodup Hagg (time_bins t tg) sbuf_empty t sb eo p buffer
    acc sg bb' ss bs sbuf0) as G. cbv zeta in G. rewrite Hg in G. rewrite Hgs in G.
  replace (last (s_labels sg) 0) with (period_label (tg_label tg) a f k1) in G.
  2:{ simpl. rewrite last_zrange; auto. }
  replace (last (bin_groups acc (s_starts sg) p) [])
    with (filter (fun r => in_period c a f k1 (t r)) (H ++ p)) in G.
  2:{ simpl. rewrite PG. rewrite last_zrange; auto. }
  apply G; auto.
  - apply period_seg_ok; auto.
  - simpl. apply sorted_ends; auto.
  - replace (hd 0 (s_labels sg)) with (period_label (tg_label tg) a f k0); auto.
    simpl. rewrite hd_zrange; auto.
  - unfold done_bins, seg_bins. simpl s_unknown_last_end. cbv iota. rewrite Hst. simpl s_ends. simpl s_starts.
    unfold pstarts. rewrite <- (map_map (period_end a f) (n_before c (map t p))). apply compat_n_before.
  - apply n_empty_bin_groups; auto.
  - apply NoDup_consistent. unfold time_groups. rewrite map_map. simpl. apply NoDup_labels; auto.
  - apply NoDup_consistent. rewrite map_fst_combine_; auto. rewrite map_length. destruct Hsok. congruence.
Qed.

(** One call; the origin of periods may depend on data. *)
Lemma time_seg_once : forall tg oc data, 0 < tg_freq tg -> data <> [] -> sorted (map t data) ->
  let c := match oc with Some c => c | None => tg_closed tg end in let f := tg_freq tg in
  let a := origin_ts (tg_origin tg) (tg_offset tg) (hd 0 (map t data)) in
  let k0 := kappa c a f (hd 0 (map t data)) in let k1 := kappa c a f (last (map t data) 0) in
  k0 <= k1 /\
  by_scale (map t data) (ByTG tg) oc None =
    Ok (mkSeg (pstarts c a f (map t data) k0 k1) (map (period_label (tg_label tg) a f) (zrange k0 k1))
        (n_empty 0 (pstarts c a f (map t data) k0 k1)) c (map (period_end a f) (zrange k0 k1)) false 0, None).
Proof.
  intros tg oc data Hf Hne Hs c f a k0 k1. assert (Hmn := map_ne t data Hne).
  assert (Hk : k0 <= k1) by (apply kappa_hd_le; auto; apply last_In; auto).
  split; auto.
  pose proof (by_scale_tg_gen tg oc (map t data) (hd 0 (map t data)) a k0 None) as E. cbv zeta in E.
  fold f c k1 in E. apply E; auto. rewrite gtre_spec by auto. auto.
Qed.

Lemma time_once : forall tg eo data, 0 < tg_freq tg -> data <> [] -> sorted (map t data) ->
  let c := tg_closed tg in let f := tg_freq tg in
  let a := origin_ts (tg_origin tg) (tg_offset tg) (hd 0 (map t data)) in
  outcome N val agg dtypes eo
    (time_groups t (tg_label tg) c a f (kappa c a f (hd 0 (map t data))) (kappa c a f (last (map t data) 0)) data)
    None (fun b => b = None)
    (csa (time_bins t tg) sbuf_empty (Some t) None eo data None).
Proof.
  intros tg eo data Hf Hne Hs c f a.
  destruct (time_seg_once tg None data Hf Hne Hs) as [Hk E]. fold c f a in Hk, E. cbv zeta in Hk, E.
  eapply outcome_impl; [apply (time_call tg eo [] data None None a (kappa c a f (hd 0 (map t data)))); auto|].
  - apply Z.le_refl.
  - contradiction.
  - simpl. auto.
  - simpl. auto.
Qed.

Lemma time_once_tgsnap : forall tg stg eo data, 0 < tg_freq tg -> 0 < tg_freq stg -> data <> [] -> sorted (map t data) ->
  let c := tg_closed tg in let f := tg_freq tg in let f' := tg_freq stg in
  let a := origin_ts (tg_origin tg) (tg_offset tg) (hd 0 (map t data)) in
  let a' := origin_ts (tg_origin stg) (tg_offset stg) (hd 0 (map t data)) in
  outcome N val agg dtypes eo
    (time_groups t (tg_label tg) c a f (kappa c a f (hd 0 (map t data))) (kappa c a f (last (map t data) 0)) data)
    (Some (time_snaps t c a f (tg_label stg) a' f' (kappa c a' f' (hd 0 (map t data))) (kappa c a' f' (last (map t data) 0)) data))
    (fun b => b = None)
    (csa (time_bins t tg) sbuf_empty (Some t) (Some (ByTG stg)) eo data None).
Proof.
  intros tg stg eo data Hf Hf' Hne Hs c f f' a a'.
  destruct (time_seg_once tg None data Hf Hne Hs) as [Hk E]. cbv zeta in Hk, E. cbv iota in Hk, E. fold c f a in Hk, E.
  destruct (time_seg_once stg (Some c) data Hf' Hne Hs) as [Hk' E']. fold f' a' in Hk', E'. cbv zeta in Hk', E'.
  eapply outcome_impl.
  - match type of E' with _ = Ok (?x, _) => set (ss := x) in * end.
    replace (time_snaps t c a f (tg_label stg) a' f' (kappa c a' f' (hd 0 (map t data))) (kappa c a' f' (last (map t data) 0)) data)
      with (combine (s_labels ss) (map (fun e => snap_period t c a f e ([] ++ data)) (s_ends ss))).
    2:{ simpl. rewrite map_map, combine_map2. auto. }
    apply (time_call_snap tg (ByTG stg) eo [] data None None a (kappa c a f (hd 0 (map t data))) ss None None); auto.
    + apply Z.le_refl.
    + contradiction.
    + congruence.
    + simpl. auto.
    + simpl. auto.
    + apply time_snap_ok; auto.
    + simpl. unfold pstarts. rewrite map_map. auto.
    + simpl. apply NoDup_labels; auto.
  - simpl. auto.
Qed.

(** Snapshots at given values. *)
Lemma time_once_vals : forall tg k labels ends eo data, 0 < tg_freq tg -> data <> [] -> sorted (map t data) ->
  length labels = length ends -> ends <> [] -> sorted ends -> NoDup labels ->
  let c := tg_closed tg in let f := tg_freq tg in
  let a := origin_ts (tg_origin tg) (tg_offset tg) (hd 0 (map t data)) in
  outcome N val agg dtypes eo
    (time_groups t (tg_label tg) c a f (kappa c a f (hd 0 (map t data))) (kappa c a f (last (map t data) 0)) data)
    (Some (map (fun le => (fst le, snap_period t c a f (snd le) data))
             (take_until (fun le => forallb (fun r => before c (snd le) (t r)) data) (combine labels ends))))
    (fun b => b = None)
    (csa (time_bins t tg) sbuf_empty (Some t) (Some (ByVals k labels ends)) eo data None).
Proof.
  intros tg k labels ends eo data Hf Hne Hs Hlen Hene Hes Hnd c f a.
  destruct (time_seg_once tg None data Hf Hne Hs) as [Hk E]. cbv zeta in Hk, E. cbv iota in Hk, E. fold c f a in Hk, E.
  assert (Hmn := map_ne t data Hne).
  set (n := length (until (length (map t data)) (map (n_before c (map t data)) ends))).
  assert (Hn : until (length (map t data)) (map (n_before c (map t data)) ends) = map (n_before c (map t data)) (firstn n ends)).
  { unfold n. clear. induction ends as [|e es IH]; simpl; auto.
    destruct (n_before c (map t data) e =? length (map t data))%nat; simpl; f_equal. auto. }
  assert (Hle : (n <= length ends)%nat).
  { unfold n. clear. induction ends as [|e es IH]; simpl; auto.
    destruct (n_before c (map t data) e =? length (map t data))%nat; simpl; lia. }
  assert (Hfn : forall e, forallb (fun r => before c e (t r)) data = (n_before c (map t data) e =? length (map t data))%nat).
  { intro e. rewrite n_before_map, map_length. clear. induction data as [|r l IH]; simpl; auto.
    destruct (before c e (t r)); simpl; auto.
    symmetry. apply Nat.eqb_neq. pose proof (filter_length_le_ (fun r => before c e (t r)) l). lia. }
  assert (Htu : take_until (fun le => forallb (fun r => before c (snd le) (t r)) data) (combine labels ends)
     = combine (firstn n labels) (firstn n ends)).
  { unfold n. clear -Hlen Hfn. revert labels Hlen. induction ends as [|e es IH]; intros [|l ls] Hlen; simpl in *; auto; try lia.
    rewrite Hfn. destruct (n_before c (map t data) e =? length (map t data))%nat; simpl; auto.
    f_equal. apply IH. lia. }
  rewrite Htu.
  set (ps := map (n_before c (map t data)) (firstn n ends)) in *.
  set (ss := mkSeg ps (firstn n labels) (n_empty 0 ps) c (firstn n ends) false 0).
  assert (Ebs : by_scale (map t data) (ByVals k labels ends) (Some c) None = Ok (ss, None)).
  { unfold by_scale. rewrite Hlen, Nat.eqb_refl. simpl negb. cbv iota. cbn [bind].
    assert (Hm : forall T (x y : T), match ends with [] => x | _ :: _ => y end = y) by (clear -Hene; destruct ends; [congruence|auto]).
    rewrite Hm. unfold by_scale_finish. rewrite (next_chunk_starts_spec c (map t data) ends) by auto.
    cbv zeta. rewrite Hn. assert (Hlp : length ps = n) by (unfold ps; rewrite map_length, firstn_length; apply Nat.min_l; exact Hle).
    rewrite Hlp. unfold ss.
    destruct (existsb (Nat.eqb (length (map t data))) (map (n_before c (map t data)) ends)) eqn:Ex.
    - cbn [bind]. destruct k; reflexivity.
    - assert (Hall : n = length ends).
      { unfold n. clear -Ex. induction ends as [|e es IH]; simpl in *; auto.
        apply orb_false_iff in Ex as [E1 E2]. rewrite Nat.eqb_sym, E1. simpl. auto. }
      replace (firstn n ends) with ends by (rewrite Hall, firstn_all; auto).
      replace (firstn n labels) with labels by (rewrite Hall, <- Hlen, firstn_all; auto).
      cbn [bind]. destruct k; reflexivity. }
  eapply outcome_impl.
  - replace (map (fun le => (fst le, snap_period t c a f (snd le) data)) (combine (firstn n labels) (firstn n ends)))
      with (combine (s_labels ss) (map (fun e => snap_period t c a f e ([] ++ data)) (s_ends ss))).
    2:{ simpl. assert (Q : length (firstn n labels) = length (firstn n ends)) by (rewrite !firstn_length; lia).
        revert Q. generalize (firstn n labels), (firstn n ends). clear.
        induction l as [|x l IH]; intros [|y m] Q; simpl in *; try discriminate; auto. f_equal. apply IH. lia. }
    apply (time_call_snap tg (ByVals k labels ends) eo [] data None None a (kappa c a f (hd 0 (map t data))) ss None None); auto.
    + apply Z.le_refl.
    + contradiction.
    + congruence.
    + simpl. auto.
    + simpl. auto.
    + constructor; simpl; auto.
      * unfold ps. rewrite map_length, !firstn_length. lia.
      * unfold ps. rewrite map_length. auto.
      * apply sorted_firstn; auto.
      * unfold ps. assert (Q : sorted (firstn n ends)) by (apply sorted_firstn; auto). revert Q. clear.
        generalize (firstn n ends). induction l as [|x l IH]; intros Q; simpl; constructor; inversion Q; subst; auto.
        rewrite Forall_forall in *. intros q Hq. apply in_map_iff in Hq as (y & <- & Hy). apply n_before_mono; auto.
      * intros q Hq. apply in_map_iff in Hq as (y & <- & Hy). etransitivity; [apply n_before_le|]. rewrite map_length; auto.
    + simpl. apply NoDup_firstn_; auto.
  - simpl. auto.
Qed.

(** * Restart *)
Variables (tg : tgrouper) (snap : option tgrouper).
Hypothesis Hf : 0 < tg_freq tg.
Hypothesis Hfix : fixed_periods tg.
Hypothesis Hsnap : forall s, snap = Some s -> 0 < tg_freq s /\ fixed_periods s.
Let c := tg_closed tg.
Let f := tg_freq tg.
Let a := anchor tg.

(** State of the buffer when rows [H] have been processed. *)
Definition tinv (H : list D) (buffer : option (csabuf sbuf V)) : Prop :=
  exists b, buffer = Some b /\
  match H with
  | [] => b = csabuf_empty
  | _ => let K := kappa c a f (last (map t H) 0) in
      (exists sb, mb_bin (cb_main b) = Some sb /\ tg_buf_ok c tg sb (Some K))
      /\ mb_last_label (cb_main b) = Some (period_label (tg_label tg) a f K)
      /\ (exists r, cb_last b = Some r /\ last_is N val agg dtypes (filter (fun r => in_period c a f K (t r)) H) r)
      /\ (forall s, snap = Some s -> exists ssb, mb_snap (cb_main b) = Some ssb
             /\ tg_buf_ok c s ssb (Some (kappa c (anchor s) (tg_freq s) (last (map t H) 0))))
  end.

Definition first_period (a f : Z) (H p : list D) : Z :=
  match H with [] => kappa c a f (hd 0 (map t p)) | _ => kappa c a f (last (map t H) 0) end.

Definition tgb (H p : list D) : list (Z * list D) :=
  time_groups t (tg_label tg) c a f (first_period a f H p) (kappa c a f (last (map t (H ++ p)) 0)) (H ++ p).
Definition tgs (H p : list D) : option (list (Z * list D)) :=
  option_map (fun s => time_snaps t c a f (tg_label s) (anchor s) (tg_freq s)
     (first_period (anchor s) (tg_freq s) H p) (kappa c (anchor s) (tg_freq s) (last (map t (H ++ p)) 0)) (H ++ p)) snap.

Lemma last_app_ne : forall {A} (l m : list A) d, m <> [] -> last (l ++ m) d = last m d.
Proof.
  intros A l m d H. destruct (exists_last H) as (m' & x & ->). rewrite app_assoc, !last_last. auto.
Qed.

Lemma time_step : forall eo H p b, p <> [] -> sorted (map t (H ++ p)) -> tinv H b ->
  outcome N val agg dtypes eo (tgb H p) (tgs H p) (tinv (H ++ p))
    (csa (time_bins t tg) sbuf_empty (Some t) (option_map ByTG snap) eo p b).
Proof.
  intros eo H p b Hne Hsrt (cb & -> & Hinv).
  rewrite map_app in Hsrt. apply sorted_app in Hsrt as (HsH & Hsp & Hcross).
  assert (Hmn := map_ne t p Hne).
  assert (HlastA : last (map t (H ++ p)) 0 = last (map t p) 0) by (rewrite map_app; apply last_app_ne; auto).
  assert (Hhd : In (hd 0 (map t p)) (map t p)) by (destruct (map t p); [congruence|left; auto]).
  (* periods of the history come first *)
  assert (HK : forall a f, 0 < f -> first_period a f H p <= kappa c a f (hd 0 (map t p)) /\
                (forall h, In h H -> kappa c a f (t h) <= first_period a f H p)).
  { intros a0 f0 Hf0. unfold first_period. destruct H as [|h0 H'] eqn:EH; [split; [lia|contradiction]|]. rewrite <- EH in *.
    assert (HmH : map t H <> []) by (subst H; discriminate). split.
    - apply kappa_mono; auto. apply Hcross; auto. apply last_In; auto.
    - intros h Hh. apply kappa_last_ge; auto. apply in_map; auto. }
  set (k0 := first_period a f H p). set (k1 := kappa c a f (last (map t p) 0)).
  destruct (HK a f Hf) as [Hk0 HH]. fold k0 in Hk0, HH.
  set (bb := match mb_bin (cb_main cb) with Some x => x | None => sbuf_empty end).
  set (K := match H with [] => None | _ => Some (kappa c a f (last (map t H) 0)) end).
  assert (Hbok : tg_buf_ok c tg bb K).
  { unfold K, bb. destruct H as [|h0 H']; [subst cb; simpl; split; simpl; auto|].
    destruct Hinv as ((sb & -> & Hsb) & _). auto. }
  pose proof (by_scale_tg_fixed tg None (map t p) bb K) as E. cbv zeta in E. cbv iota in E. fold c f a in E.
  replace (match K with Some k => k | None => kappa c a f (hd 0 (map t p)) end) with k0 in E
    by (unfold k0, K, first_period; destruct H; auto).
  fold k1 in E. destruct E as [E Hnext]; auto.
  assert (Hrun : running N val agg dtypes (Some cb) (filter (fun r => in_period c a f k0 (t r)) H) (period_label (tg_label tg) a f k0)).
  { unfold running, k0, first_period. destruct H as [|h0 H'] eqn:EH; [subst cb; simpl; auto|]. rewrite <- EH in *.
    destruct Hinv as (_ & -> & (r & -> & Hr) & _). split; auto. split; [|eauto].
    assert (HmH : map t H <> []) by (subst H; discriminate).
    pose proof (last_In (map t H) 0 HmH) as Hin. apply in_map_iff in Hin as (h & Eh & Hh).
    intro Q. assert (In h []) as []. rewrite <- Q. apply filter_In. split; auto. apply in_period_kappa; auto.
    rewrite Eh. auto. }
  assert (Hmain : forall ws bs b', main_next N val agg dtypes sbuf_empty (Some cb) (Some (tg_next_buffer c a f (map t p) k0 k1)) ws bs
     (period_label (tg_label tg) a f k1) (filter (fun r => in_period c a f k1 (t r)) (H ++ p)) b' ->
     (forall s, snap = Some s -> ws = true /\ exists ssb, bs = Some ssb /\ tg_buf_ok c s ssb (Some (kappa c (anchor s) (tg_freq s) (last (map t (H ++ p)) 0)))) ->
     tinv (H ++ p) b').
  { intros ws bs b' (r & -> & Hr) Hs. eexists. split; [reflexivity|].
    destruct (H ++ p) as [|x l] eqn:Ex; [apply app_eq_nil in Ex as [_ Ex]; congruence|]. rewrite <- Ex in *.
    cbv zeta. rewrite HlastA. fold k1. simpl. split; [eauto|]. split; auto. split; [eauto|].
    intros s Es. destruct (Hs s Es) as (-> & ssb & -> & Hok). rewrite HlastA in Hok. eauto. }
  unfold tgb, tgs. rewrite HlastA. fold k0 k1. destruct snap as [s|] eqn:Es; simpl option_map.
  - destruct (Hsnap s eq_refl) as [Hf' Hfix']. set (f' := tg_freq s) in *. set (a' := anchor s) in *.
    destruct (HK a' f' Hf') as [Hj0 HHj]. set (j0 := first_period a' f' H p) in *.
    set (j1 := kappa c a' f' (last (map t p) 0)).
    set (sbf := match H with [] => sbuf_empty | _ => match mb_snap (cb_main cb) with Some x => x | None => sbuf_empty end end).
    set (J := match H with [] => None | _ => Some (kappa c a' f' (last (map t H) 0)) end).
    assert (Hsok : tg_buf_ok c s sbf J).
    { unfold sbf, J. destruct H as [|h0 H']; [split; simpl; auto|].
      destruct Hinv as (_ & _ & _ & Hs). destruct (Hs s eq_refl) as (ssb & -> & Hok). auto. }
    pose proof (by_scale_tg_fixed s (Some c) (map t p) sbf J) as E'. cbv zeta in E'. cbv iota in E'. fold f' a' in E'.
    replace (match J with Some k => k | None => kappa c a' f' (hd 0 (map t p)) end) with j0 in E'
      by (unfold j0, J, first_period; destruct H; auto).
    fold j1 in E'. destruct E' as [E' Hnext']; auto.
    match type of E' with _ = Ok (?x, _) => set (ss := x) in * end.
    assert (Hj : j0 <= j1).
    { etransitivity; [exact Hj0|]. apply kappa_hd_le; auto. apply last_In. auto. }
    eapply outcome_impl.
    + replace (time_snaps t c a f (tg_label s) a' f' j0 j1 (H ++ p))
        with (combine (s_labels ss) (map (fun e => snap_period t c a f e (H ++ p)) (s_ends ss))).
      2:{ simpl. rewrite map_map, combine_map2. auto. }
      apply (time_call_snap tg (ByTG s) eo H p (Some cb) (Some (tg_next_buffer c a f (map t p) k0 k1)) a k0 ss
               (Some (tg_next_buffer c a' f' (map t p) j0 j1)) (Some sbf)); auto.
      * intros HneH. unfold k0, first_period. destruct H as [|h0 H'] eqn:EH; [congruence|]. rewrite <- EH in *.
        assert (HmH : map t H <> []) by (subst H; discriminate).
        pose proof (last_In (map t H) 0 HmH) as Hin. apply in_map_iff in Hin as (h & Eh & Hh). exists h. rewrite Eh. auto.
      * unfold snap_buffer, sbf. destruct H as [|h0 H']; [subst cb; simpl; auto|].
        destruct Hinv as ((sb & -> & _) & _ & _ & Hs). destruct (Hs s eq_refl) as (ssb & -> & _). split; auto. congruence.
      * apply time_snap_ok; auto.
      * simpl. unfold pstarts. rewrite map_map. auto.
      * simpl. apply NoDup_labels; auto.
      * intros h e Hh He. simpl in He. apply in_map_iff in He as (j & <- & Hjj). apply zrange_In in Hjj.
        unfold period_end. rewrite before_kappa by auto. apply Z.ltb_lt. apply (Z.le_lt_trans _ j0); [exact (HHj h Hh)|lia].
    + intros b' Hb'. eapply Hmain; [exact Hb'|]. intros s0 Q. injection Q as <-. split; auto.
      eexists. split; [reflexivity|]. rewrite HlastA. auto.
  - eapply outcome_impl.
    + apply (time_call tg eo H p (Some cb) (Some (tg_next_buffer c a f (map t p) k0 k1)) a k0); auto.
    + intros b' Hb'. eapply Hmain; [exact Hb'|]. intros s0 Q. discriminate.
Qed.

(** Stitching. *)
Lemma zrange_removelast : forall {A} (g : Z -> A) k0 k1, k0 <= k1 -> removelast (map g (zrange k0 k1)) = map g (zrange k0 (k1 - 1)).
Proof. intros A g k0 k1 H. rewrite zrange_snoc by auto. rewrite map_app. simpl. apply removelast_last. Qed.

Lemma period_stitch : forall {G} (g : list D -> Z -> G) a f H p, 0 < f -> H <> [] -> p <> [] -> sorted (map t (H ++ p)) ->
  (forall k, (forall r, In r p -> k < kappa c a f (t r)) -> g (H ++ p) k = g H k) ->
  map (g (H ++ p)) (zrange (first_period a f [] (H ++ p)) (kappa c a f (last (map t (H ++ p)) 0)))
  = removelast (map (g H) (zrange (first_period a f [] H) (kappa c a f (last (map t H) 0))))
    ++ map (g (H ++ p)) (zrange (first_period a f H p) (kappa c a f (last (map t (H ++ p)) 0))).
Proof.
  intros G g a0 f0 H p Hf0 HneH Hne Hs Hstab.
  assert (HmH := map_ne t H HneH). assert (Hmn := map_ne t p Hne).
  assert (HlastA : last (map t (H ++ p)) 0 = last (map t p) 0) by (rewrite map_app; apply last_app_ne; auto).
  assert (Hhd : hd 0 (map t (H ++ p)) = hd 0 (map t H)) by (destruct H; [congruence|auto]).
  rewrite map_app in Hs. apply sorted_app in Hs as (HsH & Hsp & Hcross).
  unfold first_period at 1 2. rewrite Hhd.
  replace (first_period a0 f0 H p) with (kappa c a0 f0 (last (map t H) 0)) by (destruct H; [congruence|auto]).
  rewrite HlastA. set (k0 := kappa c a0 f0 (hd 0 (map t H))). set (K := kappa c a0 f0 (last (map t H) 0)).
  set (k1 := kappa c a0 f0 (last (map t p) 0)).
  assert (k0 <= K) by (apply kappa_hd_le; auto; apply last_In; auto).
  assert (K <= k1) by (apply kappa_mono; auto; apply Hcross; apply last_In; auto).
  rewrite zrange_removelast by auto. rewrite (zrange_app k0 (K - 1) k1) by lia. rewrite map_app.
  replace (K - 1 + 1) with K by lia. f_equal.
  apply map_ext_in. intros k Hk. apply zrange_In in Hk. apply Hstab. intros r Hr.
  assert (K <= kappa c a0 f0 (t r)); [|lia]. apply kappa_mono; auto. apply Hcross; [apply last_In; auto|apply in_map; auto].
Qed.

Lemma tgb_stitch : forall H p, H <> [] -> p <> [] -> sorted (map t (H ++ p)) -> tgb [] (H ++ p) = removelast (tgb [] H) ++ tgb H p.
Proof.
  intros H p HneH Hne Hs. unfold tgb, time_groups. simpl app.
  apply (period_stitch (fun X k => (period_label (tg_label tg) a f k, filter (fun r => in_period c a f k (t r)) X)) a f H p); auto.
  intros k Hk. f_equal. rewrite filter_app. rewrite (filter_none _ p), app_nil_r; auto.
  intros r Hr. destruct (in_period c a f k (t r)) eqn:E; auto. apply in_period_kappa in E; auto. specialize (Hk r Hr). lia.
Qed.

Lemma tgs_stitch : forall H p, H <> [] -> p <> [] -> sorted (map t (H ++ p)) ->
  tgs [] (H ++ p) = match tgs [] H, tgs H p with Some x, Some y => Some (removelast x ++ y) | _, _ => None end.
Proof.
  intros H p HneH Hne Hs. unfold tgs, time_snaps. destruct snap as [s|]; simpl; auto.
  destruct (Hsnap s eq_refl) as [Hf' Hfix']. f_equal.
  apply (period_stitch (fun X j => (period_label (tg_label s) (anchor s) (tg_freq s) j,
     snap_period t c a f (period_end (anchor s) (tg_freq s) j) X)) (anchor s) (tg_freq s) H p); auto.
  intros k Hk. f_equal. unfold snap_period. rewrite filter_app. rewrite (filter_none _ p), app_nil_r; auto.
  intros r Hr. apply andb_false_iff. right. unfold period_end. rewrite before_kappa by auto. apply Z.ltb_ge.
  specialize (Hk r Hr). lia.
Qed.

Lemma time_fixed_once : forall eo data, data <> [] -> sorted (map t data) ->
  outcome N val agg dtypes eo (tgb [] data) (tgs [] data) (fun b => b = None)
    (csa (time_bins t tg) sbuf_empty (Some t) (option_map ByTG snap) eo data None).
Proof.
  intros eo data Hne Hs. assert (Hmn := map_ne t data Hne).
  assert (Hseg : forall g oc, 0 < tg_freq g -> fixed_periods g ->
    let c := match oc with Some c => c | None => tg_closed g end in
    let a := anchor g in let f := tg_freq g in
    let k0 := kappa c a f (hd 0 (map t data)) in let k1 := kappa c a f (last (map t data) 0) in
    by_scale (map t data) (ByTG g) oc None =
    Ok (mkSeg (pstarts c a f (map t data) k0 k1) (map (period_label (tg_label g) a f) (zrange k0 k1))
        (n_empty 0 (pstarts c a f (map t data) k0 k1)) c (map (period_end a f) (zrange k0 k1)) false 0, None)).
  { intros g oc Hg Hfx c0 a0 f0 k0 k1.
    pose proof (by_scale_tg_gen g oc (map t data) (hd 0 (map t data)) a0 k0 None) as E. cbv zeta in E.
    fold f0 c0 k1 in E. apply E; auto.
    - apply kappa_hd_le; auto; apply last_In; auto.
    - unfold f0, c0. rewrite gtre_fixed by auto. auto. }
  pose proof (Hseg tg None Hf Hfix) as E. cbv zeta in E. cbv iota in E. fold c a f in E.
  unfold tgb, tgs, first_period. simpl app. destruct snap as [s|] eqn:Es; simpl option_map.
  - destruct (Hsnap s eq_refl) as [Hf' Hfix'].
    pose proof (Hseg s (Some c) Hf' Hfix') as E'. cbv zeta in E'. cbv iota in E'.
    set (a' := anchor s) in *. set (f' := tg_freq s) in *.
    match type of E' with _ = Ok (?x, _) => set (ss := x) in * end.
    eapply outcome_impl.
    + replace (time_snaps t c a f (tg_label s) a' f' (kappa c a' f' (hd 0 (map t data))) (kappa c a' f' (last (map t data) 0)) data)
        with (combine (s_labels ss) (map (fun e => snap_period t c a f e ([] ++ data)) (s_ends ss))).
      2:{ simpl. rewrite map_map, combine_map2. auto. }
      apply (time_call_snap tg (ByTG s) eo [] data None None a (kappa c a f (hd 0 (map t data))) ss None None); auto.
      * apply Z.le_refl.
      * contradiction.
      * congruence.
      * simpl. auto.
      * simpl. auto.
      * apply time_snap_ok; auto. apply kappa_hd_le; auto; apply last_In; auto.
      * simpl. unfold pstarts. rewrite map_map. auto.
      * simpl. apply NoDup_labels; auto.
    + simpl. auto.
  - eapply outcome_impl; [apply (time_call tg eo [] data None None a (kappa c a f (hd 0 (map t data)))); auto|].
    + apply Z.le_refl.
    + contradiction.
    + simpl. auto.
    + simpl. auto.
Qed.

(** Pieces, with the buffer, give the results of a single call. *)
Lemma time_pieces : forall eo pieces,
  concat pieces <> [] -> sorted (map t (concat pieces)) ->
  let piece p b := csa (time_bins t tg) sbuf_empty (Some t) (option_map ByTG snap) eo p b in
  (eo = false -> exists rs b', run_pieces piece (Some csabuf_empty) pieces = Ok (rs, b')) /\
  (forall rs b', run_pieces piece (Some csabuf_empty) pieces = Ok (rs, b') ->
   exists fw sw,
     csa (time_bins t tg) sbuf_empty (Some t) (option_map ByTG snap) false (concat pieces) None = Ok (Some (fw, sw), None)
     /\ frames_make agg (bin_frames rs) fw
     /\ match sw with Some w => frames_make agg (snap_frames rs) w | None => snap_frames rs = [] end).
Proof.
  intros eo pieces Hne Hs piece.
  assert (Hinv : tinv [] (Some csabuf_empty)) by (exists csabuf_empty; split; auto).
  assert (Happ : forall H p : list D, sorted (map t (H ++ p)) -> sorted (map t H)).
  { intros H p Q. rewrite map_app in Q. apply sorted_app in Q. tauto. }
  split.
  - intros Heo. apply (run_total N val agg dtypes piece eo (fun l => sorted (map t l)) tinv tgb tgs) with (H := []); auto.
    intros H p b. apply time_step.
  - intros rs b' Hrun.
    pose proof (time_fixed_once false (concat pieces) Hne Hs) as O.
    destruct (proj2 O) as (fw0 & sw0 & bw0 & E0 & _ & _ & ->); [intros [Q _]; discriminate|].
    pose proof (pieces_whole N val agg dtypes Hvalid piece eo (fun l => sorted (map t l)) tinv tgb tgs
      Happ (fun b => eq_refl) (fun H p b => time_step eo H p b) tgb_stitch tgs_stitch) as W.
    destruct (W ltac:(intros; unfold tgs; destruct snap; simpl; split; congruence)
      pieces (Some csabuf_empty) rs b'
      (csa (time_bins t tg) sbuf_empty (Some t) (option_map ByTG snap) false (concat pieces) None))
      as (fw & sw & bw & E & F1 & F2); auto.
    + apply (outcome_impl N val agg dtypes _ _ _ _ _ _ O). auto.
    + rewrite E0 in E. injection E as <- <- <-. eauto.
Qed.
End TimeCsa.
