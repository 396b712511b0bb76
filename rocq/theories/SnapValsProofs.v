(** Snapshots at given times, in successive calls. *)
Require Import List Arith ZArith Bool Lia Sorted Permutation.
Require Import Verif.Common Verif.AggModel Verif.AggSpec Verif.AggProofs.
Require Import Verif.SegModel Verif.SegSpec Verif.SegProofs Verif.SegRowsProofs Verif.MergeProofs Verif.EventProofs.
Require Import Verif.CsaModel Verif.CsaSpec Verif.CsaProofs Verif.CsaLoopProofs Verif.CsaSegProofs Verif.CsaTimeProofs.
Require Import Verif.CsaPiecesProofs Verif.CsaRowsProofs Verif.SnapValsSpec.
Import ListNotations.

Lemma forallb_filter_id : forall {A} (P : A -> bool) l, forallb P l = true -> filter P l = l.
Proof. intros A P l. induction l as [|x l IH]; simpl; auto. destruct (P x); simpl; [intro H; f_equal; auto|discriminate]. Qed.

Lemma NoDup_app_remove_l : forall {A} (l m : list A), NoDup (l ++ m) -> NoDup m.
Proof. intros A l m. induction l as [|x l IH]; simpl; auto. intro H. inversion H; auto. Qed.

Section Vals.
Context {D : Type}.
Variable t : D -> Z.
Variable c : side.

(** All rows are before an end. *)
Definition covers (rows : list D) (le : Z * Z) : bool := forallb (fun r => before c (snd le) (t r)) rows.

Lemma covers_n_before : forall data le, covers data le = (n_before c (map t data) (snd le) =? length (map t data)).
Proof.
  intros data [l e]. unfold covers. simpl. rewrite n_before_map, map_length. induction data as [|r d IH]; simpl; auto.
  destruct (before c e (t r)); simpl; auto.
  symmetry. apply Nat.eqb_neq. pose proof (filter_length_le_ (fun r => before c e (t r)) d). lia.
Qed.

Lemma find_take_until : forall {A} (P : A -> bool) l d,
  match find P l with
  | Some x => last (take_until P l) d = x /\ P x = true /\ take_until P l <> []
  | None => take_until P l = l /\ forall x, In x l -> P x = false
  end.
Proof.
  intros A P l d. induction l as [|x l IH]; simpl; [split; auto; contradiction|].
  destruct (P x) eqn:E; [repeat split; auto; discriminate|].
  destruct (find P l) as [y|].
  - destruct IH as (I1 & I2 & I3). repeat split; auto; [|discriminate].
    destruct (take_until P l) eqn:Q; [congruence|]. rewrite <- Q in *. simpl. rewrite Q in *. auto.
  - destruct IH as (-> & I2). split; auto. intros z [<-|Hz]; auto.
Qed.

(** The snapshots of a call, and the state left, when the list is not empty. *)
Lemma vals_finish : forall off les data b0, data <> [] -> sorted (map t data) -> les <> [] ->
  sorted (map snd les) -> NoDup (map fst les) ->
  exists ss,
    by_scale_finish false PIndex off (map t data) c (map fst les) (map snd les) (Some b0) =
      Ok (ss, Some (match find (covers data) les with
                    | Some le => mkSbuf (Some (snd le)) (sb_last_on b0)
                    | None => mkSbuf (Some (last (map snd les) 0%Z)) (Some (last (map t data) 0%Z))
                    end)) /\
    snap_ok data (mkSeg (s_starts ss) (s_labels ss) (s_nnull ss) (s_closed ss) (s_ends ss) (s_unknown_last_end ss) 0) /\
    s_starts ss = map (n_before c (map t data)) (s_ends ss) /\ NoDup (s_labels ss) /\
    s_labels ss = map fst (take_until (covers data) les) /\ s_ends ss = map snd (take_until (covers data) les).
Proof.
  intros off les data b0 Hne Hs Hene Hes Hnd. assert (Hmn := map_ne t data Hne).
  set (tk := take_until (covers data) les).
  assert (Hu : until (length (map t data)) (map (n_before c (map t data)) (map snd les)) = map (n_before c (map t data)) (map snd tk)).
  { unfold tk. clear. induction les as [|e es IH]; simpl; auto. rewrite covers_n_before.
    destruct (n_before c (map t data) (snd e) =? length (map t data)); simpl; f_equal. auto. }
  assert (Htk : tk = firstn (length tk) les).
  { unfold tk. clear. induction les as [|e es IH]; simpl; auto. destruct (covers data e); simpl; auto. f_equal. auto. }
  assert (Hex : existsb (Nat.eqb (length (map t data))) (map (n_before c (map t data)) (map snd les))
     = match find (covers data) les with Some _ => true | None => false end).
  { clear. induction les as [|e es IH]; simpl; auto. rewrite covers_n_before, Nat.eqb_sym.
    destruct (n_before c (map t data) (snd e) =? length (map t data)); simpl; auto. }
  set (ps := map (n_before c (map t data)) (map snd tk)) in *.
  assert (Hlp : length ps = length tk) by (unfold ps; rewrite !map_length; auto).
  assert (Hss : sorted (map snd tk)) by (rewrite Htk, <- firstn_map; apply sorted_firstn; auto).
  exists (mkSeg ps (map fst tk) (n_empty 0 ps) c (map snd tk) false off).
  split; [|split; [|split; [|split; [|split]]]]; try reflexivity.
  - unfold by_scale_finish. rewrite (next_chunk_starts_spec c (map t data) (map snd les)) by (auto; intro Q; apply map_eq_nil in Q; auto).
    cbv zeta. rewrite Hu, Hex, Hlp. pose proof (find_take_until (covers data) les (0%Z, 0%Z)) as F. fold tk in F.
    destruct (find (covers data) les) as [le|].
    + destruct F as (F1 & F2 & F3). rewrite !firstn_map, <- Htk.
      assert (Hg : getitem PIndex off (map snd tk) (length tk - 1) = Ok (snd le)).
      { simpl. destruct (exists_last F3) as (m & y & Q). rewrite Q in F1 |- *. rewrite last_last in F1. subst y.
        rewrite map_app, app_length. simpl length. replace (length m + 1 - 1) with (length m) by lia.
        rewrite nth_error_app2 by (rewrite map_length; auto). rewrite map_length, Nat.sub_diag. auto. }
      rewrite Hg. cbn [bind]. destruct c; reflexivity.
    + destruct F as (F1 & F2). rewrite F1.
      assert (Hg : getitem PIndex off (map snd les) (length les - 1) = Ok (last (map snd les) 0%Z)).
      { simpl. destruct (exists_last Hene) as (m & y & Q). rewrite Q.
        rewrite map_app, app_length. simpl length. replace (length m + 1 - 1) with (length m) by lia.
        simpl. rewrite last_last. rewrite nth_error_app2 by (rewrite map_length; auto). rewrite map_length, Nat.sub_diag. auto. }
      rewrite Hg. cbn [bind]. reflexivity.
  - constructor; simpl; auto.
    + rewrite Hlp, map_length; auto.
    + rewrite Hlp, map_length; auto.
    + unfold ps. revert Hss. clear. generalize (map snd tk). induction l as [|x l IH]; intros Q; simpl; constructor; inversion Q; subst; auto.
      rewrite Forall_forall in *. intros q Hq. apply in_map_iff in Hq as (y & <- & Hy). apply n_before_mono; auto.
    + intros q Hq. apply in_map_iff in Hq as (y & <- & Hy). etransitivity; [apply n_before_le|]. rewrite map_length; auto.
  - cbn [s_labels]. rewrite Htk, <- firstn_map. apply NoDup_firstn_; auto.
Qed.

(** * Several calls *)
(** Points, as (label, end); [firstn m les] is given at a call. *)
Variable les : list (Z * Z).
Hypothesis Hlab : NoDup (map fst les).
Hypothesis Hends : StronglySorted Z.lt (map snd les).

Definition todo (m : nat) (H : list D) : list (Z * Z) := filter (covers H) (firstn m les).
Definition vsnaps (m : nat) (H p : list D) : list (Z * Z) := take_until (covers p) (todo m H).

(** Buffer of snapshots when rows [H] have been processed, the last call having been given [m] points. *)
Definition sbuf_of (m : nat) (H : list D) : sbuf :=
  match H with
  | [] => sbuf_empty
  | _ => match todo m H with
         | le :: _ => mkSbuf (Some (snd le)) None
         | [] => mkSbuf (Some (last (map snd (firstn m les)) 0%Z)) (Some (last (map t H) 0%Z))
         end
  end.

Lemma lt_sorted : forall l, StronglySorted Z.lt l -> sorted l.
Proof. induction 1; constructor; auto. rewrite Forall_forall in *. intros x Hx. specialize (H0 x Hx). lia. Qed.

Lemma lt_sorted_app : forall l m, StronglySorted Z.lt (l ++ m) -> StronglySorted Z.lt l /\ StronglySorted Z.lt m /\ forall x y, In x l -> In y m -> (x < y)%Z.
Proof.
  induction l as [|a l IH]; intros m H; simpl in *; [repeat split; auto; [constructor|contradiction]|].
  inversion H; subst. destruct (IH m H2) as (A1 & A2 & A3). rewrite Forall_forall in H3.
  repeat split; auto.
  - constructor; auto. rewrite Forall_forall. intros x Hx. apply H3. apply in_or_app; auto.
  - intros x y [<-|Hx] Hy; auto. apply H3. apply in_or_app; auto.
Qed.

(** Points are passed in order. *)
Lemma split_todo : forall (l : list (Z * Z)) H, StronglySorted Z.lt (map snd l) ->
  exists passed, l = passed ++ filter (covers H) l /\ forall le, In le passed -> covers H le = false.
Proof.
  induction l as [|x l IH]; intros H Hs; simpl; [exists []; split; auto; contradiction|].
  inversion Hs; subst. destruct (covers H x) eqn:E.
  - exists []. split; [|contradiction]. simpl. f_equal. symmetry. apply forallb_filter_id. apply forallb_forall.
    intros y Hy. rewrite Forall_forall in H3. specialize (H3 (snd y) (in_map snd _ _ Hy)).
    unfold covers in *. rewrite forallb_forall in *. intros r Hr. specialize (E r Hr).
    destruct c; simpl in *; [apply Z.ltb_lt in E; apply Z.ltb_lt|apply Z.leb_le in E; apply Z.leb_le]; lia.
  - destruct (IH H H2) as (ps & E1 & E2). exists (x :: ps). split; [simpl; f_equal; auto|]. intros le [<-|Hl]; auto.
Qed.

Lemma covers_app : forall H p le, covers (H ++ p) le = covers H le && covers p le.
Proof. intros. unfold covers. apply forallb_app. Qed.

Lemma passed_later : forall H p le, sorted (map t (H ++ p)) -> covers H le = false -> forall r, In r p -> before c (snd le) (t r) = false.
Proof.
  intros H p le Hs Hc r Hr. rewrite map_app in Hs. apply sorted_app in Hs as (_ & _ & Hx).
  assert (exists h, In h H /\ before c (snd le) (t h) = false) as (h & Hh & Hb).
  { unfold covers in Hc. clear -Hc. induction H as [|h H IH]; simpl in *; [discriminate|].
    destruct (before c (snd le) (t h)) eqn:E; [|eauto]. destruct (IH Hc) as (h' & A & B). eauto. }
  specialize (Hx (t h) (t r) (in_map t _ _ Hh) (in_map t _ _ Hr)).
  destruct c; simpl in *; [apply Z.ltb_ge in Hb; apply Z.ltb_ge|apply Z.leb_gt in Hb; apply Z.leb_gt]; lia.
Qed.

Lemma last_passes : forall H le, H <> [] -> sorted (map t H) -> covers H le = false -> before c (snd le) (last (map t H) 0%Z) = false.
Proof.
  intros H le Hne Hs Hc. destruct (exists_last Hne) as (H' & h & ->).
  rewrite map_app. cbn [map]. rewrite last_last. rewrite covers_app in Hc. destruct (covers H' le) eqn:E.
  - simpl in Hc. rewrite andb_true_r in Hc. auto.
  - apply (passed_later H' [h] le); auto. left; auto.
Qed.

Lemma filter_ge : forall (l : list (Z * Z)) rk, filter (fun e => rk <=? e)%Z (map snd l) = map snd (filter (fun le => rk <=? snd le)%Z l).
Proof. intros l rk. induction l as [|x l IH]; simpl; auto. destruct (rk <=? snd x)%Z; simpl; f_equal; auto. Qed.

(** Restart. *)
Lemma vals_restart : forall m m' H, H <> [] -> sorted (map t H) -> 0 < m <= m' -> m <= length les ->
  (forall le, In le (skipn m (firstn m' les)) -> covers H le = true) ->
  exists off, by_vals_restart PIndex c (map fst (firstn m' les)) (map snd (firstn m' les)) (sbuf_of m H)
    = Ok (off, map fst (todo m' H), map snd (todo m' H), mkSbuf (sb_restart (sbuf_of m H)) None) .
Proof.
  intros m m' H Hne Hs [Hm Hm'] Hml Hnew.
  set (L' := firstn m' les) in *. set (L := firstn m les).
  assert (EL : L' = L ++ skipn m L').
  { unfold L', L. rewrite <- (firstn_skipn m (firstn m' les)) at 1. f_equal. rewrite firstn_firstn. f_equal. lia. }
  set (new := skipn m L') in *.
  assert (HsL' : StronglySorted Z.lt (map snd L')).
  { unfold L'. rewrite <- (firstn_skipn m' les), map_app in Hends. apply lt_sorted_app in Hends. tauto. }
  assert (HsL : StronglySorted Z.lt (map snd L)) by (rewrite EL, map_app in HsL'; apply lt_sorted_app in HsL'; tauto).
  destruct (split_todo L H HsL) as (ps & EP & Hps). change (filter (covers H) L) with (todo m H) in EP.
  assert (Htodo' : todo m' H = todo m H ++ new).
  { unfold todo. fold L L'. rewrite EL, filter_app. f_equal. apply forallb_filter_id. apply forallb_forall. auto. }
  assert (HLne : L <> []).
  { intro Q. apply (f_equal (@length _)) in Q. unfold L in Q. rewrite firstn_length in Q. simpl in Q. lia. }
  assert (Hsb : sbuf_of m H = match todo m H with
         | le :: _ => mkSbuf (Some (snd le)) None
         | [] => mkSbuf (Some (last (map snd L) 0%Z)) (Some (last (map t H) 0%Z))
         end) by (destruct H; [congruence|reflexivity]).
  (* trimming at an element *)
  assert (Htrim : forall a x b, L' = a ++ x :: b -> 
     (let* e0 := getitem PIndex 0 (map snd L') 0 in
        if (snd x =? e0)%Z then Ok (0%nat, map fst L', map snd L')
        else
          let kept := filter (fun e => (snd x <=? e)%Z) (map snd L') in
          let off := (length (map snd L') - length kept)%nat in
          let* e0' := getitem PIndex off kept 0 in
          if (snd x =? e0')%Z then Ok (off, skipn off (map fst L'), kept) else Err ValueError)
     = Ok (length a, map fst (x :: b), map snd (x :: b))).
  { intros a x b Q. rewrite Q in *. rewrite map_app in HsL'. apply lt_sorted_app in HsL' as (S1 & S2 & S3).
    assert (Hk : filter (fun e => (snd x <=? e)%Z) (map snd (a ++ x :: b)) = map snd (x :: b)).
    { rewrite map_app, filter_app. rewrite (filter_none _ (map snd a)).
      - rewrite app_nil_l. apply forallb_filter_id. apply forallb_forall. intros y Hy. apply Z.leb_le. simpl in Hy.
        destruct Hy as [<-|Hy]; [lia|]. simpl in S2. apply StronglySorted_inv in S2 as [_ S2]. rewrite Forall_forall in S2. specialize (S2 y Hy). lia.
      - intros y Hy. apply Z.leb_gt. apply S3; auto. left; auto. }
    destruct a as [|y a]; [simpl; rewrite Z.eqb_refl; auto|].
    assert (E0 : getitem PIndex 0 (map snd ((y :: a) ++ x :: b)) 0 = Ok (snd y)) by reflexivity.
    rewrite E0. cbn [bind]. destruct (snd x =? snd y)%Z eqn:Exy.
    { apply Z.eqb_eq in Exy. specialize (S3 (snd y) (snd x)). simpl in S3. exfalso. assert (snd y < snd x)%Z by (apply S3; auto). lia. }
    rewrite Hk. cbv zeta.
    assert (El : (length (map snd ((y :: a) ++ x :: b)) - length (map snd (x :: b)))%nat = length (y :: a)).
    { rewrite !map_length, app_length. lia. }
    rewrite El. simpl getitem. cbn [bind]. rewrite Z.eqb_refl. do 3 f_equal.
    rewrite map_app. rewrite skipn_app, map_length, Nat.sub_diag. rewrite skipn_all2 by (rewrite map_length; auto). auto. }
  cbv zeta in Htrim. rewrite Hsb. destruct (todo m H) as [|x td] eqn:Etd.
  - rewrite app_nil_r in EP. destruct (exists_last HLne) as (a & x & Ea).
    assert (Elast : last (map snd L) 0%Z = snd x) by (rewrite Ea, map_app; simpl; apply last_last).
    assert (Hcx : covers H x = false) by (apply Hps; rewrite <- EP, Ea; apply in_or_app; right; left; auto).
    assert (Hlo := last_passes H x Hne Hs Hcx).
    rewrite Elast. exists (S (length a)). unfold by_vals_restart. cbn [sb_restart sb_last_on].
    rewrite (Htrim a x new) by (rewrite EL, Ea, <- app_assoc; auto). cbn [bind].
    rewrite Htodo'. simpl app.
    assert (Hb0 : match c with SRight => (snd x <? last (map t H) 0)%Z | SLeft => (snd x <=? last (map t H) 0)%Z end = true).
    { destruct c; simpl in Hlo; [apply Z.ltb_ge in Hlo; apply Z.leb_le|apply Z.leb_gt in Hlo; apply Z.ltb_lt]; auto. }
    destruct new as [|y new'].
    + simpl. rewrite Hb0. auto.
    + assert (Hb1 : match c with SRight => (snd y <? last (map t H) 0)%Z | SLeft => (snd y <=? last (map t H) 0)%Z end = false).
      { assert (Hcy : covers H y = true) by (apply Hnew; left; auto). unfold covers in Hcy. rewrite forallb_forall in Hcy.
        assert (In (last (map t H) 0%Z) (map t H)) as Hin by (apply last_In; destruct H; [congruence|discriminate]).
        apply in_map_iff in Hin as (r & Er & Hr). specialize (Hcy r Hr). rewrite Er in Hcy.
        destruct c; simpl in Hcy; [apply Z.ltb_lt in Hcy; apply Z.leb_gt|apply Z.leb_le in Hcy; apply Z.ltb_ge]; auto. }
      simpl. rewrite Hb1. simpl. rewrite Hb0. auto.
  - exists (length ps). unfold by_vals_restart. cbn [sb_restart sb_last_on].
    rewrite (Htrim ps x (td ++ new)) by (rewrite EL, EP, <- app_assoc; auto). cbn [bind].
    rewrite Htodo'. auto.
Qed.

(** One call. *)
Lemma vals_call : forall m m' H p, p <> [] -> sorted (map t (H ++ p)) -> 0 < m' <= length les ->
  (H <> [] -> 0 < m <= m') ->
  (forall le, In le (skipn m (firstn m' les)) -> covers H le = true) ->
  exists ss,
    by_scale (map t p) (ByVals PIndex (map fst (firstn m' les)) (map snd (firstn m' les))) (Some c) (Some (sbuf_of m H))
      = Ok (ss, Some (sbuf_of m' (H ++ p))) /\
    snap_ok p ss /\ s_starts ss = map (n_before c (map t p)) (s_ends ss) /\ NoDup (s_labels ss) /\
    s_labels ss = map fst (vsnaps m' H p) /\ s_ends ss = map snd (vsnaps m' H p).
Proof.
  intros m m' H p Hp Hs [Hm0 Hm'] Hm Hnew.
  assert (Hmn := map_ne t p Hp).
  assert (HsL' : StronglySorted Z.lt (map snd (firstn m' les))).
  { rewrite <- (firstn_skipn m' les), map_app in Hends. apply lt_sorted_app in Hends. tauto. }
  assert (HnL' : NoDup (map fst (firstn m' les))) by (rewrite <- firstn_map; apply NoDup_firstn_; auto).
  pose proof Hs as Hs2. rewrite map_app in Hs2. apply sorted_app in Hs2 as (HsH & Hsp & _).
  set (L' := firstn m' les) in *.
  assert (HLne : L' <> []).
  { intro Q. apply (f_equal (@length _)) in Q. unfold L' in Q. rewrite firstn_length in Q. simpl in Q. lia. }
  assert (Hpass : exists off b1, 
    match (if sbuf_true (sbuf_of m H) then let* '(o, l, e, b') := by_vals_restart PIndex c (map fst L') (map snd L') (sbuf_of m H) in
                             Ok (o, l, e, Some b')
                        else Ok (0%nat, map fst L', map snd L', Some (sbuf_of m H))) with
    | Ok x => x = (off, map fst (todo m' H), map snd (todo m' H), Some b1)
    | Err _ => False end /\ sb_last_on b1 = None /\ (H <> [] -> sb_restart b1 = sb_restart (sbuf_of m H))).
  { destruct H as [|h0 H'] eqn:EH.
    - exists 0, sbuf_empty. simpl. split; [|split; auto]. unfold todo. fold L'.
      replace (filter (covers []) L') with L'; auto. symmetry. apply forallb_filter_id. apply forallb_forall. auto.
    - rewrite <- EH in *. assert (HneH : H <> []) by (subst H; discriminate).
      destruct (vals_restart m m' H HneH HsH (Hm HneH) ltac:(specialize (Hm HneH); lia) Hnew) as (off & E).
      assert (Htrue : sbuf_true (sbuf_of m H) = true) by (subst H; simpl; destruct (todo m (h0 :: H')); auto).
      rewrite Htrue. exists off, (mkSbuf (sb_restart (sbuf_of m H)) None). fold L' in E. rewrite E. simpl. auto. }
  destruct Hpass as (off & b1 & Hpass & Hb1 & Hb1r).
  unfold by_scale. rewrite !map_length, Nat.eqb_refl. simpl negb. cbv iota.
  destruct (if sbuf_true (sbuf_of m H) then _ else _) as [x|]; [|contradiction]. subst x. cbn [bind].
  assert (HtsS : StronglySorted Z.lt (map snd (todo m' H)) /\ NoDup (map fst (todo m' H))).
  { destruct (split_todo L' H HsL') as (ps & EP & _). change (filter (covers H) L') with (todo m' H) in EP. rewrite EP in HsL', HnL'.
    rewrite map_app in HsL', HnL'. split; [apply lt_sorted_app in HsL'; tauto|]. apply NoDup_app_remove_l in HnL'. auto. }
  destruct HtsS as [HtS HtN].
  assert (Hcov : forall le, In le (todo m' H) -> covers H le = true) by (intros le Hl; unfold todo in Hl; apply filter_In in Hl; tauto).
  assert (Htodo2 : todo m' (H ++ p) = filter (covers p) (todo m' H)).
  { unfold todo. clear. induction (firstn m' les) as [|x l IH]; simpl; auto. rewrite covers_app.
    destruct (covers H x); simpl; auto. destruct (covers p x); simpl; auto. f_equal; auto. }
  assert (HlastA : last (map t (H ++ p)) 0%Z = last (map t p) 0%Z) by (rewrite map_app; apply last_app_ne; auto).
  assert (Hfind : find (covers p) (todo m' H) = hd_error (todo m' (H ++ p))).
  { rewrite Htodo2. clear. induction (todo m' H) as [|x l IH]; simpl; auto. destruct (covers p x); auto. }
  assert (Hsb2 : sbuf_of m' (H ++ p) = match todo m' (H ++ p) with
         | le :: _ => mkSbuf (Some (snd le)) None
         | [] => mkSbuf (Some (last (map snd L') 0%Z)) (Some (last (map t p) 0%Z))
         end).
  { rewrite <- HlastA. unfold sbuf_of. destruct (H ++ p) eqn:Q; auto. apply app_eq_nil in Q as [_ Q]. congruence. }
  unfold vsnaps. destruct (todo m' H) as [|x td] eqn:Etd.
  - exists (mkSeg [] [] 0 c [] false 0). simpl. split; [|split; [constructor; simpl; auto; try constructor; contradiction|repeat split; auto; constructor]].
    do 2 f_equal. f_equal. rewrite Hsb2, Htodo2. simpl. rewrite Hb1r.
    + unfold sbuf_of. destruct H as [|h0 H'].
      * exfalso. unfold todo in Etd. fold L' in Etd. apply HLne.
        rewrite <- Etd. symmetry. apply forallb_filter_id. apply forallb_forall. auto.
      * specialize (Hm ltac:(discriminate)).
        assert (El : L' = firstn m les ++ skipn m L').
        { unfold L'. rewrite <- (firstn_skipn m (firstn m' les)) at 1. f_equal. rewrite firstn_firstn. f_equal. lia. }
        assert (Hn0 : skipn m L' = []).
        { destruct (skipn m L') as [|y ys] eqn:Q; auto. exfalso.
          assert (Hy : In y (todo m' (h0 :: H'))).
          { unfold todo. apply filter_In. split; [fold L'; rewrite El; apply in_or_app; right; left; auto|]. apply Hnew. left; auto. }
          rewrite Etd in Hy. contradiction. }
        assert (Et0 : todo m (h0 :: H') = []).
        { rewrite Hn0, app_nil_r in El. unfold todo in *. fold L' in Etd. rewrite <- El. auto. }
        rewrite Et0. rewrite Hn0, app_nil_r in El. rewrite <- El. auto.
    + intro Q. subst H. unfold todo in Etd. fold L' in Etd. apply HLne.
        rewrite <- Etd. symmetry. apply forallb_filter_id. apply forallb_forall. auto.
  - rewrite <- Etd in *. assert (Hne : todo m' H <> []) by congruence.
    destruct (vals_finish off (todo m' H) p b1 Hp Hsp Hne (lt_sorted _ HtS) HtN) as (ss & E & A1 & A2 & A3 & A4 & A5).
    assert (Hm2 : forall T (x y : T), match map snd (todo m' H) with [] => x | _ :: _ => y end = y) by (rewrite Etd; auto).
    rewrite Hm2, E. cbn [bind].
    eexists. split; [reflexivity || idtac|].
    + do 2 f_equal. f_equal. rewrite Hsb2, Hfind.
      destruct (todo m' (H ++ p)) as [|y ys]; simpl; [|rewrite Hb1; auto].
      do 2 f_equal. destruct (split_todo L' H HsL') as (ps & EP & _). change (filter (covers H) L') with (todo m' H) in EP.
      rewrite EP, map_app. symmetry. apply last_app_ne. rewrite Etd. discriminate.
    + auto.
Qed.
End Vals.

Definition relabel {A A'} (h : A -> A') (l : list (Z * A)) : list (Z * A') := map (fun x => (fst x, h (snd x))) l.

Lemma relabel_app : forall {A A'} (h : A -> A') l m, relabel h (l ++ m) = relabel h l ++ relabel h m.
Proof. intros. apply map_app. Qed.

Lemma join_rows_relabel : forall {A A'} (h : A -> A') a b, join_rows (relabel h a) (relabel h b) = relabel h (join_rows a b).
Proof.
  intros A A' h a b. unfold join_rows. destruct b as [|[l x] b]; auto.
  cbn [relabel map fst snd]. unfold relabel. rewrite <- map_rev. destruct (rev a) as [|[l' x'] r]; auto. cbn [map fst snd].
  destruct (l =? l')%Z; rewrite ?map_app; auto. rewrite map_removelast. auto.
Qed.

Lemma join_results_relabel : forall {A A'} (h : A -> A') ls, join_results (map (relabel h) ls) = relabel h (join_results ls).
Proof.
  intros A A' h ls. induction ls as [|g ls IH] using rev_ind; auto.
  unfold join_results in *. rewrite map_app, !fold_left_app. simpl. rewrite IH. apply join_rows_relabel.
Qed.

Lemma take_until_app : forall {A} (P : A -> bool) l m, (forall x, In x l -> P x = false) -> take_until P (l ++ m) = l ++ take_until P m.
Proof. intros A P l m H. induction l as [|x l IH]; simpl; auto. rewrite H by (left; auto). f_equal. apply IH. intros. apply H. right; auto. Qed.

Lemma take_until_ext : forall {A} (P Q : A -> bool) l, (forall x, In x l -> P x = Q x) -> take_until P l = take_until Q l.
Proof. intros A P Q l H. induction l as [|x l IH]; simpl; auto. rewrite (H x) by (left; auto). destruct (Q x); auto. f_equal. apply IH. intros; apply H; right; auto. Qed.

Section Join.
Context {D : Type}.
Variable t : D -> Z.
Variable c : side.
Variable les : list (Z * Z).
Hypothesis Hlab : NoDup (map fst les).
Hypothesis Hends : StronglySorted Z.lt (map snd les).
Variable g : list D -> Z -> list D.
Hypothesis g_stable : forall H p le, sorted (map t (H ++ p)) -> covers t c H le = false -> g (H ++ p) (snd le) = g H (snd le).

Definition vgroups (m : nat) (H p : list D) : list (Z * list D) := relabel (g (H ++ p)) (vsnaps t c les m H p).

Lemma todo_nil : forall m, todo t c les m [] = firstn m les.
Proof. intros m. unfold todo. apply forallb_filter_id. apply forallb_forall. auto. Qed.

Lemma vgroups_join : forall m m' H p, H <> [] -> p <> [] -> sorted (map t (H ++ p)) -> 0 < m <= m' -> m' <= length les ->
  (forall le, In le (skipn m (firstn m' les)) -> covers t c H le = true) ->
  join_rows (vgroups m [] H) (vgroups m' H p) = vgroups m' [] (H ++ p).
Proof.
  intros m m' H p HneH Hp Hs [Hm Hm'] Hml Hnew. unfold vgroups, vsnaps. rewrite !todo_nil. rewrite !app_nil_l.
  set (L' := firstn m' les) in *. set (L := firstn m les).
  assert (EL : L' = L ++ skipn m L').
  { unfold L', L. rewrite <- (firstn_skipn m (firstn m' les)) at 1. f_equal. rewrite firstn_firstn. f_equal. lia. }
  set (new := skipn m L') in *.
  assert (HsL' : StronglySorted Z.lt (map snd L')).
  { unfold L'. rewrite <- (firstn_skipn m' les), map_app in Hends. apply lt_sorted_app in Hends. tauto. }
  assert (HnL' : NoDup (map fst L')) by (unfold L'; rewrite <- firstn_map; apply NoDup_firstn_; auto).
  assert (HsL : StronglySorted Z.lt (map snd L)) by (rewrite EL, map_app in HsL'; apply lt_sorted_app in HsL'; tauto).
  destruct (split_todo t c L H HsL) as (ps & EP & Hps). change (filter (covers t c H) L) with (todo t c les m H) in EP.
  assert (Htodo' : todo t c les m' H = todo t c les m H ++ new).
  { unfold todo. fold L L'. rewrite EL, filter_app. f_equal. apply forallb_filter_id. apply forallb_forall. auto. }
  assert (Htc : forall le, In le (todo t c les m' H) -> covers t c H le = true) by (intros le Hl; unfold todo in Hl; apply filter_In in Hl; tauto).
  assert (HLne : L <> []).
  { intro Q. apply (f_equal (@length _)) in Q. unfold L in Q. rewrite firstn_length in Q. simpl in Q. lia. }
  (* the single call *)
  assert (EW : take_until (covers t c (H ++ p)) L' = ps ++ take_until (covers t c p) (todo t c les m' H)).
  { rewrite EL, EP, <- app_assoc. rewrite take_until_app by (intros x Hx; rewrite covers_app, (Hps x Hx); auto).
    f_equal. rewrite <- Htodo'. apply take_until_ext. intros x Hx. rewrite covers_app, (Htc x Hx). auto. }
  rewrite EW, relabel_app.
  assert (Eps : relabel (g (H ++ p)) ps = relabel (g H) ps).
  { apply map_ext_in. intros x Hx. f_equal. apply g_stable; auto. }
  rewrite Eps.
  rewrite EP. rewrite take_until_app by auto. rewrite relabel_app.
  destruct (todo t c les m H) as [|x td] eqn:Etd.
  - simpl. rewrite app_nil_r in *. rewrite Htodo'. simpl app. unfold join_rows.
    destruct new as [|y new'] eqn:En; [simpl; rewrite app_nil_r; auto|].
    destruct (exists_last HLne) as (a & z & Ea).
    assert (Hz : ps = a ++ [z]) by congruence. rewrite Hz. rewrite relabel_app, rev_app_distr. simpl rev.
    assert (Hxy : fst y <> fst z).
    { intro Q. rewrite EL, Ea, <- app_assoc, map_app in HnL'. apply NoDup_app_remove_l in HnL'. simpl in HnL'.
      apply NoDup_cons_iff in HnL' as [Hn _]. apply Hn. left; auto. }
    apply Z.eqb_neq in Hxy. destruct y as [ly ey]. simpl in Hxy |- *.
    destruct (covers t c p (ly, ey)); simpl; rewrite Hxy, <- app_assoc; auto.
  - assert (Hx : covers t c H x = true) by (apply Htc; rewrite Htodo'; left; auto).
    rewrite Htodo'. simpl. rewrite Hx. simpl. unfold join_rows.
    destruct (covers t c p x); simpl; rewrite rev_app_distr; simpl; rewrite Z.eqb_refl, removelast_last; auto.
Qed.

(** * Calls *)
Context {B V : Type}.
Variable N : dtype -> num V.
Variable val : D -> cname -> V.
Variables (agg : aggspec) (dtypes : list (cname * dtype)).
Hypothesis Hvalid : agg_valid agg dtypes.
Variable call : list D * nat -> option (csabuf B V) -> res (option (frame V * option (frame V)) * option (csabuf B V)).
Variable eo : bool.
Variable ok : list D -> Prop.
Variable Inv : nat -> list D -> option (csabuf B V) -> Prop.
Variable gb : list D -> list D -> list (Z * list D).
Hypothesis ok_app : forall H p, ok (H ++ p) -> ok H.
Hypothesis ok_sorted : forall H, ok H -> sorted (map t H).
Hypothesis call_step : forall H p m m' b, p <> [] -> ok (H ++ p) -> Inv m H b -> 0 < m' <= length les ->
  (H <> [] -> 0 < m <= m') -> (forall le, In le (skipn m (firstn m' les)) -> covers t c H le = true) ->
  outcome N val agg dtypes eo (gb H p) (Some (vgroups m' H p)) (Inv m' (H ++ p)) (call (p, m') b).
Hypothesis gb_stitch : forall H p, H <> [] -> p <> [] -> ok (H ++ p) -> gb [] (H ++ p) = removelast (gb [] H) ++ gb H p.

Fixpoint call_groups (H : list D) (calls : list (list D * nat)) : list (list (Z * list D)) :=
  match calls with
  | [] => []
  | (p, m) :: ps => vgroups m H p :: call_groups (H ++ p) ps
  end.

(** What is still to come is after the rows seen. *)
Definition later (m : nat) (H : list D) : Prop := forall le r, In le (skipn m les) -> In r H -> before c (snd le) (t r) = true.

Lemma later_new : forall m m' H, later m H -> forall le, In le (skipn m (firstn m' les)) -> covers t c H le = true.
Proof.
  intros m m' H Hl le Hi. unfold covers. apply forallb_forall. intros r Hr. apply Hl; auto.
  rewrite skipn_firstn_comm in Hi. apply firstn_In_ in Hi. auto.
Qed.

Lemma calls_total : eo = false -> forall calls H m b, ok (H ++ concat (map fst calls)) -> Inv m H b -> (H <> [] -> 0 < m) -> later m H ->
  points_in_time t c les H m calls -> exists rs b', run_pieces call b calls = Ok (rs, b').
Proof.
  intros Heo. induction calls as [|[p m'] cs IH]; intros H m b Hok Hinv Hm Hl Hpt; simpl in *; [eauto|].
  destruct Hpt as (Hp & Hm0 & [Hmm Hml] & Hlater & Hpt). rewrite app_assoc in Hok.
  pose proof (call_step H p m m' b Hp (ok_app _ _ Hok) Hinv (conj Hm0 Hml) ltac:(intro Q; specialize (Hm Q); lia) (later_new m m' H Hl)) as [_ O2].
  destruct O2 as (fb & fs & b2 & -> & F1 & F2 & F3); [intros [Z _]; congruence|].
  destruct (IH (H ++ p) m' b2) as (ss & b'' & ->); eauto.
Qed.

Lemma calls_ok : forall calls H m b rs b', ok (H ++ concat (map fst calls)) -> Inv m H b -> (H <> [] -> 0 < m) -> later m H ->
  points_in_time t c les H m calls -> run_pieces call b calls = Ok (rs, b') ->
  Forall2 (frame_is N val agg dtypes) (piece_groups gb H (map fst calls)) (bin_frames rs)
  /\ Forall2 (frame_is N val agg dtypes) (call_groups H calls) (snap_frames rs).
Proof.
  induction calls as [|[p m'] cs IH]; intros H m b rs b' Hok Hinv Hm Hl Hpt Hrun; simpl in *.
  - injection Hrun as <- <-. split; constructor.
  - destruct Hpt as (Hp & Hm0 & [Hmm Hml] & Hlater & Hpt). rewrite app_assoc in Hok.
    pose proof (call_step H p m m' b Hp (ok_app _ _ Hok) Hinv (conj Hm0 Hml) ltac:(intro Q; specialize (Hm Q); lia) (later_new m m' H Hl)) as [O1 O2].
    destruct (call (p, m') b) as [[s b1]|e] eqn:Ec; [|discriminate].
    destruct O2 as (fb & fs & b2 & Q & F1 & F2 & F3).
    { intro Z. specialize (O1 Z). discriminate. }
    injection Q as -> ->.
    destruct (run_pieces call b2 cs) as [[ss b'']|e] eqn:E; [|discriminate]. injection Hrun as <- <-.
    destruct (IH (H ++ p) m' b2 ss b'') as [A1 A2]; auto.
    destruct fs as [fs|]; [|contradiction].
    destruct p as [|x p']; [congruence|]. unfold bin_frames, snap_frames in *. simpl. split; constructor; auto.
Qed.

Lemma call_groups_join : forall calls H m, H <> [] -> ok (H ++ concat (map fst calls)) -> 0 < m -> later m H ->
  points_in_time t c les H m calls ->
  fold_left join_rows (call_groups H calls) (vgroups m [] H) = vgroups (length les) [] (H ++ concat (map fst calls)).
Proof.
  induction calls as [|[p m'] cs IH]; intros H m Hne Hok Hm Hl Hpt; simpl in *.
  - subst m. rewrite app_nil_r. auto.
  - destruct Hpt as (Hp & Hm0 & [Hmm Hml] & Hlater & Hpt). rewrite app_assoc in Hok.
    rewrite vgroups_join; auto.
    + rewrite IH; auto.
      * rewrite <- app_assoc. auto.
      * intro Q. apply app_eq_nil in Q. tauto.
    + apply ok_sorted. eapply ok_app; eauto.
    + apply later_new; auto.
Qed.

Lemma call_groups_join0 : forall calls, calls <> [] -> ok (concat (map fst calls)) -> points_in_time t c les [] 0 calls ->
  join_results (call_groups [] calls) = vgroups (length les) [] (concat (map fst calls)).
Proof.
  intros [|[p m] cs] Hne Hok Hpt; [congruence|]. simpl in *.
  destruct Hpt as (Hp & Hm0 & [Hmm Hml] & Hlater & Hpt). unfold join_results. simpl.
  assert (E : join_rows [] (vgroups m [] p) = vgroups m [] p) by (unfold join_rows; destruct (vgroups m [] p) as [|[? ?] ?]; auto).
  rewrite E. apply call_groups_join; auto.
Qed.

(** A column of a frame. *)
Lemma column_groups : forall gg fr out i f d, frame_is N val agg dtypes gg fr -> In (out, (i, Some f)) agg -> dict_get Nat.eqb i dtypes = Some d ->
  column_of out fr = relabel (fun rows => agg_of N val d f i rows) gg.
Proof.
  intros gg fr out i f d (H1 & _ & H2) Hi Hd. unfold column_of, fcol. rewrite (H2 out i f d Hi Hd), H1.
  unfold relabel. clear. induction gg as [|x gg IH]; simpl; auto. f_equal; auto.
Qed.

Lemma calls_whole : forall calls b0 rs b' (whole_call : res (option (frame V * option (frame V)) * option (csabuf B V))),
  Inv 0 [] b0 -> ok (concat (map fst calls)) -> calls <> [] -> points_in_time t c les [] 0 calls ->
  outcome N val agg dtypes false (gb [] (concat (map fst calls))) (Some (vgroups (length les) [] (concat (map fst calls)))) (fun _ => True) whole_call ->
  run_pieces call b0 calls = Ok (rs, b') ->
  exists fw sw bw, whole_call = Ok (Some (fw, Some sw), bw)
    /\ frames_make agg (bin_frames rs) fw
    /\ forall out, In out (map fst agg) -> join_results (map (column_of out) (snap_frames rs)) = column_of out sw.
Proof.
  intros calls b0 rs b' w Hinv Hok Hne Hpt [_ Ow] Hrun.
  destruct Ow as (fw & sw & bw & -> & W1 & W2 & _); [intros [Q _]; discriminate|].
  destruct sw as [sw|]; [|contradiction].
  assert (Hl0 : later 0 []) by (intros le r _ []).
  destruct (calls_ok calls [] 0 b0 rs b' Hok Hinv ltac:(congruence) Hl0 Hpt Hrun) as (R1 & R2).
  exists fw, sw, bw. split; auto. split.
  - eapply frames_make_groups; [exact Hvalid|exact R1|]. rewrite (groups_stitch0 ok gb ok_app gb_stitch); auto.
    intro Q. destruct calls as [|[p m] cs]; [congruence|]. simpl in Q, Hpt. destruct Hpt as [Hp _]. apply app_eq_nil in Q. tauto.
  - intros out Hout. destruct (agg_item agg dtypes Hvalid out Hout) as (i & f & d & Hi & Hd).
    rewrite (column_groups _ _ _ _ _ _ W2 Hi Hd). rewrite <- (call_groups_join0 calls Hne Hok Hpt), <- join_results_relabel.
    f_equal. clear -R2 Hi Hd. induction R2 as [|x y l m A1 A2 IH]; simpl; auto. f_equal; auto.
    eapply column_groups; eauto.
Qed.
End Join.
