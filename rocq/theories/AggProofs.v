Require Import List Arith Bool Lia ZArith.
Require Import Verif.Common Verif.AggModel Verif.AggSpec.
Import ListNotations.

(** * Lists *)
Lemma nth_update_same : forall A (l : list A) k x d, k < length l -> nth k (update l k x) d = x.
Proof. induction l; intros [|k] x d H; simpl in *; try lia; auto. apply IHl; lia. Qed.

Lemma nth_update_other : forall A (l : list A) k j x d, j <> k -> nth j (update l k x) d = nth j l d.
Proof.
  induction l; intros [|k] [|j] x d H; simpl in *; try lia; auto; destruct j; auto.
Qed.

Lemma length_update : forall A (l : list A) k x, length (update l k x) = length l.
Proof. induction l; intros [|k] x; simpl; auto. Qed.

Lemma length_map2 : forall A B C (f : A -> B -> C) l m, length l = length m -> length (map2 f l m) = length l.
Proof. induction l; intros [|b m] H; simpl in *; try lia. rewrite IHl; lia. Qed.

Lemma nth_map2 : forall A B C (f : A -> B -> C) l m k da db dc,
  length l = length m -> k < length l -> nth k (map2 f l m) dc = f (nth k l da) (nth k m db).
Proof.
  induction l; intros [|b m] k da db dc H1 H2; simpl in *; try lia.
  destruct k; auto. apply IHl; lia.
Qed.

Lemma fold_map2_length : forall A (f : A -> A -> A) rows init,
  (forall r, In r rows -> length r = length init) ->
  length (fold_left (map2 f) rows init) = length init.
Proof.
  induction rows; simpl; intros; auto.
  rewrite IHrows.
  - apply length_map2. symmetry. auto.
  - intros. rewrite length_map2; auto. symmetry; auto.
Qed.

Lemma fold_map2_nth : forall A (f : A -> A -> A) rows init k d,
  (forall r, In r rows -> length r = length init) -> k < length init ->
  nth k (fold_left (map2 f) rows init) d = fold_left f (map (fun r => nth k r d) rows) (nth k init d).
Proof.
  induction rows; simpl; intros; auto.
  assert (length (map2 f init a) = length init) by (apply length_map2; symmetry; auto).
  rewrite IHrows; try lia.
  - rewrite (nth_map2 _ _ _ f init a k d d d); auto. symmetry; auto.
  - intros. rewrite H1; auto.
Qed.

Lemma last_cons : forall A (l : list A) x y, last (y :: l) x = last l y.
Proof.
  induction l as [|a l IH]; intros x y; [reflexivity|].
  change (last (y :: a :: l) x) with (last (a :: l) x). now rewrite !IH.
Qed.

Lemma In_last : forall A (l : list A) x, In (last l x) (x :: l).
Proof.
  induction l as [|a l IH]; intros x; [simpl; auto|]. rewrite last_cons. right. apply IH.
Qed.

Section Proofs.
Context {V : Type} (N : num V).
Local Notation row := (list V).

(** * Aggregation of one value at a time *)
Definition upd (f : afun) (m v : V) : V :=
  match f with
  | First => m
  | Last => v
  | Min => if nlt N v m then v else m
  | Max => if nlt N m v then v else m
  | Sum => add N m v
  end.

Lemma spec_agg_fold : forall f x t, spec_agg N f (x :: t) = Some (fold_left (upd f) t x).
Proof.
  intros. unfold spec_agg. f_equal. destruct f; try reflexivity.
  - induction t; simpl; auto.
  - revert x. induction t as [|y t IH]; intros x; [reflexivity|].
    change (fold_left (upd Last) (y :: t) x) with (fold_left (upd Last) t y). rewrite <- IH.
    apply last_cons.
Qed.

Lemma spec_agg_app : forall f l m x,
  spec_agg N f l = Some x -> spec_agg N f (l ++ m) = Some (fold_left (upd f) m x).
Proof.
  intros. destruct l; [discriminate|]. simpl app.
  rewrite spec_agg_fold in *. injection H as <-. now rewrite fold_left_app.
Qed.

Lemma take_cols_length : forall cols (r : row), length (take_cols N cols r) = length cols.
Proof. intros; unfold take_cols; now rewrite map_length. Qed.

Lemma nth_take_cols : forall cols (r : row) k d,
  k < length cols -> nth k (take_cols N cols r) d = nth (nth k cols 0) r (zero N).
Proof.
  intros. unfold take_cols.
  rewrite nth_indep with (d' := nth 0 r (zero N)) by now rewrite map_length.
  now rewrite map_nth with (f := fun i => nth i r (zero N)).
Qed.

(** Result of an aggregation function on one of the columns. *)
Lemma agg_func_nth : forall f cd chunk init use_init k,
  chunk <> [] -> length init = length cd -> k < length cd ->
  let vals := col N (nth k cd 0) chunk in
  Some (nth k (agg_func N f (length cd) (map (take_cols N cd) chunk) init use_init) (zero N))
  = if use_init then Some (fold_left (upd f) vals (nth k init (zero N)))
    else spec_agg N f vals.
Proof.
  intros f cd chunk init ui k Hne Hl Hk vals.
  assert (Hmap : map (fun r => nth k r (zero N)) (map (take_cols N cd) chunk) = vals).
  { unfold vals, col. rewrite map_map. apply map_ext. intros. now apply nth_take_cols. }
  assert (Hlen : forall r, In r (map (take_cols N cd) chunk) -> length r = length cd).
  { intros r Hr. apply in_map_iff in Hr. destruct Hr as [r0 [<- _]]. apply take_cols_length. }
  destruct (map (take_cols N cd) chunk) as [|r0 rest] eqn:Hc.
  { destruct chunk; [congruence|discriminate]. }
  simpl in Hmap.
  assert (Hgen : forall g,
     Some (nth k (jloop N (map2 g) (length cd) (r0 :: rest) init ui) (zero N))
     = if ui then Some (fold_left g vals (nth k init (zero N)))
       else Some (fold_left g (tl vals) (hd (zero N) vals))).
  { intros g. unfold jloop. destruct ui.
    - f_equal. rewrite fold_map2_nth with (d := zero N).
      + now rewrite <- Hmap.
      + intros; rewrite Hl; auto.
      + lia.
    - f_equal. rewrite fold_map2_nth with (d := zero N).
      + rewrite <- Hmap. reflexivity.
      + intros. rewrite (Hlen r0); simpl; auto. apply Hlen; simpl; auto.
      + rewrite (Hlen r0); simpl; auto. }
  assert (Hv : vals = nth k r0 (zero N) :: map (fun r => nth k r (zero N)) rest) by auto.
  destruct f; unfold agg_func.
  - (* First *) unfold jfirst. destruct ui.
    + f_equal. clear. induction vals; simpl; auto.
    + rewrite Hv. reflexivity.
  - (* Last *) unfold jlast.
    assert (Hlast : nth k (last (r0 :: rest) []) (zero N) = last vals (zero N)).
    { rewrite Hv. rewrite !last_cons. clear. revert r0.
      induction rest as [|r1 rest IH]; intros; [reflexivity|].
      simpl map. rewrite !last_cons. apply IH. }
    assert (Hf : forall l x, fold_left (upd Last) l x = last l x).
    { induction l as [|y l IH]; intros x; [reflexivity|]. rewrite last_cons, <- IH. reflexivity. }
    rewrite Hlast. destruct ui.
    + f_equal. rewrite Hf, Hv, !last_cons. reflexivity.
    + rewrite Hv. rewrite last_cons. reflexivity.
  - (* Min *) unfold jmin. change (row_min N) with (map2 (upd Min)). rewrite Hgen.
    rewrite Hv. destruct ui; reflexivity.
  - (* Max *) unfold jmax. change (row_max N) with (map2 (upd Max)). rewrite Hgen.
    rewrite Hv. destruct ui; reflexivity.
  - (* Sum *) unfold jsum. change (row_sum N) with (map2 (upd Sum)). rewrite Hgen.
    rewrite Hv. destruct ui; reflexivity.
Qed.

Lemma agg_func_length : forall f cd chunk init use_init,
  chunk <> [] -> length init = length cd ->
  length (agg_func N f (length cd) (map (take_cols N cd) chunk) init use_init) = length cd.
Proof.
  intros f cd chunk init ui Hne Hl.
  assert (Hlen : forall r, In r (map (take_cols N cd) chunk) -> length r = length cd).
  { intros r Hr. apply in_map_iff in Hr. destruct Hr as [r0 [<- _]]. apply take_cols_length. }
  destruct (map (take_cols N cd) chunk) as [|r0 rest] eqn:Hc.
  { destruct chunk; [congruence|discriminate]. }
  assert (Hgen : forall g, length (jloop N (map2 g) (length cd) (r0 :: rest) init ui) = length cd).
  { intros g. unfold jloop. destruct ui.
    - rewrite fold_map2_length; auto. intros; rewrite Hl; auto.
    - rewrite fold_map2_length; [apply Hlen; simpl; auto|].
      intros. rewrite (Hlen r0); simpl; auto. apply Hlen; simpl; auto. }
  destruct f; simpl agg_func; try apply Hgen.
  - unfold jfirst. destruct ui; auto. apply Hlen; simpl; auto.
  - unfold jlast. apply Hlen.
    change (In (last (r0 :: rest) []) (r0 :: rest)). rewrite last_cons. apply In_last.
Qed.

(** * Column assignment *)
Lemma put_cols_length : forall cols vals (r : row), length (put_cols cols vals r) = length r.
Proof.
  induction cols; intros [|v vals] r; simpl; auto. rewrite IHcols. apply length_update.
Qed.

Lemma put_cols_other : forall cols vals (r : row) j d,
  ~ In j cols -> nth j (put_cols cols vals r) d = nth j r d.
Proof.
  induction cols; intros [|v vals] r j d H; simpl in *; auto.
  rewrite IHcols by tauto. apply nth_update_other. intros ->. tauto.
Qed.

Lemma put_cols_nth : forall cols vals (r : row) k d,
  NoDup cols -> length vals = length cols -> k < length cols ->
  (forall c, In c cols -> c < length r) ->
  nth (nth k cols 0) (put_cols cols vals r) d = nth k vals d.
Proof.
  induction cols; intros [|v vals] r k d Hnd Hl Hk Hb; simpl in *; try lia.
  inversion Hnd; subst. destruct k.
  - rewrite put_cols_other by auto. apply nth_update_same. auto.
  - apply IHcols; auto; try lia. intros. rewrite length_update. auto.
Qed.

(** * Cells of the aggregation set-up *)
Lemma wf_aggs_cons : forall n a aggs, wf_aggs n (a :: aggs) ->
  wf_aggs n aggs /\ NoDup (a_cols_res a)
  /\ length (a_cols_data a) = length (a_cols_res a)
  /\ (forall c, In c (a_cols_res a) -> c < n)
  /\ (forall c, In c (a_cols_res a) -> ~ In c (flat_map a_cols_res aggs)).
Proof.
  intros n a aggs [H1 [H2 H3]]. simpl in *.
  assert (NoDup (a_cols_res a) /\ NoDup (flat_map a_cols_res aggs) /\
          forall c, In c (a_cols_res a) -> ~ In c (flat_map a_cols_res aggs)) as [Ha [Hb Hc]].
  { clear - H1. induction (a_cols_res a); simpl in *.
    - split; [constructor|]. split; auto.
    - inversion H1; subst. destruct IHl as [Hx [Hy Hz]]; auto.
      rewrite in_app_iff in H2. split; [constructor; tauto|]. split; auto.
      intros c [->|Hc]; auto. }
  repeat split; auto; intros; apply H3; apply in_app_iff; auto.
Qed.

Lemma in_cells_cons : forall a aggs f i j,
  In (f, i, j) (cells_of (a :: aggs)) <->
  (exists k, k < length (combine (a_cols_data a) (a_cols_res a)) /\ f = a_fun a
     /\ i = nth k (a_cols_data a) 0 /\ j = nth k (a_cols_res a) 0) \/ In (f, i, j) (cells_of aggs).
Proof.
  intros. unfold cells_of. simpl flat_map. rewrite in_app_iff.
  split; intros [H|H]; auto; left.
  - apply in_map_iff in H. destruct H as [[i' j'] [He Hin]]. simpl in He. injection He as <- <- <-.
    destruct (In_nth _ _ (0,0) Hin) as [k [Hk Hnth]].
    exists k. split; auto. split; auto.
    rewrite combine_length in Hk.
    assert (forall (l m : list nat) k, k < min (length l) (length m) ->
              nth k (combine l m) (0,0) = (nth k l 0, nth k m 0)).
    { induction l; intros [|y m] [|k0] Hx; simpl in *; try lia; auto. apply IHl; lia. }
    rewrite H in Hnth by auto. injection Hnth as <- <-. auto.
  - destruct H as [k [Hk [-> [-> ->]]]].
    apply in_map_iff. exists (nth k (a_cols_data a) 0, nth k (a_cols_res a) 0). split; auto.
    assert (forall (l m : list nat) k, k < min (length l) (length m) ->
              nth k (combine l m) (0,0) = (nth k l 0, nth k m 0)).
    { induction l; intros [|y m] [|k0] Hx; simpl in *; try lia; auto. apply IHl; lia. }
    rewrite <- H by now rewrite <- combine_length. apply nth_In. auto.
Qed.

Lemma in_cells_res : forall aggs f i j, In (f, i, j) (cells_of aggs) -> In j (flat_map a_cols_res aggs).
Proof.
  intros. unfold cells_of in H. apply in_flat_map in H. destruct H as [a [Ha H]].
  apply in_map_iff in H. destruct H as [[i' j'] [He Hin]]. simpl in He. injection He as <- <- <-.
  apply in_flat_map. exists a. split; auto. eapply in_combine_r; eauto.
Qed.

Lemma col_app : forall i a b, col N i (a ++ b) = col N i a ++ col N i b.
Proof. intros. unfold col. apply map_app. Qed.

(** Update of all result columns with a non-empty chunk. *)
Lemma apply_aggs_spec : forall aggs ncols acc chunk preserve cr,
  wf_aggs ncols aggs -> length cr = ncols -> chunk <> [] ->
  (preserve = true -> aggregates N (cells_of aggs) acc cr) ->
  (preserve = false -> acc = []) ->
  length (apply_aggs N aggs chunk preserve cr) = ncols
  /\ aggregates N (cells_of aggs) (acc ++ chunk) (apply_aggs N aggs chunk preserve cr)
  /\ (forall j, ~ In j (flat_map a_cols_res aggs) ->
        nth j (apply_aggs N aggs chunk preserve cr) (zero N) = nth j cr (zero N)).
Proof.
  induction aggs as [|a aggs IH]; intros ncols acc chunk preserve cr Hwf Hlen Hne Hp Hnp.
  - simpl. split; auto. split; auto. intros f i j [].
  - apply wf_aggs_cons in Hwf. destruct Hwf as [Hwf [Hnd [Hl [Hb Hdis]]]].
    unfold apply_aggs. simpl fold_left.
    set (vals := agg_func N (a_fun a) (length (a_cols_data a)) (map (take_cols N (a_cols_data a)) chunk)
                   (take_cols N (a_cols_res a) cr) preserve).
    set (cr1 := put_cols (a_cols_res a) vals cr).
    assert (Hvl : length vals = length (a_cols_res a)).
    { unfold vals. rewrite agg_func_length; auto. rewrite take_cols_length; auto. }
    assert (Hother : forall j, ~ In j (a_cols_res a) -> nth j cr1 (zero N) = nth j cr (zero N)).
    { intros. unfold cr1. now apply put_cols_other. }
    destruct (IH ncols acc chunk preserve cr1) as [H1 [H2 H3]]; auto.
    + unfold cr1. now rewrite put_cols_length.
    + intros Hpt f i j Hin. rewrite Hother.
      * apply Hp; auto. apply in_cells_cons. auto.
      * intro Hj. apply (Hdis j Hj). eapply in_cells_res; eauto.
    + unfold apply_aggs in H1, H2, H3. split; auto. split.
      * intros f i j Hin. apply in_cells_cons in Hin. destruct Hin as [Hin|Hin]; [|now apply H2].
        destruct Hin as [k [Hk [-> [-> ->]]]]. rewrite combine_length in Hk.
        assert (Hk' : k < length (a_cols_res a)) by lia.
        rewrite H3 by (apply Hdis; now apply nth_In).
        unfold cr1. rewrite put_cols_nth; auto; [|intros; rewrite Hlen; auto].
        unfold vals.
        rewrite agg_func_nth; auto; [|rewrite take_cols_length; auto|lia].
        rewrite col_app. destruct preserve.
        -- rewrite nth_take_cols by lia. apply spec_agg_app. apply Hp; auto.
           apply in_cells_cons. left. exists k. rewrite combine_length. repeat split; auto; lia.
        -- rewrite Hnp; auto.
      * intros j Hj. simpl in Hj. rewrite in_app_iff in Hj.
        rewrite H3 by tauto. apply Hother. tauto.
Qed.

(** * The main loop against the token semantics *)
Fixpoint kinds (idx : nat) (p : binptr) (ncs : list nat) : list (nat * bool) :=
  match ncs with
  | [] => []
  | x :: rest => let '(u, p') := is_update idx p in (x, negb u) :: kinds (S idx) p' rest
  end.

Fixpoint nondecr (from : nat) (l : list nat) : Prop :=
  match l with
  | [] => True
  | x :: t => from <= x /\ nondecr x t
  end.

Definition rep (cells : list cell) (ncols : nat) (acc : list row) (s : jstate) : Prop :=
  length (chunk_res s) = ncols
  /\ (preserve_res s = true -> acc <> [] /\ aggregates N cells acc (chunk_res s))
  /\ (preserve_res s = false -> acc = [] /\ bin_start s = Some (chunk_start s))
  /\ (preserve_res s = true -> match bin_start s with None => True | Some b => b < chunk_start s end).

Lemma spec_events_rows : forall R (rows : list R) acc ts,
  spec_events acc (map TRow rows ++ ts) = spec_events (acc ++ rows) ts.
Proof.
  induction rows; simpl; intros; [now rewrite app_nil_r|].
  rewrite IHrows. now rewrite <- app_assoc.
Qed.

Lemma spec_rest_rows : forall R (rows : list R) acc ts,
  spec_rest acc (map TRow rows ++ ts) = spec_rest (acc ++ rows) ts.
Proof.
  induction rows; simpl; intros; [now rewrite app_nil_r|].
  rewrite IHrows. now rewrite <- app_assoc.
Qed.

Lemma slice_nil_inv : forall A (l : list A) a b, a <= b -> b <= length l -> slice a b l = [] -> a = b.
Proof.
  intros. unfold slice in H1.
  assert (length (firstn (b - a) (skipn a l)) = 0) by now rewrite H1.
  rewrite firstn_length, skipn_length in H2. lia.
Qed.

(** What 'chunk_res' holds once the loop is over: the aggregation of the last bin that was not
    null, or of the rows met since. *)
Fixpoint spec_last {R} (lastagg since_bin : list R) (ts : list (token R)) : list R :=
  match ts with
  | [] => lastagg
  | TRow r :: ts' => spec_last lastagg (since_bin ++ [r]) ts'
  | TBin :: ts' => spec_last (match since_bin with [] => lastagg | _ => since_bin end) [] ts'
  | TSnap :: ts' => spec_last (match since_bin with [] => lastagg | _ => since_bin end) since_bin ts'
  end.

Lemma spec_last_rows : forall R (rows : list R) la acc ts,
  spec_last la acc (map TRow rows ++ ts) = spec_last la (acc ++ rows) ts.
Proof.
  induction rows; simpl; intros; [now rewrite app_nil_r|].
  rewrite IHrows. now rewrite <- app_assoc.
Qed.

Lemma jrun_spec : forall data aggs ncols ncs idx p s acc la,
  wf_aggs ncols aggs ->
  rep (cells_of aggs) ncols acc s ->
  (la <> [] -> aggregates N (cells_of aggs) la (chunk_res s)) ->
  (acc <> [] -> la = acc) ->
  nondecr (chunk_start s) ncs ->
  (forall x, In x ncs -> x <= length data) ->
  let toks := timeline data (chunk_start s) (kinds idx p ncs) in
  let '(evs, cr) := jrun N data aggs idx p ncs s in
  Forall2 (event_ok N (cells_of aggs)) (spec_events acc toks) evs
  /\ length cr = ncols
  /\ (spec_last la acc toks <> [] -> aggregates N (cells_of aggs) (spec_last la acc toks) cr).
Proof.
  intros data aggs ncols ncs. induction ncs as [|x ncs IH]; intros idx p s acc la Hwf Hrep Hla Hacc Hnd Hle.
  - simpl. destruct Hrep as [H1 _]. auto.
  - simpl in Hnd. destruct Hnd as [Hfrom Hnd].
    assert (Hx : x <= length data) by (apply Hle; simpl; auto).
    assert (Hle' : forall y, In y ncs -> y <= length data) by (intros; apply Hle; simpl; auto).
    cbv zeta in *. simpl kinds. simpl jrun. destruct (is_update idx p) as [u p'] eqn:Hu.
    destruct (jstep N data aggs u x s) as [s' ev] eqn:Hs.
    assert (Hcs : chunk_start s' = x).
    { unfold jstep in Hs. destruct (is_null s x); destruct u; injection Hs as <- <-; auto. }
    set (chunk := slice (chunk_start s) x data).
    destruct Hrep as [Hl [Hp [Hnp Hbs]]].
    (* description of the step *)
    assert (Hstep :
      let rows := acc ++ chunk in
      let la' := match rows with [] => la | _ => rows end in
      let acc' := if u then rows else [] in
      (if u then match ev with JSnap o => result_ok N (cells_of aggs) rows o | _ => False end
       else match ev with JBin o => result_ok N (cells_of aggs) rows o | _ => False end)
      /\ rep (cells_of aggs) ncols acc' s'
      /\ (la' <> [] -> aggregates N (cells_of aggs) la' (chunk_res s'))
      /\ (acc' <> [] -> la' = acc')).
    { intros rows la' acc'.
      unfold jstep in Hs. destruct (is_null s x) eqn:Hnull.
      - (* null chunk *)
        unfold is_null in Hnull. destruct (bin_start s) as [b|] eqn:Hb; [|discriminate].
        apply Nat.eqb_eq in Hnull. subst b.
        assert (Hpf : preserve_res s = false).
        { destruct (preserve_res s) eqn:E; auto. specialize (Hbs eq_refl). simpl in Hbs. lia. }
        destruct (Hnp Hpf) as [Hacc0 Hb0]. injection Hb0 as Hb0. subst acc.
        assert (Hch : chunk = []).
        { unfold chunk, slice. rewrite <- Hb0, Nat.sub_diag. reflexivity. }
        assert (Hrows : rows = []) by (unfold rows; now rewrite Hch).
        assert (Hla' : la' = la) by (unfold la'; now rewrite Hrows).
        rewrite Hla'.
        destruct u; injection Hs as <- <-; subst acc'; rewrite ?Hrows; simpl.
        + split; auto. split; [|split; auto; congruence].
          unfold rep; simpl. rewrite Hpf. repeat split; auto; congruence.
        + split; auto. split; [|split; auto; congruence].
          unfold rep; simpl. repeat split; auto; congruence.
      - (* some rows since the bin start *)
        fold chunk in Hs.
        set (cr := match chunk with [] => chunk_res s
                   | _ :: _ => apply_aggs N aggs chunk (preserve_res s) (chunk_res s) end) in *.
        assert (Hrows : rows <> []).
        { unfold rows. destruct (preserve_res s) eqn:E.
          - destruct (Hp eq_refl) as [Hne _]. destruct acc; simpl; congruence.
          - destruct (Hnp eq_refl) as [-> Hb]. simpl.
            unfold is_null in Hnull. rewrite Hb in Hnull. apply Nat.eqb_neq in Hnull.
            intro Hch. apply Hnull. unfold chunk in Hch.
            now apply slice_nil_inv in Hch. }
        assert (Hcr : length cr = ncols /\ aggregates N (cells_of aggs) rows cr).
        { unfold cr, rows. destruct chunk as [|c0 cs] eqn:Hch.
          - rewrite app_nil_r. split; auto.
            destruct (preserve_res s) eqn:E; [apply Hp; auto|].
            destruct (Hnp eq_refl) as [-> Hb]. unfold rows in Hrows.
            rewrite app_nil_r in Hrows. congruence.
          - destruct (apply_aggs_spec aggs ncols acc (c0 :: cs) (preserve_res s) (chunk_res s))
              as [A1 [A2 _]]; auto; try congruence.
            + intros E. apply Hp. auto.
            + intros E. apply Hnp. auto. }
        assert (Hla' : la' = rows) by (unfold la'; destruct rows; congruence).
        rewrite Hla'. destruct Hcr as [Hcl Hcr].
        destruct u; injection Hs as <- <-; subst acc'; simpl.
        + split; [split; auto|]. split; [|split; auto].
          unfold rep; simpl. repeat split; auto; try congruence.
          intros _. destruct (bin_start s) as [b|] eqn:Hb; auto.
          unfold is_null in Hnull. rewrite Hb in Hnull. apply Nat.eqb_neq in Hnull.
          destruct (preserve_res s) eqn:E.
          * specialize (Hbs eq_refl). simpl in Hbs. lia.
          * destruct (Hnp eq_refl) as [_ Hb']. injection Hb' as ->. lia.
        + split; [split; auto|]. split; [|split; auto; congruence].
          unfold rep; simpl. repeat split; auto; congruence. }
    cbv zeta in Hstep. destruct Hstep as [Hev [Hrep' [Hla' Hacc']]].
    specialize (IH (S idx) p' s' _ _ Hwf Hrep' Hla' Hacc').
    rewrite Hcs in IH. specialize (IH Hnd Hle').
    destruct (jrun N data aggs (S idx) p' ncs s') as [evs cr] eqn:Hrun.
    simpl timeline. fold (slice (chunk_start s) x data). fold chunk.
    rewrite spec_events_rows, spec_last_rows.
    destruct u; simpl in *.
    + destruct ev; try contradiction. destruct IH as [I1 [I2 I3]]. split; auto.
    + destruct ev; try contradiction. destruct IH as [I1 [I2 I3]]. split; auto.
Qed.

End Proofs.
