(** Results of a key, in memory and in store, against the tables they are a part of. *)
Require Import List Arith ZArith Bool Lia Sorting.Sorted.
Require Import Verif.Common Verif.WrModel Verif.WrSpec Verif.WrProofs Verif.WrHistProofs Verif.StreamModel Verif.StreamSpec Verif.StreamProofs Verif.TableProofs Verif.BatchSpec Verif.LabelProofs.
Import ListNotations.
Local Open Scope Z_scope.

Section Key.
Context {D P SB PB : Type}.
Variable truthy : Z -> bool.
Variable usage : frame -> Z.
Notation kbuf := (kbuf SB PB).
Notation kstore := (kstore P SB PB).
Notation act := (@act P SB PB).
Variable k : kconf D SB PB.
Variables (seg0 : SB) (ok : list D -> Prop) (T TS : list D -> list row) (Inv : list D -> SB -> Prop) (m ms : row -> row).
Hypothesis Htab : tabular k seg0 ok T TS Inv.
Hypothesis Hpost : post_is k m ms.
Hypothesis Hpar : writes_as_labels k ok T TS m ms.
(** All rows in the end. *)
Variable Hf : list D.
Hypothesis Hok : ok Hf.
Hypothesis ok_app : forall a b, ok (a ++ b) -> ok a.
(** Recorded rows are those before the recorded restart index. *)
Variable Con : Z -> list D -> Prop.
(** All restart indices are recorded. *)
Variable Q : Prop.

(** ** Channels: from buffers in memory to a dataset *)
Record chan := mkChan {
  c_tab : list D -> list row;
  c_map : row -> row;
  c_par : params;
  c_bufs : kbuf -> list frame;
  c_cur : kbuf -> option frame;
  c_ds : kstore -> dataset }.
Definition chans : list chan :=
  let main := fun s : kstore => data_of (s_main s) in
  match k_type k with
  | BINS => [mkChan T m (k_write k) b_bins b_bin main]
  | SNAPS => [mkChan TS m (k_write k) b_snaps b_snap main]
  | BOTH => [mkChan T m (k_write k) b_bins b_bin main; mkChan TS ms (k_write_snap k) b_snaps b_snap (fun s => data_of (s_snap s))]
  end.

Definition stored (c : chan) (s : kstore) : Prop := filled (c_ds c s) /\ starts (labels (all_rows (c_ds c s))) (labels (c_tab c Hf)) /\
  (forall r, In r (all_rows (c_ds c s)) -> ever (c_tab c) (c_map c) Hf r).
(** Results are in memory. *)
Definition mid (c : chan) (H : list D) (b : kbuf) (s : kstore) : Prop :=
  exists f A, c_cur c b = Some f /\ rows f <> [] /\ c_tab c H = A ++ concat (map rows (c_bufs c b)) ++ rows f /\
    starts (map (c_map c) A) (all_rows (c_ds c s)) /\ (max_nirgs (c_par c) = None \/ (length (all_rows (c_ds c s)) <= S (length A))%nat).
(** The table is in store. Or there are still rows to come, and it is but for its provisional row. *)
Definition at_rest (c : chan) (H : list D) (s : kstore) : Prop :=
  starts (map (c_map c) (c_tab c H)) (all_rows (c_ds c s)) \/
  ((length H < length Hf)%nat /\ starts (map (c_map c) (removelast (c_tab c H))) (all_rows (c_ds c s))).
Definition tight (c : chan) (H : list D) (s : kstore) : Prop :=
  max_nirgs (c_par c) = None \/ (length (all_rows (c_ds c s)) <= length (c_tab c H))%nat.
Definition idle (c : chan) (H : list D) (b : kbuf) (s : kstore) : Prop :=
  c_cur c b = None /\ c_bufs c b = [] /\ at_rest c H s /\ tight c H s.

(** ** Key *)
Definition mem (H : list D) (b : kbuf) (s : kstore) : Prop :=
  Inv H (b_seg b) /\ (k_type k = BINS -> b_snap b = None) /\
  match b_bin b with
  | None => forall c, In c chans -> idle c H b s
  | Some f => rows f <> [] /\ forall c, In c chans -> mid c H b s
  end.
Definition rec (H : list D) (b : kbuf) (s : kstore) : Prop :=
  forall md, md_of (s_main s) = Some md -> exists Hrec rest, H = Hrec ++ rest /\ Con (m_restart md) Hrec /\ Inv Hrec (m_seg md) /\
    (b_bin b <> None -> rest <> []) /\ (Q -> b_bin b = None -> rest = []) /\ forall c, In c chans -> at_rest c Hrec s.
Definition kinv (H : list D) (b : kbuf) (s : kstore) : Prop :=
  starts H Hf /\ (forall c, In c chans -> stored c s) /\ mem H b s /\ rec H b s.
(** What can be said of the store only. *)
Definition sinv (s : kstore) : Prop :=
  (forall c, In c chans -> stored c s) /\
  forall md, md_of (s_main s) = Some md -> exists Hrec, starts Hrec Hf /\ Con (m_restart md) Hrec /\ Inv Hrec (m_seg md) /\
    forall c, In c chans -> at_rest c Hrec s.
Lemma kinv_sinv : forall H b s, kinv H b s -> sinv s.
Proof using Type. clear.
  intros H b s (St & A & _ & R). split; auto. intros md E. destruct (R md E) as (Hrec & rest & -> & B & C & _ & _ & F).
  exists Hrec. split; auto. destruct St as [q ->]. rewrite <- app_assoc. apply starts_app.
Qed.

(** Facts about channels. *)
Lemma chan_facts : forall c, In c chans -> (forall Hf, ok Hf -> as_by_label (ever (c_tab c) (c_map c) Hf) (c_par c)) /\ (forall r, col 0 (c_map c r) = col 0 r) /\ c_tab c [] = [] /\
  (forall H, ok H -> StronglySorted Z.lt (labels (c_tab c H))) /\
  (forall H p, ok (H ++ p) -> starts (labels (c_tab c H)) (labels (c_tab c (H ++ p)))) /\
  (forall H p, ok (H ++ p) -> starts (removelast (c_tab c H)) (c_tab c (H ++ p))).
Proof.
  intros c Hc. destruct Hpost as (P1 & P2 & _), Htab. pose proof Hpar as W. unfold chans in Hc. unfold writes_as_labels in W.
  destruct (k_type k) eqn:Ek; simpl in Hc; destruct Hc as [<-|Hc]; try (destruct Hc as [<-|[]]); try contradiction; cbn [c_par c_map c_tab]; repeat (split; auto); intros; apply W; auto.
Qed.
Lemma ok_starts : forall H, starts H Hf -> ok H.
Proof. intros H [q E]. apply (ok_app H q). rewrite <- E. auto. Qed.
Lemma labels_map : forall c l, In c chans -> labels (map (c_map c) l) = labels l.
Proof. intros c l Hc. rewrite map_map. apply map_ext. apply (chan_facts c Hc). Qed.

(** Writing of what is in buffers, the rows which are before it being in store. *)
Lemma chan_write : forall c H A W n s ds', In c chans -> starts H Hf -> stored c s -> starts (A ++ W) (c_tab c H) ->
  starts (map (c_map c) A) (all_rows (c_ds c s)) -> (max_nirgs (c_par c) = None \/ (length (all_rows (c_ds c s)) <= S (length A))%nat) ->
  write (c_par c) false (c_ds c s) (mkFrame n (map (c_map c) W)) = Ok ds' ->
  filled ds' /\ (starts (labels (all_rows ds')) (labels (c_tab c Hf)) /\ forall r, In r (all_rows ds') -> ever (c_tab c) (c_map c) Hf r) /\
  all_rows ds' = map (c_map c) (A ++ W) ++ skipn (length (A ++ W)) (all_rows (c_ds c s)).
Proof.
  intros c H A W n s ds' Hc St (Fi & Lb & Ev) AW SA Hn Hw. destruct (chan_facts c Hc) as (Pl & Cm & _ & Ts & Tl & _). specialize (Pl Hf Hok).
  assert (Ew : forall r, In r (A ++ W) -> ever (c_tab c) (c_map c) Hf (c_map c r)).
  { intros r Hr. destruct AW as [q E]. exists H, r. split; auto. split; auto. rewrite E. apply in_or_app. auto. }
  apply (write_as_label (ever (c_tab c) (c_map c) Hf)) in Hw; auto.
  2: { intros r Hr. apply in_app_or in Hr as [Hr|Hr]; auto. apply in_map_iff in Hr as (r0 & <- & Hr). apply Ew, in_or_app. auto. }
  assert (L : starts (labels (map (c_map c) A ++ map (c_map c) W)) (labels (c_tab c Hf))).
  { rewrite <- map_app, labels_map by auto. apply starts_trans with (labels (c_tab c H)); [apply starts_map; auto|].
    destruct St as [q E]. rewrite E. apply Tl. rewrite <- E. auto. }
  assert (E : all_rows ds' = map (c_map c) (A ++ W) ++ skipn (length (A ++ W)) (all_rows (c_ds c s))).
  { rewrite map_app. erewrite (write_at 0 (label_params (c_par c)) false n (c_ds c s) (map (c_map c) A) (map (c_map c) W) (labels (c_tab c Hf)) ds'); auto.
    - rewrite <- map_app, map_length. auto.
    - rewrite map_length. auto. }
  split; [eapply write_filled; eauto|]. split; auto. split.
  2: { intros r Hr. rewrite E in Hr. apply in_app_or in Hr as [Hr|Hr]; [apply in_map_iff in Hr as (r0 & <- & Hr); auto|]. apply Ev. rewrite <- (firstn_skipn (length (A ++ W)) (all_rows (c_ds c s))). apply in_or_app. auto. }
  rewrite E.
  replace (length (A ++ W)) with (length (map (c_map c) A ++ map (c_map c) W)) by (rewrite <- map_app, map_length; auto).
  rewrite (map_app (c_map c) A W). apply write_at_labels; auto.
Qed.
(** Rows which are in store for an older record stay so. *)
Lemma at_rest_write : forall c H Hrec rest Y s (s' : kstore), In c chans -> starts H Hf -> H = Hrec ++ rest -> rest <> [] -> at_rest c Hrec s -> starts Y (c_tab c H) ->
  all_rows (c_ds c s') = map (c_map c) Y ++ skipn (length Y) (all_rows (c_ds c s)) -> at_rest c Hrec s'.
Proof.
  intros c H Hrec rest Y s s' Hc St E Hne R SY ES. destruct (chan_facts c Hc) as (_ & _ & _ & _ & _ & Tk).
  right. split; [apply starts_length in St; rewrite E, app_length in St; destruct rest; [congruence|simpl in St; lia]|].
  rewrite ES. replace (length Y) with (length (map (c_map c) Y)) by apply map_length. apply starts_put.
  - destruct R as [R|[_ R]]; auto. eapply starts_trans; [|exact R]. apply starts_map, starts_removelast.
  - apply starts_both with (map (c_map c) (c_tab c H)); apply starts_map; auto. rewrite E. apply Tk. rewrite <- E. apply ok_starts; auto.
Qed.

(** ** Post-processing and writing *)
(** What is written for a channel. *)
Definition outgoing (c : chan) (b : kbuf) (last : bool) : list row :=
  concat (map rows (c_bufs c b)) ++ (if last then match c_cur c b with Some f => rows f | None => [] end else []).
Definition pending (r : option Z) (p : P) (b : kbuf) (pb : PB) : option (aggmd P SB PB) :=
  match r with Some i => if truthy i then Some (mkMd i p (b_seg b) pb) else None | None => None end.
Lemma concat_agg_res_rows : forall bufs cur last f, concat_agg_res bufs cur last = Ok f ->
  rows f = concat (map rows bufs) ++ (if last then rows cur else []).
Proof.
  intros bufs cur last f H. unfold concat_agg_res in H. destruct last.
  - destruct (bufs ++ [cur]) as [|x l] eqn:E; [discriminate|]. injection H as <-. transitivity (concat (map rows (x :: l))); [reflexivity|]. rewrite <- E, map_app, concat_app. simpl. rewrite app_nil_r. auto.
  - destruct bufs as [|x l]; [discriminate|]. injection H as <-. rewrite app_nil_r. auto.
Qed.
Lemma store_write_inv : forall p (e : option (entry P SB PB)) f pd e', store_write p e f pd = Ok e' ->
  write p false (data_of e) f = Ok (e_data e') /\ e_md e' = match pd with Some md => Some md | None => match data_of e with [] => None | _ => md_of e end end.
Proof.
  intros p e f pd e' H. unfold store_write in H. destruct (write p false (data_of e) f) as [ds|] eqn:E; cbn [bind] in H; [|discriminate]. injection H as <-. auto.
Qed.
Lemma frame_eta : forall f, f = mkFrame (ncols f) (rows f). Proof. destruct f. auto. Qed.

(** What is written for main key, and for the key of snapshots. *)
Lemma results_spec : forall b last fb main snap pb, results k b last = Ok (main, snap, pb) ->
  b_bin b = Some fb -> (k_type k = BINS -> b_snap b = None) -> (k_type k <> BINS -> exists fs, b_snap b = Some fs) ->
  exists bin, rows bin = concat (map rows (b_bins b)) ++ (if last then rows fb else []) /\
  match k_type k with
  | BINS => exists n, main = Some (mkFrame n (map m (rows bin)))
  | SNAPS => exists n fs sn, b_snap b = Some fs /\ concat_agg_res (b_snaps b) fs last = Ok sn /\ main = Some (mkFrame n (map m (rows sn)))
  | BOTH => exists n n' fs sn, b_snap b = Some fs /\ concat_agg_res (b_snaps b) fs last = Ok sn /\ main = Some (mkFrame n (map m (rows bin))) /\ snap = Some (mkFrame n' (map ms (rows sn)))
  end.
Proof.
  intros b last fb main snap pb Er Hb Hs1 Hs2. unfold results in Er. rewrite Hb in Er.
  destruct (concat_agg_res (b_bins b) fb last) as [bin|] eqn:Eb; cbn [bind] in Er; [|discriminate]. apply concat_agg_res_rows in Eb.
  destruct Hpost as (_ & _ & Hp). exists bin. split; auto.
  assert (I : k_post k = None -> forall f, f = mkFrame (ncols f) (map m (rows f)) /\ f = mkFrame (ncols f) (map ms (rows f))).
    { intros En f. rewrite En in Hp. destruct Hp as [I1 I2]. destruct f as [n l]. cbn [ncols rows]. rewrite (map_ext m (fun x => x) I1), (map_ext ms (fun x => x) I2), map_id. auto. }
    destruct (k_type k) eqn:Ek.
    - rewrite (Hs1 eq_refl) in Er. cbn [bind] in Er. destruct (k_post k) as [post|].
      + destruct (post (b_post b) bin None) as [[r0 pb']|] eqn:E; cbn [bind] in Er; [|discriminate]. destruct (Hp _ _ _ _ _ E) as (n & n' & ->). injection Er as <- <- <-. eauto.
      + injection Er as <- <- <-. exists (ncols bin). f_equal. apply I; auto.
    - destruct (Hs2 ltac:(congruence)) as [fs Ef]. rewrite Ef in Er. destruct (concat_agg_res (b_snaps b) fs last) as [sn|] eqn:Es; cbn [bind] in Er; [|discriminate].
      destruct (k_post k) as [post|].
      + destruct (post (b_post b) bin (Some sn)) as [[r0 pb']|] eqn:E; cbn [bind] in Er; [|discriminate]. destruct (Hp _ _ _ _ _ E) as (n & n' & ->). injection Er as <- <- <-. exists n, fs, sn. auto.
      + injection Er as <- <- <-. exists (ncols sn), fs, sn. split; auto. split; auto. f_equal. apply I; auto.
    - destruct (Hs2 ltac:(congruence)) as [fs Ef]. rewrite Ef in Er. destruct (concat_agg_res (b_snaps b) fs last) as [sn|] eqn:Es; cbn [bind] in Er; [|discriminate].
      destruct (k_post k) as [post|].
      + destruct (post (b_post b) bin (Some sn)) as [[r0 pb']|] eqn:E; cbn [bind] in Er; [|discriminate]. destruct (Hp _ _ _ _ _ E) as (n & n' & ->). injection Er as <- <- <-. exists n, n', fs, sn. auto.
      + injection Er as <- <- <-. exists (ncols bin), (ncols sn), fs, sn. split; auto. split; auto. split; f_equal; apply I; auto.
Qed.
Lemma post_n_write_spec : forall b s last r p b' acts fb, post_n_write truthy k b s last r p = Ok (b', acts) ->
  b_bin b = Some fb -> (k_type k = BINS -> b_snap b = None) -> (k_type k <> BINS -> exists fs, b_snap b = Some fs) ->
  exists pb e rest, b' = mkBuf 0 None None [] [] (b_seg b) pb /\ acts = (false, e) :: rest /\
    (k_type k <> BOTH -> rest = []) /\ (k_type k = BOTH -> exists e', rest = [(true, e')]) /\
    e_md e = match pending r p b pb with Some md => Some md | None => match data_of (s_main s) with [] => None | _ => md_of (s_main s) end end /\
    forall c, In c chans -> exists n, write (c_par c) false (c_ds c s) (mkFrame n (map (c_map c) (outgoing c b last))) = Ok (c_ds c (apply_acts s acts)).
Proof.
  intros b s last r p b' acts fb H Hb Hs1 Hs2. unfold post_n_write in H.
  destruct (results k b last) as [[[main snap] pb]|] eqn:Er; cbn [bind] in H; [|discriminate]. fold (pending r p b pb) in H.
  destruct (results_spec b last fb main snap pb Er Hb Hs1 Hs2) as (bin & Eb & R). rewrite Hb in H.
  clear Er. unfold chans, outgoing. destruct (k_type k) eqn:Ek.
  - destruct R as (n & ->). destruct (store_write _ _ _ _) as [e|] eqn:Ee; cbn [bind] in H; [|discriminate]. injection H as <- <-.
    apply store_write_inv in Ee as [E1 E2]. exists pb, e, []. split; auto. split; auto. split; auto. split; [congruence|]. split; auto.
    intros c [<-|[]]. cbn [c_par c_map c_bufs c_cur c_ds]. exists n. rewrite Hb, <- Eb. auto.
  - destruct R as (n & fs & sn & Ef & Es & ->). destruct (store_write _ _ _ _) as [e|] eqn:Ee; cbn [bind] in H; [|discriminate]. injection H as <- <-.
    apply concat_agg_res_rows in Es. apply store_write_inv in Ee as [E1 E2]. exists pb, e, []. split; auto. split; auto. split; auto. split; [congruence|]. split; auto.
    intros c [<-|[]]. cbn [c_par c_map c_bufs c_cur c_ds]. exists n. rewrite Ef, <- Es. auto.
  - destruct R as (n & n' & fs & sn & Ef & Es & -> & ->). destruct (store_write (k_write k) _ _ _) as [e|] eqn:Ee; cbn [bind] in H; [|discriminate].
    destruct (store_write (k_write_snap k) _ _ _) as [e'|] eqn:Ee'; cbn [bind] in H; [|discriminate]. injection H as <- <-.
    apply concat_agg_res_rows in Es. apply store_write_inv in Ee as [E1 E2]. apply store_write_inv in Ee' as [E3 E4]. exists pb, e, [(true, e')].
    split; auto. split; auto. split; [congruence|]. split; [eauto|]. split; auto.
    intros c [<-|[<-|[]]]; cbn [c_par c_map c_bufs c_cur c_ds]; [exists n; rewrite Hb, <- Eb|exists n'; rewrite Ef, <- Es]; auto.
Qed.
(** Stored results when buffers are written, at any point of the writing. *)
Lemma flush : forall H b s last r p b' acts fb, starts H Hf -> (forall c, In c chans -> stored c s) ->
  b_bin b = Some fb -> (k_type k = BINS -> b_snap b = None) -> (k_type k <> BINS -> exists fs, b_snap b = Some fs) ->
  (forall c, In c chans -> exists A, starts (A ++ outgoing c b last) (c_tab c H) /\ starts (map (c_map c) A) (all_rows (c_ds c s)) /\
      (max_nirgs (c_par c) = None \/ (length (all_rows (c_ds c s)) <= S (length A))%nat)) ->
  post_n_write truthy k b s last r p = Ok (b', acts) ->
  (exists pb e rest, b' = mkBuf 0 None None [] [] (b_seg b) pb /\ acts = (false, e) :: rest /\ (k_type k <> BOTH -> rest = []) /\ s_main (apply_acts s acts) = Some e /\
    e_md e = match pending r p b pb with Some md => Some md | None => match data_of (s_main s) with [] => None | _ => md_of (s_main s) end end /\
    forall acts1 acts2, acts = acts1 ++ acts2 -> acts1 <> [] -> s_main (apply_acts s acts1) = Some e) /\
  (forall acts1 acts2 c, acts = acts1 ++ acts2 -> In c chans -> stored c (apply_acts s acts1) /\
    forall Hrec rest, H = Hrec ++ rest -> rest <> [] -> at_rest c Hrec s -> at_rest c Hrec (apply_acts s acts1)) /\
  (forall c A, In c chans -> starts (A ++ outgoing c b last) (c_tab c H) -> starts (map (c_map c) A) (all_rows (c_ds c s)) ->
      (max_nirgs (c_par c) = None \/ (length (all_rows (c_ds c s)) <= S (length A))%nat) ->
      all_rows (c_ds c (apply_acts s acts)) = map (c_map c) (A ++ outgoing c b last) ++ skipn (length (A ++ outgoing c b last)) (all_rows (c_ds c s))).
Proof.
  intros H b s last r p b' acts fb St Sd Hb Hs1 Hs2 HA Hw.
  destruct (post_n_write_spec _ _ _ _ _ _ _ _ Hw Hb Hs1 Hs2) as (pb & e & rest & Eb & Ea & R1 & R2 & Em & Cw).
  assert (Final : forall c A, In c chans -> starts (A ++ outgoing c b last) (c_tab c H) -> starts (map (c_map c) A) (all_rows (c_ds c s)) ->
      (max_nirgs (c_par c) = None \/ (length (all_rows (c_ds c s)) <= S (length A))%nat) ->
      stored c (apply_acts s acts) /\ all_rows (c_ds c (apply_acts s acts)) = map (c_map c) (A ++ outgoing c b last) ++ skipn (length (A ++ outgoing c b last)) (all_rows (c_ds c s))).
  { intros c A Hc A1 A2 A3. destruct (Cw c Hc) as [n Ew]. destruct (chan_write c H A _ n s _ Hc St (Sd c Hc) A1 A2 A3 Ew) as (F & L & E). split; auto. split; auto. }
  assert (Rest : rest = [] \/ exists e', rest = [(true, e')]).
  { destruct (k_type k) eqn:Ek; [left; apply R1; congruence|left; apply R1; congruence|right; apply R2; auto]. }
  split; [|split].
  - exists pb, e, rest. split; auto. split; auto. split; auto. split; [|split; auto].
    + rewrite Ea. destruct Rest as [->|[e' ->]]; auto.
    + intros acts1 acts2 E Hne. rewrite Ea in E. destruct acts1 as [|a acts1]; [congruence|]. injection E as <- E.
      destruct Rest as [->|[e' ->]]; [destruct acts1; [auto|discriminate]|]. destruct acts1 as [|a [|a' acts1]]; [auto|injection E as <- _; auto|discriminate].
  - intros acts1 acts2 c E Hc.
    assert (C : c_ds c (apply_acts s acts1) = c_ds c s \/ c_ds c (apply_acts s acts1) = c_ds c (apply_acts s acts)).
    { rewrite Ea in *. destruct acts1 as [|a acts1]; [left; auto|]. injection E as <- E.
      destruct Rest as [->|[e' ->]].
      - destruct acts1; [right; auto|discriminate].
      - destruct acts1 as [|a [|a' acts1]]; [|injection E as <- _; right; auto|discriminate].
        unfold chans in Hc. destruct (k_type k); simpl in Hc; [destruct Hc as [<-|[]]; right; auto..|].
        destruct Hc as [<-|[<-|[]]]; [right|left]; auto. }
    destruct (HA c Hc) as (A & A1 & A2 & A3). destruct (Final c A Hc A1 A2 A3) as [F1 F2].
    split.
    + unfold stored. destruct C as [->| ->]; [apply Sd; auto|apply F1].
    + intros Hrec rst EH Hne AR. destruct C as [C|C].
      * unfold at_rest. rewrite C. exact AR.
      * eapply at_rest_write; eauto. rewrite C. exact F2.
  - intros c A Hc A1 A2 A3. apply (Final c A); auto.
Qed.

Lemma removelast_app_ne : forall {A} (l l' : list A), l' <> [] -> removelast (l ++ l') = l ++ removelast l'.
Proof. intros. apply removelast_app. auto. Qed.
Lemma snap_present : forall H b s f, mem H b s -> b_bin b = Some f -> k_type k <> BINS -> exists fs, b_snap b = Some fs.
Proof.
  intros H b s f (_ & _ & M) Hb Ht. rewrite Hb in M. destruct M as [_ M]. unfold chans in M. destruct (k_type k); [congruence| |].
  - destruct (M _ (or_introl eq_refl)) as (fs & A & E & _). eauto.
  - destruct (M _ (or_intror (or_introl eq_refl))) as (fs & A & E & _). eauto.
Qed.

(** State of a key between the addition of previous results to buffers, and the aggregation of a chunk: [A] is what is in
    store, and with buffers it makes the table but its provisional row. *)
Definition between (H : list D) (b : kbuf) (s : kstore) : Prop :=
  Inv H (b_seg b) /\ (forall c, In c chans -> exists A, removelast (c_tab c H) = A ++ concat (map rows (c_bufs c b)) /\
      starts (map (c_map c) A) (all_rows (c_ds c s)) /\ (max_nirgs (c_par c) = None \/ (length (all_rows (c_ds c s)) <= S (length A))%nat)).

Lemma buffer_inv : forall H b s pb b1 acts, kinv H b s -> buffer_results truthy usage k b s pb = Ok (b1, acts) ->
  between H b1 (apply_acts s acts) /\
  (forall acts1 acts2, acts = acts1 ++ acts2 -> (forall c, In c chans -> stored c (apply_acts s acts1)) /\
     (md_of (s_main (apply_acts s acts1)) = None \/ md_of (s_main (apply_acts s acts1)) = md_of (s_main s)) /\
     (s_main s <> None -> s_main (apply_acts s acts1) <> None) /\
     forall c Hrec rest, In c chans -> H = Hrec ++ rest -> (b_bin b <> None -> rest <> []) -> at_rest c Hrec s -> at_rest c Hrec (apply_acts s acts1)).
Proof.
  intros H b s pb b1 acts (St & Sd & Me & Re) E. unfold buffer_results in E. pose proof Me as Me'. destruct Me as (Mi & Ms & Mc).
  assert (Nil : forall acts1 acts2 : list act, [] = acts1 ++ acts2 -> (forall c, In c chans -> stored c (apply_acts s acts1)) /\
     (md_of (s_main (apply_acts s acts1)) = None \/ md_of (s_main (apply_acts s acts1)) = md_of (s_main s)) /\
     (s_main s <> None -> s_main (apply_acts s acts1) <> None) /\
     forall c Hrec rest, In c chans -> H = Hrec ++ rest -> (b_bin b <> None -> rest <> []) -> at_rest c Hrec s -> at_rest c Hrec (apply_acts s acts1)).
  { intros acts1 acts2 Q0. symmetry in Q0. apply app_eq_nil in Q0 as [-> _]. split; auto. }
  destruct (b_bin b) as [f|] eqn:Hb.
  - destruct Mc as [Hf0 Mc]. destruct (rows f) as [|r0 rs0] eqn:Er; [congruence|].
    match type of E with (if _ then post_n_write _ _ ?B _ _ _ _ else _) = _ => set (b2 := B) in * end.
    (* buffers, with previous results *)
    assert (B2 : b_bin b2 = Some f /\ b_snap b2 = b_snap b /\ b_seg b2 = b_seg b /\
      forall c A0 f0, In c chans -> c_cur c b = Some f0 -> rows f0 <> [] -> c_tab c H = A0 ++ concat (map rows (c_bufs c b)) ++ rows f0 ->
        removelast (c_tab c H) = A0 ++ concat (map rows (c_bufs c b2))).
    { assert (G : forall (A0 : list row) bufs (f0 : frame), rows f0 <> [] -> removelast (A0 ++ concat (map rows bufs) ++ rows f0) = A0 ++ concat (map rows (bufs ++ [chop f0]))).
      { intros A0 bufs f0 Hne. rewrite app_assoc, removelast_app_ne by auto. rewrite map_app, concat_app. simpl. rewrite app_nil_r, <- app_assoc. auto. }
      unfold b2. destruct (b_snap b) as [sn|] eqn:Hsn; (split; [auto|split; [auto|split; [auto|]]]).
      - intros c A0 f0 Hc Ec Hne ET. rewrite ET. unfold chans in Hc. destruct (k_type k); simpl in Hc; destruct Hc as [<-|Hc]; try (destruct Hc as [<-|[]]); try contradiction;
          cbn [c_cur c_bufs b_bins b_snaps] in *; (assert (f0 = f \/ f0 = sn) as [-> | ->] by (first [left; congruence|right; congruence])); try (apply G; auto);
          try (rewrite Hb in Ec; injection Ec as <-; apply G; auto); rewrite Hsn in Ec; injection Ec as <-; apply G; auto.
      - intros c A0 f0 Hc Ec Hne ET. rewrite ET. unfold chans in Hc. destruct (k_type k); simpl in Hc; destruct Hc as [<-|Hc]; try (destruct Hc as [<-|[]]); try contradiction;
          cbn [c_cur c_bufs b_bins b_snaps] in *; [rewrite Hb in Ec; injection Ec as <-; apply G; auto|congruence|rewrite Hb in Ec; injection Ec as <-; apply G; auto|congruence]. }
    destruct B2 as (B1 & B2 & B3 & B4).
    destruct (k_max k <? b_size b + b_size b / Z.of_nat (length (b_bins b ++ [chop f]))).
    + assert (HA : forall c, In c chans -> exists A, starts (A ++ outgoing c b2 false) (c_tab c H) /\ starts (map (c_map c) A) (all_rows (c_ds c s)) /\
        (max_nirgs (c_par c) = None \/ (length (all_rows (c_ds c s)) <= S (length A))%nat) /\ removelast (c_tab c H) = A ++ outgoing c b2 false).
      { intros c Hc. destruct (Mc c Hc) as (f0 & A & Ec & Hne & ET & SA & Hn). exists A.
        assert (R : removelast (c_tab c H) = A ++ outgoing c b2 false) by (unfold outgoing; rewrite app_nil_r; eapply B4; eauto).
        split; [rewrite <- R; apply starts_removelast|]. split; auto. }
      destruct (flush H b2 s false None pb b1 acts f St Sd B1) as ((pb' & e & rest & Eb & Ea & _ & Es & Em & Ep) & F2 & F3); auto.
      { intro Q0. rewrite B2. auto. }
      { intro Q0. rewrite B2. eapply snap_present; eauto. }
      { intros c Hc. destruct (HA c Hc) as (A & A1 & A2 & A3 & _). exists A. auto. }
      cbn [pending] in Em. split.
      * split; [subst b1; cbn [b_seg]; rewrite B3; auto|]. intros c Hc. destruct (HA c Hc) as (A & A1 & A2 & A3 & A4).
        exists (A ++ outgoing c b2 false). split.
        { rewrite A4. assert (Hbf : c_bufs c b1 = []). { subst b1. unfold chans in Hc. destruct (k_type k); simpl in Hc; destruct Hc as [<-|Hc]; try (destruct Hc as [<-|[]]); try contradiction; auto. }
          rewrite Hbf. simpl. rewrite app_nil_r. auto. }
        rewrite (F3 c A Hc A1 A2 A3). split; [apply starts_app|]. destruct A3 as [A3|A3]; auto. right. rewrite app_length, map_length, skipn_length, !app_length. lia.
      * intros acts1 acts2 EE. split; [intros c Hc; apply (F2 acts1 acts2 c EE Hc)|].
        destruct acts1 as [|a acts1].
        { split; [right; auto|]. split; auto. }
        specialize (Ep (a :: acts1) acts2 EE ltac:(discriminate)). rewrite Ep. cbn [md_of]. rewrite Em. split; [destruct (data_of (s_main s)); auto|]. split; [congruence|].
        intros c Hrec rst Hc EH Hne AR. apply (F2 (a :: acts1) acts2 c EE Hc) with rst; auto. apply Hne. congruence.
    + injection E as <- <-. split; [|exact Nil]. split; [rewrite B3; auto|]. intros c Hc. destruct (Mc c Hc) as (f0 & A & Ec & Hne & ET & SA & Hn). exists A.
      split; [eapply B4; eauto|]. auto.
  - injection E as <- <-. split; [|exact Nil]. split; auto. intros c Hc. destruct (Mc c Hc) as (Ec & Eb & AR & Ti). exists (removelast (c_tab c H)).
    rewrite Eb. simpl. rewrite app_nil_r. split; auto. split.
    + destruct AR as [AR|[_ AR]]; auto. eapply starts_trans; [|exact AR]. apply starts_map, starts_removelast.
    + unfold tight in Ti. destruct Ti as [Ti|Ti]; auto. right. destruct (c_tab c H) as [|x l _] using rev_ind; [simpl in *; lia|]. rewrite removelast_last. rewrite app_length in Ti. simpl in Ti. cbn [apply_acts fold_left]. lia.
Qed.

Lemma buffer_sinv : forall H b s pb b1 acts, kinv H b s -> buffer_results truthy usage k b s pb = Ok (b1, acts) ->
  forall acts1 acts2, acts = acts1 ++ acts2 -> sinv (apply_acts s acts1).
Proof.
  intros H b s pb b1 acts Hk Eb acts1 acts2 EE. destruct (buffer_inv _ _ _ _ _ _ Hk Eb) as (_ & Ba). destruct Hk as (St & Sd & Me & Re).
  destruct (Ba acts1 acts2 EE) as (C1 & C2 & C3 & C4). split; auto.
  intros md Emd. destruct C2 as [C2|C2]; [congruence|]. rewrite C2 in Emd. destruct (Re md Emd) as (Hrec & rest & EH & C & I & N1 & N2 & AR).
  exists Hrec. split; [destruct St as [q Eq]; rewrite Eq, EH, <- app_assoc; apply starts_app|]. split; auto. split; auto. intros c Hc. eapply C4; eauto.
Qed.

Lemma agg_iter_inv : forall H b s pb p b' acts, kinv H b s -> p <> [] -> starts (H ++ p) Hf -> agg_iter truthy usage k b s pb p = Ok (b', acts) ->
  kinv (H ++ p) b' (apply_acts s acts) /\ b_bin b' <> None /\
  (forall acts1 acts2, acts = acts1 ++ acts2 -> sinv (apply_acts s acts1) /\ (s_main s <> None -> s_main (apply_acts s acts1) <> None)) /\
  (md_of (s_main (apply_acts s acts)) = None \/ md_of (s_main (apply_acts s acts)) = md_of (s_main s)).
Proof.
  intros H b s pb p b' acts Hk Hp St' E. unfold agg_iter in E.
  destruct (buffer_results truthy usage k b s pb) as [[b1 a1]|] eqn:Eb; cbn [bind] in E; [|discriminate].
  pose proof (buffer_sinv _ _ _ _ _ _ Hk Eb) as Bs. destruct (buffer_inv _ _ _ _ _ _ Hk Eb) as ((Bi & Bc) & Ba). destruct Hk as (St & Sd & Me & Re).
  destruct (k_agg k p (b_seg b1)) as [[r seg']|] eqn:Ek; cbn [bind] in E; [|discriminate].
  destruct (tab_step _ _ _ _ _ _ Htab H p (b_seg b1) r seg' Hp (ok_starts _ St') Bi Ek) as (f & sn & -> & I' & ET & Hfn & Hsn).
  injection E as <- <-. destruct (Ba a1 [] ltac:(rewrite app_nil_r; auto)) as (B1 & B2 & B3 & B4).
  split; [|split; [|split]].
  - split; auto. split; auto. split.
    + split; auto. cbn [b_snap b_bin b_seg]. split; [intro Q0; rewrite Q0 in Hsn; destruct sn; [contradiction|auto]|]. split; auto.
      intros c Hc. destruct (Bc c Hc) as (A & EA & SA & Hn).
      assert (G : exists f0, c_cur c (mkBuf (b_size b1) (Some f) sn (b_bins b1) (b_snaps b1) seg' (b_post b1)) = Some f0 /\ rows f0 <> [] /\ c_tab c (H ++ p) = removelast (c_tab c H) ++ rows f0 /\
         c_bufs c (mkBuf (b_size b1) (Some f) sn (b_bins b1) (b_snaps b1) seg' (b_post b1)) = c_bufs c b1).
      { unfold chans in Hc. destruct (k_type k); simpl in Hc; destruct Hc as [<-|Hc]; try (destruct Hc as [<-|[]]); try contradiction; cbn [c_cur c_bufs c_tab b_bin b_snap b_bins b_snaps];
          first [exists f; split; [reflexivity|]; repeat split; auto; fail|destruct sn as [s0|]; [|contradiction]; destruct Hsn; exists s0; repeat split; auto]. }
      destruct G as (f0 & G1 & G2 & G3 & G4). exists f0, A. rewrite G4. split; auto. split; auto. split; [rewrite G3, EA, <- app_assoc; auto|]. auto.
    + intros md Emd. destruct B2 as [B2|B2]; [congruence|]. rewrite B2 in Emd. destruct (Re md Emd) as (Hrec & rest & EH & C & I & N1 & N2 & AR).
      exists Hrec, (rest ++ p). split; [rewrite app_assoc, EH; auto|]. split; auto. split; auto.
      assert (Hne : rest ++ p <> []) by (destruct p; [congruence|]; intro Q0; apply app_eq_nil in Q0 as [_ Q0]; discriminate).
      split; auto. split; [cbn [b_bin]; congruence|]. intros c Hc. eapply B4; eauto.
  - cbn [b_bin]. congruence.
  - intros acts1 acts2 EE. split; [apply (Bs acts1 acts2 EE)|apply (Ba acts1 acts2 EE)].
  - exact B2.
Qed.

Lemma key_run_inv : forall chunks H b s pb b' acts, kinv H b s -> (forall p, In p chunks -> p <> []) -> starts (H ++ concat chunks) Hf ->
  key_run truthy usage k pb b s chunks = Ok (b', acts) ->
  kinv (H ++ concat chunks) b' (apply_acts s acts) /\ (chunks <> [] -> b_bin b' <> None) /\
  (forall acts1 acts2, acts = acts1 ++ acts2 -> sinv (apply_acts s acts1) /\ (s_main s <> None -> s_main (apply_acts s acts1) <> None)) /\
  (md_of (s_main (apply_acts s acts)) = None \/ md_of (s_main (apply_acts s acts)) = md_of (s_main s)).
Proof.
  induction chunks as [|p chunks IH]; intros H b s pb b' acts Hk Hne St E; cbn [key_run concat] in *.
  - injection E as <- <-. rewrite app_nil_r in *. split; auto. split; [congruence|]. split; [|auto].
    intros acts1 acts2 Q0. symmetry in Q0. apply app_eq_nil in Q0 as [-> _]. split; auto. eapply kinv_sinv; eauto.
  - destruct (agg_iter truthy usage k b s pb p) as [[b1 a1]|] eqn:E1; cbn [bind] in E; [|discriminate].
    destruct (key_run truthy usage k pb b1 (apply_acts s a1) chunks) as [[b2 a2]|] eqn:E2; cbn [bind] in E; [|discriminate].
    injection E as <- <-. rewrite app_assoc in *.
    destruct (agg_iter_inv H b s pb p b1 a1 Hk) as (K1 & N1 & P1 & M1); auto; [apply Hne; left; auto|destruct St as [q Eq]; exists (concat chunks ++ q); rewrite Eq, <- !app_assoc; auto|].
    destruct (IH (H ++ p) b1 (apply_acts s a1) pb b2 a2 K1) as (K2 & N2 & P2 & M2); auto; [intros; apply Hne; right; auto|].
    rewrite apply_acts_app. split; auto. split; [|split].
    + intros _. destruct chunks; [injection E2 as <- <-; auto|apply N2; discriminate].
    + intros acts1 acts2 EE. destruct (app_eq_starts _ _ _ _ EE) as [[q Eq]|[q Eq]].
      * subst acts1. rewrite apply_acts_app. rewrite <- app_assoc in EE. apply app_inv_head in EE.
        destruct (P2 q acts2 EE) as [P3 P4]. split; auto. intro Hs. apply P4. apply (P1 a1 []); auto. rewrite app_nil_r. auto.
      * apply (P1 acts1 q). auto.
    + destruct M2 as [M2|M2]; [auto|]. rewrite M2. auto.
Qed.

(** Final write. *)
Lemma final_inv : forall H b s r p b' acts, kinv H b s -> (forall i, r = Some i -> Con i H) ->
  (b_bin b <> None -> exists i, r = Some i /\ (Q -> truthy i = true)) ->
  post_n_write truthy k b s true r p = Ok (b', acts) ->
  kinv H b' (apply_acts s acts) /\ b_bin b' = None /\
  (k_type k <> BOTH -> forall acts1 acts2, acts = acts1 ++ acts2 -> sinv (apply_acts s acts1)) /\
  (forall acts1 acts2, acts = acts1 ++ acts2 -> s_main s <> None -> s_main (apply_acts s acts1) <> None) /\
  match r with
  | Some i => if truthy i then exists md, md_of (s_main (apply_acts s acts)) = Some md /\ m_restart md = i
              else md_of (s_main (apply_acts s acts)) = None \/ md_of (s_main (apply_acts s acts)) = md_of (s_main s)
  | None => md_of (s_main (apply_acts s acts)) = None \/ md_of (s_main (apply_acts s acts)) = md_of (s_main s)
  end.
Proof.
  intros H b s r p b' acts Hk HC Hr E. pose proof (kinv_sinv _ _ _ Hk) as SI. pose proof Hk as Hk'. destruct Hk as (St & Sd & Me & Re).
  destruct (b_bin b) as [f|] eqn:Hb.
  - (* results are written *)
    pose proof Me as (Mi & Ms & Mc). rewrite Hb in Mc. destruct Mc as [Hfn Mc].
    assert (HA : forall c, In c chans -> exists A, A ++ outgoing c b true = c_tab c H /\ starts (map (c_map c) A) (all_rows (c_ds c s)) /\
        (max_nirgs (c_par c) = None \/ (length (all_rows (c_ds c s)) <= S (length A))%nat) /\ outgoing c b true <> []).
    { intros c Hc. destruct (Mc c Hc) as (f0 & A & Ec & Hne & ET & SA & Hn). exists A. unfold outgoing. rewrite Ec. repeat (split; auto).
      intro Q0. apply app_eq_nil in Q0. tauto. }
    destruct (flush H b s true r p b' acts f St Sd Hb Ms) as ((pb' & e & rest & Eb & Ea & Er & Es & Em & Ep) & F2 & F3); auto.
    { intro Q0. eapply snap_present; eauto. }
    { intros c Hc. destruct (HA c Hc) as (A & A1 & A2 & A3 & _). exists A. rewrite A1. split; [apply starts_refl|auto]. }
    assert (F4 : forall c, In c chans -> starts (map (c_map c) (c_tab c H)) (all_rows (c_ds c (apply_acts s acts))) /\ tight c H (apply_acts s acts)).
    { intros c Hc. destruct (HA c Hc) as (A & A1 & A2 & A3 & A4). unfold tight. rewrite (F3 c A Hc); auto; [|rewrite A1; apply starts_refl].
      rewrite A1. split; [apply starts_app|]. destruct A3 as [A3|A3]; auto. right. rewrite app_length, map_length, skipn_length.
      rewrite <- A1, app_length. destruct (outgoing c b true); [congruence|simpl; lia]. }
    assert (Bb : b_bin b' = None /\ b_seg b' = b_seg b /\ b_snap b' = None /\ forall c, In c chans -> c_cur c b' = None /\ c_bufs c b' = []).
    { subst b'. repeat (split; auto); unfold chans in H0; destruct (k_type k); simpl in H0; destruct H0 as [<-|Hc]; try (destruct Hc as [<-|[]]); try contradiction; auto. }
    destruct Bb as (Bb1 & Bb2 & Bb3 & Bb4).
    assert (K : kinv H b' (apply_acts s acts)).
    { split; auto. split; [intros c Hc; apply (F2 acts [] c); auto; rewrite app_nil_r; auto|]. split.
      - split; [rewrite Bb2; auto|]. split; auto. rewrite Bb1. intros c Hc. destruct (Bb4 c Hc), (F4 c Hc). repeat (split; auto). left. auto.
      - intros md Emd. rewrite Es in Emd. cbn [md_of] in Emd. rewrite Em in Emd. unfold pending in Emd. destruct (Hr ltac:(congruence)) as (i & -> & Tr).
        destruct (truthy i) eqn:Ti.
        + injection Emd as <-. exists H, []. rewrite app_nil_r. cbn [m_restart m_seg]. split; [auto|]. split; [auto|]. split; [auto|]. split; [congruence|]. split; [auto|]. intros c Hc. left. apply F4. auto.
        + destruct (data_of (s_main s)) eqn:Ed; [discriminate|]. destruct (Re md Emd) as (Hrec & rst & EH & C & I & N1 & N2 & AR).
          exists Hrec, rst. split; auto. split; auto. split; auto. split; [congruence|]. split; [intro q; specialize (Tr q); congruence|].
          intros c Hc. apply (F2 acts [] c ltac:(rewrite app_nil_r; auto) Hc) with rst; auto. apply N1. congruence. }
    split; auto. split; auto. split; [|split].
    + intros Ht acts1 acts2 EE. rewrite (Er Ht) in Ea. rewrite Ea in EE. destruct acts1 as [|a [|a' acts1]]; [exact SI| |discriminate].
      simpl in EE. assert (EQ : [a] = acts) by (injection EE as E1 _; rewrite Ea, E1; reflexivity). rewrite EQ. eapply kinv_sinv; eauto.
    + intros acts1 acts2 EE Hs. destruct acts1 as [|a acts1]; auto. rewrite (Ep _ _ EE); congruence.
    + rewrite Es. cbn [md_of]. rewrite Em. destruct r as [i|]; cbn [pending].
      * destruct (truthy i); [eexists; split; [reflexivity|auto]|]. destruct (data_of (s_main s)); auto.
      * destruct (data_of (s_main s)); auto.
  - (* nothing but metadata is written *)
    pose proof Me as (Mi & Ms & Mc). rewrite Hb in Mc.
    unfold post_n_write, results in E. rewrite Hb in E. cbn [bind] in E.
    assert (Eb : mkBuf (b_size b) None (b_snap b) (b_bins b) (b_snaps b) (b_seg b) (b_post b) = b) by (destruct b; cbn in *; congruence).
    rewrite Eb in E.
    assert (Unch : acts = [] -> b' = b -> kinv H b' (apply_acts s acts) /\ b_bin b' = None /\
       (k_type k <> BOTH -> forall acts1 acts2, acts = acts1 ++ acts2 -> sinv (apply_acts s acts1)) /\
       (forall acts1 acts2, acts = acts1 ++ acts2 -> s_main s <> None -> s_main (apply_acts s acts1) <> None) /\
       (md_of (s_main (apply_acts s acts)) = None \/ md_of (s_main (apply_acts s acts)) = md_of (s_main s))).
    { intros -> ->. split; [exact Hk'|]. split; auto. split; [|split; [|right; auto]]; intros; symmetry in H0 || symmetry in H1;
        [apply app_eq_nil in H1 as [-> _]; exact SI|apply app_eq_nil in H0 as [-> _]; auto]. }
    destruct r as [i|]; [destruct (truthy i) eqn:Ti|]; cbn [bind] in E; injection E as <- <-; try (apply Unch; auto; fail). clear Unch.
    assert (Cd : forall c, In c chans -> c_ds c (apply_acts s [(false, store_md (s_main s) (mkMd i p (b_seg b) (b_post b)))]) = c_ds c s).
    { intros c Hc. unfold chans in Hc. destruct (k_type k); simpl in Hc; destruct Hc as [<-|Hc]; try (destruct Hc as [<-|[]]); try contradiction; auto. }
    set (s' := apply_acts s [(false, store_md (s_main s) (mkMd i p (b_seg b) (b_post b)))]) in *.
    assert (K : kinv H b s').
    { split; auto. split; [intros c Hc; unfold stored; rewrite Cd by auto; apply Sd; auto|]. split.
      - split; auto. split; auto. rewrite Hb. intros c Hc. unfold idle, at_rest, tight. rewrite Cd by auto. apply Mc. auto.
      - intros md Emd. injection Emd as <-. exists H, []. rewrite app_nil_r. cbn [m_restart m_seg]. split; [auto|]. split; [auto|]. split; [auto|]. split; [congruence|]. split; [auto|].
        intros c Hc. unfold at_rest. rewrite Cd by auto. apply Mc. auto. }
    split; auto. split; auto. split; [|split].
    + intros Ht acts1 acts2 EE. destruct acts1 as [|a [|a' acts1]]; [exact SI| |discriminate]. injection EE as <- <-. eapply kinv_sinv; eauto.
    + intros acts1 acts2 EE Hs. destruct acts1 as [|a [|a' acts1]]; [auto| |discriminate]. injection EE as <- <-. unfold apply_acts. simpl. congruence.
    + eexists. split; reflexivity.
Qed.

(** Results once all rows have been aggregated, and results are written. *)
Lemma kinv_final : forall b s c, kinv Hf b s -> b_bin b = None -> In c chans -> all_rows (c_ds c s) = map (c_map c) (c_tab c Hf).
Proof.
  intros b s c (_ & Sd & (_ & _ & Mc) & _) Hb Hc. rewrite Hb in Mc. destruct (Mc c Hc) as (_ & _ & [AR|[Q0 _]] & _); [|lia].
  symmetry. apply starts_same; auto. apply Nat.le_antisymm; [apply starts_length; auto|]. destruct (Sd c Hc) as (_ & L & _). apply starts_length in L. rewrite !map_length in L. rewrite map_length. auto.
Qed.
End Key.
