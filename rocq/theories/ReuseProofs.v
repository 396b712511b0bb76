(** Results of calls of a same instance, some of which raise in their final write. *)
Require Import List Arith ZArith Bool Lia Sorting.Sorted.
Require Import Verif.Common Verif.SegModel Verif.SegSpec Verif.WrModel Verif.StreamModel Verif.StreamSpec Verif.IterProofs Verif.StreamProofs Verif.RecordProofs
  Verif.TableProofs Verif.BatchSpec Verif.LabelProofs Verif.BatchProofs Verif.BatchRunProofs Verif.ReuseModel Verif.ReuseSpec.
Import ListNotations.
Local Open Scope Z_scope.

(** ** Same data, whatever metadata *)
Section Data.
Context {D P SB PB : Type}.
Variable idx : D -> Z.
Variable truthy : Z -> bool.
Variable usage : frame -> Z.
Notation stream := (stream D P SB PB).
Notation kconf := (kconf D SB PB).
Notation kbuf := (kbuf SB PB).
Notation kstore := (kstore P SB PB).
Notation act := (@act P SB PB).
Notation ustream := (@ustream D P SB PB).

Definition same_data (s s0 : kstore) : Prop := data_of (s_main s) = data_of (s_main s0) /\ data_of (s_snap s) = data_of (s_snap s0).
Definition rel (x : @ukey D P SB PB) (y : kconf * kbuf * kstore) : Prop := fst (fst x) = fst y /\ same_data (snd (fst x)) (snd y).
Definition related (g : ustream) (g0 : stream) : Prop := u_restart g = g_restart g0 /\ u_pre g = g_pre g0 /\ Forall2 rel (u_keys g) (g_keys g0).

Lemma store_write_data : forall p (e e0 : option (entry P SB PB)) f md md0 e', store_write p e f md = Ok e' -> data_of e = data_of e0 ->
  exists e0', store_write p e0 f md0 = Ok e0' /\ e_data e' = e_data e0'.
Proof.
  intros p e e0 f md md0 e' H E. unfold store_write in *. rewrite <- E. destruct (write p false (data_of e) f) as [ds|]; [|discriminate]. injection H as <-.
  eexists. split; reflexivity.
Qed.
Lemma post_same : forall w (k : kconf) b (s s0 : kstore) pend al r (p : P) b' acts pend', post_n_write_u truthy w k b s pend al r p = (b', acts, pend', None) -> same_data s s0 ->
  exists acts0, post_n_write truthy k b s0 al r p = Ok (b', acts0) /\ same_data (apply_acts s acts) (apply_acts s0 acts0).
Proof.
  intros w k b s s0 pend al r p b' acts pend' H [E1 E2]. unfold post_n_write_u in H. unfold post_n_write.
  destruct (results k b al) as [[[main snap] pb]|]; [|discriminate]. cbn [bind]. cbv zeta in *.
  set (md0 := match r with Some i => if truthy i then Some (mkMd i p (b_seg b) pb) else None | None => None end).
  destruct main as [f|].
  - destruct (allowed w 0); [|discriminate]. destruct (store_write (k_write k) (s_main s) f _) as [e|] eqn:Ew; [|discriminate].
    destruct (store_write_data _ _ (s_main s0) _ _ md0 _ Ew E1) as (e0 & -> & Ed). cbn [bind].
    destruct (k_type k).
    + injection H as <- <- <-. eexists. split; [reflexivity|]. split; cbn; auto.
    + injection H as <- <- <-. eexists. split; [reflexivity|]. split; cbn; auto.
    + destruct snap as [sn|]; [|discriminate]. destruct (allowed w 1); [|discriminate].
      destruct (store_write (k_write_snap k) (s_snap s) sn None) as [e'|] eqn:Ew'; [|discriminate].
      destruct (store_write_data _ _ (s_snap s0) _ _ None _ Ew' E2) as (e0' & -> & Ed'). cbn [bind]. injection H as <- <- <-.
      eexists. split; [reflexivity|]. split; cbn; auto.
  - unfold md0. destruct r as [i|]; cbn [bind] in *; [destruct (truthy i)|]; cbn [bind] in *.
    + destruct (allowed w 0); [|discriminate]. injection H as <- <- <-. eexists. split; [reflexivity|]. split; cbn; auto.
    + injection H as <- <- <-. eexists. split; [reflexivity|]. split; cbn; auto.
    + injection H as <- <- <-. eexists. split; [reflexivity|]. split; cbn; auto.
Qed.
Lemma buffer_same : forall w (k : kconf) b (s s0 : kstore) pend (p : P) b' acts pend', buffer_results_u truthy usage w k b s pend p = (b', acts, pend', None) -> same_data s s0 ->
  exists acts0, buffer_results truthy usage k b s0 p = Ok (b', acts0) /\ same_data (apply_acts s acts) (apply_acts s0 acts0).
Proof.
  intros w k b s s0 pend p b' acts pend' H E. unfold buffer_results_u in H. unfold buffer_results.
  destruct (b_bin b) as [bin|]; [|injection H as <- <- <-; exists []; auto].
  destruct (rows bin); [injection H as <- <- <-; exists []; auto|]. cbv zeta in *.
  destruct (k_max k <? _); [|injection H as <- <- <-; exists []; auto]. eapply post_same; eauto.
Qed.
Lemma iter_same : forall w (k : kconf) b (s s0 : kstore) pend (p : P) c b' acts pend', started w b pend (agg_iter_u truthy usage w k b s pend p c) = (b', acts, pend', None) -> same_data s s0 ->
  exists acts0, agg_iter truthy usage k b s0 p c = Ok (b', acts0) /\ same_data (apply_acts s acts) (apply_acts s0 acts0).
Proof.
  intros w k b s s0 pend p c b' acts pend' H E. assert (H' : agg_iter_u truthy usage w k b s pend p c = (b', acts, pend', None)) by (destruct w; [exact H|exact H|discriminate]).
  unfold agg_iter_u in H'. unfold agg_iter.
  destruct (buffer_results_u truthy usage w k b s pend p) as [[[b1 a1] p1] ex1] eqn:Eb. destruct ex1; [discriminate|].
  destruct (buffer_same _ _ _ _ _ _ _ _ _ _ Eb E) as (a0 & -> & E'). cbn [bind].
  destruct (k_agg k c (b_seg b1)) as [[r seg']|]; [|discriminate]. cbn [bind]. destruct (match r with Some (f, sn) => (Some f, sn) | None => (None, None) end) as [bin snap].
  injection H' as <- <- <-. eauto.
Qed.
Lemma jobs_same : forall (job : fault -> kconf -> kbuf -> kstore -> option Z -> job_end) (job0 : kconf -> kbuf -> kstore -> res (kbuf * list act)) ws,
  (forall w k b s s0 pend b' acts pend', job w k b s pend = (b', acts, pend', None) -> same_data s s0 -> exists acts0, job0 k b s0 = Ok (b', acts0) /\ same_data (apply_acts s acts) (apply_acts s0 acts0)) ->
  forall ks ks0 i l, Forall2 rel ks ks0 -> run_jobs_u job ws i ks = (l, None) -> exists l0 log0, run_jobs job0 i ks0 = Ok (l0, log0) /\ Forall2 rel l l0.
Proof.
  intros job job0 ws Hj. induction ks as [|[[[k b] s] pend] ks IH]; intros ks0 i l HF H; inversion HF as [|x y u v R F]; subst; cbn [run_jobs_u run_jobs] in *.
  - injection H as <-. exists [], []. auto.
  - destruct y as [[k0 b0] s0]. destruct R as [R1 R2]. cbn [fst snd] in R1, R2. injection R1 as <- <-.
    destruct (job (ws i) k b s pend) as [[[b' acts] pend'] ex] eqn:Ej. destruct (run_jobs_u job ws (S i) ks) as [l' ex'] eqn:Er.
    destruct ex; [discriminate|]. injection H as <- ->. destruct (Hj _ _ _ _ _ _ _ _ _ Ej R2) as (a0 & -> & E'). cbn [bind].
    destruct (IH v (S i) l' F Er) as (l0 & log0 & -> & F'). cbn [bind]. eexists. eexists. split; [reflexivity|]. constructor; auto. split; auto.
Qed.
Lemma consume_same : forall ys (g g' : ustream) g0 ws n ex, related g g0 -> consume_u truthy usage g ws n ys = (g', Ok ex) ->
  exists g0', consume truthy usage g0 ys = Ok (g0', ex) /\ related g' g0'.
Proof.
  induction ys as [|[y|e] ys IH]; intros g g' g0 ws n ex R H; cbn [consume_u consume] in *.
  - injection H as <- <-. eauto.
  - destruct R as (R1 & R2 & R3). unfold consume1_u in H. unfold consume1. destruct y as [[li id] c].
    match type of H with context[run_jobs_u ?J ?W 0 ?K] => set (jb := J) in H; destruct (run_jobs_u jb W 0 K) as [ks ex1] eqn:Ej end. destruct ex1; [discriminate|].
    assert (Hj : forall w k b s s0 pend b' acts pend', jb w k b s pend = (b', acts, pend', None) -> same_data s s0 ->
      exists acts0, (if (k_filter k =? id)%nat then agg_iter truthy usage k b s0 (g_pre g0) c else Ok (b, [])) = Ok (b', acts0) /\ same_data (apply_acts s acts) (apply_acts s0 acts0)).
    { intros w k b s s0 pend b' acts pend' Q E. unfold jb in Q. rewrite <- R2. destruct (k_filter k =? id)%nat; [eapply iter_same; eauto|]. injection Q as <- <- <-. exists []. auto. }
    destruct (jobs_same jb (fun k b s => if (k_filter k =? id)%nat then agg_iter truthy usage k b s (g_pre g0) c else Ok (b, [])) (ws n) Hj _ _ 0%nat ks R3 Ej) as (l0 & log0 & El & F).
    rewrite El. cbn [bind]. apply (IH _ _ (mkStream (Some li) (g_pre g0) l0 (g_log g0 ++ log0))) in H; [exact H|]. split; [reflexivity|]. split; auto.
  - destruct e; try discriminate. injection H as <- <-. eauto.
Qed.
End Data.

(** ** Final write of a key, which may fail *)
Section Key.
Context {D P SB PB : Type}.
Variable truthy : Z -> bool.
Notation kbuf := (kbuf SB PB).
Notation kstore := (kstore P SB PB).
Notation act := (@act P SB PB).
Variable k : kconf D SB PB.
Variables (seg0 : SB) (ok : list D -> Prop) (T TS : list D -> list row) (Inv : list D -> SB -> Prop) (m ms : row -> row).
Hypothesis Htab : tabular k seg0 ok T TS Inv.
Hypothesis Hpost : post_is k m ms.
Hypothesis Hpar : writes_as_labels k ok T TS m ms.
Hypothesis Hco : k_type k = BOTH -> max_nirgs (k_write k) = None.
Variable Hf : list D.
Hypothesis Hok : ok Hf.
Hypothesis ok_app : forall a b, ok (a ++ b) -> ok a.
Variable Con : Z -> list D -> Prop.
Variable Q : Prop.
Notation chans_ := (@chans D P SB PB k T TS m ms).
Notation kinv_ := (kinv k T TS Inv m ms Hf Con Q).

(** Buffers but that of 'post'. *)
Definition same_bufs (b b' : kbuf) : Prop := b_bin b' = b_bin b /\ b_snap b' = b_snap b /\ b_bins b' = b_bins b /\ b_snaps b' = b_snaps b /\ b_seg b' = b_seg b.
Lemma same_bufs_chan : forall b b' c, same_bufs b b' -> In c chans_ -> c_cur c b' = c_cur c b /\ c_bufs c b' = c_bufs c b.
Proof using Type. clear Htab Hpost Hpar Hco.
  intros b b' c (B1 & B2 & B3 & B4 & _) Hc. unfold chans in Hc. destruct (k_type k); simpl in Hc; destruct Hc as [<-|Hc]; try (destruct Hc as [<-|[]]); try contradiction; auto.
Qed.
Lemma same_data_chan : forall (s s' : kstore) c, same_data s s' -> In c chans_ -> c_ds c s = c_ds c s'.
Proof using Type. clear Htab Hpost Hpar Hco.
  intros s s' c [E1 E2] Hc. unfold chans in Hc. destruct (k_type k); simpl in Hc; destruct Hc as [<-|Hc]; try (destruct Hc as [<-|[]]); try contradiction; auto.
Qed.
Definition erased (s : kstore) : kstore :=
  mkStore (Some (mkEntry (data_of (s_main s)) None)) (Some (mkEntry (data_of (s_snap s)) None)).
Lemma erased_same : forall s, same_data s (erased s).
Proof using Type. intro s. split; auto. Qed.
(** Nothing is changed but the buffer of 'post', and metadata. *)
Lemma kinv_kept : forall H b b' s s', kinv_ H b s -> same_bufs b b' -> same_data s' s -> kinv_ H b' (erased s').
Proof using Type. clear Htab Hpost Hpar Hco.
  intros H b b' s s' (St & Sd & (Mi & Ms & Mc) & _) SB0 SD.
  assert (Ed : forall c, In c chans_ -> c_ds c (erased s') = c_ds c s).
  { intros c Hc. rewrite <- (same_data_chan s' s c SD Hc). symmetry. apply same_data_chan; auto. apply erased_same. }
  pose proof SB0 as (B1 & B2 & B3 & B4 & B5). split; auto. split; [intros c Hc; unfold stored; rewrite Ed by auto; apply Sd; auto|]. split; [|intros md Em; discriminate].
  split; [rewrite B5; auto|]. split; [rewrite B2; auto|]. rewrite B1. destruct (b_bin b).
  - destruct Mc as [Hn Mc]. split; auto. intros c Hc. destruct (same_bufs_chan b b' c SB0 Hc) as [C1 C2]. unfold mid. rewrite C1, C2, Ed by auto. apply Mc; auto.
  - intros c Hc. destruct (same_bufs_chan b b' c SB0 Hc) as [C1 C2]. unfold idle, at_rest, tight. rewrite C1, C2, Ed by auto. apply Mc; auto.
Qed.

(** The final write, whatever happens to it. *)
Lemma end_inv : forall H b (s s0 : kstore) w pend r (p : P) b' acts pend' ex, kinv_ H b s0 -> same_data s s0 -> (forall i, r = Some i -> Con i H) ->
  (b_bin b <> None -> exists i, r = Some i /\ (Q -> truthy i = true)) ->
  started w b pend (post_n_write_u truthy w k b s pend true r p) = (b', acts, pend', ex) ->
  exists s0' : kstore, kinv_ H b' s0' /\ same_data (apply_acts s acts) s0' /\
    (ex = None -> b_bin b' = None /\ forall i, r = Some i -> truthy i = true -> pend' = None /\ exists md, md_of (s_main (apply_acts s acts)) = Some md /\ md_of (s_main s0') = Some md).
Proof.
  intros H b s s0 w pend r p b' acts pend' ex Hk SD HC Hr E. destruct ex as [x|].
  - (* the write fails *)
    assert (G : (exists b1, same_bufs b b1 /\ b' = b1 /\ acts = []) \/
      (w <> NotRun /\ exists main snap pb e md, results k b true = Ok (Some main, snap, pb) /\ b' = mkBuf (b_size b) (b_bin b) (b_snap b) (b_bins b) (b_snaps b) (b_seg b) pb /\
         k_type k = BOTH /\ store_write (k_write k) (s_main s) main md = Ok e /\ acts = [(false, e)])).
    { assert (K0 : forall pb, same_bufs b (mkBuf (b_size b) (b_bin b) (b_snap b) (b_bins b) (b_snaps b) (b_seg b) pb)) by (intro pb; repeat split).
      assert (S0 : same_bufs b b) by (repeat split).
      destruct w as [|n|]; [..|injection E as <- <- _ _; left; eauto]; cbn [started] in E; unfold post_n_write_u in E;
        (destruct (results k b true) as [[[main snap] pb]|] eqn:Er; [|injection E as <- <- _ _; left; eauto]; cbv zeta in E;
         destruct main as [f|];
         [match type of E with (if ?A then _ else _) = _ => destruct A; [|injection E as <- <- _ _; left; eexists; split; [apply K0|auto]] end;
          match type of E with match ?A with _ => _ end = _ => destruct A as [e|] eqn:Ew; [|injection E as <- <- _ _; left; eexists; split; [apply K0|auto]] end;
          destruct (k_type k) eqn:Ek; [discriminate|discriminate|];
          (destruct snap as [sn|];
           [match type of E with (if ?A then _ else _) = _ => destruct A end;
            [match type of E with match ?A with _ => _ end = _ => destruct A; [discriminate|] end|]|]);
          injection E as <- <- _ _; right; (split; [discriminate|]); do 5 eexists; (split; [reflexivity|]); repeat (split; eauto)
         |match type of E with (if ?A then _ else _) = _ => destruct A; [|discriminate] end;
          match type of E with (if ?A then _ else _) = _ => destruct A; [discriminate|] end; injection E as <- <- _ _; left; eexists; split; [apply K0|auto]]). }
    destruct G as [(b1 & B1 & -> & ->)|(_ & main & snap & pb & e & md & Er & -> & Ek & Ew & ->)].
    + exists (erased s). split; [eapply kinv_kept; eauto|]. split; [apply erased_same|discriminate].
    + (* bins are written, snapshots are not *)
      assert (SBf : same_bufs b (mkBuf (b_size b) (b_bin b) (b_snap b) (b_bins b) (b_snaps b) (b_seg b) pb)) by (repeat split).
      pose proof Hk as (St & Sd & Me & _). pose proof Me as (Mi & Ms & Mc).
      destruct (b_bin b) as [fb|] eqn:Hb; [|unfold results in Er; rewrite Hb in Er; discriminate].
      destruct Mc as [Hn Mc].
      destruct (results_spec k m ms Hpost b true fb _ _ _ Er Hb) as (bin & Eb & Rs); [auto|intro Q0; eapply (snap_present k T TS Inv m ms Hf); eauto|].
      rewrite Ek in Rs. destruct Rs as (n & n' & fs & sn & Ef & _ & Em & _). injection Em as ->.
      apply store_write_inv in Ew as [Ew _].
      set (c := mkChan T m (k_write k) b_bins b_bin (fun s : kstore => data_of (s_main s))).
      assert (Hc : In c chans_) by (unfold chans; rewrite Ek; left; reflexivity).
      destruct (Mc c Hc) as (f0 & A & Ec & Hne & ET & SA & Hmx). cbn [c_cur c] in Ec. rewrite Hb in Ec. injection Ec as <-.
      destruct (chan_write k seg0 ok T TS Inv m ms Htab Hpost Hpar Hf Hok c H A (concat (map rows (b_bins b)) ++ rows fb) n s0 (e_data e) Hc St (Sd c Hc)) as (W1 & W2 & W3); auto.
      { rewrite ET. apply starts_refl. }
      { cbn [c_par c_ds c_map c]. rewrite <- Eb, <- (proj1 SD). exact Ew. }
      set (s1 := apply_acts s [(false, e)]).
      assert (D1 : data_of (s_main s1) = e_data e) by reflexivity. assert (D2 : data_of (s_snap s1) = data_of (s_snap s0)) by (apply SD).
      exists (erased s1). split; [|split; [apply erased_same|discriminate]].
      assert (Cs : forall c', In c' chans_ -> c' = c \/ c' = mkChan TS ms (k_write_snap k) b_snaps b_snap (fun s : kstore => data_of (s_snap s))).
      { unfold chans. rewrite Ek. intros c' [<-|[<-|[]]]; auto. }
      split; auto. split.
      { intros c' Hc'. destruct (Cs c' Hc') as [->| ->].
        - unfold stored. change (c_ds c (erased s1)) with (e_data e). split; auto.
        - specialize (Sd _ Hc'). unfold stored in *. cbn [c_ds erased s_snap data_of e_data] in *. rewrite D2. exact Sd. }
      split; [|intros md' Em; discriminate]. split; [exact Mi|]. cbn [b_snap b_bin]. split; [exact Ms|]. split; auto.
      intros c' Hc'. destruct (Cs c' Hc') as [->| ->].
      * exists fb, A. cbn [c_cur c_bufs c b_bins b_bin]. split; auto. split; auto. split; [exact ET|]. change (c_ds c (erased s1)) with (e_data e). rewrite W3.
        split; [rewrite map_app, <- app_assoc; apply starts_app|left; apply Hco; auto].
      * specialize (Mc _ Hc'). unfold mid in *. cbn [c_cur c_bufs c_ds c_tab c_map c_par b_snaps b_snap erased s_snap data_of e_data] in *. rewrite D2. exact Mc.
  - assert (E' : post_n_write_u truthy w k b s pend true r p = (b', acts, pend', None)) by (destruct w; [exact E|exact E|discriminate]).
    destruct (post_same truthy w k b s s0 pend true r p b' acts pend' E' SD) as (acts0 & E0 & SD').
    destruct (final_inv truthy (fun _ => 0) k seg0 ok T TS Inv m ms Htab Hpost Hpar Hf Hok ok_app Con Q H b s0 r p b' acts0 Hk HC Hr E0) as (F1 & F2 & _).
    exists (apply_acts s0 acts0). split; auto. split; auto. intros _. split; auto. intros i -> Ti.
    clear - E' E0 Ti. unfold post_n_write_u in E'. unfold post_n_write in E0. destruct (results k b true) as [[[main snap] pb]|]; [|discriminate]. cbn [bind] in E0. cbv zeta in *. rewrite Ti in *.
    destruct main as [f|].
    + destruct (allowed w 0); [|discriminate]. destruct (store_write (k_write k) (s_main s) f _) as [e|] eqn:W; [|discriminate]. apply store_write_inv in W as [_ W].
      destruct (store_write (k_write k) (s_main s0) f _) as [e0|] eqn:W0; [|discriminate]. apply store_write_inv in W0 as [_ W0]. cbn [bind] in E0.
      destruct (k_type k).
      * injection E' as <- <- <-. injection E0 as <-. cbn. split; auto. eexists; split; eauto.
      * injection E' as <- <- <-. injection E0 as <-. cbn. split; auto. eexists; split; eauto.
      * destruct snap as [sn|]; [|discriminate]. destruct (allowed w 1); [|discriminate]. destruct (store_write (k_write_snap k) (s_snap s) sn None); [|discriminate].
        destruct (store_write (k_write_snap k) (s_snap s0) sn None); [|discriminate]. injection E' as <- <- <-. injection E0 as <-. cbn. split; auto. eexists; split; eauto.
    + destruct (allowed w 0); [|discriminate]. injection E' as <- <- <-. cbn [bind] in E0. injection E0 as <-. cbn. split; auto. eexists; split; eauto.
Qed.
End Key.

(** ** Calls *)
Section Lists.
Lemma nth_choice : forall {A B} (l : list A) (R : nat -> A -> B -> Prop), (forall j x, nth_error l j = Some x -> exists y, R j x y) ->
  exists l', length l' = length l /\ forall j x, nth_error l j = Some x -> exists y, nth_error l' j = Some y /\ R j x y.
Proof.
  induction l as [|a l IH]; intros R H.
  - exists []. split; auto. intros [|j] x Q; discriminate.
  - destruct (H 0%nat a eq_refl) as [y Hy]. destruct (IH (fun j => R (S j)) (fun j x Q => H (S j) x Q)) as (l' & Hl & Hn). exists (y :: l'). split; [simpl; auto|].
    intros [|j] x Q; [injection Q as <-; exists y; auto|]. apply (Hn j x Q).
Qed.
Lemma nth_Forall2 : forall {A B} (R : A -> B -> Prop) l l', length l' = length l -> (forall j x, nth_error l j = Some x -> exists y, nth_error l' j = Some y /\ R x y) -> Forall2 R l l'.
Proof.
  induction l as [|a l IH]; intros [|b l'] Hl H; try discriminate; constructor.
  - destruct (H 0%nat a eq_refl) as (y & Q & Hy). injection Q as ->. auto.
  - apply IH; auto. intros j x Q. apply (H (S j) x Q).
Qed.
Lemma Forall2_nth : forall {A B} (R : A -> B -> Prop) l l' j x, Forall2 R l l' -> nth_error l j = Some x -> exists y, nth_error l' j = Some y /\ R x y.
Proof.
  intros A B R l l' j x H. revert j x. induction H as [|a b l l' Hr H IH]; intros [|j] x Q; try discriminate.
  - injection Q as <-. exists b. auto.
  - apply (IH j x Q).
Qed.
End Lists.
Lemma run_jobs_u_each : forall {D P SB PB} (job : fault -> kconf D SB PB -> kbuf SB PB -> kstore P SB PB -> option Z -> job_end) ws ks i l ex, run_jobs_u job ws i ks = (l, ex) ->
  length l = length ks /\ forall j k b s pend, nth_error ks j = Some (k, b, s, pend) -> exists b' acts pend' ex', job (ws (i + j)%nat) k b s pend = (b', acts, pend', ex') /\
    nth_error l j = Some (k, b', apply_acts s acts, pend') /\ (ex = None -> ex' = None).
Proof.
  intros D P SB PB job ws. induction ks as [|[[[k b] s] pend] ks IH]; intros i l ex H; cbn [run_jobs_u] in H.
  - injection H as <- <-. split; auto. intros [|j] k b s pend Q; discriminate.
  - destruct (job (ws i) k b s pend) as [[[b1 a1] p1] e1] eqn:Ej. destruct (run_jobs_u job ws (S i) ks) as [l' ex'] eqn:Er. injection H as <- <-.
    destruct (IH (S i) l' ex' Er) as [Hl Hn]. split; [simpl; auto|]. intros [|j] k0 b0 s0 p0 Q.
    + injection Q as <- <- <- <-. exists b1, a1, p1, e1. rewrite Nat.add_0_r. split; auto. split; auto. destruct e1; [discriminate|auto].
    + destruct (Hn j k0 b0 s0 p0 Q) as (b' & a & p' & e' & A & B & C). exists b', a, p', e'. rewrite Nat.add_succ_r. split; auto. split; auto. destruct e1; [discriminate|auto].
Qed.

Section Run.
Context {D P SB PB X : Type}.
Variable idx : D -> Z.
Variable truthy : Z -> bool.
Variable usage : frame -> Z.
Notation stream := (stream D P SB PB).
Notation kconf := (kconf D SB PB).
Notation kbuf := (kbuf SB PB).
Notation kstore := (kstore P SB PB).
Notation ustream := (@ustream D P SB PB).
Variables (fs : @filters D) (gs : list (nat * (D -> bool))).
Hypothesis Hfs : filters_are fs gs.
Variable pre : option (@pre_fun D P).
Hypothesis Hpre : harmless pre.
Variables (pre0 : P) (seg0 : SB) (post0 : PB).
Variable conf : X -> kconf.
Variable keys : list X.
Variables (T TS : X -> list D -> list row) (Inv : X -> list D -> SB -> Prop) (m ms : X -> row -> row) (kp : X -> D -> bool).
Variable good : X -> list D -> Prop.
Hypothesis good_app : forall x a b, good x (a ++ b) -> good x a.
Notation ok_ := (ok idx good).
Hypothesis Htab : forall x, In x keys -> tabular (conf x) seg0 (ok_ x) (T x) (TS x) (Inv x).
Hypothesis Hpost : forall x, In x keys -> post_is (conf x) (m x) (ms x).
Hypothesis Hpar : forall x, In x keys -> writes_as_labels (conf x) (ok_ x) (T x) (TS x) (m x) (ms x).
Hypothesis Hkp : forall x, In x keys -> In (k_filter (conf x), kp x) gs.
Hypothesis Hco : forall x, In x keys -> k_type (conf x) = BOTH -> max_nirgs (k_write (conf x)) = None.
Variable Sf : list D.
Hypothesis Hsf : sorted (map idx Sf).
Notation rows_of_ := (rows_of idx kp).
Hypothesis Hgood : forall x, In x keys -> good x (rows_of_ x Sf).
Notation Q := (forall i, truthy i = true).
Notation kinv_ S k := (kinv (conf k) (T k) (TS k) (Inv k) (m k) (ms k) (rows_of_ k Sf) (fun r H => consistent idx S (Some r) (kp k) H) Q).
Notation mem_inv_ := (mem_inv idx truthy conf keys T TS Inv m ms kp Sf).

(** A stream with the same data and buffers, for which the invariant of BatchRunProofs.v holds. *)
Definition ghost (S : list D) (g0 : stream) : Prop :=
  forall i k b s, nth_error (g_keys g0) i = Some (k, b, s) -> s_main s <> None /\ exists x, k = conf x /\ nth_error keys i = Some x /\ kinv_ S x (rows_of_ x S) b s /\ consistent idx S (g_restart g0) (kp x) (rows_of_ x S).
Definition alive (S : list D) (g : ustream) : Prop := exists g0, related g g0 /\ ghost S g0.
Lemma ghost_mem : forall S g0, ghost S g0 -> mem_inv_ S g0.
Proof.
  intros S g0 H. split.
  - intros i k b s N. destruct (H i k b s N) as (_ & x & E & Hx & K & C). exists x. split; auto. split; auto. eauto.
  - right. intros s Hin. apply in_map_iff in Hin as ([[k b] s'] & <- & Hin). apply In_nth_error in Hin as [i Hin]. apply (H i k b s' Hin).
Qed.

(** Iteration over seed data. *)
Lemma loop_alive : forall S g seed g' ws n ex p, alive S g -> grows idx S (concat seed) -> grows idx (concat seed) Sf -> (forall c, In c seed -> c <> []) -> seed <> [] ->
  consume_u truthy usage g ws n (fst (iter_data idx (u_restart g) pre fs true true (u_pre g) seed)) = (g', Ok ex) ->
  ex = None /\ alive (concat seed) (mkU (u_restart g') p (u_keys g')).
Proof.
  intros S g seed g' ws n ex p (g0 & R & G) Es Ef Hne Hns E.
  pose proof R as (R1 & R2 & R3). destruct (consume_same truthy usage _ _ _ _ _ _ _ R E) as (g0' & E0 & R').
  assert (EA : agg idx truthy usage pre fs g0 seed true true false = Ok (mkStream (g_restart g0') (snd (iter_data idx (g_restart g0) pre fs true true (g_pre g0) seed)) (g_keys g0') (g_log g0'), ex)).
  { unfold agg. rewrite R1, R2 in E0. destruct seed as [|c seed]; [congruence|]. destruct (iter_data idx (g_restart g0) pre fs true true (g_pre g0) (c :: seed)) as [ys p1]. cbn [fst snd] in *. rewrite E0. reflexivity. }
  pose proof (mem_inv_grow idx truthy conf keys T TS Inv m ms kp Sf S _ g0 Es (ghost_mem S g0 G)) as M.
  destruct (agg_step_at idx truthy usage fs gs Hfs pre Hpre seg0 conf keys T TS Inv m ms kp good good_app Htab Hpost Hpar Hkp Sf Hsf Hgood
    (concat seed) g0 _ seed false ex M eq_refl Ef Hne EA) as (-> & _ & A & _ & B). split; auto.
  exists (mkStream (g_restart g0') p (g_keys g0') []). destruct R' as (R4 & R5 & R6). split; [split; auto|]. cbn [g_keys g_restart] in A, B. intros i k b s N. split; [|apply (A i k b s N)].
  apply B; [|apply in_map_iff; exists (k, b, s); split; auto; eapply nth_error_In; eauto].
  intros s0 Hin. apply in_map_iff in Hin as ([[k1 b1] s1] & <- & Hin). apply In_nth_error in Hin as [j Hin]. apply (G j k1 b1 s1 Hin).
Qed.

(** Final write. *)
Lemma end_alive : forall S g ws g' ex, alive S g -> grows idx S Sf -> final_write_u truthy g ws = (g', ex) ->
  u_restart g' = u_restart g /\ exists g0, related g' g0 /\ ghost S g0 /\
  (ex = None -> forall i k b s pend, nth_error (u_keys g') i = Some (k, b, s, pend) -> b_bin b = None /\
     forall r, u_restart g = Some r -> truthy r = true -> pend = None /\ exists b0 s0 md, nth_error (g_keys g0) i = Some (k, b0, s0) /\ md_of (s_main s) = Some md /\ md_of (s_main s0) = Some md).
Proof.
  intros S g ws g' ex (g0 & (R1 & R2 & R3) & G) [n' Ef] E. unfold final_write_u in E.
  match type of E with context[run_jobs_u ?J ws 0 _] => set (jb := J) in E end.
  destruct (run_jobs_u jb ws 0 (u_keys g)) as [l ex0] eqn:Ej. injection E as <- ->. cbn [u_restart u_keys u_pre]. split; auto.
  destruct (run_jobs_u_each _ _ _ _ _ _ Ej) as [Hl Hn].
  set (R := fun (j : nat) (x : @ukey D P SB PB) (y : kconf * kbuf * kstore) => rel x y /\ s_main (snd y) <> None /\
     (exists z, fst (fst y) = conf z /\ nth_error keys j = Some z /\ kinv_ S z (rows_of_ z S) (snd (fst y)) (snd y) /\ consistent idx S (g_restart g0) (kp z) (rows_of_ z S)) /\
     (ex = None -> b_bin (snd (fst y)) = None /\ forall r, u_restart g = Some r -> truthy r = true -> snd x = None /\ exists md, md_of (s_main (snd (fst x))) = Some md /\ md_of (s_main (snd y)) = Some md)).
  assert (Each : forall j x, nth_error l j = Some x -> exists y, R j x y).
  { intros j x Nx. assert (Lj : (j < length (u_keys g))%nat) by (rewrite <- Hl; apply nth_error_Some; congruence). apply nth_error_Some in Lj.
    destruct (nth_error (u_keys g) j) as [[[[k b] s] pend]|] eqn:Nk; [|congruence]. clear Lj.
    destruct (Hn j k b s pend Nk) as (b' & acts & pend' & ex' & J & Nl & Hex). rewrite Nx in Nl. injection Nl as ->. cbn [Nat.add] in J.
    destruct (Forall2_nth _ _ _ _ _ R3 Nk) as ([[k0 b0] s0] & N0 & Rl & SD). cbn [fst snd] in Rl, SD. injection Rl as <- <-.
    destruct (G j k b s0 N0) as (_ & z & -> & Hz & K & C). pose proof (nth_error_In _ _ Hz) as Hin.
    destruct (end_inv truthy (conf z) seg0 (ok_ z) (T z) (TS z) (Inv z) (m z) (ms z) (Htab z Hin) (Hpost z Hin) (Hpar z Hin) (Hco z Hin) (rows_of_ z Sf)
      (Hokf idx keys kp good Sf Hsf Hgood z Hin) (ok_app idx good good_app z) _ Q (rows_of_ z S) b s s0 (ws j) pend (u_restart g) (u_pre g) b' acts pend' ex' K SD) as (s1 & K1 & SD1 & F1).
    - intros i Ei. rewrite <- R1, Ei in C. exact C.
    - intro Hb. rewrite R1. eapply (restart_known idx truthy seg0 conf keys T TS Inv m ms kp good); eauto.
    - exact J.
    - set (s2 := match ex', u_restart g with None, Some r => if truthy r then s1 else erased s1 | _, _ => erased s1 end).
      assert (D2 : same_data (apply_acts s acts) s2 /\ kinv_ S z (rows_of_ z S) b' s2).
      { assert (A1 : same_data (apply_acts s acts) (erased s1)) by (destruct (erased_same s1), SD1; split; congruence).
        assert (A2 : kinv_ S z (rows_of_ z S) b' (erased s1)) by (eapply kinv_kept; [exact K1|repeat split|split; auto]).
        unfold s2. destruct ex'; auto. destruct (u_restart g) as [r|]; auto. destruct (truthy r); auto. }
      destruct D2 as [D2 K2]. exists (conf z, b', s2). split; [split; [reflexivity|exact D2]|]. cbn [snd fst]. split; [|split].
      + unfold s2. destruct ex'; [discriminate|]. destruct (u_restart g) as [r|] eqn:Er; [|discriminate]. destruct (truthy r) eqn:Tr; [|discriminate].
        destruct (F1 eq_refl) as [_ F2]. destruct (F2 r eq_refl Tr) as (_ & md & _ & M). intro Q0. rewrite Q0 in M. discriminate.
      + exists z. repeat (split; auto).
      + intro Ex. destruct (F1 (Hex Ex)) as [B1 F2]. split; auto. intros r Er Tr. destruct (F2 r Er Tr) as (Ep & md & M1 & M2). split; auto. exists md. split; auto.
        unfold s2. rewrite (Hex Ex), Er, Tr. exact M2. }
  destruct (nth_choice l R Each) as (l0 & Hl0 & Hc). exists (mkStream (u_restart g) (u_pre g) l0 []). split; [|split].
  - split; auto. split; auto. apply nth_Forall2; auto. intros j x N. destruct (Hc j x N) as (y & N' & Hy & _). eauto.
  - intros i k b s N. cbn [g_keys g_restart] in *. assert (Li : (i < length l)%nat) by (rewrite <- Hl0; apply nth_error_Some; congruence). apply nth_error_Some in Li.
    destruct (nth_error l i) as [x|] eqn:Nx; [|congruence]. destruct (Hc i x Nx) as (y & Ny & _ & Hm & (z & Ez & Hz & Kz & Cz) & _). rewrite N in Ny. injection Ny as <-.
    split; auto. exists z. rewrite R1. auto.
  - intros Ex i k b s pend N. cbn [g_keys]. destruct (Hc i _ N) as ([[k0 b0] s0] & Ny & [Rl _] & _ & _ & F). cbn [fst snd] in *. injection Rl as <- <-. destruct (F Ex) as [B F2]. split; auto.
    intros r Er Tr. destruct (F2 r Er Tr) as (Ep & md & M1 & M2). split; auto. eauto 7.
Qed.

(** Calls, the last of which writes all results. *)
Lemma seed_starts : forall cs before, calls_grow idx before cs -> sorted (map idx before) -> grows idx before (seed_of_calls before cs).
Proof.
  induction cs as [|c cs IH]; intros before H Hs; cbn [calls_grow seed_of_calls] in *; [apply grows_refl; auto|].
  destruct (u_seed c) as [|ch l]; [apply IH; auto|]. destruct H as (E1 & Hs1 & _ & H). eapply grows_trans; [|apply IH; auto]. split; auto.
Qed.
(** Once all results are written. *)
Definition final (S : list D) (g : ustream) : Prop :=
  exists g0, related g g0 /\ ghost S g0 /\ forall i k b s pend, nth_error (u_keys g) i = Some (k, b, s, pend) -> b_bin b = None /\
     forall r, u_restart g = Some r -> truthy r = true -> pend = None /\ exists b0 s0 md, nth_error (g_keys g0) i = Some (k, b0, s0) /\ md_of (s_main s) = Some md /\ md_of (s_main s0) = Some md.
Lemma call_alive : forall S c g g' o, alive S g -> (u_seed c <> [] -> grows idx S (concat (u_seed c)) /\ (forall x, In x (u_seed c) -> x <> [])) ->
  let S' := match u_seed c with [] => S | seed => concat seed end in grows idx S' Sf ->
  agg_u idx truthy usage pre fs g true true c = (g', o) -> written_or_not o -> alive S' g' /\ (o = Returned -> u_final c = true -> final S' g').
Proof.
  intros S c g g' o Ha Hs S' Hf E Ho. unfold agg_u in E.
  match type of E with (let '(_, _) := ?A in _) = _ => destruct A as [g1 r] eqn:E1 end.
  destruct r as [ex|e]; [|injection E as <- <-; destruct Ho].
  assert (A1 : ex = None /\ alive S' g1).
  { subst S'. destruct (u_seed c) as [|ch l].
    - injection E1 as <- <-. auto.
    - destruct (Hs ltac:(discriminate)) as [En Hne].
      destruct (iter_data idx (u_restart g) pre fs true true (u_pre g) (ch :: l)) as [ys p] eqn:Ei. destruct (consume_u truthy usage g (u_loop c) 0 ys) as [g2 r2] eqn:Ec. injection E1 as <- ->.
      replace ys with (fst (iter_data idx (u_restart g) pre fs true true (u_pre g) (ch :: l))) in Ec by (rewrite Ei; auto).
      eapply loop_alive; eauto; try discriminate. }
  destruct A1 as [-> A1]. destruct (u_final c).
  - destruct (final_write_u truthy g1 (u_end c)) as [g2 r2] eqn:E2. destruct (end_alive S' g1 (u_end c) g2 r2 A1 Hf E2) as (Er & g0 & R0 & G0 & F0).
    destruct r2 as [e|]; injection E as <- <-; (split; [exists g0; auto|]).
    + discriminate.
    + intros _ _. exists g0. split; auto. split; auto. intros i k b s pend N. destruct (F0 eq_refl i k b s pend N) as [B F]. split; auto. intros r Hr. rewrite Er in Hr. apply F; auto.
  - injection E as <- <-. split; auto. discriminate.
Qed.
Lemma calls_alive : forall cs S g g' os, alive S g -> sorted (map idx S) -> calls_grow idx S cs -> grows idx (seed_of_calls S cs) Sf ->
  calls_u idx truthy usage pre fs g cs = (g', os) -> Forall written_or_not os ->
  alive (seed_of_calls S cs) g' /\ (forall c o, last (map Some cs) None = Some c -> last (map Some os) None = Some o -> o = Returned -> u_final c = true -> final (seed_of_calls S cs) g').
Proof.
  induction cs as [|c cs IH]; intros S g g' os Ha HS Hg Ef E Ho; cbn [calls_u calls_grow seed_of_calls] in *.
  - injection E as <- <-. split; auto. discriminate.
  - destruct (agg_u idx truthy usage pre fs g true true c) as [g1 o] eqn:E1. destruct (calls_u idx truthy usage pre fs g1 cs) as [g2 os'] eqn:E2. injection E as <- <-. inversion Ho as [|x l Ho1 Ho2]; subst.
    set (S' := match u_seed c with [] => S | seed => concat seed end) in *.
    assert (Hg' : calls_grow idx S' cs) by (unfold S'; destruct (u_seed c); [auto|apply Hg]).
    assert (Hs' : sorted (map idx S')) by (unfold S'; destruct (u_seed c); [auto|apply Hg]).
    pose proof (seed_starts cs S' Hg' Hs') as En2.
    destruct (call_alive S c g g1 o Ha) as [A1 F1]; auto.
    { intro Hne. destruct (u_seed c) as [|ch l]; [congruence|]. destruct Hg as (G1 & G3 & G2 & _). split; auto. split; auto. }
    { fold S'. eapply grows_trans; eauto. }
    fold S' in A1, F1. destruct (IH S' g1 g2 os' A1 Hs' Hg' Ef E2 Ho2) as [A2 F2]. split; auto.
    destruct cs as [|c' cs].
    + cbn [calls_u] in E2. injection E2 as <- <-. cbn [map last]. intros c0 o0 Q1 Q2. injection Q1 as <-. injection Q2 as <-. exact F1.
    + cbn [calls_u] in E2. destruct (agg_u idx truthy usage pre fs g1 true true c') as [g3 o3]. destruct (calls_u idx truthy usage pre fs g3 cs) as [g4 os4]. injection E2 as <- <-.
      intros c0 o0 Q1 Q2. apply F2; [exact Q1|exact Q2].
Qed.
(** A new instance, on an empty store. *)
Lemma start_alive : alive [] (of_stream (new_stream pre0 seg0 post0 (map conf keys))).
Proof.
  destruct (new_mem_inv idx truthy pre0 seg0 post0 conf keys T TS Inv m ms kp good Htab Hpost Hpar Sf) as [[M _] _].
  set (g := new_stream pre0 seg0 post0 (map conf keys)) in *.
  exists (mkStream None pre0 (map (fun x => let '(k, b, s) := x in (k, b, erased s)) (g_keys g)) []). split.
  - split; auto. split; auto. unfold of_stream, g, new_stream. cbn [u_keys g_keys]. clear. rewrite !map_map. induction keys as [|k l IH]; constructor; auto. split; auto. split; auto.
  - intros i k b s N. cbn [g_keys g_restart] in *. rewrite nth_error_map in N. destruct (nth_error (g_keys g) i) as [[[k1 b1] s1]|] eqn:Ng; [|discriminate]. injection N as -> -> <-. split; [discriminate|].
    destruct (M i k b s1 Ng) as (x & Ex & Hx & H & C & K). exists x. split; auto. split; auto.
    assert (EH : H = []). { cbn [g_restart g new_stream] in C. exact C. }
    subst H. change (rows_of_ x []) with (@nil D). split; [|exact C]. eapply kinv_kept; [exact K|repeat split|split; auto].
Qed.
Lemma to_stream_nth : forall (g : ustream) i k b s, nth_error (g_keys (to_stream g)) i = Some (k, b, s) -> exists pend, nth_error (u_keys g) i = Some (k, b, s, pend).
Proof.
  intros g i k b s N. unfold to_stream in N. cbn [g_keys] in N. clear -N. revert i N. induction (u_keys g) as [|[[[k1 b1] s1] p1] l IH]; intros [|i] N; cbn [map nth_error] in *; try discriminate; [injection N as <- <- <-; eauto|apply IH; auto].
Qed.
(** Stored results. *)
Lemma final_holds : forall g, final Sf g -> forall i k b s, nth_error (g_keys (to_stream g)) i = Some (k, b, s) -> holds idx conf keys T TS m ms kp Sf i k s.
Proof.
  intros g (g0 & (R1 & R2 & R3) & G & F) i k b s N. destruct (to_stream_nth g i k b s N) as [pend Nu].
  destruct (F i k b s pend Nu) as [B _]. destruct (Forall2_nth _ _ _ _ _ R3 Nu) as ([[k0 b0] s0] & N0 & Rl & SD). cbn [fst snd] in Rl, SD. injection Rl as <- <-.
  destruct (G i k b s0 N0) as (_ & x & Ex & Hx & K & _). exists x. split; auto. split; auto. intros c Hc.
  rewrite (same_data_chan (conf x) (T x) (TS x) (m x) (ms x) s s0 c SD Hc). eapply kinv_final; eauto.
Qed.
(** The instance, from what is recorded. *)
Lemma kinv_data : forall S x H b (s s0 : kstore), kinv_ S x H b s0 -> same_data s s0 -> md_of (s_main s) = md_of (s_main s0) -> kinv_ S x H b s.
Proof.
  intros S x H b s s0 (St & Sd & (Mi & Ms & Mc) & Re) SD Em.
  assert (Ed : forall c, In c (chans (conf x) (T x) (TS x) (m x) (ms x)) -> c_ds c s = c_ds c s0) by (intros c Hc; apply (same_data_chan (conf x) (T x) (TS x) (m x) (ms x)); auto).
  split; auto. split; [intros c Hc; unfold stored; rewrite Ed by auto; apply Sd; auto|]. split.
  - split; auto. split; auto. destruct (b_bin b); [destruct Mc as [Hn Mc]; split; auto|]; intros c Hc; [unfold mid|unfold idle, at_rest, tight]; rewrite Ed by auto; apply Mc; auto.
  - intros md E. rewrite Em in E. destruct (Re md E) as (Hrec & rest & A & B & C & D1 & D2 & F). exists Hrec, rest. repeat (split; auto). intros c Hc. unfold at_rest. rewrite Ed by auto. apply F; auto.
Qed.
Lemma final_mem : forall S g r, final S g -> u_restart g = Some r -> truthy r = true -> mem_inv_ S (to_stream g) /\ written_inv truthy (to_stream g).
Proof.
  intros S g r (g0 & (R1 & R2 & R3) & G & F) Er Tr.
  assert (Each : forall i k b s, nth_error (g_keys (to_stream g)) i = Some (k, b, s) -> b_bin b = None /\ md_of (s_main s) <> None /\ exists x, k = conf x /\ nth_error keys i = Some x /\
    kinv_ S x (rows_of_ x S) b s /\ consistent idx S (u_restart g) (kp x) (rows_of_ x S)).
  { intros i k b s N. destruct (to_stream_nth g i k b s N) as [pend Nu].
    destruct (F i k b s pend Nu) as [B F1]. destruct (F1 r Er Tr) as (_ & b0 & s0 & md & N0 & M1 & M2).
    destruct (Forall2_nth _ _ _ _ _ R3 Nu) as ([[k2 b2] s2] & N2 & Rl & SD). cbn [fst snd] in Rl, SD. injection Rl as <- <-. rewrite N0 in N2. injection N2 as -> <-.
    destruct (G i k b s0 N0) as (_ & x & Ex & Hx & K & C). split; auto. split; [congruence|]. exists x. rewrite R1. split; auto. split; auto. split; auto. eapply kinv_data; eauto. congruence. }
  split; [split|].
  - intros i k b s N. destruct (Each i k b s N) as (_ & _ & x & Ex & Hx & K & C). exists x. split; auto. split; auto. eauto.
  - right. intros s Hin. apply in_map_iff in Hin as ([[k b] s'] & <- & Hin). apply In_nth_error in Hin as [i Hin]. destruct (Each i k b s' Hin) as (_ & M & _). cbn [snd]. intro Q0. rewrite Q0 in M. apply M. reflexivity.
  - intros k b s Hin. apply In_nth_error in Hin as [i Hin]. destruct (Each i k b s Hin) as (B & M & _). auto.
Qed.
End Run.
