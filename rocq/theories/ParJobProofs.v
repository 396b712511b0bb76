(** Jobs of keys, alone and in parallel: proofs. *)
Require Import List Arith ZArith Bool Lia.
Require Import Verif.Common Verif.WrModel Verif.StreamModel Verif.ParModel Verif.ParSpec Verif.ParProofs.
Import ListNotations.

Section Jobs.
Context {D P SB PB : Type}.
Variable truthy : Z -> bool.
Variable usage : frame -> Z.
Notation kconf := (kconf D SB PB).
Notation kbuf := (kbuf SB PB).
Notation kstore := (kstore P SB PB).
Notation entry := (entry P SB PB).
Notation aggmd := (aggmd P SB PB).
Notation val := (@val P SB PB).
Notation prog := (prog loc val).
Notation memory := (@memory loc val).
Notation solo := (@solo loc val loc_eqb).
Notation put := (@put loc val loc_eqb).

Lemma loc_eqb_spec : forall l l', loc_eqb l l' = true <-> l = l'.
Proof using Type. intros [] []; cbn; split; intro H; try discriminate; try (apply Nat.eqb_eq in H; subst; auto); injection H as ->; apply Nat.eqb_refl. Qed.

(** ** Reads and writes of jobs *)
Lemma within_get_buf : forall (F : loc -> Prop) i (k : kbuf -> prog), F (LBuf i) -> (forall b, within F (k b)) -> within F (get_buf i k).
Proof using Type. intros F i k H Hk. cbn. split; auto. intros []; cbn; auto. Qed.
Lemma within_get_data : forall (F : loc -> Prop) i (k : option entry -> prog), F (LData i) -> (forall b, within F (k b)) -> within F (get_data i k).
Proof using Type. intros F i k H Hk. cbn. split; auto. intros []; cbn; auto. Qed.
Lemma within_get_meta : forall (F : loc -> Prop) l (k : option aggmd -> prog), F l -> (forall b, within F (k b)) -> within F (get_meta l k).
Proof using Type. intros F i k H Hk. cbn. split; auto. intros []; cbn; auto. Qed.
Lemma within_metadata : forall (F : loc -> Prop) a dict k, F (LData a) -> F (LMeta a) -> (forall v, dict = Some v -> F (LDict v)) -> within F k -> within F (write_metadata_job (P:=P) (SB:=SB) (PB:=PB) a dict k).
Proof using Type.
  intros F a dict k H1 H2 H3 Hk. unfold write_metadata_job. apply within_get_meta; auto.
  intros [md|]; destruct dict as [v|]; cbn [within]; auto.
  - split; auto. split; auto. apply within_get_meta; auto. intros [x|]; auto. apply within_get_data; auto. intro e. cbn. auto.
  - split; auto. apply within_get_data; auto. intro e. cbn. auto.
  - apply within_get_meta; auto. intros [x|]; auto. apply within_get_data; auto. intro e. cbn. auto.
Qed.
Lemma within_write : forall (F : loc -> Prop) w a dict data k, F (LData a) -> F (LMeta a) -> (forall v, dict = Some v -> F (LDict v)) -> within F k -> within F (write_job (P:=P) (SB:=SB) (PB:=PB) w a dict data k).
Proof using Type.
  intros F w a dict data k H1 H2 H3 Hk. unfold write_job. apply within_get_data; auto. intro e. destruct (write w false (data_of e) data); cbn [within]; auto. split; auto. apply within_metadata; auto.
Qed.
Lemma within_post : forall (k : kconf) w al i (p : P) next, within (uses w) next -> within (uses w) (post_n_write_job truthy k w al i p next).
Proof using Type.
  intros k w al i p next Hn. unfold post_n_write_job. apply within_get_buf; [cbn; auto|]. intro b.
  destruct (results k b al) as [[[main snap] pb]|e]; cbn [within]; auto. split; [cbn; auto|].
  set (last := match b_bin b with Some _ => _ | None => _ end). assert (Hl : within (uses w) last) by (subst last; destruct (b_bin b); cbn; auto). clearbody last.
  set (pending := match i with Some _ => _ | None => _ end). clearbody pending.
  assert (Hd : forall v, p_dict w = Some v -> uses w (LDict v)) by (cbn; auto).
  match goal with |- within _ (match pending with Some md => Put _ _ ?w0 | None => _ end) => assert (Hw : within (uses w) w0); [|destruct pending; cbn [within]; [split; [cbn; auto|]|]; exact Hw] end.
  destruct main as [m|].
  - apply within_write; cbn [uses]; auto. destruct (k_type k); auto. destruct snap; cbn [within]; auto. apply within_write; cbn [uses]; auto.
  - destruct pending as [md|]; auto. apply within_get_data; [cbn; auto|]. intros [e|].
    + apply within_metadata; cbn [uses]; auto. discriminate.
    + cbn [within]. split; [cbn; auto|]. apply within_metadata; cbn [uses]; auto. discriminate.
Qed.
Lemma within_segagg : forall (k : kconf) w chunk, within (uses w) (segagg_job (P:=P) k w chunk).
Proof using Type.
  intros k w chunk. unfold segagg_job. apply within_get_buf; [cbn; auto|]. intro b. destruct (k_agg k chunk (b_seg b)) as [[r seg']|e]; cbn [within]; auto.
  destruct r as [[f sn]|]; cbn; auto.
Qed.
Lemma within_iter : forall (k : kconf) w (p : P) chunk, within (uses w) (agg_iter_job truthy usage k w p chunk).
Proof using Type.
  intros k w p chunk. unfold agg_iter_job. apply within_get_buf; [cbn; auto|]. intro b. destruct (b_bin b) as [bin|]; [|apply within_segagg].
  destruct (rows bin); [apply within_segagg|]. cbn [within]. split; [cbn; auto|].
  destruct (_ <? _)%Z; [apply within_post|]; apply within_segagg.
Qed.

(** ** A job alone *)
Notation psame := (put_same loc_eqb loc_eqb_spec).
Notation pother := (put_other loc_eqb loc_eqb_spec).

Definition same_but (l : list loc) (m m' : memory) : Prop := forall x, ~ In x l -> m' x = m x.

Lemma solo_metadata : forall (m : memory) a k (pd : option aggmd) (e : option entry), m (LMeta a) = VMeta pd -> m (LData a) = VData e ->
  exists m', solo m (write_metadata_job a None k) = solo m' k /\ same_but [LData a; LMeta a] m m' /\ m' (LMeta a) = VMeta None /\
    m' (LData a) = VData (match pd with Some md => Some (mkEntry (data_of e) (Some md)) | None => e end).
Proof using Type.
  intros m a k pd e H1 H2. unfold write_metadata_job, get_meta. cbn [ParModel.solo]. rewrite H1. destruct pd as [md|].
  - cbn [ParModel.solo get_data]. unfold get_data. cbn [ParModel.solo]. rewrite pother by discriminate. rewrite H2. cbn [ParModel.solo].
    eexists. split; [reflexivity|]. split; [|split].
    + intros x Hx. rewrite !pother; auto; intros ->; apply Hx; cbn; auto.
    + rewrite pother by discriminate. apply psame.
    + apply psame.
  - exists m. split; auto. split; [intros x _; auto|]. auto.
Qed.
Lemma solo_write : forall (m : memory) w a k (pd : option aggmd) (e : option entry) data, m (LMeta a) = VMeta pd -> m (LData a) = VData e ->
  match store_write w e data pd with
  | Err x => solo m (write_job w a None data k) = (m, Some x)
  | Ok e' => exists m', solo m (write_job w a None data k) = solo m' k /\ same_but [LData a; LMeta a] m m' /\ m' (LMeta a) = VMeta None /\ m' (LData a) = VData (Some e')
  end.
Proof using Type.
  intros m w a k pd e data H1 H2. unfold store_write, write_job, get_data. cbn [ParModel.solo]. rewrite H2. destruct (write w false (data_of e) data) as [ds|x]; cbn [bind]; [|reflexivity].
  cbn [ParModel.solo]. set (m1 := put m _ _).
  assert (E1 : m1 (LMeta a) = VMeta pd) by (subst m1; rewrite pother by discriminate; auto).
  assert (E2 : m1 (LData a) = VData (Some (mkEntry ds (match data_of e with [] => None | _ => md_of e end)))) by apply psame.
  destruct (solo_metadata m1 a k pd _ E1 E2) as (m' & S1 & S2 & S3 & S4). exists m'. split; auto. split.
  { intros x Hx. rewrite (S2 x Hx). subst m1. apply pother. intros ->. apply Hx. cbn. auto. }
  split; auto. rewrite S4. destruct pd; auto.
Qed.


Lemma in_memory_same : forall (m m' : memory) w b s, in_memory m w b s -> agree (uses w) m' m -> in_memory m' w b s.
Proof using Type.
  intros m m' w b s (H1 & H2 & H3 & H4 & H5) A. unfold in_memory. rewrite !A; cbn; auto.
Qed.

(** Writing, then what follows. *)
Lemma solo_post : forall (k : kconf) w al i (p : P) next (m : memory) b s, p_dict w = None -> p_main w <> p_snap w -> in_memory m w b s ->
  match post_n_write truthy k b s al i p with
  | Err x => snd (solo m (post_n_write_job truthy k w al i p next)) = Some x
  | Ok (b', acts) => exists m', solo m (post_n_write_job truthy k w al i p next) = solo m' next /\ in_memory m' w b' (apply_acts s acts)
  end.
Proof using Type.
  clear usage. intros k w al i p next m b s Hd Hne (M1 & M2 & M3 & M4 & M5). unfold post_n_write, post_n_write_job, get_buf. cbn [ParModel.solo]. rewrite M1.
  destruct (results k b al) as [[[main snap] pb]|e]; cbn [bind]; [|reflexivity]. cbv zeta. cbn [ParModel.solo].
  set (b' := mkBuf _ _ _ _ _ _ pb). set (last := match b_bin b with Some _ => Put _ _ _ | None => next end).
  set (pending := match i with Some _ => _ | None => _ end). clearbody pending. rewrite Hd.
  set (bf := match b_bin b with Some _ => reset_buffers b' | None => b' end).
  assert (Hlast : forall m1 s1, in_memory m1 w b' s1 -> exists m', solo m1 last = solo m' next /\ in_memory m' w bf s1).
  { intros m1 s1 (N1 & N2 & N3 & N4 & N5). subst last bf. destruct (b_bin b); [|exists m1; split; auto; repeat split; auto]. cbn [ParModel.solo]. eexists. split; [reflexivity|]. unfold in_memory.
    rewrite psame, !pother by discriminate. auto. }
  clearbody last bf.
  set (m1 := put m (LBuf (p_buf w)) (VBuf b')).
  match goal with |- context [solo m1 (match pending with Some md => Put _ _ ?w0 | None => _ end)] => set (writing := w0) end.
  assert (Hm : exists m2, solo m1 (match pending with Some md => Put (LMeta (p_main w)) (VMeta (Some md)) writing | None => writing end) = solo m2 writing /\
            m2 (LBuf (p_buf w)) = VBuf b' /\ m2 (LData (p_main w)) = VData (s_main s) /\ m2 (LData (p_snap w)) = VData (s_snap s) /\ m2 (LMeta (p_main w)) = VMeta pending /\ m2 (LMeta (p_snap w)) = VMeta None).
  { subst m1. destruct pending as [md|]; cbn [ParModel.solo]; eexists; (split; [reflexivity|]).
    - repeat split; repeat (rewrite psame || rewrite pother by (discriminate || (intro Q; injection Q as Q; congruence))); auto.
    - rewrite psame, !pother by discriminate. auto. }
  destruct Hm as (m2 & -> & N1 & N2 & N3 & N4 & N5). clear m1 M1 M2 M3 M4 M5. subst writing. destruct main as [mm|].
  - pose proof (solo_write m2 (k_write k) (p_main w) (match k_type k with BOTH => match snap with Some sn => write_job (k_write_snap k) (p_snap w) None sn last | None => Fail TypeError end | _ => last end) pending _ mm N4 N2) as H.
    destruct (store_write (k_write k) (s_main s) mm pending) as [e|x]; cbn [bind]; [|rewrite H; reflexivity].
    destruct H as (m3 & -> & Q1 & Q2 & Q3).
    assert (R1 : m3 (LBuf (p_buf w)) = VBuf b') by (rewrite Q1; auto; cbn; intuition discriminate).
    assert (R2 : m3 (LData (p_snap w)) = VData (s_snap s)) by (rewrite Q1; auto; cbn; intros [Q|[Q|[]]]; [injection Q as Q; auto|discriminate]).
    assert (R3 : m3 (LMeta (p_snap w)) = VMeta None) by (rewrite Q1; auto; cbn; intros [Q|[Q|[]]]; [discriminate|injection Q as Q; auto]).
    assert (Hone : in_memory m3 w b' (apply_acts s [(false, e)])) by (repeat split; auto).
    destruct (k_type k); cbn [bind]; try (apply Hlast; exact Hone).
    destruct snap as [sn|]; cbn [bind]; [|reflexivity].
    pose proof (solo_write m3 (k_write_snap k) (p_snap w) last None _ sn R3 R2) as H.
    destruct (store_write (k_write_snap k) (s_snap s) sn None) as [e'|x]; cbn [bind]; [|rewrite H; reflexivity].
    destruct H as (m4 & -> & T1 & T2 & T3). apply Hlast. unfold in_memory. cbn.
    rewrite !(T1 (LBuf _)), (T1 (LData (p_main w))), (T1 (LMeta (p_main w))); cbn; auto; try (intros [Q|[Q|[]]]; try discriminate; injection Q as Q; auto; fail).
  - destruct pending as [md|].
    + cbn [bind]. unfold get_data. cbn [ParModel.solo]. rewrite N2. destruct (s_main s) as [e|] eqn:Es.
      * destruct (solo_metadata m2 (p_main w) last _ _ N4 N2) as (m3 & -> & Q1 & Q2 & Q3). apply Hlast. unfold in_memory, store_md. cbn. rewrite !(Q1 (LBuf _)), (Q1 (LData (p_snap w))), (Q1 (LMeta (p_snap w))); cbn; try (intros [Q|[Q|[]]]; try discriminate; injection Q as Q; auto; fail). rewrite ?Es. repeat split; auto.
      * cbn [ParModel.solo]. set (m3 := put m2 _ _). 
        assert (U1 : m3 (LMeta (p_main w)) = VMeta (Some md)) by (subst m3; rewrite pother by discriminate; auto).
        destruct (solo_metadata m3 (p_main w) last _ _ U1 (psame _ _ _)) as (m4 & -> & Q1 & Q2 & Q3). apply Hlast.
        unfold in_memory, store_md. cbn. rewrite !(Q1 (LBuf _)), (Q1 (LData (p_snap w))), (Q1 (LMeta (p_snap w))); cbn; try (intros [Q|[Q|[]]]; try discriminate; injection Q as Q; auto; fail).
        subst m3. rewrite !pother; try discriminate; try (intro Q; injection Q as Q; auto). rewrite ?Es. repeat split; auto.
    + cbn [bind]. apply Hlast. repeat split; auto.
Qed.
Lemma solo_segagg : forall (k : kconf) w chunk (m : memory) b s, in_memory m w b s ->
  match k_agg k chunk (b_seg b) with
  | Err x => snd (solo m (segagg_job k w chunk)) = Some x
  | Ok (r, seg') => exists m', solo m (segagg_job k w chunk) = (m', None) /\
      in_memory m' w (let '(bin, snap) := match r with Some (f, sn) => (Some f, sn) | None => (None, None) end in mkBuf (b_size b) bin snap (b_bins b) (b_snaps b) seg' (b_post b)) s
  end.
Proof using Type.
  intros k w chunk m b s (M1 & M2 & M3 & M4 & M5). unfold segagg_job, get_buf. cbn [ParModel.solo]. rewrite M1.
  destruct (k_agg k chunk (b_seg b)) as [[r seg']|x]; [|reflexivity].
  destruct r as [[f sn]|]; cbn [ParModel.solo]; (eexists; split; [reflexivity|]; unfold in_memory; rewrite psame, !pother by discriminate; auto).
Qed.
Lemma solo_iter : forall (k : kconf) w (p : P) chunk (m : memory) b s, p_dict w = None -> p_main w <> p_snap w -> in_memory m w b s ->
  match agg_iter truthy usage k b s p chunk with
  | Err x => snd (solo m (agg_iter_job truthy usage k w p chunk)) = Some x
  | Ok (b', acts) => exists m', solo m (agg_iter_job truthy usage k w p chunk) = (m', None) /\ in_memory m' w b' (apply_acts s acts)
  end.
Proof using Type.
  intros k w p chunk m b s Hd Hne Hm.
  assert (Hz : forall m1 b1 acts, in_memory m1 w b1 (apply_acts s acts) ->
     match (let* '(r, seg') := k_agg k chunk (b_seg b1) in let '(bin, snap) := match r with Some (f, sn) => (Some f, sn) | None => (None, None) end in Ok (mkBuf (b_size b1) bin snap (b_bins b1) (b_snaps b1) seg' (b_post b1), acts)) with
     | Err x => snd (solo m1 (segagg_job k w chunk)) = Some x
     | Ok (b', acts) => exists m', solo m1 (segagg_job k w chunk) = (m', None) /\ in_memory m' w b' (apply_acts s acts)
     end).
  { intros m1 b1 acts H. pose proof (solo_segagg k w chunk m1 b1 _ H) as Hs. destruct (k_agg k chunk (b_seg b1)) as [[r seg']|x]; cbn [bind]; auto. destruct r as [[f sn]|]; auto. }
  pose proof Hm as (M1 & M2 & M3 & M4 & M5). unfold agg_iter, buffer_results, agg_iter_job. unfold get_buf. cbn [ParModel.solo]. rewrite M1.
  destruct (b_bin b) as [bin|] eqn:Eb; [|cbn [bind]; apply (Hz m b []); exact Hm].
  destruct (rows bin) eqn:Er; [cbn [bind]; apply (Hz m b []); exact Hm|]. cbv zeta. rewrite <- Eb. cbn [ParModel.solo].
  set (b' := match b_snap b with None => _ | Some _ => _ end). set (m1 := put m _ _).
  assert (Hm1 : in_memory m1 w b' s) by (unfold in_memory; subst m1; rewrite psame, !pother by discriminate; auto).
  destruct (_ <? _)%Z.
  - pose proof (solo_post k w false None p (segagg_job k w chunk) m1 b' s Hd Hne Hm1) as Hp. destruct (post_n_write truthy k b' s false None p) as [[b1 acts]|x]; cbn [bind]; auto.
    destruct Hp as (m2 & -> & Hm2). apply (Hz m2 b1 acts). exact Hm2.
  - cbn [bind]. apply (Hz m1 b' []). exact Hm1.
Qed.
End Jobs.

(** ** Jobs of all keys *)
Lemma nth_error_same : forall A (l l' : list A), (forall i, nth_error l i = nth_error l' i) -> l = l'.
Proof.
  induction l as [|x l IH]; intros [|y l'] H; auto; try (specialize (H 0%nat); discriminate).
  f_equal; [specialize (H 0%nat); cbn in H; congruence|]. apply IH. intro i. apply (H (S i)).
Qed.
Section All.
Context {D P SB PB : Type}.
Notation kconf := (kconf D SB PB).
Notation kbuf := (kbuf SB PB).
Notation kstore := (kstore P SB PB).
Notation val := (@val P SB PB).
Notation prog := (prog loc val).
Notation memory := (@memory loc val).
Notation solo := (@solo loc val loc_eqb).
Notation put := (@put loc val loc_eqb).

Definition jobs_of (mk : kconf -> place -> prog) (ks : list (kconf * place)) : list prog := map (fun x => mk (fst x) (snd x)) ks.
Definition foot (ws : list place) (i : nat) (l : loc) : Prop := match nth_error ws i with Some w => uses w l | None => False end.

Section Mk.
Variable mk : kconf -> place -> prog.
Hypothesis Hmk : forall k w, within (uses w) (mk k w).
Lemma jobs_within : forall ks i p, nth_error (jobs_of mk ks) i = Some p -> within (foot (map snd ks) i) p.
Proof using Hmk.
  intros ks i p H. unfold jobs_of in H. rewrite nth_error_map in H. destruct (nth_error ks i) as [[k w]|] eqn:E; try discriminate. cbn in H. injection H as <-.
  unfold foot. rewrite nth_error_map, E. cbn. apply Hmk.
Qed.
Lemma jobs_apart : forall ks, apart (map snd ks) -> forall i j p p' l, nth_error (jobs_of mk ks) i = Some p -> nth_error (jobs_of mk ks) j = Some p' -> i <> j -> foot (map snd ks) i l -> foot (map snd ks) j l -> False.
Proof using Type.
  intros ks Ha i j p p' l _ _ Hne H1 H2. unfold foot in *. destruct (nth_error (map snd ks) i) as [w|] eqn:E1; [|contradiction]. destruct (nth_error (map snd ks) j) as [w'|] eqn:E2; [|contradiction].
  exact (Ha i j w w' E1 E2 Hne l H1 H2).
Qed.
Lemma foot_free : forall ks l, (forall w, In w (map snd ks) -> ~ uses w l) -> forall i p, nth_error (jobs_of mk ks) i = Some p -> ~ foot (map snd ks) i l.
Proof using Type.
  intros ks l H i p _ Hf. unfold foot in Hf. destruct (nth_error (map snd ks) i) as [w|] eqn:E; [|auto]. apply (H w); auto. eapply nth_error_In; eauto.
Qed.
(** Any complete schedule. *)
Lemma jobs_run : forall ks sched m m' ps', apart (map snd ks) -> run_sched loc_eqb sched (m, jobs_of mk ks) = (m', ps') -> complete ps' ->
  length ps' = length ks /\
  (forall i k w p, nth_error ks i = Some (k, w) -> nth_error ps' i = Some p -> outcome p = snd (solo m (mk k w)) /\ agree (uses w) m' (fst (solo m (mk k w)))) /\
  (forall l, (forall w, In w (map snd ks) -> ~ uses w l) -> m' l = m l).
Proof using Hmk.
  intros ks sched m m' ps' Ha E Hc.
  destruct (complete_run loc_eqb loc_eqb_spec (jobs_of mk ks) (foot (map snd ks)) (jobs_within ks) (jobs_apart ks Ha) sched m m' ps' E Hc) as (L & C & R).
  split; [rewrite L; apply map_length|]. split.
  - intros i k w p Hi Hp. destruct (C i (mk k w) p) as [C1 C2]; auto. { unfold jobs_of. rewrite nth_error_map, Hi. auto. } split; auto.
    intros l Hl. apply C2. unfold foot. rewrite nth_error_map, Hi. auto.
  - intros l Hl. apply R. apply foot_free. auto.
Qed.
Lemma uses_dec : forall w l, {uses w l} + {~ uses w l}.
Proof using Type.
  intros w []; cbn; try apply Nat.eq_dec.
  - destruct (Nat.eq_dec a (p_main w)), (Nat.eq_dec a (p_snap w)); auto; right; intuition.
  - destruct (Nat.eq_dec a (p_main w)), (Nat.eq_dec a (p_snap w)); auto; right; intuition.
  - destruct (p_dict w) as [v'|]; [|right; discriminate]. destruct (Nat.eq_dec v v'); [left; congruence|right; congruence].
Qed.
Lemma owner : forall (ks : list (kconf * place)) l, (exists i k w, nth_error ks i = Some (k, w) /\ uses w l) \/ (forall w, In w (map snd ks) -> ~ uses w l).
Proof using Type.
  induction ks as [|[k w] ks IH]; intro l; [right; intros w []|]. destruct (uses_dec w l) as [H|H].
  - left. exists 0%nat, k, w. auto.
  - destruct (IH l) as [(i & k' & w' & Hi & Hu)|Hn]; [left; exists (S i), k', w'; auto|right]. intros w' [<-|Hw']; auto.
Qed.
Lemma jobs_two : forall ks sched sched2 m m1 m2 ps1 ps2, apart (map snd ks) ->
  run_sched loc_eqb sched (m, jobs_of mk ks) = (m1, ps1) -> complete ps1 -> run_sched loc_eqb sched2 (m, jobs_of mk ks) = (m2, ps2) -> complete ps2 ->
  (forall l, m1 l = m2 l) /\ map outcome ps1 = map outcome ps2.
Proof using Hmk.
  intros ks sched sched2 m m1 m2 ps1 ps2 Ha E1 H1 E2 H2.
  destruct (jobs_run ks sched m m1 ps1 Ha E1 H1) as (L1 & C1 & R1). destruct (jobs_run ks sched2 m m2 ps2 Ha E2 H2) as (L2 & C2 & R2). split.
  - intro l. destruct (owner ks l) as [(i & k & w & Hi & Hu)|Hn]; [|rewrite R1, R2; auto].
    assert (X : forall ps : list prog, length ps = length ks -> exists p, nth_error ps i = Some p).
    { intros ps L. destruct (nth_error ps i) eqn:Q; eauto. apply nth_error_None in Q. assert (nth_error ks i <> None) by congruence. apply nth_error_Some in H. lia. }
    destruct (X ps1 L1) as [p1 P1]. destruct (X ps2 L2) as [p2 P2]. destruct (C1 i k w p1 Hi P1) as [_ A1]. destruct (C2 i k w p2 Hi P2) as [_ A2]. rewrite A1, A2; auto.
  - apply nth_error_same. intro i. rewrite !nth_error_map. destruct (nth_error ps1 i) as [p1|] eqn:P1, (nth_error ps2 i) as [p2|] eqn:P2; cbn; auto.
    + assert (Hk : exists x, nth_error ks i = Some x). { destruct (nth_error ks i) eqn:Q; eauto. apply nth_error_None in Q. assert (nth_error ps1 i <> None) by congruence. apply nth_error_Some in H. lia. }
      destruct Hk as [[k w] Hi]. destruct (C1 i k w p1 Hi P1) as [O1 _]. destruct (C2 i k w p2 Hi P2) as [O2 _]. congruence.
    + apply nth_error_None in P2. assert (nth_error ps1 i <> None) by congruence. apply nth_error_Some in H. lia.
    + apply nth_error_None in P1. assert (nth_error ps2 i <> None) by congruence. apply nth_error_Some in H. lia.
Qed.
Lemma jobs_sequential : forall ks sched m m' ps', apart (map snd ks) -> run_sched loc_eqb sched (m, jobs_of mk ks) = (m', ps') -> complete ps' ->
  (forall p, In p ps' -> outcome p = None) -> exists ms, sequential loc_eqb m (jobs_of mk ks) = (ms, None) /\ forall l, ms l = m' l.
Proof using Hmk.
  intros ks sched m m' ps' Ha E Hc Ho. destruct (jobs_run ks sched m m' ps' Ha E Hc) as (L & C & R).
  assert (X : forall i k w, nth_error ks i = Some (k, w) -> exists p, nth_error ps' i = Some p).
  { intros i k w Hi. destruct (nth_error ps' i) eqn:Q; eauto. apply nth_error_None in Q. assert (nth_error ks i <> None) by congruence. apply nth_error_Some in H. lia. }
  assert (Y : forall i p, nth_error (jobs_of mk ks) i = Some p -> exists k w, nth_error ks i = Some (k, w) /\ p = mk k w).
  { intros i p H. unfold jobs_of in H. rewrite nth_error_map in H. destruct (nth_error ks i) as [[k w]|]; try discriminate. injection H as <-. eauto. }
  destruct (sequential_prefix loc_eqb loc_eqb_spec (jobs_of mk ks) (foot (map snd ks)) (jobs_within ks) (jobs_apart ks Ha) 0%nat m eq_refl) as (ms & S1 & S2 & S3).
  { intros i p H _. destruct (Y i p H) as (k & w & Hi & ->). destruct (X i k w Hi) as [q Hq]. destruct (C i k w q Hi Hq) as [O _]. rewrite <- O. apply Ho. eapply nth_error_In; eauto. }
  exists ms. split; auto. intro l. destruct (owner ks l) as [(i & k & w & Hi & Hu)|Hn].
  - destruct (X i k w Hi) as [q Hq]. destruct (C i k w q Hi Hq) as [_ A]. rewrite A by auto. apply (S2 i); [unfold jobs_of; rewrite nth_error_map, Hi; auto|lia|]. unfold foot. rewrite nth_error_map, Hi. auto.
  - rewrite R by auto. apply S3. intros i p H _. apply (foot_free ks l Hn i p H).
Qed.
Lemma jobs_sequential_raises : forall ks m ms, apart (map snd ks) -> sequential loc_eqb m (jobs_of mk ks) = (ms, None) -> forall k w, In (k, w) ks -> snd (solo m (mk k w)) = None.
Proof using Hmk.
  induction ks as [|[k0 w0] ks IH]; intros m ms Ha E k w H; [destruct H|destruct H as [H|H]].
  - injection H as -> ->. cbn [jobs_of map sequential fst snd] in E. destruct (solo m (mk k w)) as [m1 [e|]]; auto. discriminate.
  - cbn [jobs_of map sequential fst snd] in E. destruct (solo m (mk k0 w0)) as [m1 [e|]] eqn:E1; [discriminate|]. fold (jobs_of mk ks) in E.
    assert (Ha' : apart (map snd ks)). { intros i j u u' Hi Hj Hne. apply (Ha (S i) (S j) u u'); auto. }
    specialize (IH m1 ms Ha' E k w H). rewrite <- IH. symmetry. apply (solo_agree loc_eqb (uses w)); auto.
    intros l Hl. replace m1 with (fst (solo m (mk k0 w0))) by (rewrite E1; auto). apply (solo_frame loc_eqb loc_eqb_spec (uses w0)); auto. intro Hl'.
    apply (in_map snd) in H. apply In_nth_error in H as [i Hi]. apply (Ha 0%nat (S i) w0 w eq_refl Hi ltac:(lia) l); auto.
Qed.
End Mk.

(** With the model of a run. *)
Variable mk : kconf -> place -> prog.
Variable job : kconf -> kbuf -> kstore -> res (kbuf * list (@act P SB PB)).
Hypothesis Hmk : forall k w, within (uses w) (mk k w).
Hypothesis Hjob : forall k w m b s, p_dict w = None -> p_main w <> p_snap w -> in_memory m w b s ->
  match job k b s with
  | Err x => snd (solo m (mk k w)) = Some x
  | Ok (b', acts) => exists m', solo m (mk k w) = (m', None) /\ in_memory m' w b' (apply_acts s acts)
  end.
Lemma jobs_model : forall n (ws : list place) (l : list (kconf * kbuf * kstore)) m sched m' ps',
  apart ws -> (forall w, In w ws -> p_dict w = None /\ p_main w <> p_snap w) -> all_in_memory m ws l ->
  run_sched loc_eqb sched (m, jobs_of mk (combine (map (fun x => fst (fst x)) l) ws)) = (m', ps') -> complete ps' ->
  match run_jobs job n l with
  | Ok (l', _) => map outcome ps' = map (fun _ => None) ps' /\ all_in_memory m' ws l' /\ map (fun x => fst (fst x)) l' = map (fun x => fst (fst x)) l
  | Err e => In (Some e) (map outcome ps')
  end.
Proof using Hmk Hjob.
  intros n ws l m sched m' ps' Ha Hw Hm E Hc.
  assert (Hs : map snd (combine (map (fun x => fst (fst x)) l) ws) = ws).
  { clear - Hm. unfold all_in_memory in Hm. induction Hm; cbn; f_equal; auto. }
  rewrite <- Hs in Ha. destruct (jobs_run mk Hmk _ sched m m' ps' Ha E Hc) as (L & C & _). clear E Hc Ha Hs.
  assert (C' : forall i k w, nth_error (combine (map (fun x => fst (fst x)) l) ws) i = Some (k, w) -> exists p, nth_error ps' i = Some p /\ outcome p = snd (solo m (mk k w)) /\ agree (uses w) m' (fst (solo m (mk k w)))).
  { intros i k w Hi. destruct (nth_error ps' i) as [p|] eqn:Q; [exists p; destruct (C i k w p Hi Q); auto|]. exfalso. apply nth_error_None in Q. assert (X : nth_error (combine (map (fun x => fst (fst x)) l) ws) i <> None) by congruence. apply nth_error_Some in X. lia. }
  clear C. revert n ps' L C'. unfold all_in_memory in *. induction Hm as [|w [[k b] s] ws l Hh Hm IH]; intros n ps' L C'.
  - destruct ps'; [|discriminate]. cbn. auto.
  - destruct ps' as [|q ps']; [discriminate|]. cbn [run_jobs]. destruct (C' 0%nat k w eq_refl) as (p & Hp & O & A). injection Hp as <-.
    destruct (Hw w (or_introl eq_refl)) as [Hd Hne]. pose proof (Hjob k w m b s Hd Hne Hh) as J.
    destruct (job k b s) as [[b' acts]|e]; cbn [bind]; [|left; congruence]. destruct J as (m1 & Em & Hi). rewrite Em in O, A. cbn [fst snd] in O, A.
    specialize (IH (fun w' Hw' => Hw w' (or_intror Hw')) (S n) ps').
    assert (IH' := IH ltac:(cbn in L; lia) (fun i k' w' Hi' => C' (S i) k' w' Hi')). clear IH.
    destruct (run_jobs job (S n) l) as [[l' log]|e]; cbn [bind]; [|right; auto]. destruct IH' as (I1 & I2 & I3).
    split; [cbn [map]; f_equal; auto|]. split; [|cbn [map fst]; f_equal; auto]. constructor; auto. eapply in_memory_same; eauto.
Qed.
End All.
