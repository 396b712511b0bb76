(** Arguments given to 'post', for a key, then over runs. *)
Require Import List Arith ZArith Bool Lia Sorting.Sorted.
Require Import Verif.Common Verif.AggModel Verif.SegModel Verif.SegSpec Verif.WrModel Verif.StreamModel Verif.RaiseModel Verif.RaiseProofs Verif.StreamSpec Verif.IterProofs Verif.StreamProofs Verif.RecordProofs
  Verif.TableProofs Verif.BatchSpec Verif.BatchProofs Verif.BatchRunProofs Verif.PostSpec.
Import ListNotations.
Local Open Scope Z_scope.

Lemma passed_nil : forall mark calls, passed [] mark calls -> mark = false.
Proof.
  intros mark calls H. remember [] as A eqn:E. destruct H as [|A calls mark W H N|A r calls mark W H N]; auto; destruct mark; auto;
    apply app_eq_nil in E as [_ ->]; exfalso; apply N; auto.
Qed.
Lemma provisional_app : forall a b, provisional (a ++ b) = (provisional a + provisional b)%nat.
Proof. intros. unfold provisional. rewrite filter_app, app_length. auto. Qed.


Section Key.
Context {D P SB PB0 : Type}.
Notation PB := (PB0 * list call)%type.
Variable truthy : Z -> bool.
Variable usage : frame -> Z.
Notation kbuf := (kbuf SB PB).
Notation kstore := (kstore P SB PB).
Notation act := (@act P SB PB).
Variable k : kconf D SB PB.
Variables (seg0 : SB) (ok : list D -> Prop) (T TS : list D -> list row) (Inv : list D -> SB -> Prop).
Hypothesis Htab : tabular k seg0 ok T TS Inv.
Variable f : PB0 -> frame -> option frame -> res (post_res * PB0).
Hypothesis Hpost : k_post k = Some (recorder f).
(** All rows in the end. *)
Variable Hf : list D.
Hypothesis Hok : ok Hf.
Hypothesis ok_app : forall a b, ok (a ++ b) -> ok a.
Variable Con : Z -> list D -> Prop.

(** ** Channels: from buffers in memory to arguments of 'post' *)
Record pchan := mkPchan {
  p_tab : list D -> list row;
  p_bufs : kbuf -> list frame;
  p_cur : kbuf -> option frame;
  p_calls : list call -> list (list row) -> Prop }.
Definition pbins : pchan := mkPchan T b_bins b_bin (fun calls l => l = map fst calls).
Definition psnaps : pchan := mkPchan TS b_snaps b_snap (fun calls l => map Some l = map snd calls).
Definition pchans : list pchan := match k_type k with BINS => [pbins] | _ => [pbins; psnaps] end.

Definition done (c : pchan) (H : list D) (calls : list call) (n : nat) : Prop :=
  (H = [] -> calls = []) /\
  exists marks mark, p_calls c calls (map snd marks) /\ (provisional marks <= n)%nat /\ passed (p_tab c H) mark marks /\ (p_tab c H <> [] -> mark = true).
(** Next rows to be given are those after [A]. *)
Definition ready (c : pchan) (A : list row) (calls : list call) (n : nat) : Prop :=
  exists marks, p_calls c calls (map snd marks) /\ (provisional marks <= n)%nat /\
    (passed A false marks \/ exists r, passed (A ++ [r]) true marks /\ nth_error (labels (p_tab c Hf)) (length A) = Some (col 0 r)).
Definition pidle (c : pchan) (H : list D) (b : kbuf) (n : nat) : Prop := p_cur c b = None /\ p_bufs c b = [] /\ done c H (snd (b_post b)) n.
Definition pmid (c : pchan) (H : list D) (b : kbuf) (n : nat) : Prop :=
  exists g A, p_cur c b = Some g /\ rows g <> [] /\ p_tab c H = A ++ concat (map rows (p_bufs c b)) ++ rows g /\ ready c A (snd (b_post b)) n.
Definition no_snap (pb : PB) : Prop := k_type k = BINS -> Forall (fun x => snd x = None) (snd pb).

Definition pmem (H : list D) (b : kbuf) (n : nat) : Prop :=
  Inv H (b_seg b) /\ (k_type k = BINS -> b_snap b = None) /\ no_snap (b_post b) /\
  match b_bin b with
  | None => forall c, In c pchans -> pidle c H b n
  | Some g => rows g <> [] /\ H <> [] /\ forall c, In c pchans -> pmid c H b n
  end.
Definition psinv (s : kstore) (n : nat) : Prop :=
  forall md, md_of (s_main s) = Some md -> exists Hrec, starts Hrec Hf /\ Con (m_restart md) Hrec /\ Inv Hrec (m_seg md) /\ no_snap (m_post md) /\
    forall c, In c pchans -> done c Hrec (snd (m_post md)) n.
Definition pinv (H : list D) (b : kbuf) (s : kstore) (n : nat) : Prop := starts H Hf /\ pmem H b n /\ psinv s n.

Lemma psinv_le : forall s n n', (n <= n')%nat -> psinv s n -> psinv s n'.
Proof.
  intros s n n' L S md E. destruct (S md E) as (Hrec & A & B & C & F & G). exists Hrec. repeat (split; auto). intros Hc. apply (G c H). auto.
  destruct (G c H) as (_ & marks & mark & G1 & G2 & G3). exists marks, mark. split; auto. split; [lia|auto].
Qed.
Lemma pchan_facts : forall c, In c pchans -> p_tab c [] = [] /\
  (forall H p, ok (H ++ p) -> starts (labels (p_tab c H)) (labels (p_tab c (H ++ p)))) /\
  (forall b : kbuf, b_bin b = None -> b_snap b = None -> p_cur c b = None) /\ (forall b, b_bins b = [] -> b_snaps b = [] -> p_bufs c b = []) /\
  p_calls c [] [] /\
  forall H p b r b', p <> [] -> ok (H ++ p) -> Inv H b -> k_agg k p b = Ok (r, b') ->
    exists g sn, r = Some (g, sn) /\ Inv (H ++ p) b' /\ rows g <> [] /\ (k_type k = BINS -> sn = None) /\
    forall size bins snaps seg post, exists h, p_cur c (mkBuf size (Some g) sn bins snaps seg post) = Some h /\ rows h <> [] /\ p_tab c (H ++ p) = removelast (p_tab c H) ++ rows h.
Proof using Htab. clear - Htab.
  intros c Hc. pose proof (tab_step _ _ _ _ _ _ Htab) as Hstep. destruct Htab.
  assert (C : c = pbins \/ (c = psnaps /\ k_type k <> BINS)).
  { unfold pchans in Hc. destruct (k_type k); simpl in Hc; destruct Hc as [<-|Hc]; auto; try (destruct Hc as [<-|[]]; right; split; auto; congruence). destruct Hc. }
  destruct C as [->|[-> Ht]]; cbn [pbins psnaps p_tab p_cur p_bufs p_calls]; repeat (split; auto); intros H p b r b' Hp Ho Hi E;
    destruct (Hstep H p b r b' Hp Ho Hi E) as (g & sn & -> & I & E1 & E2 & E3); exists g, sn; repeat (split; auto);
    try (destruct (k_type k), sn; congruence || contradiction).
  - intros. exists g. cbn [b_bin]. auto.
  - intros. destruct (k_type k), sn as [h|]; try contradiction; try congruence; destruct E3; exists h; cbn [b_snap]; auto.
Qed.
Lemma ok_starts' : forall H, starts H Hf -> ok H.
Proof. intros H [q E]. apply (ok_app H q). rewrite <- E. auto. Qed.
Lemma label_at : forall c H A W w, In c pchans -> starts H Hf -> p_tab c H = A ++ W -> nth_error W 0 = Some w -> nth_error (labels (p_tab c Hf)) (length A) = Some (col 0 w).
Proof.
  intros c H A W w Hc [q E] ET Hw. destruct (pchan_facts c Hc) as (_ & Hl & _). destruct (Hl H q) as [t Et]; [rewrite <- E; auto|].
  rewrite E, Et, ET. rewrite nth_error_app1; [|rewrite map_length, app_length; destruct W; [discriminate|simpl; lia]].
  rewrite nth_error_map, nth_error_app2, Nat.sub_diag, Hw by lia. auto.
Qed.
Lemma done_ready : forall c H calls n, In c pchans -> starts H Hf -> done c H calls n -> ready c (removelast (p_tab c H)) calls n.
Proof.
  intros c H calls n Hc St (_ & marks & mark & A & B & C & M). exists marks. split; auto. split; auto.
  destruct (p_tab c H) as [|r l _] eqn:ET using rev_ind.
  - left. rewrite (passed_nil _ _ C) in C. exact C.
  - right. rewrite removelast_last. exists r. rewrite (M ltac:(destruct l; discriminate)) in C. split; auto. eapply label_at; eauto.
Qed.
(** One more call. *)
Lemma ready_passed : forall c H A W rest calls calls' n mark, In c pchans -> starts H Hf -> ready c A calls n -> p_tab c H = A ++ W ++ rest -> (mark = true -> W <> []) ->
  (forall l, p_calls c calls l -> p_calls c calls' (l ++ [W])) ->
  exists marks, p_calls c calls' (map snd marks) /\ (provisional marks <= if mark then S n else n)%nat /\ passed (A ++ W) mark marks.
Proof.
  intros c H A W rest calls calls' n mark Hc St (marks & C & Le & R) ET Hm Cl. exists (marks ++ [(mark, W)]). rewrite map_app. split; [apply Cl; auto|].
  rewrite provisional_app. split; [unfold provisional at 2; destruct mark; simpl; lia|]. destruct R as [R|(r & R & Lr)].
  - apply P_next; auto.
  - eapply P_again; eauto. intros w W' ->. rewrite (label_at c H A ((w :: W') ++ rest) w Hc St ET eq_refl) in Lr. congruence.
Qed.

(** ** Post-processing and writing *)
Definition arguments (b : kbuf) (last : bool) : call :=
  (concat (map rows (b_bins b)) ++ (if last then match b_bin b with Some g => rows g | None => [] end else []),
   match k_type k with
   | BINS => None
   | _ => Some (concat (map rows (b_snaps b)) ++ (if last then match b_snap b with Some g => rows g | None => [] end else []))
   end).
Lemma results_calls : forall b last main snap pb fb, results k b last = Ok (main, snap, pb) -> b_bin b = Some fb -> (k_type k <> BINS -> exists g, b_snap b = Some g) ->
  exists pb0, pb = (pb0, snd (b_post b) ++ [arguments b last]).
Proof using Hpost. clear - Hpost.
  intros b last main snap pb fb Er Hb Hs.
  unfold results in Er. rewrite Hb, Hpost in Er. destruct (concat_agg_res (b_bins b) fb last) as [bin|] eqn:Eb; cbn [bind] in Er; [|discriminate]. apply concat_agg_res_rows in Eb.
    match type of Er with bind ?X _ = _ => destruct X as [sn|] eqn:Es end; cbn [bind] in Er; [|discriminate]. unfold recorder in Er.
    match type of Er with context [f ?a ?b ?c] => destruct (f a b c) as [[q pb0]|] end; cbn [bind] in Er; [|discriminate]. exists pb0.
    assert (pb = (pb0, snd (b_post b) ++ [(rows bin, option_map rows match k_type k with BINS => None | _ => sn end)])) as ->.
    { destruct (k_type k), q as [[q|]|]; try discriminate; try (destruct (ncols q =? 2)%nat; [|discriminate]); injection Er; intros; subst; auto. }
    unfold arguments. rewrite Hb, <- Eb. do 4 f_equal. destruct (k_type k) eqn:Ek; auto; destruct (Hs ltac:(congruence)) as [g Eg]; rewrite Eg in Es;
      destruct (concat_agg_res (b_snaps b) g last) as [h|] eqn:Eh; cbn [bind] in Es; try discriminate; injection Es as <-; apply concat_agg_res_rows in Eh; cbn [option_map]; rewrite Eg, Eh; auto.
Qed.
Lemma post_n_write_calls : forall b (s : kstore) last r (p : P) b' acts fb, post_n_write truthy k b s last r p = Ok (b', acts) ->
  b_bin b = Some fb -> (k_type k <> BINS -> exists g, b_snap b = Some g) ->
  exists pb, b' = mkBuf 0 None None [] [] (b_seg b) (pb, snd (b_post b) ++ [arguments b last]) /\
    let pd := pending truthy r p b (pb, snd (b_post b) ++ [arguments b last]) in
    (forall acts1 acts2, acts = acts1 ++ acts2 -> md_of (s_main (apply_acts s acts1)) = None \/ md_of (s_main (apply_acts s acts1)) = md_of (s_main s) \/
       exists md, pd = Some md /\ md_of (s_main (apply_acts s acts1)) = pd) /\
    match pd with Some md => md_of (s_main (apply_acts s acts)) = Some md | None => md_of (s_main (apply_acts s acts)) = None \/ md_of (s_main (apply_acts s acts)) = md_of (s_main s) end.
Proof using Hpost. clear - Hpost.
  intros b s last r p b' acts fb H Hb Hs. unfold post_n_write in H.
  destruct (results k b last) as [[[main snap] pb]|] eqn:Er; cbn [bind] in H; [|discriminate]. fold (pending truthy r p b pb) in H. rewrite Hb in H.
  pose proof (results_calls _ _ _ _ _ _ Er Hb Hs) as Ep.
  destruct Ep as [pb0 Ep]. exists pb0. rewrite <- Ep. match type of H with bind ?X _ = _ => destruct X as [acts'|] eqn:Ea end; cbn [bind] in H; [|discriminate].
  injection H as <- <-. split; [reflexivity|]. cbv zeta. set (pd := pending truthy r p b pb) in *.
  assert (W : forall p0 e m e', store_write p0 e m pd = Ok e' -> match pd with Some md => e_md e' = Some md | None => e_md e' = None \/ e_md e' = md_of e end).
  { intros p0 e m e' E. apply store_write_inv in E as [_ E]. destruct pd; auto. rewrite E. destruct (data_of e); auto. }
  assert (Nil : md_of (s_main (apply_acts s [])) = None \/ md_of (s_main (apply_acts s [])) = md_of (s_main s) \/ exists md, pd = Some md /\ md_of (s_main (apply_acts s [])) = pd) by (right; left; auto).
  destruct main as [m|].
  - destruct (store_write (k_write k) (s_main s) m pd) as [e|] eqn:Ee; cbn [bind] in Ea; [|discriminate]. apply W in Ee.
    assert (One : match pd with Some md => e_md e = Some md | None => e_md e = None \/ e_md e = md_of (s_main s) end ->
      (e_md e = None \/ e_md e = md_of (s_main s) \/ exists md, pd = Some md /\ e_md e = pd)).
    { destruct pd; [|tauto]. intros Q. right. right. eauto. }
    specialize (One Ee).
    assert (A : acts' = [(false, e)] \/ exists e', acts' = [(false, e); (true, e')]).
    { destruct (k_type k); try (injection Ea as <-; auto; fail). destruct snap; [|discriminate]. destruct (store_write (k_write_snap k) _ _ _) as [e'|]; cbn [bind] in Ea; [|discriminate]. injection Ea as <-. eauto. }
    destruct A as [->|[e' ->]]; (split; [|exact Ee]).
    + intros acts1 acts2 E. destruct acts1 as [|a [|a1 acts1]]; [exact Nil|injection E as <- _; exact One|discriminate].
    + intros acts1 acts2 E. destruct acts1 as [|a [|a1 [|a2 acts1]]]; [exact Nil|injection E as <- _; exact One|injection E as <- <- _; exact One|discriminate].
  - destruct pd as [md|]; injection Ea as <-.
    + split; [|reflexivity]. intros acts1 acts2 E. destruct acts1 as [|a [|a1 acts1]]; [exact Nil|injection E as <- _; right; right; eauto|discriminate].
    + split; [|right; auto]. intros acts1 acts2 E. symmetry in E. apply app_eq_nil in E as [-> _]. exact Nil.
Qed.
Lemma calls_app : forall c b last calls l, In c pchans -> p_calls c calls l ->
  p_calls c (calls ++ [arguments b last]) (l ++ [concat (map rows (p_bufs c b)) ++ (if last then match p_cur c b with Some g => rows g | None => [] end else [])]).
Proof using Type. clear.
  intros c b last calls l Hc H. unfold pchans in Hc. unfold arguments.
  destruct (k_type k); simpl in Hc; destruct Hc as [<-|Hc]; try (destruct Hc as [<-|[]]); try contradiction; cbn [pbins psnaps p_calls p_bufs p_cur fst snd] in *; rewrite !map_app, H; auto.
Qed.
Lemma no_snap_app : forall pb pb0 b last, no_snap pb -> no_snap (pb0, snd pb ++ [arguments b last]).
Proof using Type. clear.
  intros pb pb0 b last H Q0. cbn [snd]. apply Forall_app. split; [auto|]. constructor; [|constructor]. unfold arguments. rewrite Q0. auto.
Qed.
Lemma psinv_same : forall s s' n, psinv s n -> md_of (s_main s') = None \/ md_of (s_main s') = md_of (s_main s) -> psinv s' n.
Proof using Type. clear. intros s s' n H [E|E] md Em; [congruence|]. apply H. congruence. Qed.

Definition pbetween (H : list D) (b : kbuf) (n : nat) : Prop :=
  Inv H (b_seg b) /\ no_snap (b_post b) /\
  forall c, In c pchans -> exists A, removelast (p_tab c H) = A ++ concat (map rows (p_bufs c b)) /\ ready c A (snd (b_post b)) n.
Lemma psnap_present : forall H b n g, pmem H b n -> b_bin b = Some g -> k_type k <> BINS -> exists g, b_snap b = Some g.
Proof using Type. clear.
  intros H b n g (_ & _ & _ & M) Hb Ht. rewrite Hb in M. destruct M as (_ & _ & M). unfold pchans in M. destruct (k_type k); [congruence| |];
    destruct (M psnaps (or_intror (or_introl eq_refl))) as (h & A & E & _); eauto.
Qed.

Lemma buffer_pinv : forall H b s pb n b1 acts, pinv H b s n -> buffer_results truthy usage k b s pb = Ok (b1, acts) ->
  pbetween H b1 n /\ forall acts1 acts2, acts = acts1 ++ acts2 -> md_of (s_main (apply_acts s acts1)) = None \/ md_of (s_main (apply_acts s acts1)) = md_of (s_main s).
Proof.
  intros H b s pb n b1 acts (St & Me & Re) E. unfold buffer_results in E. pose proof Me as Me'. destruct Me as (Mi & Ms & Mn & Mc).
  assert (Nil : forall acts1 acts2 : list act, [] = acts1 ++ acts2 -> md_of (s_main (apply_acts s acts1)) = None \/ md_of (s_main (apply_acts s acts1)) = md_of (s_main s)).
  { intros acts1 acts2 Q0. symmetry in Q0. apply app_eq_nil in Q0 as [-> _]. right. auto. }
  destruct (b_bin b) as [g|] eqn:Hb.
  - destruct Mc as (Hg & Hne & Mc). destruct (rows g) as [|r0 rs0] eqn:Er; [congruence|]. rewrite <- Er in *.
    match type of E with (if _ then post_n_write _ _ ?B _ _ _ _ else _) = _ => set (b2 := B) in * end.
    assert (B2 : b_bin b2 = Some g /\ b_snap b2 = b_snap b /\ b_seg b2 = b_seg b /\ b_post b2 = b_post b /\
      forall c A0 g0, In c pchans -> p_cur c b = Some g0 -> rows g0 <> [] -> p_tab c H = A0 ++ concat (map rows (p_bufs c b)) ++ rows g0 ->
        removelast (p_tab c H) = A0 ++ concat (map rows (p_bufs c b2))).
    { assert (G : forall (A0 : list row) bufs (g0 : frame), rows g0 <> [] -> removelast (A0 ++ concat (map rows bufs) ++ rows g0) = A0 ++ concat (map rows (bufs ++ [chop g0]))).
      { intros A0 bufs g0 Hn. rewrite app_assoc, removelast_app by auto. rewrite map_app, concat_app. simpl. rewrite app_nil_r, <- app_assoc. auto. }
      unfold b2. destruct (b_snap b) as [sn|] eqn:Hsn; (split; [auto|split; [auto|split; [auto|split; [auto|]]]]); intros c A0 g0 Hc Ec Hn ET; rewrite ET;
        (assert (C : c = pbins \/ c = psnaps) by (unfold pchans in Hc; destruct (k_type k); simpl in Hc; destruct Hc as [<-|Hc]; auto; try (destruct Hc as [<-|[]]; auto); destruct Hc));
        destruct C as [-> | ->]; cbn [pbins psnaps p_cur p_bufs b_bins b_snaps] in *; try congruence;
        [rewrite Hb in Ec|rewrite Hsn in Ec|rewrite Hb in Ec]; injection Ec as <-; apply G; auto. }
    destruct B2 as (B1 & B2 & B3 & B4 & B5).
    destruct (k_max k <? b_size b + b_size b / Z.of_nat (length (b_bins b ++ [chop g]))).
    + destruct (post_n_write_calls b2 s false None pb b1 acts g E B1) as (pb0 & -> & Ea & _); [intro Ht; rewrite B2; eapply psnap_present; eauto|].
      cbn [pending] in Ea. split.
      * split; [cbn [b_seg]; rewrite B3; auto|]. split; [cbn [b_post]; apply no_snap_app; rewrite B4; auto|].
        intros c Hc. destruct (Mc c Hc) as (g0 & A & Ec & Hn & ET & R). specialize (B5 c A g0 Hc Ec Hn ET). exists (A ++ concat (map rows (p_bufs c b2))).
        destruct (pchan_facts c Hc) as (_ & _ & _ & Pb & _). rewrite (Pb (mkBuf 0 None None [] [] _ _) eq_refl eq_refl). cbn [map concat]. rewrite app_nil_r. split; auto.
        assert (Hl : exists t, p_tab c H = A ++ concat (map rows (p_bufs c b2)) ++ t).
        { destruct (p_tab c H) as [|r l _] eqn:EL using rev_ind; [exists []; rewrite app_nil_r; exact B5|]. rewrite removelast_last in B5. exists [r]. rewrite B5, <- app_assoc. auto. }
        destruct Hl as [t Et]. destruct (ready_passed c H A (concat (map rows (p_bufs c b2))) t (snd (b_post b)) (snd (b_post b) ++ [arguments b2 false]) n false Hc St R Et) as (marks & M1 & M2 & M3); [discriminate| |].
        { intros l Hl. pose proof (calls_app c b2 false _ _ Hc Hl) as Q0. cbn in Q0. rewrite app_nil_r in Q0. exact Q0. }
        exists marks. cbn [b_post snd]. rewrite B4. auto.
      * intros acts1 acts2 EE. destruct (Ea acts1 acts2 EE) as [?|[?|(md & Q0 & _)]]; auto. discriminate.
    + injection E as <- <-. split; [|exact Nil]. split; [rewrite B3; auto|]. rewrite B4. split; auto. intros c Hc. destruct (Mc c Hc) as (g0 & A & Ec & Hn & ET & R). exists A.
      split; [eapply B5; eauto|]. auto.
  - injection E as <- <-. split; [|exact Nil]. split; auto. split; auto. intros c Hc. destruct (Mc c Hc) as (Ec & Eb & Dn). exists (removelast (p_tab c H)).
    rewrite Eb. simpl. rewrite app_nil_r. split; auto. apply done_ready; auto.
Qed.

Lemma agg_iter_pinv : forall H b s pb p n b' acts, pinv H b s n -> p <> [] -> starts (H ++ p) Hf -> agg_iter truthy usage k b s pb p = Ok (b', acts) ->
  pinv (H ++ p) b' (apply_acts s acts) n /\
  (forall acts1 acts2, acts = acts1 ++ acts2 -> md_of (s_main (apply_acts s acts1)) = None \/ md_of (s_main (apply_acts s acts1)) = md_of (s_main s)).
Proof.
  intros H b s pb p n b' acts Hk Hp St' E. unfold agg_iter in E.
  destruct (buffer_results truthy usage k b s pb) as [[b1 a1]|] eqn:Eb; cbn [bind] in E; [|discriminate].
  destruct (buffer_pinv _ _ _ _ _ _ _ Hk Eb) as ((Bi & Bn & Bc) & Ba). destruct Hk as (St & Me & Re).
  destruct (k_agg k p (b_seg b1)) as [[r seg']|] eqn:Ek; cbn [bind] in E; [|discriminate].
  assert (Hin : In pbins pchans) by (unfold pchans; destruct (k_type k); left; auto).
  destruct (pchan_facts pbins Hin) as (_ & _ & _ & _ & _ & Hst). destruct (Hst H p (b_seg b1) r seg' Hp (ok_starts' _ St') Bi Ek) as (g & sn & -> & I' & Hg & Hsn & _).
  injection E as <- <-. split; auto. split; auto. split.
  - split; auto. cbn [b_snap b_bin b_seg b_post]. split; auto. split; auto. split; auto. split; [destruct p; [congruence|]; intro Q0; apply app_eq_nil in Q0 as [_ Q0]; discriminate|].
    intros c Hc. destruct (Bc c Hc) as (A & EA & R).
    destruct (pchan_facts c Hc) as (_ & _ & _ & _ & _ & Hst'). destruct (Hst' H p (b_seg b1) _ seg' Hp (ok_starts' _ St') Bi Ek) as (g' & sn' & Q0 & _ & _ & _ & Hh).
    injection Q0 as <- <-. destruct (Hh (b_size b1) (b_bins b1) (b_snaps b1) seg' (b_post b1)) as (h & H1 & H2 & H3). exists h, A. split; auto. split; auto.
    assert (Hb : p_bufs c (mkBuf (b_size b1) (Some g) sn (b_bins b1) (b_snaps b1) seg' (b_post b1)) = p_bufs c b1).
    { unfold pchans in Hc. destruct (k_type k); simpl in Hc; destruct Hc as [<-|Hc]; try (destruct Hc as [<-|[]]); try contradiction; auto. }
    rewrite Hb. split; [rewrite H3, EA, <- app_assoc; auto|]. auto.
  - eapply psinv_same; eauto. apply (Ba a1 []). rewrite app_nil_r. auto.
Qed.

Lemma key_run_pinv : forall chunks H b s pb n b' acts, pinv H b s n -> (forall p, In p chunks -> p <> []) -> starts (H ++ concat chunks) Hf ->
  key_run truthy usage k pb b s chunks = Ok (b', acts) ->
  pinv (H ++ concat chunks) b' (apply_acts s acts) n /\
  (forall acts1 acts2, acts = acts1 ++ acts2 -> md_of (s_main (apply_acts s acts1)) = None \/ md_of (s_main (apply_acts s acts1)) = md_of (s_main s)).
Proof.
  induction chunks as [|p chunks IH]; intros H b s pb n b' acts Hk Hne St E; cbn [key_run concat] in *.
  - injection E as <- <-. rewrite app_nil_r in *. split; auto.
    intros acts1 acts2 Q0. symmetry in Q0. apply app_eq_nil in Q0 as [-> _]. right. auto.
  - destruct (agg_iter truthy usage k b s pb p) as [[b1 a1]|] eqn:E1; cbn [bind] in E; [|discriminate].
    destruct (key_run truthy usage k pb b1 (apply_acts s a1) chunks) as [[b2 a2]|] eqn:E2; cbn [bind] in E; [|discriminate].
    injection E as <- <-. rewrite app_assoc in *.
    destruct (agg_iter_pinv H b s pb p n b1 a1 Hk) as (K1 & P1); auto; [apply Hne; left; auto|destruct St as [q Eq]; exists (concat chunks ++ q); rewrite Eq, <- !app_assoc; auto|].
    destruct (IH (H ++ p) b1 (apply_acts s a1) pb n b2 a2 K1) as (K2 & P2); auto; [intros; apply Hne; right; auto|].
    rewrite apply_acts_app. split; auto.
    intros acts1 acts2 EE. destruct (app_eq_starts _ _ _ _ EE) as [[q Eq]|[q Eq]].
    + subst acts1. rewrite apply_acts_app. rewrite <- app_assoc in EE. apply app_inv_head in EE.
      destruct (P2 q acts2 EE) as [P3|P3]; auto. rewrite P3. apply (P1 a1 []). rewrite app_nil_r. auto.
    + apply (P1 acts1 q). auto.
Qed.

(** Writing which may raise: metadata is the previous one, or the new one. *)
Lemma post_n_write_calls_t : forall b (s : kstore) last r (p : P) acts rr fb, post_n_write_t truthy k b s last r p = (acts, rr) ->
  b_bin b = Some fb -> (k_type k <> BINS -> exists g, b_snap b = Some g) ->
  exists pb, let pd := pending truthy r p b (pb, snd (b_post b) ++ [arguments b last]) in
    forall acts1 acts2, acts = acts1 ++ acts2 -> md_of (s_main (apply_acts s acts1)) = None \/ md_of (s_main (apply_acts s acts1)) = md_of (s_main s) \/
      exists md, pd = Some md /\ md_of (s_main (apply_acts s acts1)) = pd.
Proof using Hpost. clear - Hpost.
  intros b s last r p acts rr fb H Hb Hs. destruct rr as [b'|e].
  - pose proof (post_n_write_same truthy k b s last r p) as E. rewrite H in E. destruct (post_n_write_calls _ _ _ _ _ _ _ _ E Hb Hs) as (pb & _ & A & _). exists pb. exact A.
  - unfold post_n_write_t in H. destruct (results k b last) as [[[main snap] pb]|] eqn:Er.
    + destruct (results_calls _ _ _ _ _ _ Er Hb Hs) as [pb0 Ep]. exists pb0. cbv zeta. rewrite <- Ep. fold (pending truthy r p b pb) in H. set (pd := pending truthy r p b pb) in *.
      assert (A : acts = [] \/ exists q e0, store_write (k_write k) (s_main s) q pd = Ok e0 /\ acts = [(false, e0)]).
      { destruct main as [q|]; [|destruct pd; discriminate]. destruct (store_write (k_write k) (s_main s) q pd) as [e0|] eqn:Ee; [|left; congruence]. right. exists q, e0. split; auto.
        destruct (k_type k); try discriminate. destruct snap; [|congruence]. destruct (store_write (k_write_snap k) _ _ _); [discriminate|congruence]. }
      intros acts1 acts2 EE. destruct A as [->|(q & e0 & Ee & ->)].
      * symmetry in EE. apply app_eq_nil in EE as [-> _]. right. left. auto.
      * destruct acts1 as [|a [|a1 acts1]]; [right; left; auto| |discriminate]. injection EE as <- _. cbn. apply store_write_inv in Ee as [_ Ee].
        destruct pd as [md|] eqn:Epd; [right; right; exists md; auto|]. rewrite Ee. destruct (data_of (s_main s)); auto.
    + injection H as <- <-. exists (fst (b_post b)). cbv zeta. intros acts1 acts2 EE. symmetry in EE. apply app_eq_nil in EE as [-> _]. right. left. auto.
Qed.
Lemma buffer_pinv_t : forall H b s pb n acts rr, pinv H b s n -> buffer_results_t truthy usage k b s pb = (acts, rr) ->
  forall acts1 acts2, acts = acts1 ++ acts2 -> md_of (s_main (apply_acts s acts1)) = None \/ md_of (s_main (apply_acts s acts1)) = md_of (s_main s).
Proof using Hpost. clear - Hpost.
  intros H b s pb n acts rr (St & Me & Re) E. unfold buffer_results_t in E.
  assert (Nil : acts = [] -> forall acts1 acts2 : list act, acts = acts1 ++ acts2 -> md_of (s_main (apply_acts s acts1)) = None \/ md_of (s_main (apply_acts s acts1)) = md_of (s_main s)).
  { intros -> acts1 acts2 Q0. symmetry in Q0. apply app_eq_nil in Q0 as [-> _]. right. auto. }
  destruct (b_bin b) as [g|] eqn:Hb; [|apply Nil; congruence]. destruct (rows g) as [|r0 rs0]; [apply Nil; congruence|].
  destruct (k_max k <? _); [|apply Nil; congruence].
  match type of E with post_n_write_t _ _ ?B _ _ _ _ = _ => set (b2 := B) in * end.
  assert (B1 : b_bin b2 = Some g /\ b_snap b2 = b_snap b) by (unfold b2; destruct (b_snap b); auto). destruct B1 as [B1 B2].
  destruct (post_n_write_calls_t b2 s false None pb acts rr g E B1) as (pb0 & A); [intro Ht; rewrite B2; eapply psnap_present; eauto|].
  intros acts1 acts2 EE. destruct (A acts1 acts2 EE) as [?|[?|(md & Q0 & _)]]; auto. discriminate.
Qed.

(** Final write. *)
Lemma final_done : forall H b s r p n g, pinv H b s n -> (forall i, r = Some i -> Con i H) -> b_bin b = Some g ->
  (forall c, In c pchans -> done c H (snd (b_post b) ++ [arguments b true]) (S n)) /\ (forall pb0, no_snap (pb0, snd (b_post b) ++ [arguments b true])) /\
  forall pb0 s' md, pending truthy r p b (pb0, snd (b_post b) ++ [arguments b true]) = Some md -> md_of (s_main s') = Some md -> psinv s' (S n).
Proof.
  intros H b s r p n g (St & Me & Re) HC Hb. pose proof Me as (Mi & Ms & Mn & Mc). rewrite Hb in Mc. destruct Mc as (Hg & Hne & Mc).
  assert (Dn : forall c, In c pchans -> done c H (snd (b_post b) ++ [arguments b true]) (S n)).
  { intros c Hc. split; [congruence|]. destruct (Mc c Hc) as (g0 & A & Ec & Hn & ET & R).
    destruct (ready_passed c H A (concat (map rows (p_bufs c b)) ++ rows g0) [] (snd (b_post b)) (snd (b_post b) ++ [arguments b true]) n true Hc St R) as (marks & M1 & M2 & M3).
    - rewrite app_nil_r. auto.
    - intros _ Q0. apply app_eq_nil in Q0 as [_ Q0]. auto.
    - intros l Hl. pose proof (calls_app c b true _ _ Hc Hl) as Q0. cbn beta iota in Q0. rewrite Ec in Q0. exact Q0.
    - exists marks, true. rewrite ET. auto. }
  assert (Ns : forall pb0, no_snap (pb0, snd (b_post b) ++ [arguments b true])) by (intro pb0; apply no_snap_app; auto).
  assert (Pd : forall pb0 s' md, pending truthy r p b (pb0, snd (b_post b) ++ [arguments b true]) = Some md -> md_of (s_main s') = Some md -> psinv s' (S n)).
  { intros pb0 s' md Q0 Q1 md' Q2. assert (md' = md) as -> by congruence. unfold pending in Q0. destruct r as [i|]; [|discriminate]. destruct (truthy i); [|discriminate]. injection Q0 as <-.
    exists H. cbn [m_restart m_seg m_post]. auto. }
  auto.
Qed.
Lemma final_pinv : forall H b s r p n b' acts, pinv H b s n -> (forall i, r = Some i -> Con i H) -> post_n_write truthy k b s true r p = Ok (b', acts) ->
  pinv H b' (apply_acts s acts) (S n) /\ b_bin b' = None /\ (forall acts1 acts2, acts = acts1 ++ acts2 -> psinv (apply_acts s acts1) (S n)) /\
  match r with
  | Some i => if truthy i then md_of (s_main (apply_acts s acts)) <> None
              else md_of (s_main (apply_acts s acts)) = None \/ md_of (s_main (apply_acts s acts)) = md_of (s_main s)
  | None => md_of (s_main (apply_acts s acts)) = None \/ md_of (s_main (apply_acts s acts)) = md_of (s_main s)
  end.
Proof.
  intros H b s r p n b' acts (St & Me & Re) HC E. pose proof (psinv_le _ _ (S n) (Nat.le_succ_diag_r n) Re) as Re'.
  destruct (b_bin b) as [g|] eqn:Hb.
  - pose proof Me as (Mi & Ms & Mn & Mc). rewrite Hb in Mc. destruct Mc as (Hg & Hne & Mc).
    destruct (post_n_write_calls b s true r p b' acts g E Hb) as (pb0 & -> & Ea & Em); [intro Ht; eapply psnap_present; eauto|].
    destruct (final_done H b s r p n g (conj St (conj Me Re)) HC Hb) as (Dn & Ns & Pd). specialize (Ns pb0). specialize (Pd pb0).
    assert (Pr : forall acts1 acts2, acts = acts1 ++ acts2 -> psinv (apply_acts s acts1) (S n)).
    { intros acts1 acts2 EE. cbv zeta in Ea. destruct (Ea acts1 acts2 EE) as [Q0|[Q0|(md & Q0 & Q1)]]; [eapply psinv_same; eauto..|]. eapply Pd; eauto. congruence. }
    split; [|split; [|split]]; auto.
    + split; auto. split; [|apply (Pr acts []); rewrite app_nil_r; auto]. split; auto. cbn [b_snap b_bin b_post]. split; auto. split; auto.
      intros c Hc. destruct (pchan_facts c Hc) as (_ & _ & P1 & P2 & _). split; [apply P1; auto|]. split; [apply P2; auto|]. apply Dn. auto.
    + cbv zeta in Em. unfold pending in Em. destruct r as [i|]; [destruct (truthy i)|]; auto. congruence.
  - pose proof Me as (Mi & Ms & Mn & Mc). rewrite Hb in Mc.
    unfold post_n_write, results in E. rewrite Hb in E. cbn [bind] in E.
    assert (Eb : mkBuf (b_size b) None (b_snap b) (b_bins b) (b_snaps b) (b_seg b) (b_post b) = b) by (destruct b; cbn in *; congruence). rewrite Eb in E.
    assert (Me' : pmem H b (S n)).
    { split; auto. split; auto. split; auto. rewrite Hb. intros c Hc. destruct (Mc c Hc) as (E1 & E2 & N0 & marks & mark & M1 & M2 & M3). split; auto. split; auto. split; auto. exists marks, mark. split; [exact M1|]. split; [lia|exact M3]. }
    assert (Unch : acts = [] -> b' = b -> pinv H b' (apply_acts s acts) (S n) /\ b_bin b' = None /\ (forall acts1 acts2, acts = acts1 ++ acts2 -> psinv (apply_acts s acts1) (S n)) /\
       (md_of (s_main (apply_acts s acts)) = None \/ md_of (s_main (apply_acts s acts)) = md_of (s_main s))).
    { intros -> ->. split; [split; auto|]. split; auto. split; [|right; auto]. intros acts1 acts2 Q0. symmetry in Q0. apply app_eq_nil in Q0 as [-> _]. auto. }
    destruct r as [i|]; [destruct (truthy i) eqn:Ti|]; cbn [bind] in E; injection E as <- <-; try (apply Unch; auto; fail). clear Unch.
    assert (Ps : psinv (apply_acts s [(false, store_md (s_main s) (mkMd i p (b_seg b) (b_post b)))]) (S n)).
    { intros md Emd. injection Emd as <-. exists H. cbn [m_restart m_seg m_post]. split; auto. split; auto. split; auto. split; auto. intros c Hc. destruct Me' as (_ & _ & _ & Mc'). rewrite Hb in Mc'. apply (Mc' c Hc). }
    split; [split; auto|]. split; auto. split; [|cbn; congruence]. intros acts1 acts2 EE. destruct acts1 as [|a [|a1 acts1]]; [exact Re'| |discriminate]. injection EE as <- _. exact Ps.
Qed.
Lemma final_pinv_t : forall H b s r p n acts rr, pinv H b s n -> (forall i, r = Some i -> Con i H) -> post_n_write_t truthy k b s true r p = (acts, rr) ->
  forall acts1 acts2, acts = acts1 ++ acts2 -> psinv (apply_acts s acts1) (S n).
Proof.
  intros H b s r p n acts rr Hk HC E acts1 acts2 EE. destruct rr as [b'|e].
  - pose proof (post_n_write_same truthy k b s true r p) as E'. rewrite E in E'. destruct (final_pinv _ _ _ _ _ _ _ _ Hk HC E') as (_ & _ & F & _). apply (F acts1 acts2 EE).
  - destruct (b_bin b) as [g|] eqn:Hb.
    + destruct (final_done H b s r p n g Hk HC Hb) as (_ & _ & Pd). destruct Hk as (St & Me & Re). pose proof (psinv_le _ _ (S n) (Nat.le_succ_diag_r n) Re) as Re'.
      destruct (post_n_write_calls_t b s true r p acts (Err e) g E Hb) as (pb0 & A); [intro Ht; eapply psnap_present; eauto|]. cbv zeta in A.
      destruct (A acts1 acts2 EE) as [Q0|[Q0|(md & Q0 & Q1)]]; [eapply psinv_same; eauto..|]. eapply Pd; eauto. congruence.
    + unfold post_n_write_t, results in E. rewrite Hb in E. destruct r as [i|]; [destruct (truthy i)|]; discriminate.
Qed.
End Key.
