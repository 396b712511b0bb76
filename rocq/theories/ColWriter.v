(** A writer, to show that what is assumed of writers can be met: it creates the directory, and a file
    '_metadata' in it if there is none. It fails without doing anything if a file is in the way. *)
Require Import String List Arith ZArith Bool Lia.
Require Import Verif.Common Verif.IdxModel Verif.IdxSpec Verif.IdxStrProofs Verif.ColModel Verif.ColSpec Verif.ColProofs Verif.ColScanProofs Verif.ColStoreProofs.
Import ListNotations.
Local Open Scope list_scope.

(** 'os.makedirs': directories [p ++ firstn i ns]. *)
Fixpoint makedirs (f : fs) (p : path) (ns : list str) : option fs :=
  match ns with
  | [] => Some f
  | n :: ns' =>
      match lookup f (p ++ [n]) with
      | None => makedirs ((p ++ [n], KDir) :: f) (p ++ [n]) ns'
      | Some KDir => makedirs f (p ++ [n]) ns'
      | Some (KFile _) => None
      end
  end.

Definition simple_writer (content : list nat) : writer := fun f s =>
  match makedirs f [] (dir_names s) with
  | None => (f, Some OSError)
  | Some f1 =>
      match lookup f1 (dir_names s ++ [lit "_metadata"]) with
      | None => ((dir_names s ++ [lit "_metadata"], KFile content) :: f1, None)
      | Some (KFile _) => (f1, None)
      | Some KDir => (f, Some OSError)
      end
  end.

Lemma lookup_cons : forall f p k q, p <> [] -> lookup ((p, k) :: f) q = if path_eqb q p then Some k else lookup f q.
Proof.
  intros f p k [|n q] Hp; simpl; [|reflexivity]. destruct (path_eqb [] p) eqn:E; auto. apply path_eqb_eq in E. congruence.
Qed.

Lemma add_spec : forall f p n k, wf f -> good_name n -> lookup f p = Some KDir -> lookup f (p ++ [n]) = None ->
  wf ((p ++ [n], k) :: f) /\ lookup ((p ++ [n], k) :: f) (p ++ [n]) = Some k /\
  forall q, q <> p ++ [n] -> lookup ((p ++ [n], k) :: f) q = lookup f q.
Proof.
  intros f p n k Hw Hn Hp Hq. assert (NE : p ++ [n] <> []) by (destruct p; discriminate).
  assert (L : forall q, q <> p ++ [n] -> lookup ((p ++ [n], k) :: f) q = lookup f q).
  { intros q D. rewrite lookup_cons by auto. destruct (path_eqb q (p ++ [n])) eqn:E; auto. apply path_eqb_eq in E. contradiction. }
  split; [|split; auto].
  - split.
    + simpl. constructor; [|apply Hw]. intro Q. apply in_map_iff in Q as ([q k'] & E & Q). simpl in E. subst q. apply In_lookup in Q; auto. congruence.
    + intros q k' [E|Q].
      * injection E as <- <-. split; auto. split.
        -- apply Forall_app. split; [eapply lookup_names; eauto|constructor; auto].
        -- rewrite removelast_last, L; auto. intro Q. apply (f_equal (@length _)) in Q. rewrite app_length in Q. simpl in Q. lia.
      * destruct Hw as [_ Hw]. destruct (Hw q k' Q) as (A & B & C). split; auto. split; auto. rewrite L; auto. intros E.
        rewrite E in C. congruence.
  - rewrite lookup_cons by auto. rewrite (proj2 (path_eqb_eq _ _) eq_refl). auto.
Qed.

Lemma makedirs_spec : forall ns f p f', wf f -> Forall good_name ns -> lookup f p = Some KDir -> makedirs f p ns = Some f' ->
  wf f' /\ lookup f' (p ++ ns) = Some KDir /\
  forall q, lookup f' q = lookup f q \/ (prefix q (p ++ ns) /\ lookup f q = None /\ lookup f' q = Some KDir).
Proof.
  induction ns as [|n ns IH]; intros f p f' Hw Hg Hp H; simpl in H.
  - injection H as <-. rewrite app_nil_r. auto.
  - inversion Hg; subst. replace (p ++ n :: ns) with ((p ++ [n]) ++ ns) by (rewrite <- app_assoc; auto).
    destruct (lookup f (p ++ [n])) as [[|ct]|] eqn:E.
    + apply IH in H; auto.
    + discriminate.
    + destruct (add_spec f p n KDir Hw H2 Hp E) as (W & A & B). destruct (IH _ _ _ W H3 A H) as (W' & C & D). split; auto. split; auto.
      intro q. destruct (list_eq_dec (list_eq_dec Nat.eq_dec) q (p ++ [n])) as [->|Q].
      * destruct (D (p ++ [n])) as [E'|(_ & E' & _)]; [|congruence]. right. split; [exists ns; auto|]. split; auto. congruence.
      * rewrite <- (B q Q). apply D.
Qed.

Lemma dir_names_good : forall s, Forall good_name (dir_names s).
Proof.
  intro s. apply Forall_forall. intros n H. unfold dir_names in H. apply filter_In in H as [H1 H2]. split; [destruct n; [discriminate|congruence]|].
  intro Q. pose proof (split_pieces (Nat.eqb slash) s n H1 slash Q) as P.
  rewrite Nat.eqb_refl in P. discriminate.
Qed.

Lemma simple_writer_good : forall content, good_writer (simple_writer content).
Proof.
  intros content f s Hw. unfold simple_writer. destruct (makedirs f [] (dir_names s)) as [f1|] eqn:E; [|auto].
  destruct (makedirs_spec _ _ [] _ Hw (dir_names_good s) eq_refl E) as (W & A & B). simpl app in A, B.
  destruct (lookup f1 (dir_names s ++ [lit "_metadata"])) as [[|ct]|] eqn:Q; auto.
  - split; [split; [auto|intros p _; apply B]|]. exists (lit "_metadata"), ct. split; auto.
  - assert (G : good_name (lit "_metadata")).
    { split; [discriminate|]. simpl. intuition discriminate. }
    destruct (add_spec f1 (dir_names s) (lit "_metadata") (KFile content) W G A Q) as (W' & C & D). split; [split; [exact W'|]|].
    + intros p Hp. rewrite D; [apply B|]. intros ->. apply Hp. exists [lit "_metadata"]. auto.
    + exists (lit "_metadata"), content. split; auto.
Qed.

Lemma good_confined : forall w, good_writer w -> confined_writer w.
Proof.
  intros w W f s Hw. specialize (W f s Hw). destruct (w f s) as [f' [e|]]; simpl.
  - subst. split; auto.
  - apply W.
Qed.
