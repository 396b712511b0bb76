(** Interruption of a write (C26), and files of a dataset. *)
Require Import List Arith ZArith Bool Lia Sorting.Sorted Permutation.
Require Import Verif.Common Verif.WrModel Verif.WrSpec Verif.WrIterProofs Verif.WrProofs Verif.WrHistProofs Verif.CrashModel.
Import ListNotations.

(** * Specification *)
(** The dataset [ds] is read through the metadata file: files it refers to are those which are
    described. *)
Definition reads (d : disk) (ds : dataset) : Prop :=
  meta d = Meta ds /\ forall g, In g ds -> files d (Part (part g)) = Some (Complete (content g)).
(** There is no other file. *)
Definition only_files (d : disk) (ds : dataset) : Prop :=
  (forall n, (forall g, In g ds -> part g <> n) -> files d (Part n) = None) /\ forall n, files d (Tmp n) = None.
Definition stored (d : disk) (ds : dataset) : Prop := reads d ds /\ only_files d ds.
Definition nothing (d : disk) : Prop := meta d = NoMeta /\ forall x, files d x = None.
(** Each row group has its own file. *)
Definition distinct_parts (ds : dataset) : Prop := NoDup (map part ds).
(** State after an interruption: some of the actions have been performed. *)
Definition interrupted (d : disk) (acts : list action) (d' : disk) : Prop := exists done rest, acts = done ++ rest /\ exec d done = Some d'.
(** Calls which only add row groups. *)
Definition only_adds (p : params) (ds : dataset) (data : frame) : Prop :=
  max_nirgs p = None /\ (ordered_on p = Unordered \/ exists c, ordered_on p = OrderedOn c /\ sorted_on c (rows data) /\ Forall (fun g => ~ meets c (rows data) g) ds).

(** * Actions *)
Lemma name_eqb_spec : forall x y, reflect (x = y) (name_eqb x y).
Proof. intros [n|n] [m|m]; simpl; try (constructor; congruence); destruct (Nat.eqb_spec n m); constructor; congruence. Qed.
Lemma put_same : forall x f fs, put x f fs x = f.
Proof. intros. unfold put. destruct (name_eqb_spec x x); congruence. Qed.
Lemma put_other : forall x y f fs, x <> y -> put y f fs x = fs x.
Proof. intros. unfold put. destruct (name_eqb_spec x y); congruence. Qed.
Lemma exec_app : forall l l' d, exec d (l ++ l') = match exec d l with Some d' => exec d' l' | None => None end.
Proof. induction l as [|a l IH]; intros l' d; simpl; auto. destruct (act d a); auto. Qed.

(** Files written. *)
Lemma write_rgs_spec : forall l d, distinct_parts l -> exists d', exec d (write_rgs l) = Some d' /\ meta d' = meta d /\
  (forall g, In g l -> files d' (Part (part g)) = Some (Complete (content g))) /\
  (forall x, (forall g, In g l -> x <> Part (part g)) -> files d' x = files d x).
Proof.
  intros l. induction l as [|g l IH]; intros d Hd; [exists d; repeat split; contradiction|]. inversion Hd as [|? ? Hn Hd']; subst.
  change (write_rgs (g :: l)) with ([WriteFile (Part (part g)) Torn; WriteFile (Part (part g)) (Complete (content g))] ++ write_rgs l).
  rewrite exec_app. cbn [exec act]. set (d1 := mkDisk _ _). destruct (IH d1 Hd') as (d' & E & M & F1 & F2). exists d'. split; auto. split; auto. split.
  - intros h [<-|Hh]; auto. rewrite F2; [unfold d1; cbn; apply put_same|]. intros h Hh E'. injection E' as E'. apply Hn. rewrite E'. apply in_map. auto.
  - intros x Hx. rewrite F2; [|intros; apply Hx; simpl; auto]. unfold d1. cbn. rewrite !put_other; auto; apply Hx; simpl; auto.
Qed.
(** Files are written one after the other: an interruption leaves other files and the metadata as they
    are. *)
Lemma write_rgs_prefix : forall l d done rest d', write_rgs l = done ++ rest -> exec d done = Some d' -> meta d' = meta d /\ (forall x, (forall g, In g l -> x <> Part (part g)) -> files d' x = files d x).
Proof.
  intros l. induction l as [|g l IH]; intros d done rest d' H E.
  - simpl in H. symmetry in H. apply app_eq_nil in H as [-> ->]. injection E as <-. auto.
  - change (write_rgs (g :: l)) with ([WriteFile (Part (part g)) Torn; WriteFile (Part (part g)) (Complete (content g))] ++ write_rgs l) in H.
    destruct done as [|a done]; [injection E as <-; auto|]. injection H as <- H. destruct done as [|b done].
    + cbn [exec act] in E. injection E as <-. cbn. split; auto. intros x Hx. apply put_other. apply Hx. simpl. auto.
    + injection H as <- H. cbn [exec act] in E. apply (IH _ _ _ _ H) in E as [M F]. cbn in M, F. split; auto. intros x Hx. rewrite F by (intros; apply Hx; simpl; auto).
      rewrite !put_other; auto; apply Hx; simpl; auto.
Qed.
Lemma remove_rgs_spec : forall l d, distinct_parts l -> (forall g, In g l -> files d (Part (part g)) <> None) -> exists d', exec d (remove_rgs l) = Some d' /\ meta d' = meta d /\
  (forall g, In g l -> files d' (Part (part g)) = None) /\ (forall x, (forall g, In g l -> x <> Part (part g)) -> files d' x = files d x).
Proof.
  intros l. induction l as [|g l IH]; intros d Hd He; [exists d; repeat split; contradiction|]. inversion Hd as [|? ? Hn Hd']; subst.
  cbn [remove_rgs map exec act]. destruct (files d (Part (part g))) as [f|] eqn:Ef; [|exfalso; apply (He g); simpl; auto].
  set (d1 := mkDisk _ _). assert (N : forall h, In h l -> Part (part h) <> Part (part g)) by (intros h Hh E'; injection E' as E'; apply Hn; rewrite <- E'; apply in_map; auto).
  destruct (IH d1 Hd') as (d' & E & M & F1 & F2).
  { intros h Hh. unfold d1. cbn. rewrite put_other by auto. apply He. simpl. auto. }
  exists d'. split; auto. split; auto. split.
  - intros h [<-|Hh]; auto. rewrite F2; [unfold d1; cbn; apply put_same|]. intros h Hh E'. apply (N h Hh). auto.
  - intros x Hx. rewrite F2; [|intros; apply Hx; simpl; auto]. unfold d1. cbn. rewrite put_other; auto; apply Hx; simpl; auto.
Qed.
(** Renaming of files, sources and destinations being different. *)
Lemma renames_spec : forall l d, NoDup (map fst l) -> NoDup (map snd l) -> (forall x, In x (map fst l) -> ~ In x (map snd l)) ->
  (forall x, In x (map fst l) -> files d x <> None) -> exists d', exec d (map (fun xy => RenameFile (fst xy) (snd xy)) l) = Some d' /\ meta d' = meta d /\
  (forall x y, In (x, y) l -> files d' y = files d x) /\
  (forall x, ~ In x (map snd l) -> files d' x = if existsb (name_eqb x) (map fst l) then None else files d x).
Proof.
  intros l. induction l as [|[x y] l IH]; intros d H1 H2 H3 H4; [exists d; repeat split; contradiction|].
  cbn [map fst snd] in *. inversion H1 as [|? ? N1 H1']; inversion H2 as [|? ? N2 H2']; subst.
  assert (Nxy : x <> y) by (intro; subst; apply (H3 y); simpl; auto).
  cbn [exec act]. destruct (files d x) as [f|] eqn:Ef; [|exfalso; apply (H4 x); simpl; auto]. set (d1 := mkDisk _ _).
  assert (K : forall z, z <> x -> z <> y -> files d1 z = files d z) by (intros z Z1 Z2; unfold d1; cbn; rewrite !put_other; auto).
  destruct (IH d1 H1' H2') as (d' & E & M & F1 & F2).
  - intros z Hz Hz'. apply (H3 z); simpl; auto.
  - intros z Hz. rewrite K; [apply H4; simpl; auto|intro; subst; auto|intro; subst; apply (H3 y); simpl; auto].
  - exists d'. split; auto. split; auto. split.
    + intros a b [Hab|Hab].
      * injection Hab as <- <-. rewrite F2 by auto. rewrite (not_true_is_false (existsb _ _)).
        -- unfold d1. cbn. rewrite put_same. auto.
        -- intro Q. apply existsb_exists in Q as (z & Hz & Q). destruct (name_eqb_spec y z); [subst|discriminate]. apply (H3 z); simpl; auto.
      * rewrite (F1 a b Hab). apply K; [intros ->; apply N1; apply (in_map fst) in Hab; auto|]. intros ->. apply (H3 y); simpl; auto. right. apply (in_map fst) in Hab. auto.
    + intros z Hz. rewrite F2 by (intro; apply Hz; simpl; auto). cbn [existsb]. destruct (name_eqb_spec z x) as [->|Nz]; cbn [orb].
      * destruct (existsb (name_eqb x) (map fst l)); auto. unfold d1. cbn. rewrite put_other, put_same; auto.
      * rewrite K; auto. intros ->. apply Hz. simpl. auto.
Qed.

(** * Renaming *)
Lemma moved_in : forall l i p, In (i, p) (moved l) <-> (exists g, nth_error l i = Some g /\ part g = p) /\ i <> p.
Proof.
  intros l i p. unfold moved. rewrite filter_In. cbn [fst snd]. rewrite negb_true_iff, Nat.eqb_neq.
  assert (G : forall l k, In (i, p) (combine (seq k (length l)) (map part l)) <-> (k <= i)%nat /\ exists g, nth_error l (i - k) = Some g /\ part g = p).
  { clear. intro l. induction l as [|g l IH]; intro k; simpl.
    - split; [contradiction|]. intros (_ & g & H & _). destruct (i - k)%nat; discriminate.
    - rewrite (IH (S k)). split.
      + intros [H|(H1 & H2)].
        * injection H as <- <-. split; auto. rewrite Nat.sub_diag. exists g. auto.
        * split; [lia|]. replace (i - k)%nat with (S (i - S k)) by lia. auto.
      + intros (H1 & h & H2 & H3). destruct (Nat.eq_dec k i) as [->|N].
        * rewrite Nat.sub_diag in H2. injection H2 as ->. left. congruence.
        * right. split; [lia|]. replace (i - k)%nat with (S (i - S k)) in H2 by lia. eauto. }
  rewrite (G l 0%nat), Nat.sub_0_r. intuition lia.
Qed.
Lemma combine_fst : forall {A B} (a : list A) (b : list B), length a = length b -> map fst (combine a b) = a.
Proof. intros A B a. induction a as [|x a IH]; intros [|y b] H; simpl in *; try lia; auto. f_equal. auto. Qed.
Lemma combine_snd : forall {A B} (a : list A) (b : list B), length a = length b -> map snd (combine a b) = b.
Proof. intros A B a. induction a as [|x a IH]; intros [|y b] H; simpl in *; try lia; auto. f_equal. auto. Qed.
Lemma NoDup_map_filter : forall {A B} (f : A -> B) t l, NoDup (map f l) -> NoDup (map f (filter t l)).
Proof.
  intros A B f t l. induction l as [|x l IH]; simpl; intro H; auto. inversion H as [|? ? H1 H2]; subst. destruct (t x); simpl; auto.
  constructor; auto. intro Q. apply H1. apply in_map_iff in Q as (y & <- & Hy). apply filter_In in Hy as [Hy _]. apply in_map. auto.
Qed.
Lemma moved_nodup : forall l, distinct_parts l -> NoDup (map fst (moved l)) /\ NoDup (map snd (moved l)).
Proof.
  intros l H. unfold moved. split; apply NoDup_map_filter.
  - rewrite combine_fst by (rewrite seq_length, map_length; auto). apply seq_NoDup.
  - rewrite combine_snd by (rewrite seq_length, map_length; auto). exact H.
Qed.
Lemma renumber_nth : forall l k i, nth_error (renumber k l) i = option_map (fun g => mkRg (k + i) (content g)) (nth_error l i).
Proof.
  intros l. induction l as [|g l IH]; intros k [|i]; simpl; auto; [rewrite Nat.add_0_r; auto|]. rewrite IH. replace (S k + i)%nat with (k + S i)%nat by lia. auto.
Qed.
Lemma renumber_in : forall l g, In g (renumber 0 l) <-> exists i h, nth_error l i = Some h /\ g = mkRg i (content h).
Proof.
  intros l g. split.
  - intro H. apply In_nth_error in H as (i & H). rewrite renumber_nth in H. destruct (nth_error l i) as [h|] eqn:E; [|discriminate]. injection H as <-. eauto.
  - intros (i & h & E & ->). apply nth_error_In with i. rewrite renumber_nth, E. auto.
Qed.
Lemma NoDup_map_inj : forall {A B} (f : A -> B) l i j x y, NoDup (map f l) -> nth_error l i = Some x -> nth_error l j = Some y -> f x = f y -> i = j.
Proof.
  intros A B f l i j x y H Hi Hj E. apply (proj1 (NoDup_nth_error (map f l)) H); [rewrite map_length; apply nth_error_Some; congruence|].
  rewrite !nth_error_map, Hi, Hj. simpl. congruence.
Qed.

(** Files described by a list of row groups. *)
Definition described (d : disk) (ds : dataset) : Prop := forall g, In g ds -> files d (Part (part g)) = Some (Complete (content g)).
Lemma rename_rgs_spec : forall l d, distinct_parts l -> described d l -> only_files d l ->
  exists d', exec d (rename_rgs l) = Some d' /\ meta d' = meta d /\ described d' (renumber 0 l) /\ only_files d' (renumber 0 l).
Proof.
  intros l d Hd Hl Ho. destruct (moved_nodup l Hd) as [N1 N2]. unfold rename_rgs. rewrite exec_app.
  set (l1 := map (fun ip => (Part (snd ip), Tmp (fst ip))) (moved l)). set (l2 := map (fun ip : nat * nat => (Tmp (fst ip), Part (fst ip))) (moved l)).
  replace (map (fun ip => RenameFile (Part (snd ip)) (Tmp (fst ip))) (moved l)) with (map (fun xy => RenameFile (fst xy) (snd xy)) l1) by (unfold l1; rewrite map_map; auto).
  replace (map (fun ip : nat * nat => RenameFile (Tmp (fst ip)) (Part (fst ip))) (moved l)) with (map (fun xy => RenameFile (fst xy) (snd xy)) l2) by (unfold l2; rewrite map_map; auto).
  assert (F1 : map fst l1 = map Part (map snd (moved l))) by (unfold l1; rewrite !map_map; auto).
  assert (S1 : map snd l1 = map Tmp (map fst (moved l))) by (unfold l1; rewrite !map_map; auto).
  assert (F2 : map fst l2 = map Tmp (map fst (moved l))) by (unfold l2; rewrite !map_map; auto).
  assert (S2 : map snd l2 = map Part (map fst (moved l))) by (unfold l2; rewrite !map_map; auto).
  assert (IP : forall L, NoDup L -> NoDup (map Part L)) by (intros L H; apply FinFun.Injective_map_NoDup; auto; intros a b Q; injection Q; auto).
  assert (IT : forall L, NoDup L -> NoDup (map Tmp L)) by (intros L H; apply FinFun.Injective_map_NoDup; auto; intros a b Q; injection Q; auto).
  destruct (renames_spec l1 d) as (d1 & E1 & M1 & A1 & B1).
  { rewrite F1. auto. } { rewrite S1. auto. }
  { rewrite F1, S1. intros x Hx Hx'. apply in_map_iff in Hx as (? & <- & _). apply in_map_iff in Hx' as (? & ? & _). discriminate. }
  { rewrite F1. intros x Hx. apply in_map_iff in Hx as (n & <- & Hn). apply in_map_iff in Hn as ([i p] & <- & Hi). apply moved_in in Hi as ((g & Hg & <-) & _). cbn. rewrite (Hl g); [discriminate|]. eapply nth_error_In; eauto. }
  rewrite E1. destruct (renames_spec l2 d1) as (d2 & E2 & M2 & A2 & B2).
  { rewrite F2. auto. } { rewrite S2. auto. }
  { rewrite F2, S2. intros x Hx Hx'. apply in_map_iff in Hx as (? & <- & _). apply in_map_iff in Hx' as (? & ? & _). discriminate. }
  { rewrite F2. intros x Hx. apply in_map_iff in Hx as (n & <- & Hn). apply in_map_iff in Hn as ([i p] & <- & Hi). cbn.
    rewrite (A1 (Part p) (Tmp i)) by (unfold l1; apply in_map_iff; exists (i, p); auto). apply moved_in in Hi as ((g & Hg & <-) & _). rewrite (Hl g); [discriminate|]. eapply nth_error_In; eauto. }
  exists d2. split; auto. split; [congruence|].
  assert (In1 : forall n, In (Part n) (map fst l1) <-> exists i, In (i, n) (moved l)).
  { intro n. rewrite F1, in_map_iff. split.
    - intros (m & Q & Hm). injection Q as ->. apply in_map_iff in Hm as ([i p] & <- & Hi). eauto.
    - intros (i & Hi). exists n. split; auto. apply in_map_iff. exists (i, n). auto. }
  assert (In2 : forall n, In (Part n) (map snd l2) <-> exists p, In (n, p) (moved l)).
  { intro n. rewrite S2, in_map_iff. split.
    - intros (m & Q & Hm). injection Q as ->. apply in_map_iff in Hm as ([i p] & <- & Hi). eauto.
    - intros (p & Hi). exists n. split; auto. apply in_map_iff. exists (n, p). auto. }
  assert (Stay : forall n, (forall p, ~ In (n, p) (moved l)) -> files d2 (Part n) = if existsb (name_eqb (Part n)) (map fst l1) then None else files d (Part n)).
  { intros n Hn. rewrite B2 by (rewrite In2; intros (p & Hp); eapply Hn; eauto). rewrite (not_true_is_false (existsb _ _)).
    - apply B1. rewrite S1. intro Q. apply in_map_iff in Q as (? & ? & _). discriminate.
    - intro Q. apply existsb_exists in Q as (z & Hz & Q). rewrite F2 in Hz. apply in_map_iff in Hz as (m & <- & _). discriminate. }
  assert (Ex1 : forall n, existsb (name_eqb (Part n)) (map fst l1) = true <-> exists i, In (i, n) (moved l)).
  { intro n. rewrite <- In1, existsb_exists. split; [intros (z & Hz & Q); destruct (name_eqb_spec (Part n) z); [subst; auto|discriminate]|].
    intro H. exists (Part n). split; auto. destruct (name_eqb_spec (Part n) (Part n)); congruence. }
  split; [|split].
  - intros g Hg. apply renumber_in in Hg as (i & h & Hi & ->). cbn. destruct (Nat.eq_dec i (part h)) as [E|N].
    + rewrite Stay.
      * rewrite (not_true_is_false (existsb _ _)); [rewrite E; apply Hl; eapply nth_error_In; eauto|]. intro Q. apply Ex1 in Q as (j & Q). apply moved_in in Q as ((g & Hg & E') & N').
        assert (j = i) by (eapply (NoDup_map_inj part l); eauto; congruence). congruence.
      * intros p Hp. apply moved_in in Hp as ((g & Hg & <-) & N'). congruence.
    + assert (Hm : In (i, part h) (moved l)) by (apply moved_in; eauto).
      rewrite (A2 (Tmp i) (Part i)) by (unfold l2; apply in_map_iff; exists (i, part h); auto).
      rewrite (A1 (Part (part h)) (Tmp i)) by (unfold l1; apply in_map_iff; exists (i, part h); auto). apply Hl. eapply nth_error_In; eauto.
  - intros n Hn. assert (Hn' : nth_error l n = None).
    { destruct (nth_error l n) as [h|] eqn:E; auto. exfalso. apply (Hn (mkRg n (content h))); auto. apply renumber_in. eauto. }
    rewrite Stay by (intros p Hp; apply moved_in in Hp as ((g & Hg & _) & _); congruence).
    destruct (existsb (name_eqb (Part n)) (map fst l1)) eqn:Ee; auto. apply Ho. intros g Hg E. apply In_nth_error in Hg as (i & Hi).
    assert (N : existsb (name_eqb (Part n)) (map fst l1) = true); [|congruence]. apply Ex1. exists i. apply moved_in. split; [eauto|]. congruence.
  - intro n. destruct (in_dec Nat.eq_dec n (map fst (moved l))) as [Hn|Hn].
    + rewrite B2 by (rewrite S2; intro Q; apply in_map_iff in Q as (? & ? & _); discriminate).
      rewrite (proj2 (existsb_exists _ _)); auto. exists (Tmp n). rewrite F2. split; [apply in_map; auto|]. destruct (name_eqb_spec (Tmp n) (Tmp n)); congruence.
    + rewrite B2 by (rewrite S2; intro Q; apply in_map_iff in Q as (? & ? & _); discriminate). rewrite (not_true_is_false (existsb _ _)).
      * rewrite B1 by (rewrite S1; intro Q; apply in_map_iff in Q as (m & Q & Hm); injection Q as ->; auto). rewrite (not_true_is_false (existsb _ _)); [apply Ho|].
        intro Q. apply existsb_exists in Q as (z & Hz & Q). rewrite F1 in Hz. apply in_map_iff in Hz as (m & <- & _). discriminate.
      * intro Q. apply existsb_exists in Q as (z & Hz & Q). rewrite F2 in Hz. apply in_map_iff in Hz as (m & <- & Hm). simpl in Q. apply Nat.eqb_eq in Q. subst. auto.
Qed.

(** * Actions of a write *)
Lemma number_parts_distinct : forall n chunks, distinct_parts (number_parts n chunks) /\ forall g, In g (number_parts n chunks) -> (n <= part g)%nat.
Proof.
  intros n chunks. destruct (number_parts_parts chunks n) as [A B]. split; [|rewrite Forall_forall in B; auto]. clear B. unfold distinct_parts.
  induction A as [|g l A IH F]; simpl; constructor; auto. intro Q. apply in_map_iff in Q as (h & E & Hh). rewrite Forall_forall in F. specialize (F h Hh). lia.
Qed.
Lemma number_parts_app : forall l l' n, number_parts n (l ++ l') = number_parts n l ++ number_parts (n + length (number_parts n l)) l'.
Proof.
  intro l. induction l as [|[|r c] l IH]; intros l' n; simpl; [rewrite Nat.add_0_r; auto|apply IH|]. rewrite IH. do 3 f_equal. lia.
Qed.
Inductive written (ds ds' : dataset) (acts : list action) : Prop :=
  | Created first rest : ds = [] -> ds' = first ++ rest -> acts = write_rgs first ++ write_meta first ++ write_rgs rest ++ write_meta ds' -> distinct_parts ds' -> written ds ds' acts
  | Appended new : ds <> [] -> ds' = ds ++ new -> acts = write_rgs new ++ write_meta ds' -> distinct_parts new -> (forall g h, In g ds -> In h new -> part g < part h)%nat -> written ds ds' acts
  | Updated s e new l : middle s e ds <> [] -> ds = before s ds ++ middle s e ds ++ after e ds -> Permutation l (before s ds ++ after e ds ++ new) -> ds' = renumber 0 l ->
      acts = write_rgs new ++ remove_rgs (middle s e ds) ++ rename_rgs l ++ write_meta ds' ->
      distinct_parts new -> (forall g h, In g ds -> In h new -> part g < part h)%nat -> written ds ds' acts.
Lemma trace_of_write : forall p v ds data ds', write p v ds data = Ok ds' -> exists acts, write_trace p v ds data = Ok acts /\ written ds ds' acts /\ (only_adds p ds data -> exists new, ds' = ds ++ new /\ (ds <> [] -> acts = write_rgs new ++ write_meta ds')).
Proof.
  intros p v ds data ds' H. apply write_inv in H as (ordered & Ho & [(-> & chunks & Hi & ->)|(Hne & dup & st & en & st' & Hd & Hov & Hc & H)]).
  - unfold write_trace. rewrite Ho. cbn [bind]. rewrite Hi. cbn [bind]. eexists. split; [reflexivity|]. split; [|intros _; exists (number_parts 0 chunks); split; [auto|congruence]].
    assert (E : number_parts 0 chunks = number_parts 0 (firstn 1 chunks) ++ skipn (length (number_parts 0 (firstn 1 chunks))) (number_parts 0 chunks)).
    { assert (E0 : number_parts 0 chunks = number_parts 0 (firstn 1 chunks) ++ number_parts (0 + length (number_parts 0 (firstn 1 chunks))) (skipn 1 chunks)) by (rewrite <- number_parts_app, firstn_skipn; auto).
      rewrite E0. rewrite skipn_app, skipn_all, Nat.sub_diag. auto. }
    eapply Created; [auto|exact E|reflexivity|apply number_parts_distinct].
  - unfold write_trace. rewrite Ho. cbn [bind]. destruct ds as [|g0 ds0]; [congruence|]. remember (g0 :: ds0) as ds. clear Heqds g0 ds0. rewrite Hd. cbn [bind]. rewrite Hov. cbn [bind]. rewrite Hc. cbn [bind].
    pose proof (start_end _ _ _ _ _ _ _ Hov Hc) as Hse. destruct st' as [s|].
    + unfold update_rgs in H. unfold update_trace. cbv zeta in *. change (match en with Some e => slice s e ds | None => skipn s ds end) with (middle s en ds) in *. destruct (middle s en ds) as [|g m] eqn:Em; [discriminate|].
      rewrite <- Em in *. destruct (iter_dataframe true _ _ _ _ _) as [chunks|] eqn:Ei; cbn [bind] in *; [|discriminate]. apply Ok_inj in H. subst ds'. eexists. split; [reflexivity|]. split.
      * eapply Updated with (s := s) (e := en); [congruence|apply parts_split; auto| |reflexivity|reflexivity|apply number_parts_distinct|].
        -- change (match en with Some e => skipn e ds | None => [] end) with (after en ds). change (firstn s ds) with (before s ds). rewrite app_assoc. destruct en; [destruct ordered|]; auto. apply sort_by_perm.
        -- intros x y Hx Hy. apply number_parts_distinct in Hy. pose proof (next_part_gt ds x Hx). lia.
      * intros [E A]. assert (Hn : no_meeting p (rows data) ds) by exact A. destruct (overlap_none _ _ _ _ _ _ Hn Ho Hov) as [-> ->]. rewrite E in Hc. discriminate.
    + destruct H as (chunks & Hi & ->). rewrite Hi. cbn [bind]. eexists. split; [reflexivity|]. split; [|intros _; eauto]. eapply Appended; auto; [apply number_parts_distinct|].
      intros x y Hx Hy. apply number_parts_distinct in Hy. pose proof (next_part_gt ds x Hx). lia.
Qed.
Ltac er := let Q := fresh in split; intro Q; first [discriminate Q | injection Q as <-; reflexivity].
Lemma write_errors : forall p v ds data e, write_trace p v ds data = Err e <-> write p v ds data = Err e.
Proof.
  intros p v ds data e. unfold write_trace, write. destruct (check_ordered_on (ordered_on p) (ncols data)) as [ordered|]; cbn [bind]; [|er].
  destruct ds as [|g0 ds0]; [destruct (iter_dataframe _ _ _ _ _ _); cbn [bind]; er|]. remember (g0 :: ds0) as ds. clear Heqds g0 ds0.
  destruct (check_duplicates_on (duplicates_on p) ordered) as [dup|]; cbn [bind]; [|er].
  destruct (match ordered with None => Ok (None, None) | Some c => overlap c ds (rows data) end) as [[st en]|]; cbn [bind]; [|er].
  destruct (coalesce (max_row_group_size p) (max_nirgs p) (Z.of_nat (length (rows data))) ds st en) as [[s|]|]; cbn [bind]; [| |er].
  - unfold update_trace, update_rgs. cbv zeta. change (match en with Some e => slice s e ds | None => skipn s ds end) with (middle s en ds). destruct (middle s en ds); [er|]. destruct (iter_dataframe _ _ _ _ _ _); cbn [bind]; er.
  - destruct (iter_dataframe _ _ _ _ _ _); cbn [bind]; er.
Qed.

Lemma prefix_app : forall {A} (a b done rest : list A), a ++ b = done ++ rest -> (exists r, a = done ++ r /\ rest = r ++ b) \/ (exists done', done = a ++ done' /\ b = done' ++ rest).
Proof.
  intros A a. induction a as [|x a IH]; intros b done rest H; [right; exists done; auto|]. destruct done as [|y done]; [left; exists (x :: a); auto|].
  injection H as <- H. apply IH in H as [(r & -> & ->)|(done' & -> & ->)]; [left; exists r; auto|right; exists done'; auto].
Qed.
Lemma meta_prefix : forall ds d done rest d', write_meta ds = done ++ rest -> exec d done = Some d' -> files d' = files d /\ ((done = [] /\ d' = d) \/ meta d' = TornMeta \/ (rest = [] /\ meta d' = Meta ds)).
Proof.
  intros ds d done rest d' H E. unfold write_meta in H. destruct done as [|a [|b [|c done]]].
  - injection E as <-. auto.
  - injection H as <- H. cbn in E. injection E as <-. auto.
  - injection H as <- <- H. cbn in E. injection E as <-. auto.
  - injection H as <- <- H. destruct done; discriminate.
Qed.
Lemma described_app : forall d a b, described d (a ++ b) <-> described d a /\ described d b.
Proof. intros d a b. unfold described. setoid_rewrite in_app_iff. intuition. Qed.

(** * Uninterrupted writes *)
Lemma distinct_app : forall a b, distinct_parts a -> distinct_parts b -> (forall g h, In g a -> In h b -> (part g < part h)%nat) -> distinct_parts (a ++ b).
Proof.
  intros a b Ha Hb H. unfold distinct_parts in *. rewrite map_app. induction a as [|g a IH]; simpl; auto. inversion Ha as [|? ? N Ha']; subst. constructor.
  - rewrite in_app_iff. intros [Q|Q]; [auto|]. apply in_map_iff in Q as (h & E & Hh). specialize (H g h (or_introl eq_refl) Hh). lia.
  - apply IH; auto. intros; apply H; simpl; auto.
Qed.
Lemma write_meta_exec : forall ds d, exec d (write_meta ds) = Some (mkDisk (files d) (Meta ds)).
Proof. reflexivity. Qed.
(** Files are left in place. *)
Lemma add_files : forall new d old, distinct_parts new -> (forall g h, In g old -> In h new -> (part g < part h)%nat) -> described d old -> only_files d old ->
  exists d', exec d (write_rgs new) = Some d' /\ meta d' = meta d /\ described d' (old ++ new) /\ only_files d' (old ++ new).
Proof.
  intros new d old Hd Hlt Hold Ho. destruct (write_rgs_spec new d Hd) as (d' & E & M & F1 & F2). exists d'. split; auto. split; auto. split.
  - apply described_app. split; auto. intros g Hg. rewrite F2; auto. intros h Hh Q. injection Q as Q. specialize (Hlt g h Hg Hh). lia.
  - split; intro n.
    + intros Hn. rewrite F2; [apply Ho|]; intros; [apply Hn; apply in_or_app; auto|]. intro Q. injection Q as Q. apply (Hn g); [apply in_or_app; auto|auto].
    + rewrite F2; [apply Ho|]. intros; discriminate.
Qed.
Lemma distinct_split : forall a b, distinct_parts (a ++ b) -> distinct_parts a /\ distinct_parts b /\ forall g h, In g a -> In h b -> part g <> part h.
Proof.
  intros a b. unfold distinct_parts. rewrite map_app. induction a as [|x a IH]; simpl; intro H; [repeat split; auto; constructor|]. inversion H as [|? ? N H']; subst. destruct (IH H') as (A & B & C).
  rewrite in_app_iff in N. split; [constructor; auto|]. split; auto. intros g h [<-|Hg] Hh; auto. intro E. apply N. right. rewrite E. apply in_map. auto.
Qed.
Theorem C26_complete : forall p is_vaex ds data ds' d, write p is_vaex ds data = Ok ds' -> distinct_parts ds -> stored d ds \/ (ds = [] /\ nothing d) ->
  exists acts d', write_trace p is_vaex ds data = Ok acts /\ exec d acts = Some d' /\ stored d' ds' /\ distinct_parts ds'.
Proof.
  intros p v ds data ds' d H Hd Hst. destruct (trace_of_write _ _ _ _ _ H) as (acts & Et & W & _). exists acts.
  destruct W as [first rest -> -> -> Hd'|new Hne -> -> Hn Hlt|s e new l Hm Es P -> -> Hn Hlt].
  - assert (D : described d [] /\ only_files d []) by (destruct Hst as [[[_ A] B]|[_ [_ B]]]; split; auto; [intros g []|split; auto]). destruct D as [D1 D2].
    assert (Hf : distinct_parts first /\ distinct_parts rest /\ forall g h, In g first -> In h rest -> part g <> part h).
    { apply distinct_split. auto. }
    destruct Hf as (Hf1 & Hf2 & Hf3). destruct (write_rgs_spec first d Hf1) as (d1 & E1 & M1 & A1 & B1). destruct (write_rgs_spec rest (mkDisk (files d1) (Meta first)) Hf2) as (d2 & E2 & M2 & A2 & B2).
    exists (mkDisk (files d2) (Meta (first ++ rest))). split; auto. split.
    + rewrite exec_app, E1, exec_app, write_meta_exec, exec_app, E2. apply write_meta_exec.
    + split; auto. split; [split; auto|]; cbn.
      * intros g Hg. apply in_app_or in Hg as [Hg|Hg]; auto. rewrite B2; [cbn; auto|]. intros h Hh Q. injection Q as Q. apply (Hf3 g h); auto.
      * split; intro n; cbn.
        -- intro Hn. rewrite B2 by (intros g Hg Q; injection Q as Q; apply (Hn g); auto; apply in_or_app; auto). cbn. rewrite B1 by (intros g Hg Q; injection Q as Q; apply (Hn g); auto; apply in_or_app; auto). apply D2. intros g [].
        -- rewrite B2 by discriminate. cbn. rewrite B1 by discriminate. apply D2.
  - assert (D : described d ds /\ only_files d ds) by (destruct Hst as [[[_ A] B]|[-> _]]; [split; auto|congruence]). destruct D as [D1 D2].
    destruct (add_files new d ds Hn Hlt D1 D2) as (d1 & E1 & M1 & F1 & F2). exists (mkDisk (files d1) (Meta (ds ++ new))). split; auto. split; [rewrite exec_app, E1; apply write_meta_exec|].
    split; [split; [split|]; auto|]. apply distinct_app; auto.
  - assert (D : described d ds /\ only_files d ds).
    { destruct Hst as [[[_ A] B]|[-> _]]; [split; auto|]. exfalso. apply Hm. unfold middle, slice. destruct e; rewrite ?skipn_nil, ?firstn_nil; auto. }
    destruct D as [D1 D2]. destruct (add_files new d ds Hn Hlt D1 D2) as (d1 & E1 & M1 & F1 & F2).
    assert (Hall : distinct_parts (ds ++ new)) by (apply distinct_app; auto).
    assert (Pall : Permutation (ds ++ new) (middle s e ds ++ l)).
    { rewrite P. rewrite Es at 1. rewrite <- !app_assoc. rewrite (app_assoc (middle s e ds)). rewrite (Permutation_app_comm (before s ds)). rewrite <- !app_assoc. apply Permutation_app_head.
      rewrite app_assoc. rewrite (Permutation_app_comm _ (before s ds)). auto. }
    assert (Hml : distinct_parts (middle s e ds ++ l)) by (unfold distinct_parts; eapply Permutation_NoDup; [apply Permutation_map; exact Pall|exact Hall]).
    assert (Hf : distinct_parts (middle s e ds) /\ distinct_parts l /\ forall g h, In g (middle s e ds) -> In h l -> part g <> part h).
    { apply distinct_split. auto. }
    destruct Hf as (Hf1 & Hf2 & Hf3). assert (InEq : forall g, In g (ds ++ new) <-> In g (middle s e ds) \/ In g l).
    { intro g. rewrite <- in_app_iff. split; apply Permutation_in; auto. symmetry. auto. }
    destruct (remove_rgs_spec (middle s e ds) d1 Hf1) as (d2 & E2 & M2 & A2 & B2).
    { intros g Hg. rewrite F1; [discriminate|]. apply InEq. auto. }
    destruct (rename_rgs_spec l d2 Hf2) as (d3 & E3 & M3 & A3 & B3).
    { intros g Hg. rewrite B2; [apply F1; apply InEq; auto|]. intros h Hh Q. injection Q as Q. apply (Hf3 h g); auto. }
    { split; intro n.
      - intros Hnn. destruct (in_dec Nat.eq_dec n (map part (middle s e ds))) as [Q|Q].
        + apply in_map_iff in Q as (g & <- & Hg). apply A2. auto.
        + rewrite B2; [apply F2|]; intros g Hg; [apply InEq in Hg as [Hg|Hg]; auto; intros <-; apply Q; apply in_map; auto|]. intro E. injection E as ->. apply Q. apply in_map. auto.
      - rewrite B2 by discriminate. apply F2. }
    exists (mkDisk (files d3) (Meta (renumber 0 l))). split; auto. split; [rewrite exec_app, E1, exec_app, E2, exec_app, E3; apply write_meta_exec|].
    split; [split; [split|]; auto|]. destruct (renumber_parts l 0) as [I _]. unfold distinct_parts. clear -I. induction I as [|g q I IH F]; simpl; constructor; auto.
    intro Q. apply in_map_iff in Q as (h & E & Hh). rewrite Forall_forall in F. specialize (F h Hh). lia.
Qed.
Print Assumptions C26_complete.
(** Calls one after the other; those which are refused change nothing. *)
Fixpoint perform (d : disk) (ds : dataset) (calls : list (params * bool * frame)) : option (disk * dataset) :=
  match calls with
  | [] => Some (d, ds)
  | (p, is_vaex, data) :: calls =>
      match write p is_vaex ds data, write_trace p is_vaex ds data with
      | Ok ds', Ok acts => match exec d acts with Some d' => perform d' ds' calls | None => None end
      | _, _ => perform d ds calls
      end
  end.
(** After any history of writes, no action has failed, and files are exactly those of the dataset. *)
Theorem C26_history : forall calls d, nothing d -> exists d' ds', perform d [] calls = Some (d', ds') /\ (stored d' ds' \/ (ds' = [] /\ nothing d')).
Proof.
  intros calls. assert (G : forall ds d, distinct_parts ds -> stored d ds \/ (ds = [] /\ nothing d) -> exists d' ds', perform d ds calls = Some (d', ds') /\ (stored d' ds' \/ (ds' = [] /\ nothing d'))).
  { induction calls as [|[[p v] data] calls IH]; intros ds d Hd Hs; [exists d, ds; auto|]. cbn [perform]. destruct (write p v ds data) as [ds'|e] eqn:W; [|auto].
    destruct (C26_complete _ _ _ _ _ _ W Hd Hs) as (acts & d' & -> & -> & S' & D'). auto. }
  intros d Hn. apply G; auto. constructor.
Qed.
Print Assumptions C26_history.

(** * C26: interrupted writes *)
(** An appending write: the old dataset or the new one is read, unless the metadata file itself is
    partially written. Other files may be on disk. *)
Theorem C26_append : forall p is_vaex ds data ds' acts d d', write p is_vaex ds data = Ok ds' -> write_trace p is_vaex ds data = Ok acts ->
  distinct_parts ds -> ds <> [] -> only_adds p ds data -> reads d ds -> interrupted d acts d' ->
  reads d' ds \/ reads d' ds' \/ meta d' = TornMeta.
Proof.
  intros p v ds data ds' acts d d' H Ht Hd Hne Ha [Hm Hr] (done & rest & E & X). destruct (trace_of_write _ _ _ _ _ H) as (acts' & Et & W & A). assert (acts' = acts) by congruence. subst acts'.
  destruct (A Ha) as (new & -> & Eacts). specialize (Eacts Hne). clear A Ha.
  assert (Hnew : distinct_parts new /\ forall g h, In g ds -> In h new -> part g <> part h).
  { destruct (C26_complete _ _ _ _ _ (mkDisk (fun x => match x with Part n => option_map (fun g => Complete (content g)) (find (fun g => (part g =? n)%nat) ds) | Tmp _ => None end) (Meta ds)) H Hd) as (_ & _ & _ & _ & _ & D).
    - left. split; [split; auto|].
      + intros g Hg. cbn. destruct (find (fun g0 => (part g0 =? part g)%nat) ds) as [h|] eqn:F.
        * apply find_some in F as [Fh F]. apply Nat.eqb_eq in F. cbn. do 2 f_equal. f_equal. apply In_nth_error in Fh as (i & Hi). apply In_nth_error in Hg as (j & Hj).
          assert (i = j) by (eapply (NoDup_map_inj part ds); eauto). congruence.
        * exfalso. apply (find_none _ _ F) in Hg. rewrite Nat.eqb_refl in Hg. discriminate.
      + split; auto. intros n Hn. cbn. destruct (find (fun g => (part g =? n)%nat) ds) as [h|] eqn:F; auto. exfalso. apply find_some in F as [Fh F]. apply Nat.eqb_eq in F. apply (Hn h); auto.
    - apply distinct_split in D as (_ & D1 & D2). auto. }
  destruct Hnew as [Hn Hdis]. rewrite Eacts in E. apply prefix_app in E as [(r & E & ->)|(done' & -> & E)].
  - left. destruct (write_rgs_prefix _ _ _ _ _ E X) as [M F]. split; [congruence|]. intros g Hg. rewrite F; [apply Hr; auto|]. intros h Hh Q. injection Q as Q. apply (Hdis g h); auto.
  - rewrite exec_app in X. destruct (write_rgs_spec new d Hn) as (d1 & E1 & M1 & A1 & B1). rewrite E1 in X. destruct (meta_prefix _ _ _ _ _ E X) as [F [(-> & ->)|[T|(-> & T)]]]; auto.
    + left. split; [congruence|]. intros g Hg. rewrite B1; [apply Hr; auto|]. intros h Hh Q. injection Q as Q. apply (Hdis g h); auto.
    + right. left. split; auto. rewrite F. apply described_app. split; auto. intros g Hg. rewrite B1; [apply Hr; auto|]. intros h Hh Q. injection Q as Q. apply (Hdis g h); auto.
Qed.
Print Assumptions C26_append.
(** The same write, started again after the interruption: files are those of an uninterrupted write. *)
Theorem C26_append_rerun : forall p is_vaex ds data ds' acts d d', write p is_vaex ds data = Ok ds' -> write_trace p is_vaex ds data = Ok acts ->
  distinct_parts ds -> ds <> [] -> only_adds p ds data -> stored d ds -> interrupted d acts d' -> meta d' = Meta ds ->
  exists d2, exec d' acts = Some d2 /\ stored d2 ds'.
Proof.
  intros p v ds data ds' acts d d' H Ht Hd Hne Ha Hs (done & rest & E & X) Hm. destruct (C26_complete _ _ _ _ _ d H Hd (or_introl Hs)) as (acts' & df & Et & Ef & Sf & Hd'). assert (acts' = acts) by congruence. subst acts'.
  destruct (trace_of_write _ _ _ _ _ H) as (acts' & Et' & W & A). assert (acts' = acts) by congruence. subst acts'.
  destruct (A Ha) as (new & -> & Eacts). specialize (Eacts Hne). rewrite Eacts in *. clear Eacts A W Et Et' Ht. apply distinct_split in Hd' as (_ & Hn & Hdis).
  destruct (write_rgs_spec new d Hn) as (d1 & E1 & M1 & A1 & B1). rewrite exec_app, E1, write_meta_exec in Ef. injection Ef as <-. destruct Sf as [[_ S1] S2]. cbn in S1.
  destruct (write_rgs_spec new d' Hn) as (d2 & E2 & M2 & A2 & B2). exists (mkDisk (files d2) (Meta (ds ++ new))). rewrite exec_app, E2, write_meta_exec. split; auto.
  assert (Eq : forall x, files d2 x = files d1 x).
  { assert (Pre : forall x, (forall g, In g new -> x <> Part (part g)) -> files d' x = files d x).
    { apply prefix_app in E as [(r & E & ->)|(done' & -> & E)]; [apply (write_rgs_prefix _ _ _ _ _ E X)|]. rewrite exec_app, E1 in X. apply (meta_prefix _ _ _ _ _ E) in X as [F _]. rewrite F. auto. }
    intro x. assert (Dec : (exists g, In g new /\ x = Part (part g)) \/ (forall g, In g new -> x <> Part (part g))).
    { destruct x as [n|n]; [|right; discriminate]. destruct (in_dec Nat.eq_dec n (map part new)) as [Q|Q].
      - left. apply in_map_iff in Q as (g & <- & Hg). eauto.
      - right. intros g Hg Z. injection Z as ->. apply Q. apply in_map. auto. }
    destruct Dec as [(g & Hg & ->)|N]; [rewrite A1, A2; auto|]. rewrite B1, B2 by auto. auto. }
  split; [split; auto|].
  - intros g Hg. cbn. rewrite Eq. auto.
  - destruct S2 as [S2 S3]. split; [intros n Hn'; cbn; rewrite Eq; apply S2; auto|intro n; cbn; rewrite Eq; apply S3].
Qed.
Print Assumptions C26_append_rerun.
(** Creation of a dataset: nothing is read, or a dataset with the first row groups only, or all of it. *)
Theorem C26_creation : forall p is_vaex data ds' acts d d', write p is_vaex [] data = Ok ds' -> write_trace p is_vaex [] data = Ok acts ->
  nothing d -> interrupted d acts d' -> meta d' = NoMeta \/ meta d' = TornMeta \/ exists ds1 ds2, ds' = ds1 ++ ds2 /\ reads d' ds1.
Proof.
  intros p v data ds' acts d d' H Ht [Hm Hn] (done & rest & E & X). destruct (trace_of_write _ _ _ _ _ H) as (acts' & Et & W & _). assert (acts' = acts) by congruence. subst acts'.
  destruct W as [first rst _ -> Eacts Hd'|new Hne _ _ _ _|s e new l Hmid _ _ _ _ _ _]; [|congruence|exfalso; apply Hmid; unfold middle, slice; destruct e; rewrite ?skipn_nil, ?firstn_nil; auto].
  apply distinct_split in Hd' as (Hf & Hr & Hdis). destruct (write_rgs_spec first d Hf) as (d1 & E1 & M1 & A1 & B1). rewrite Eacts in E. clear Eacts Et Ht.
  apply prefix_app in E as [(r & E & ->)|(done' & -> & E)].
  - left. destruct (write_rgs_prefix _ _ _ _ _ E X) as [M _]. congruence.
  - rewrite exec_app, E1 in X. apply prefix_app in E as [(r & E & ->)|(done2 & -> & E)].
    + destruct (meta_prefix _ _ _ _ _ E X) as [F [(-> & ->)|[T|(-> & T)]]]; auto; [left; congruence|]. right. right. exists first, rst. split; auto. split; auto. rewrite F. auto.
    + rewrite exec_app, write_meta_exec in X. set (dm := mkDisk (files d1) (Meta first)) in *. destruct (write_rgs_spec rst dm Hr) as (d2 & E2 & M2 & A2 & B2).
      apply prefix_app in E as [(r & E & ->)|(done3 & -> & E)].
      * destruct (write_rgs_prefix _ _ _ _ _ E X) as [M F]. right. right. exists first, rst. split; auto. split; [auto|]. intros g Hg. rewrite F; [apply A1; auto|]. intros h Hh Q. injection Q as Q. apply (Hdis g h); auto.
      * rewrite exec_app, E2 in X. assert (K : described d2 first) by (intros g Hg; rewrite B2; [apply A1; auto|]; intros h Hh Q; injection Q as Q; apply (Hdis g h); auto).
        destruct (meta_prefix _ _ _ _ _ E X) as [F [(-> & ->)|[T|(-> & T)]]]; auto; right; right.
        -- exists first, rst. split; auto. split; auto.
        -- exists (first ++ rst), []. rewrite app_nil_r. split; auto. split; auto. rewrite F. apply described_app. auto.
Qed.
Print Assumptions C26_creation.
(** An updating write: the old dataset is read as long as no file is removed. *)
Theorem C26_update : forall p is_vaex ds data ds' acts d done rest d', write p is_vaex ds data = Ok ds' -> write_trace p is_vaex ds data = Ok acts ->
  distinct_parts ds -> stored d ds -> acts = done ++ rest -> exec d done = Some d' ->
  (rest = [] -> reads d' ds') /\
  (Forall (fun a => match a with WriteFile _ _ => True | _ => False end) done -> reads d' ds).
Proof.
  intros p v ds data ds' acts d done rest d' H Ht Hd Hs E X. split.
  - intros ->. rewrite app_nil_r in E. subst. destruct (C26_complete _ _ _ _ _ d H Hd (or_introl Hs)) as (acts & d2 & Et & E2 & S2 & _). assert (acts = done) by congruence. subst acts. assert (d2 = d') by congruence. subst. apply S2.
  - intro F. destruct (trace_of_write _ _ _ _ _ H) as (acts' & Et & W & _). assert (acts' = acts) by congruence. subst acts'. clear Et Ht.
    assert (K : exists new tail, acts = write_rgs new ++ tail /\ match tail with WriteFile _ _ :: _ => False | _ => True end /\ forall g h, In g ds -> In h new -> part g <> part h).
    { destruct W as [first rst -> _ -> _|new Hne _ -> _ Hlt|s e new l Hm _ _ _ -> _ Hlt].
      - exists first. eexists. split; [reflexivity|]. split; [exact I|contradiction].
      - exists new. eexists. split; [reflexivity|]. split; [exact I|]. intros g h Hg Hh. specialize (Hlt g h Hg Hh). lia.
      - exists new. eexists. split; [reflexivity|]. split; [destruct (middle s e ds); [congruence|exact I]|]. intros g h Hg Hh. specialize (Hlt g h Hg Hh). lia. }
    destruct K as (new & tail & -> & Htail & Hdis). destruct Hs as [[Hm Hr] _].
    apply prefix_app in E as [(r & E & ->)|(done' & -> & E)].
    + destruct (write_rgs_prefix _ _ _ _ _ E X) as [M Q]. split; [congruence|]. intros g Hg. rewrite Q; [apply Hr; auto|]. intros h Hh Z. injection Z as Z. apply (Hdis g h); auto.
    + destruct done' as [|a done'].
      * rewrite app_nil_r in X. destruct (write_rgs_prefix new d (write_rgs new) [] d' (eq_sym (app_nil_r _)) X) as [M Q]. split; [congruence|]. intros g Hg. rewrite Q; [apply Hr; auto|]. intros h Hh Z. injection Z as Z. apply (Hdis g h); auto.
      * exfalso. apply Forall_app in F as [_ F]. inversion F as [|? ? Fa _]; subst. destruct a; [apply Htail|contradiction..].
Qed.
Print Assumptions C26_update.

(** Examples: a dataset of two row groups. *)
Definition one (k v : Z) : row := [k; v].
Definition two_groups : dataset := [mkRg 0 [one 1 0; one 2 0]; mkRg 1 [one 3 0; one 4 0]].
Definition disk_of (ds : dataset) : disk :=
  mkDisk (fun x => match x with Part n => option_map (fun g => Complete (content g)) (find (fun g => (part g =? n)%nat) ds) | Tmp _ => None end) (Meta ds).
Lemma ex_stored : stored (disk_of two_groups) two_groups /\ distinct_parts two_groups.
Proof.
  split; [split; [split; [reflexivity|]|split; [|reflexivity]]|].
  - intros g [<-|[<-|[]]]; reflexivity.
  - intros n Hn. cbn. destruct n as [|[|n]]; auto; exfalso; [apply (Hn (mkRg 0 [one 1 0; one 2 0])); simpl; auto|apply (Hn (mkRg 1 [one 3 0; one 4 0])); simpl; auto].
  - repeat constructor; simpl; intuition discriminate.
Qed.
Definition plain : params := mkParams (Some 2%Z) (OrderedOn 0) None None.
Definition appended : frame := mkFrame 2 [one 5 0; one 6 0; one 7 0].
Definition inserted : frame := mkFrame 2 [one 2 1].
Example ex_C26_append : exists ds' acts, write plain false two_groups appended = Ok ds' /\ write_trace plain false two_groups appended = Ok acts /\ only_adds plain two_groups appended /\ length acts = 6%nat.
Proof.
  eexists. eexists. split; [reflexivity|]. split; [reflexivity|]. split; [|reflexivity]. split; [reflexivity|]. right. exists 0%nat. split; [reflexivity|]. split.
  - unfold sorted_on, col. simpl. repeat constructor; simpl; lia.
  - repeat constructor; intros (r & s & d & d' & Hr & Hs & Hd & Hd' & L1 & L2); unfold col in *; simpl in *; intuition (subst; simpl in *; lia).
Qed.
Example ex_C26_update : exists ds' acts, write plain false two_groups inserted = Ok ds' /\ write_trace plain false two_groups inserted = Ok acts /\
  In (RemoveFile (Part 0)) acts /\ In (RenameFile (Part 2) (Tmp 0)) acts.
Proof. eexists. eexists. split; [reflexivity|]. split; [reflexivity|]. split; simpl; tauto. Qed.

(** An updating write interrupted after a removal: no dataset is read. *)
Theorem C26_update_refuted : exists p ds data ds' acts d d', write p false ds data = Ok ds' /\ write_trace p false ds data = Ok acts /\ distinct_parts ds /\ stored d ds /\
  interrupted d acts d' /\ meta d' = Meta ds /\ forall ds0, ~ reads d' ds0.
Proof.
  exists plain, two_groups, inserted. eexists. eexists. exists (disk_of two_groups). eexists. split; [reflexivity|]. split; [reflexivity|]. destruct ex_stored as [S D]. split; auto. split; auto.
  split; [|split].
  - eexists (firstn 7 _), (skipn 7 _). split; [symmetry; apply firstn_skipn|]. cbn. reflexivity.
  - reflexivity.
  - intros ds0 [M F]. cbn in M. injection M as <-. specialize (F (mkRg 0 [one 1 0; one 2 0]) (or_introl eq_refl)). cbn in F. discriminate.
Qed.
Print Assumptions C26_update_refuted.
(** A new dataset of which only the first row group is read, after an interruption. *)
Theorem C26_creation_refuted : exists p data ds' acts d d' ds0, write p false [] data = Ok ds' /\ write_trace p false [] data = Ok acts /\ nothing d /\
  interrupted d acts d' /\ reads d' ds0 /\ ds0 <> [] /\ ds0 <> ds'.
Proof.
  exists plain, appended. eexists. eexists. exists (mkDisk (fun _ => None) NoMeta). eexists. exists [mkRg 0 [one 5 0; one 6 0]]. split; [reflexivity|]. split; [reflexivity|]. split; [split; auto|].
  split; [|split].
  - eexists (firstn 4 _), (skipn 4 _). split; [symmetry; apply firstn_skipn|]. cbn. reflexivity.
  - split; [reflexivity|]. intros g [<-|[]]. reflexivity.
  - split; discriminate.
Qed.
Print Assumptions C26_creation_refuted.
(** An appending write interrupted leaves files which are not in the dataset, and which are still there
    after another write: reading all files of the directory does not give the dataset. *)
Theorem C26_orphan_refuted : exists p ds data data2 ds2 acts acts2 d d' d2 rows, write p false ds data2 = Ok ds2 /\ write_trace p false ds data = Ok acts /\ write_trace p false ds data2 = Ok acts2 /\
  distinct_parts ds /\ stored d ds /\ interrupted d acts d' /\ reads d' ds /\ exec d' acts2 = Some d2 /\ reads d2 ds2 /\
  files d2 (Part 3) = Some (Complete rows) /\ rows <> [] /\ forall g, In g ds2 -> part g <> 3%nat.
Proof.
  exists plain, two_groups, appended, (mkFrame 2 [one 9 9]). eexists. eexists. eexists. exists (disk_of two_groups). eexists. eexists. exists [one 7 0].
  split; [reflexivity|]. split; [reflexivity|]. split; [reflexivity|]. destruct ex_stored as [S D]. split; auto. split; auto.
  split; [eexists (firstn 4 _), (skipn 4 _); split; [symmetry; apply firstn_skipn|]; cbn; reflexivity|].
  split; [split; [reflexivity|]; intros g [<-|[<-|[]]]; reflexivity|]. split; [cbn; reflexivity|].
  split; [split; [reflexivity|]; intros g [<-|[<-|[<-|[]]]]; reflexivity|]. split; [reflexivity|]. split; [discriminate|]. intros g [<-|[<-|[<-|[]]]]; discriminate.
Qed.
Print Assumptions C26_orphan_refuted.
(** An appending write interrupted when the metadata file is written. *)
Theorem C26_torn_refuted : exists p ds data ds' acts d d', write p false ds data = Ok ds' /\ write_trace p false ds data = Ok acts /\ only_adds p ds data /\ stored d ds /\
  interrupted d acts d' /\ forall ds0, ~ reads d' ds0.
Proof.
  destruct ex_C26_append as (ds' & acts & W & T & A & _). exists plain, two_groups, appended, ds', acts, (disk_of two_groups). destruct ex_stored as [S _]. injection T as <-.
  eexists. split; auto. split; [reflexivity|]. split; auto. split; auto. split.
  - eexists (firstn 5 _), (skipn 5 _). split; [symmetry; apply firstn_skipn|]. cbn. reflexivity.
  - intros ds0 [M _]. discriminate.
Qed.
Print Assumptions C26_torn_refuted.

(** * C27 *)
(** A call which is refused performs no action. *)
Theorem C27_no_action : forall p is_vaex ds data e, write p is_vaex ds data = Err e -> write_trace p is_vaex ds data = Err e.
Proof. intros. apply write_errors. auto. Qed.
Print Assumptions C27_no_action.
