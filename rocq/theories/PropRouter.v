(** Properties of reading: order of files (C30), extreme values (C31), same rows through pandas and vaex
    (C56). *)
Require Import String List Arith ZArith Bool Lia Sorting.Sorted Permutation.
Require Import Verif.Common Verif.IdxModel Verif.IdxProofs Verif.WrModel Verif.WrSpec Verif.WrIterProofs Verif.WrProofs Verif.WrHistProofs Verif.CrashModel Verif.PropCrash Verif.RouterModel.
Import ListNotations.
Local Open Scope list_scope.

(** * C30 *)
Lemma str_eqb_eq : forall a b, str_eqb a b = true <-> a = b.
Proof. intros a b. unfold str_eqb. destruct (list_eq_dec Nat.eq_dec a b); split; congruence. Qed.
Lemma file_part_parquet : forall n, is_parquet (file_part n) = true.
Proof.
  intro n. unfold is_parquet, file_part. apply str_eqb_eq. set (x := int_str (Z.of_nat n)). change (lit ".parquet") with ([46] ++ lit "parquet"). rewrite !app_assoc. set (y := (lit "part." ++ x) ++ [46]).
  rewrite app_length. change (length (lit "parquet")) with 7. rewrite Nat.add_sub, skipn_app, skipn_all, Nat.sub_diag. auto.
Qed.
Lemma file_part_number : forall n, part_number (file_part n) = Some (Z.of_nat n).
Proof.
  intro n. unfold part_number, file_part. rewrite app_assoc, app_length. change (length (lit ".parquet")) with 8. rewrite Nat.add_sub, firstn_app, firstn_all, Nat.sub_diag. cbn [firstn]. rewrite app_nil_r.
  change 5 with (length (lit "part.")) at 1. rewrite skipn_app, skipn_all, Nat.sub_diag. cbn [skipn app]. apply parse_int_str.
Qed.
Lemma file_part_inj : forall a b, file_part a = file_part b -> a = b.
Proof. intros a b H. apply (f_equal part_number) in H. rewrite !file_part_number in H. injection H as H. lia. Qed.

Lemma numbered_parts : forall l, numbered (map file_part l) = Ok (map (fun n => (Z.of_nat n, file_part n)) l).
Proof. induction l as [|n l IH]; auto. cbn [map numbered]. rewrite file_part_number, IH. auto. Qed.
Lemma perm_map : forall {A B} (f : A -> B) l p, Permutation l (map f p) -> exists q, l = map f q /\ Permutation q p.
Proof.
  intros A B f l p H. remember (map f p) as m eqn:E. revert p E. induction H as [|x a b H IH|x y a|a b c H1 IH1 H2 IH2]; intros p E.
  - symmetry in E. apply map_eq_nil in E. subst. exists []. auto.
  - destruct p as [|z p]; [discriminate|]. injection E as -> E. destruct (IH p E) as (q & -> & Q). exists (z :: q). auto.
  - destruct p as [|z [|w p]]; [discriminate..|]. injection E as -> -> ->. exists (w :: z :: p). split; auto. constructor.
  - destruct (IH2 p E) as (q & -> & Q). destruct (IH1 q eq_refl) as (r & -> & R). exists r. split; auto. rewrite R. auto.
Qed.
(** Files listed in any order, with other files. *)
Theorem C30_order : forall listing others parts, Permutation listing (map file_part parts ++ others) -> Forall (fun x => is_parquet x = false) others -> NoDup parts ->
  exists sorted, vdf_files listing = Ok (map file_part sorted) /\ StronglySorted lt sorted /\ Permutation sorted parts.
Proof.
  intros listing others parts P F Hn.
  assert (Pf : Permutation (filter is_parquet listing) (map file_part parts)).
  { assert (G : forall a b, Permutation a b -> Permutation (filter is_parquet a) (filter is_parquet b)).
    { clear. induction 1 as [|x a b H IH|x y a|a b c H1 IH1 H2 IH2]; simpl; auto; [destruct (is_parquet x); auto|destruct (is_parquet x), (is_parquet y); auto; constructor|etransitivity; eauto]. }
    rewrite (G _ _ P). rewrite filter_app. assert (E : filter is_parquet others = []).
    { clear -F. induction F as [|x l Hx F IH]; simpl; auto. rewrite Hx. auto. }
    rewrite E, app_nil_r. assert (E2 : filter is_parquet (map file_part parts) = map file_part parts).
    { clear. induction parts as [|n l IH]; auto. cbn [map filter]. rewrite file_part_parquet, IH. auto. }
    rewrite E2. auto. }
  apply perm_map in Pf as (q & Eq & Pq). unfold vdf_files. rewrite Eq, numbered_parts. cbn [bind].
  pose proof (sort_by_perm (@fst Z str) (map (fun n => (Z.of_nat n, file_part n)) q)) as Ps. apply perm_map in Ps as (srt & Es & Psrt). rewrite Es.
  exists srt. rewrite map_map. split; [reflexivity|]. assert (Hs : NoDup srt) by (eapply Permutation_NoDup; [|exact Hn]; rewrite Psrt, Pq; auto). split; [|rewrite Psrt; auto].
  pose proof (sort_by_sorted (@fst Z str) (map (fun n => (Z.of_nat n, file_part n)) q)) as S. rewrite Es in S. clear -S Hs.
  induction srt as [|n srt IH]; constructor.
  - inversion Hs; subst. simpl in S. inversion S; subst. auto.
  - simpl in S. inversion S as [|? ? _ G]; subst. inversion Hs as [|? ? N _]; subst. apply Forall_forall. intros m Hm. rewrite Forall_forall in G. specialize (G (Z.of_nat m, file_part m) ltac:(apply in_map_iff; eauto)). simpl in G.
    assert (n <> m) by (intros ->; auto). lia.
Qed.
Print Assumptions C30_order.
Example ex_C30 : vdf_files [file_part 10; lit "_metadata"; file_part 9; lit "_common_metadata"; file_part 0; lit "part.3.parquet.tmp"] = Ok [file_part 0; file_part 9; file_part 10]
  /\ Forall (fun x => is_parquet x = false) [lit "_metadata"; lit "_common_metadata"; lit "part.3.parquet.tmp"].
Proof. split; [reflexivity|repeat constructor]. Qed.
(** Another parquet file in the directory. *)
Theorem C30_foreign_refuted : is_parquet (lit "dataset.parquet") = true /\ vdf_files [file_part 0; lit "data.parquet"] = Err ValueError.
Proof. split; reflexivity. Qed.
Print Assumptions C30_foreign_refuted.

(** * C56 *)
(** Files of a directory, from the disk of the crash model. *)
Definition lists (dir : directory) (d : disk) : Prop :=
  NoDup (map fst dir) /\
  (forall n r, In (file_part n, r) dir <-> files d (Part n) = Some (Complete r)) /\
  forall x r, In (x, r) dir -> is_parquet x = true -> exists n, x = file_part n.
Lemma read_file_in : forall dir x r, NoDup (map fst dir) -> In (x, r) dir -> read_file x dir = r.
Proof.
  induction dir as [|[y s] dir IH]; intros x r Hn H; [contradiction|]. simpl in *. inversion Hn as [|? ? N Hn']; subst. destruct (str_eqb x y) eqn:E.
  - apply str_eqb_eq in E. subst. destruct H as [H|H]; [congruence|]. exfalso. apply N. apply (in_map fst) in H. auto.
  - destruct H as [H|H]; auto. injection H as -> ->. assert (str_eqb x x = true) by (apply str_eqb_eq; auto). congruence.
Qed.
Lemma parts_lt : forall ds, increasing_parts ds -> StronglySorted lt (map part ds).
Proof. intros ds H. induction H as [|g l H IH F]; simpl; constructor; auto. apply Forall_map. auto. Qed.
Lemma lt_unique : forall a b, StronglySorted lt a -> StronglySorted lt b -> Permutation a b -> a = b.
Proof.
  induction a as [|x a IH]; intros b Ha Hb P; [apply Permutation_nil in P; auto|]. destruct b as [|y b]; [symmetry in P; apply Permutation_nil in P; discriminate|].
  inversion Ha as [|? ? Ha' Fa]; inversion Hb as [|? ? Hb' Fb]; subst. rewrite Forall_forall in Fa, Fb.
  assert (x = y).
  { assert (Ix : In x (y :: b)) by (eapply Permutation_in; [exact P|simpl; auto]). assert (Iy : In y (x :: a)) by (eapply Permutation_in; [symmetry; exact P|simpl; auto]).
    destruct Ix as [|Ix]; auto. destruct Iy as [|Iy]; auto. specialize (Fa y Iy). specialize (Fb x Ix). lia. }
  subst y. f_equal. apply IH; auto. eapply Permutation_cons_inv. eauto.
Qed.
Lemma vdf_stored : forall d ds dir, stored d ds -> increasing_parts ds -> lists dir d -> vdf dir = Ok (pdf ds).
Proof.
  intros d ds dir [[_ Hr] [Ho _]] Hi (Hn & Hl & Hp). pose proof (parts_lt _ Hi) as Hlt.
  assert (Hnd : NoDup (map part ds)).
  { clear -Hlt. induction Hlt as [|n l H IH F]; constructor; auto. intro Q. rewrite Forall_forall in F. specialize (F n Q). lia. }
  assert (Pq : Permutation (filter is_parquet (map fst dir)) (map file_part (map part ds))).
  { apply NoDup_Permutation.
    - apply NoDup_filter. auto.
    - apply FinFun.Injective_map_NoDup; auto. intros a b. apply file_part_inj.
    - intro x. rewrite filter_In. split.
      + intros [Hx Hq]. apply in_map_iff in Hx as ([y r] & <- & Hy). cbn [fst] in *. destruct (Hp y r Hy Hq) as (n & ->). apply in_map. destruct (in_dec Nat.eq_dec n (map part ds)) as [Q|Q]; auto. exfalso.
        apply Hl in Hy. rewrite Ho in Hy; [discriminate|]. intros g Hg <-. apply Q. apply in_map. auto.
      + intro Hx. apply in_map_iff in Hx as (n & <- & Hx). split; [|apply file_part_parquet]. apply in_map_iff in Hx as (g & <- & Hg). apply Hr in Hg as Hg'. apply Hl in Hg'. apply (in_map fst) in Hg'. auto. }
  assert (Pa : Permutation (map fst dir) (map file_part (map part ds) ++ filter (fun x => negb (is_parquet x)) (map fst dir))).
  { rewrite <- Pq. generalize (map fst dir). clear. induction l as [|x l IH]; auto. simpl. destruct (is_parquet x); simpl; [constructor; auto|]. apply Permutation_cons_app. auto. }
  destruct (C30_order _ _ _ Pa) as (srt & Es & Ss & Ps); auto.
  { apply Forall_forall. intros x Hx. apply filter_In in Hx as [_ Hx]. apply negb_true_iff in Hx. auto. }
  unfold vdf. rewrite Es. cbn [bind]. f_equal. assert (srt = map part ds) by (apply lt_unique; auto). subst srt. unfold pdf, all_rows. rewrite map_map, flat_map_concat_map, map_map, flat_map_concat_map. f_equal. apply map_ext_in.
  intros g Hg. apply read_file_in; auto. apply Hl, Hr. auto.
Qed.
(** After any history of calls, from nothing. *)
Theorem C56_same_rows : forall calls d d' ds' dir, nothing d -> perform d [] calls = Some (d', ds') -> lists dir d' -> ds' <> [] -> reads d' ds' /\ vdf dir = Ok (pdf ds').
Proof.
  intros calls d d' ds' dir Hn H Hl Hne. destruct (C26_history calls d Hn) as (d1 & ds1 & H1 & S). rewrite H in H1. injection H1 as <- <-.
  assert (S' : stored d' ds') by (destruct S as [S|[S _]]; [auto|congruence]). split; [apply S'|]. eapply vdf_stored; eauto.
  assert (G : forall calls d ds, increasing_parts ds -> perform d ds calls = Some (d', ds') -> increasing_parts ds').
  { clear. induction calls as [|[[p v] data] calls IH]; intros d ds Hi H; cbn [perform] in H; [injection H as _ <-; auto|].
    destruct (write p v ds data) as [ds1|] eqn:W; [|apply (IH _ _ Hi H)]. destruct (write_trace p v ds data) as [a|]; [|apply (IH _ _ Hi H)]. destruct (exec d a) as [d1|]; [|discriminate]. apply (IH _ _ (write_parts _ _ _ _ _ W Hi) H). }
  eapply G; [|exact H]. constructor.
Qed.
Print Assumptions C56_same_rows.
Definition ex_calls : list (params * bool * frame) := [(plain, false, appended); (plain, true, inserted); (plain, false, mkFrame 2 [one 6 1; one 9 1])].
Definition ex_dir : directory := [(file_part 1, [one 5 0]); (lit "_metadata", []); (file_part 3, [one 9 1]); (file_part 0, [one 2 1]); (file_part 2, [one 6 0; one 6 1; one 7 0])].
Example ex_C56 : exists ds', option_map snd (perform (mkDisk (fun _ => None) NoMeta) [] ex_calls) = Some ds' /\ length ds' = 4%nat /\ vdf ex_dir = Ok (pdf ds').
Proof. eexists. split; [vm_compute; reflexivity|]. split; vm_compute; reflexivity. Qed.

(** * C31 *)
Lemma list_min_spec : forall l, l <> [] -> In (list_min l) l /\ forall x, In x l -> (list_min l <= x)%Z.
Proof.
  intros [|a l] H; [congruence|]. clear H. unfold list_min. revert a. induction l as [|b l IH]; intro a; simpl; [split; auto; intros x [->|[]]; lia|].
  destruct (IH (Z.min a b)) as [A B]. split.
  - destruct A as [A|A]; auto. rewrite <- A. destruct (Z.min_spec a b) as [[_ ->]|[_ ->]]; auto.
  - pose proof (B _ (or_introl eq_refl)) as M. intros x [<-|[<-|Hx]]; [lia|lia|apply B; simpl; auto].
Qed.
Lemma list_max_spec : forall l, l <> [] -> In (list_max l) l /\ forall x, In x l -> (x <= list_max l)%Z.
Proof.
  intros [|a l] H; [congruence|]. clear H. unfold list_max. revert a. induction l as [|b l IH]; intro a; simpl; [split; auto; intros x [->|[]]; lia|].
  destruct (IH (Z.max a b)) as [A B]. split.
  - destruct A as [A|A]; auto. rewrite <- A. destruct (Z.max_spec a b) as [[_ ->]|[_ ->]]; auto.
  - pose proof (B _ (or_introl eq_refl)) as M. intros x [<-|[<-|Hx]]; [lia|lia|apply B; simpl; auto].
Qed.
Theorem C31_extremes : forall c ds, ds <> [] -> filled ds -> exists lo hi, min_max c ds = Ok (lo, hi) /\
  (exists r, In r (all_rows ds) /\ col c r = lo) /\ (exists r, In r (all_rows ds) /\ col c r = hi) /\ forall r, In r (all_rows ds) -> (lo <= col c r <= hi)%Z.
Proof.
  intros c ds Hne Hf. unfold min_max. destruct ds as [|g0 ds0]; [congruence|]. remember (g0 :: ds0) as ds. clear Heqds g0 ds0. eexists. eexists. split; [reflexivity|].
  assert (N1 : map (rg_min c) ds <> []) by (destruct ds; [congruence|discriminate]). assert (N2 : map (rg_max c) ds <> []) by (destruct ds; [congruence|discriminate]).
  destruct (list_min_spec _ N1) as [A1 B1]. destruct (list_max_spec _ N2) as [A2 B2].
  assert (G : forall g, In g ds -> map (col c) (content g) <> []) by (intros g Hg; unfold filled in Hf; rewrite Forall_forall in Hf; specialize (Hf g Hg); destruct (content g); [congruence|discriminate]).
  split; [|split].
  - apply in_map_iff in A1 as (g & <- & Hg). destruct (list_min_spec _ (G g Hg)) as [A _]. apply in_map_iff in A as (r & Er & Hr). exists r. split; auto. apply In_all_rows. eauto.
  - apply in_map_iff in A2 as (g & <- & Hg). destruct (list_max_spec _ (G g Hg)) as [A _]. apply in_map_iff in A as (r & Er & Hr). exists r. split; auto. apply In_all_rows. eauto.
  - intros r Hr. apply In_all_rows in Hr as (g & Hg & Hr). destruct (list_min_spec _ (G g Hg)) as [_ L]. destruct (list_max_spec _ (G g Hg)) as [_ U].
    specialize (L (col c r) (in_map (col c) _ _ Hr)). specialize (U (col c r) (in_map (col c) _ _ Hr)). specialize (B1 _ (in_map (rg_min c) _ _ Hg)). specialize (B2 _ (in_map (rg_max c) _ _ Hg)).
    unfold rg_min, rg_max in *. lia.
Qed.
Print Assumptions C31_extremes.
(** After any history of calls, row groups have rows, and extreme values are those of all rows. *)
Theorem C31_history : forall calls d d' ds' c, nothing d -> perform d [] calls = Some (d', ds') -> ds' <> [] ->
  exists lo hi, min_max c ds' = Ok (lo, hi) /\ (exists r, In r (all_rows ds') /\ col c r = lo) /\ (exists r, In r (all_rows ds') /\ col c r = hi) /\ forall r, In r (all_rows ds') -> (lo <= col c r <= hi)%Z.
Proof.
  intros calls d d' ds' c Hn H Hne. apply C31_extremes; auto.
  assert (G : forall calls d ds, filled ds -> perform d ds calls = Some (d', ds') -> filled ds').
  { clear. induction calls as [|[[p v] data] calls IH]; intros d ds Hf H; cbn [perform] in H; [injection H as _ <-; auto|].
    destruct (write p v ds data) as [ds1|] eqn:W; [|apply (IH _ _ Hf H)]. destruct (write_trace p v ds data) as [a|]; [|apply (IH _ _ Hf H)]. destruct (exec d a) as [d1|]; [|discriminate]. refine (IH _ _ _ H). eapply write_filled; [exact W|exact Hf]. }
  eapply G; [|exact H]. constructor.
Qed.
Print Assumptions C31_history.
Example ex_C31 : min_max 0 two_groups = Ok (1, 4)%Z /\ filled two_groups.
Proof. split; [reflexivity|]. repeat constructor; discriminate. Qed.
