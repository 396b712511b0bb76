(** Proofs about the aggregation of a dataset which grows: nothing is raised. *)
Require Import List Arith ZArith Bool Lia Sorting.Sorted.
Require Import Verif.Common Verif.AggModel Verif.AggSpec Verif.SegModel Verif.SegSpec Verif.CsaModel Verif.CsaSpec Verif.WrModel Verif.WrSpec Verif.WrProofs Verif.WrHistProofs Verif.StreamModel Verif.StreamSpec
  Verif.KeyModel Verif.BatchSpec Verif.UserKeyModel Verif.UserKeySpec Verif.GrowSpec Verif.GrowProofs.
Import ListNotations.
Local Open Scope Z_scope.

Lemma write_step_ok : forall c n dup s ds, step_ok c n dup s -> write_ok c n dup s -> exists ds', write (w_params s) (w_vaex s) ds (w_data s) = Ok ds'.
Proof.
  intros c n dup s ds (Eo & Ed & En & _) (Hr & Hp & Hn & Hc & Hd). subst n. apply write_accepted; auto; [right; eauto|]. intros _. split; [|split; auto].
  destruct dup as [cols|]; [right; exists c, cols; auto|left; auto].
Qed.

Lemma kept_length : forall c n dup l out, kept c n dup l out -> (length out <= length l)%nat.
Proof.
  intros c n dup l out H. destruct dup as [cols|]; [|cbn in H; subst; auto]. cbn in H. induction H; simpl; lia.
Qed.
Lemma filled_length : forall ds, filled ds -> (length ds <= length (all_rows ds))%nat.
Proof.
  intros ds H. unfold all_rows. induction H as [|g ds Hg H IH]; simpl; auto. rewrite app_length. destruct (content g); [congruence|]. simpl. lia.
Qed.
Lemma chunks_between_le : forall {D} (rs : list (@run D)) k b, (forall r, In r rs -> (length (r_seed r) <= b)%nat) -> (chunks_between k rs <= k + length rs * b)%nat.
Proof.
  intros D. induction rs as [|r rs IH]; intros k b H; [simpl; lia|]. cbn [chunks_between length]. pose proof (H r (or_introl eq_refl)).
  assert (H' : forall x, In x rs -> (length (r_seed x) <= b)%nat) by (intros; apply H; right; auto).
  pose proof (IH 0%nat b H'). pose proof (IH (k + length (r_seed r))%nat b H').
  destruct (r_final r); apply Nat.max_lub; rewrite Nat.mul_succ_l; lia.
Qed.
Lemma accepted_le : forall {D V B PB} (N : dtype -> num V) val dtypes (idx : D -> Z) enc (c : @anykey D B PB) w n n' rows_, 0 <= w -> (n' <= n)%nat ->
  any_accepted N val dtypes idx enc c w n rows_ -> any_accepted N val dtypes idx enc c w n' rows_.
Proof.
  intros D V B PB N val dtypes idx enc c w n n' rows_ Hw Hn H. destruct c as [c|u]; cbn [any_accepted] in *.
  - destruct H as (H1 & H2 & H3 & H4 & H5 & H6). do 5 (split; [assumption|]). unfold enough_memory in *. destruct (type_of c); cbv zeta in *; nia.
  - destruct H as (H1 & H2 & H3 & H4 & H5 & H6). do 5 (split; [assumption|]). destruct (user_type u); cbv zeta in *; nia.
Qed.
Lemma accepted_conf_le : forall {D V PB} (N : dtype -> num V) val dtypes (idx : D -> Z) enc (c : bconf PB) w n n' rows_, 0 <= w -> (n' <= n)%nat ->
  accepted_conf N val dtypes idx enc c w n rows_ -> accepted_conf N val dtypes idx enc c w n' rows_.
Proof. intros D V PB N val dtypes idx enc c w n n' rows_ Hw Hn H. exact (accepted_le (B := unit) N val dtypes idx enc (inl c) w n n' rows_ Hw Hn H). Qed.

Section History.
Context {P SB PB : Type}.
Variable c n : nat.
Variable dup : option (list nat).
Variable truthy : Z -> bool.
Variable usage : frame -> Z.
Variable pre : option (list row -> P -> list row * P * bool).
Variables (fs : @filters row) (pre0 : P) (seg0 : SB) (post0 : PB).

(** Steps are runs on datasets which do not depend on results. *)
Lemma grow_datasets : forall ss l ds, (forall s, In s ss -> step_ok c n dup s /\ write_ok c n dup s) -> kept c n dup l (all_rows ds) -> filled ds -> sorted_on c (l ++ written ss) ->
  exists rs ds', (forall g, grow_all c truthy usage pre fs pre0 seg0 post0 (ds, g) ss = let* g' := run_all (col c) truthy usage pre fs pre0 seg0 post0 g rs in Ok (ds', g'))
    /\ kept c n dup (l ++ written ss) (all_rows ds') /\ growing (col c) (all_rows ds) rs
    /\ map (fun r => (r_fresh r, r_final r)) rs = map (fun s => (w_fresh s, w_final s)) ss /\ whole_seed (all_rows ds) rs = all_rows ds'
    /\ (forall r, In r rs -> (length (r_seed r) <= length (l ++ written ss))%nat).
Proof.
  induction ss as [|s ss IH]; intros l ds Hok K Hf Hs.
  - exists [], ds. unfold written. simpl. rewrite app_nil_r. repeat split; auto; [|intros r []]. unfold whole_seed. simpl. apply app_nil_r.
  - change (written (s :: ss)) with (rows (w_data s) ++ written ss) in *. rewrite app_assoc in *.
    destruct (Hok s (or_introl eq_refl)) as [So Wo]. destruct (write_step_ok c n dup s ds So Wo) as [ds1 Ew].
    assert (Hs1 : sorted_on c (l ++ rows (w_data s))) by (apply SS_app in Hs; tauto).
    destruct (grow_write c n dup s l ds ds1 So K Hf Hs1 Ew) as (Hf1 & K1 & _ & Hx).
    destruct (IH _ _ (fun s' H' => Hok s' (or_intror H')) K1 Hf1 Hs) as (rs & ds' & R & K2 & G & M & W & L).
    exists (mkRun (w_fresh s) (w_final s) (map content ds1) :: rs), ds'. split; [|split; [auto|split; [|split; [cbn [map r_fresh r_final]; congruence|split]]]].
    + intro g. cbn [grow_all run_all]. unfold grow_once. rewrite Ew. cbn [bind].
      destruct (run_once (col c) truthy usage pre fs pre0 seg0 post0 g (mkRun (w_fresh s) (w_final s) (map content ds1))) as [g1|e]; cbn [bind]; auto.
    + cbn [growing r_seed]. rewrite <- all_rows_concat. split; [apply Hx; apply Wo|]. split; [apply sorted_col; eapply kept_sorted; eauto|]. split; auto.
      intros ch Hch. apply filled_content in Hf1. rewrite Forall_forall in Hf1. auto.
    + unfold whole_seed in *. destruct rs as [|r rs]; cbn [last r_seed] in *; [rewrite <- all_rows_concat; rewrite <- W; simpl; rewrite app_nil_r; auto|].
      rewrite <- W. f_equal. f_equal. clear. revert r. induction rs as [|r' rs IH]; intro r; auto. exact (IH r').
    + intros r [<-|Hr]; [|auto]. cbn [r_seed]. rewrite map_length. pose proof (filled_length ds1 Hf1). pose proof (kept_length _ _ _ _ _ K1). rewrite (app_length _ (written ss)). lia.
Qed.

Lemma grow_new_ok : forall ss, (forall s, In s ss -> step_ok c n dup s /\ write_ok c n dup s) -> sorted_on c (written ss) ->
  exists rs ds', (forall g, grow_all c truthy usage pre fs pre0 seg0 post0 ([], g) ss = let* g' := run_all (col c) truthy usage pre fs pre0 seg0 post0 g rs in Ok (ds', g'))
    /\ kept c n dup (written ss) (all_rows ds') /\ growing (col c) [] rs
    /\ map (fun r => (r_fresh r, r_final r)) rs = map (fun s => (w_fresh s, w_final s)) ss /\ whole_seed [] rs = all_rows ds'
    /\ (chunks_between 0 rs <= length ss * length (written ss))%nat.
Proof.
  intros ss Hok Hs. assert (K : kept c n dup [] (all_rows [])) by (destruct dup; cbn; constructor).
  destruct (grow_datasets ss [] [] Hok K ltac:(constructor) Hs) as (rs & ds' & R & K1 & G & M & W & L). exists rs, ds'. do 5 (split; [assumption|]).
  assert (E : length rs = length ss) by (apply (f_equal (@length _)) in M; rewrite !map_length in M; auto). rewrite <- E. apply (chunks_between_le rs 0); auto.
Qed.
End History.
