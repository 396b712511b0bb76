(** Calendars of CalModel.v are calendars. *)
Require Import List Arith ZArith Bool Lia.
Require Import Verif.Common Verif.SegModel Verif.SegSpec Verif.CalModel Verif.CalSpec Verif.CalProofs.
Import ListNotations.
Local Open Scope Z_scope.

Lemma year_length : forall y, days_before_year (y + 1) = days_before_year y + (if leap y then 366 else 365).
Proof.
  intro y. unfold days_before_year, leap.
  assert (G : forall n, 0 < n -> (y + 1 + (n - 1)) / n = (y + (n - 1)) / n + (if y mod n =? 0 then 1 else 0)).
  { intros n Hn. pose proof (Z.div_mod y n ltac:(lia)) as E. pose proof (Z.mod_pos_bound y n Hn) as R. destruct (Z.eqb_spec (y mod n) 0) as [E0|E0].
    - rewrite <- (Z.div_unique (y + 1 + (n - 1)) n (y / n + 1) 0) by lia. rewrite <- (Z.div_unique (y + (n - 1)) n (y / n) (n - 1)) by lia. auto.
    - rewrite <- (Z.div_unique (y + 1 + (n - 1)) n (y / n + 1) (y mod n)) by lia. rewrite <- (Z.div_unique (y + (n - 1)) n (y / n + 1) (y mod n - 1)) by lia. lia. }
  pose proof (G 4 ltac:(lia)) as A. pose proof (G 100 ltac:(lia)) as B. pose proof (G 400 ltac:(lia)) as C. simpl Z.sub in A, B, C.
  assert (M1 : y mod 100 = 0 -> y mod 4 = 0) by (intro M; rewrite (Z.div_mod y 100), M by lia; rewrite Z.add_0_r; replace (100 * (y / 100)) with (25 * (y / 100) * 4) by ring; apply Z.mod_mul; lia).
  assert (M2 : y mod 400 = 0 -> y mod 100 = 0) by (intro M; rewrite (Z.div_mod y 400), M by lia; rewrite Z.add_0_r; replace (400 * (y / 400)) with (4 * (y / 400) * 100) by ring; apply Z.mod_mul; lia).
  rewrite A, B, C. destruct (Z.eqb_spec (y mod 4) 0), (Z.eqb_spec (y mod 100) 0), (Z.eqb_spec (y mod 400) 0); cbn [andb orb negb]; try lia; exfalso; auto.
Qed.

Lemma year_of_spec : forall d, days_before_year (year_of d) <= d < days_before_year (year_of d + 1).
Proof.
  intro d. unfold year_of. set (y := 400 * d / 146097).
  assert (B : forall z, 146097 * z - 396 <= 400 * days_before_year z <= 146097 * z + 699).
  { intro z. unfold days_before_year. pose proof (Z.div_mod (z + 3) 4 ltac:(lia)). pose proof (Z.mod_pos_bound (z + 3) 4 ltac:(lia)).
    pose proof (Z.div_mod (z + 99) 100 ltac:(lia)). pose proof (Z.mod_pos_bound (z + 99) 100 ltac:(lia)).
    pose proof (Z.div_mod (z + 399) 400 ltac:(lia)). pose proof (Z.mod_pos_bound (z + 399) 400 ltac:(lia)). lia. }
  assert (A : days_before_year (y - 1) <= d < days_before_year (y + 2)).
  { pose proof (B (y - 1)). pose proof (B (y + 2)). pose proof (Z.div_mod (400 * d) 146097 ltac:(lia)) as E. pose proof (Z.mod_pos_bound (400 * d) 146097 ltac:(lia)). fold y in E. lia. }
  clearbody y. clear B.
  destruct (Z.ltb_spec d (days_before_year y)).
  - replace (y - 1 + 1) with y by ring. lia.
  - destruct (Z.leb_spec (days_before_year (y + 1)) d); [|lia]. replace (y + 1 + 1) with (y + 2) by ring. lia.
Qed.

(** Days of a year are finitely many: this is computed for each of them. *)
Definition dbm (b : bool) (m : Z) : Z := nth (Z.to_nat m) [0; 31; 59; 90; 120; 151; 181; 212; 243; 273; 304; 334; 365] 0 + (if (2 <=? m) && b then 1 else 0).
Definition mof (b : bool) (d : Z) : Z := Z.of_nat (length (filter (fun m => dbm b (Z.of_nat m) <=? d) (seq 1 11))).
Lemma dbm_is : forall y m, days_before_month y m = dbm (leap y) m.
Proof. intros. unfold days_before_month, dbm. apply eq_refl. Qed.
Lemma mof_is : forall y d, month_of y d = mof (leap y) d.
Proof. intros. unfold month_of, mof. do 2 f_equal. Qed.
Lemma month_of_spec : forall y e, 0 <= e < (if leap y then 366 else 365) ->
  0 <= month_of y e < 12 /\ days_before_month y (month_of y e) <= e < days_before_month y (month_of y e + 1).
Proof.
  intros y e H. rewrite !dbm_is, mof_is.
  set (good := fun b e => (0 <=? mof b e) && (mof b e <? 12) && (dbm b (mof b e) <=? e) && (e <? dbm b (mof b e + 1))).
  assert (G : forall b n, forallb (fun i => good b (Z.of_nat i)) (seq 0 n) = true -> 0 <= e < Z.of_nat n -> good b e = true).
  { intros b n F R. rewrite forallb_forall in F. rewrite <- (Z2Nat.id e) by lia. apply F. apply in_seq. lia. }
  assert (E : good (leap y) e = true).
  { destruct (leap y); [apply (G true 366%nat)|apply (G false 365%nat)]; auto; vm_compute; reflexivity. }
  unfold good in E. apply andb_true_iff in E as [E E4]. apply andb_true_iff in E as [E E3]. apply andb_true_iff in E as [E1 E2].
  apply Z.leb_le in E1, E3. apply Z.ltb_lt in E2, E4. lia.
Qed.

Lemma month_length_of : forall b m, 0 <= m < 12 -> dbm b (m + 1) = dbm b m + (if m =? 1 then (if b then 29 else 28) else if (m =? 3) || (m =? 5) || (m =? 8) || (m =? 10) then 30 else 31).
Proof.
  intros b m H. assert (C : m = 0 \/ m = 1 \/ m = 2 \/ m = 3 \/ m = 4 \/ m = 5 \/ m = 6 \/ m = 7 \/ m = 8 \/ m = 9 \/ m = 10 \/ m = 11) by lia.
  repeat destruct C as [->|C]; try (destruct b; reflexivity). subst. destruct b; reflexivity.
Qed.

(** Months follow each other. *)
Lemma month_length : forall k, month_start (k + 1) = month_start k + day * days_in_month (k / 12) (k mod 12).
Proof.
  intro k. unfold month_start. set (y := k / 12). set (m := k mod 12).
  pose proof (Z.div_mod k 12 ltac:(lia)) as E. pose proof (Z.mod_pos_bound k 12 ltac:(lia)) as R. fold y m in E, R.
  pose proof (month_length_of (leap y) m R) as L. change (days_in_month y m) with (if m =? 1 then (if leap y then 29 else 28) else if (m =? 3) || (m =? 5) || (m =? 8) || (m =? 10) then 30 else 31).
  rewrite (dbm_is y m).
  destruct (Z.eq_dec m 11) as [E11|E11].
  - replace ((k + 1) / 12) with (y + 1) by (apply (Z.div_unique (k + 1) 12 (y + 1) 0); lia).
    replace ((k + 1) mod 12) with 0 by (apply (Z.mod_unique (k + 1) 12 (y + 1) 0); lia).
    rewrite year_length. rewrite E11 in *. change (days_before_month (y + 1) 0) with 0. change (11 + 1) with 12 in L. cbn [Z.eqb Pos.eqb orb] in *.
    assert (D : dbm (leap y) 12 = if leap y then 366 else 365) by (destruct (leap y); reflexivity). rewrite <- D, L. ring.
  - replace ((k + 1) / 12) with y by (apply (Z.div_unique (k + 1) 12 y (m + 1)); lia).
    replace ((k + 1) mod 12) with (m + 1) by (apply (Z.mod_unique (k + 1) 12 y (m + 1)); lia).
    rewrite (dbm_is y (m + 1)), L. ring.
Qed.
Lemma month_epoch : month_start (12 * 1970) = 0.
Proof. reflexivity. Qed.

Lemma days_in_month_pos : forall y m, 28 <= days_in_month y m <= 31.
Proof. intros y m. unfold days_in_month. repeat match goal with |- context [if ?b then _ else _] => destruct b end; lia. Qed.
Lemma succ_inc : forall f : Z -> Z, (forall k, f k < f (k + 1)) -> forall i j, i < j -> f i < f j.
Proof.
  intros f H i j L. remember (Z.to_nat (j - i - 1)) as n eqn:En. revert j L En. induction n as [|n IH]; intros j L En.
  - replace j with (i + 1) by lia. auto.
  - specialize (IH (j - 1) ltac:(lia) ltac:(lia)). specialize (H (j - 1)). replace (j - 1 + 1) with j in H by ring. lia.
Qed.
Lemma month_start_inc : forall i j, i < j -> month_start i < month_start j.
Proof. apply succ_inc. intro k. rewrite month_length. pose proof (days_in_month_pos (k / 12) (k mod 12)). assert (0 < day) by reflexivity. nia. Qed.
Lemma month_start_midnight : forall k, month_start k mod day = 0.
Proof. intro k. unfold month_start. rewrite Z.mul_comm. apply Z.mod_mul. discriminate. Qed.
Lemma month_number_spec : forall t, month_start (month_number t) <= t < month_start (month_number t + 1).
Proof.
  intro t. unfold month_number. set (d := t / day + epoch_days). set (y := year_of d). set (m := month_of y (d - days_before_year y)).
  pose proof (year_of_spec d) as Y. fold y in Y. rewrite year_length in Y.
  destruct (month_of_spec y (d - days_before_year y) ltac:(lia)) as [R M]. fold m in R, M.
  rewrite month_length. replace ((12 * y + m) / 12) with y by (apply (Z.div_unique (12 * y + m) 12 y m); lia).
  replace ((12 * y + m) mod 12) with m by (apply (Z.mod_unique (12 * y + m) 12 y m); lia).
  assert (S : month_start (12 * y + m) = day * (days_before_year y + days_before_month y m - epoch_days)).
  { unfold month_start. replace ((12 * y + m) / 12) with y by (apply (Z.div_unique (12 * y + m) 12 y m); lia).
    replace ((12 * y + m) mod 12) with m by (apply (Z.mod_unique (12 * y + m) 12 y m); lia). auto. }
  rewrite S. assert (L : days_before_month y (m + 1) = days_before_month y m + days_in_month y m) by (rewrite !dbm_is; apply (month_length_of (leap y) m R)).
  rewrite L in M. assert (D : 0 < day) by reflexivity. pose proof (Z.div_mod t day ltac:(lia)). pose proof (Z.mod_pos_bound t day D).
  assert (E : t / day = d - epoch_days) by (unfold d; ring). nia.
Qed.

Theorem month_starts_ok : calendar_ok month_starts.
Proof. split; [exact month_start_inc|exact month_number_spec|exact month_start_midnight]. Qed.
Theorem month_ends_ok : calendar_ok month_ends.
Proof.
  split; cbn [month_ends point number].
  - intros i j H. pose proof (month_start_inc (i + 1) (j + 1) ltac:(lia)). lia.
  - intro t. pose proof (month_number_spec (t + day)) as M. replace (month_number (t + day) - 1 + 1) with (month_number (t + day)) by ring. lia.
  - intro k. rewrite Zminus_mod, month_start_midnight, Z_mod_same_full. reflexivity.
Qed.
Theorem weeks_ok : forall wd, calendar_ok (weeks wd).
Proof.
  intro wd. assert (D : 0 < day) by reflexivity. split; cbn [weeks point number].
  - intros i j H. nia.
  - intro t. pose proof (Z.div_mod t day ltac:(lia)). pose proof (Z.mod_pos_bound t day D).
    pose proof (Z.div_mod (t / day - wd) 7 ltac:(lia)). pose proof (Z.mod_pos_bound (t / day - wd) 7 ltac:(lia)). nia.
  - intro k. rewrite Z.mul_comm. apply Z.mod_mul. lia.
Qed.
Theorem month_groups_ok : forall q m, 0 < q -> calendar_ok (month_groups q m).
Proof.
  intros q m Hq. split; cbn [month_groups point number].
  - intros i j H. apply month_start_inc. nia.
  - intro t. pose proof (month_number_spec t) as M. pose proof (Z.div_mod (month_number t - m) q ltac:(lia)) as E. pose proof (Z.mod_pos_bound (month_number t - m) q Hq) as R.
    assert (Le : forall i j, i <= j -> month_start i <= month_start j). { intros i j L. destruct (Z.eq_dec i j) as [->|]; [lia|]. pose proof (month_start_inc i j ltac:(lia)). lia. }
    pose proof (Le (q * ((month_number t - m) / q) + m) (month_number t) ltac:(lia)).
    pose proof (Le (month_number t + 1) (q * ((month_number t - m) / q + 1) + m) ltac:(lia)). lia.
  - intro k. apply month_start_midnight.
Qed.
