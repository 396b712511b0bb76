(** Unit tests of the repository (test_writer.py), on the model. *)
Require Import List Arith ZArith Bool.
Require Import Verif.Common Verif.WrModel.
Import ListNotations.
Local Open Scope Z_scope.

(** A data frame from its columns. *)
Fixpoint transpose (n : nat) (cols : list (list Z)) : list row :=
  match n with O => [] | S n' => map (fun c => nth 0 c 0) cols :: transpose n' (map (@tl Z) cols) end.
Definition df (cols : list (list Z)) : frame := mkFrame (length cols) (transpose (length (nth 0 cols [])) cols).
(** 'fp_write' with row group offsets. *)
Definition fp (offsets : list nat) (f : frame) : dataset := number_parts 0 (slices offsets (rows f)).
Definition lens (r : res dataset) : list nat := match r with Ok ds => map (fun g => length (content g)) ds | Err _ => [] end.
Definition column (c : nat) (r : res dataset) : list Z := match r with Ok ds => map (col c) (all_rows ds) | Err _ => [] end.
Definition zrange (n : nat) : list Z := map Z.of_nat (seq 0 n).

Definition plain (m : Z) : params := mkParams (Some m) Unordered None None.
Definition r1 := write (plain 2) false [] (df [zrange 6]).
Definition d1 := match r1 with Ok d => d | Err _ => [] end.
Example init_and_append_pandas_std : lens r1 = [2; 2; 2]%nat /\ column 0 r1 = zrange 6
  /\ column 0 (write (plain 2) false d1 (df [zrange 2])) = zrange 6 ++ zrange 2.
Proof. repeat split. Qed.

Example vaex_coalescing_first_rgs :
  let r := write (mkParams (Some 3) Unordered None (Some 2)) true (fp [0%nat] (df [[0; 1]])) (df [[20]]) in
  lens r = [3%nat] /\ column 0 r = [0; 1; 20].
Proof. repeat split. Qed.

Definition p42 := mkParams (Some 4) Unordered None (Some 2).
Definition c1 := write p42 false (fp [0; 4; 5; 9]%nat (df [zrange 10])) (df [[20]]).
Example pandas_coalescing_simple_irgs_1 : lens c1 = [4; 1; 4; 1; 1]%nat /\ column 0 c1 = zrange 10 ++ [20].
Proof. repeat split. Qed.
Definition c2 := match c1 with Ok d => write p42 false d (df [[20]]) | e => e end.
Example pandas_coalescing_simple_irgs_2 : lens c2 = [4; 1; 4; 3]%nat /\ column 0 c2 = zrange 10 ++ [20; 20].
Proof. repeat split. Qed.
Example pandas_coalescing_simple_max_row_group_size :
  let r := write (mkParams (Some 4) Unordered None (Some 5)) false (fp [0; 4; 5; 9; 10; 11]%nat (df [zrange 12])) (df [[20]]) in
  lens r = [4; 1; 4; 4]%nat /\ column 0 r = zrange 12 ++ [20].
Proof. repeat split. Qed.

Definition on (m : Z) (dup : list nat) : params := mkParams (Some m) (OrderedOn 0) (Some dup) None.
Example pandas_appending_data_with_drop_duplicates :
  let r := write (on 4 [0%nat]) false (fp [0; 4; 5; 9; 10]%nat (df [zrange 11; map (Z.add 10) (zrange 11)])) (df [[10; 20]; [11; 31]]) in
  lens r = [4; 1; 4; 1; 2]%nat /\ column 0 r = zrange 11 ++ [20] /\ column 1 r = [10; 11; 12; 13; 14; 15; 16; 17; 18; 19; 11; 31].
Proof. repeat split. Qed.

Definition base8 := fp [0; 3; 6]%nat (df [[0; 1; 2; 3; 3; 3; 4; 5]; zrange 8; repeat 0 8]).
Example pandas_appending_data_with_sharp_starts :
  let r := write (on 3 [1%nat]) false base8 (df [[5; 5; 5; 5; 6; 6; 7; 8]; [7; 7; 8; 9; 9; 9; 10; 10]; map Z.succ (zrange 8)]) in
  lens r = [3; 3; 1; 3; 2; 1]%nat /\ column 0 r = [0; 1; 2; 3; 3; 3; 4; 5; 5; 5; 6; 7; 8]
  /\ column 2 r = [0; 0; 0; 0; 0; 0; 0; 2; 3; 4; 6; 7; 8].
Proof. repeat split. Qed.
Example pandas_appending_span_several_rgs :
  let r := write (on 3 [1%nat]) false base8 (df [[3; 5; 5; 5; 6; 6; 7; 8]; [7; 7; 8; 9; 9; 9; 10; 10]; map Z.succ (zrange 8)]) in
  lens r = [3; 5; 3; 2; 1]%nat /\ column 0 r = [0; 1; 2; 3; 3; 3; 3; 4; 5; 5; 5; 6; 7; 8]
  /\ column 1 r = [0; 1; 2; 3; 4; 5; 7; 6; 7; 8; 9; 9; 10; 10]
  /\ column 2 r = [0; 0; 0; 0; 0; 0; 1; 0; 2; 3; 4; 6; 7; 8].
Proof. repeat split. Qed.

Definition base11 := fp [0; 3; 6; 9]%nat (df [[0; 1; 3; 3; 5; 7; 7; 8; 9; 11; 12]; zrange 11; repeat 0 11]).
Definition new4 := df [[3; 4; 5; 8]; [7; 7; 4; 9]; repeat 1 4].
Example inserting_data : forall is_vaex, let r := write (on 3 [1%nat]) is_vaex base11 new4 in
  lens r = [2; 4; 1; 4; 1; 2]%nat /\ column 0 r = [0; 1; 3; 3; 3; 4; 5; 7; 7; 8; 8; 9; 11; 12]
  /\ column 1 r = [0; 1; 2; 3; 7; 7; 4; 5; 6; 7; 9; 8; 9; 10] /\ column 2 r = [0; 0; 0; 0; 1; 1; 1; 0; 0; 0; 1; 0; 0; 0].
Proof. intros [|]; repeat split. Qed.
Example no_duplicate_drop :
  let r := write (mkParams (Some 3) (OrderedOn 0) None None) true base11 new4 in
  lens r = [2; 4; 2; 4; 1; 2]%nat /\ column 0 r = [0; 1; 3; 3; 3; 4; 5; 5; 7; 7; 8; 8; 9; 11; 12]
  /\ column 1 r = [0; 1; 2; 3; 7; 7; 4; 4; 5; 6; 7; 9; 8; 9; 10] /\ column 2 r = [0; 0; 0; 0; 1; 1; 0; 1; 0; 0; 0; 1; 0; 0; 0].
Proof. repeat split. Qed.

Definition new6 := df [[6; 6; 7; 8]; [9; 9; 10; 10]; map (Z.add 5) (zrange 4)].
Example appending_as_if_inserting_no_coalesce :
  let r := write (on 3 [1%nat]) true base8 new6 in
  lens r = [3; 3; 2; 2; 2]%nat /\ column 0 r = [0; 1; 2; 3; 3; 3; 4; 5; 6; 6; 7; 8].
Proof. repeat split. Qed.
Example appending_as_if_inserting_with_coalesce :
  let r := write (mkParams (Some 3) (OrderedOn 0) (Some [1%nat]) (Some 2)) true base8 new6 in
  lens r = [3; 3; 2; 3]%nat /\ column 0 r = [0; 1; 2; 3; 3; 3; 4; 5; 6; 7; 8] /\ column 2 r = [0; 0; 0; 0; 0; 0; 0; 0; 6; 7; 8].
Proof. repeat split. Qed.

Example duplicates_all_cols :
  let base := fp [0; 3; 6]%nat (df [[0; 1; 2; 3; 3; 3; 4; 5]; zrange 8; repeat 0 7 ++ [2]]) in
  let r := write (on 3 []) true base (df [[3; 5; 5; 5; 6]; [7; 7; 7; 7; 9]; [1; 2; 3; 2; 5]]) in
  lens r = [3; 5; 2; 1]%nat /\ column 0 r = [0; 1; 2; 3; 3; 3; 3; 4; 5; 5; 6]
  /\ column 1 r = [0; 1; 2; 3; 4; 5; 7; 6; 7; 7; 9] /\ column 2 r = [0; 0; 0; 0; 0; 0; 1; 0; 3; 2; 5].
Proof. repeat split. Qed.
Example drop_duplicates_wo_coalescing_irgs :
  let base := fp [0; 5; 6]%nat (df [zrange 7; repeat 0 7]) in
  let r := write (mkParams (Some 5) (OrderedOn 0) (Some [0%nat]) (Some 3)) false base (df [[6]; [1]]) in
  lens r = [5; 1; 1]%nat /\ column 0 r = zrange 7 /\ column 1 r = repeat 0 6 ++ [1].
Proof. repeat split. Qed.
Example exception_ordered_on_not_existing : forall is_vaex,
  write (mkParams None (OrderedOn 2) None None) is_vaex (fp [0; 3; 4]%nat (df [zrange 5; repeat 0 5])) (df [zrange 5; repeat 0 5]) = Err ValueError.
Proof. intros [|]; reflexivity. Qed.
