(** Unit tests of the repository run on the model, as a check that the model behaves as the code does:
    test_jcumsegagg.py, test_cumsegagg.py and test_cumsegagg_restart.py. Floats are given in tenths.
    Reference results computed by pandas ('data.groupby(bin_by).agg') are written out. *)
Require Import List Arith ZArith Bool.
Require Import Verif.Common Verif.AggModel Verif.AggSpec Verif.SegModel Verif.CsaModel.
Import ListNotations.
Local Open Scope Z_scope.

(** * test_jcumsegagg.py *)

(** test_jfirst *)
Example jfirst_0 : jfirst Znum 2 [] [0; 0] false = [0; 0].
Proof. reflexivity. Qed.
Example jfirst_1 : jfirst Znum 2 [] [1; 3] true = [1; 3].
Proof. reflexivity. Qed.
Example jfirst_2 : jfirst Znum 3 [[1; 5; 9]; [4; (-2); 3]] [0; 0; 0] false = [1; 5; 9].
Proof. reflexivity. Qed.
Example jfirst_3 : jfirst Znum 2 [[4; 2]] [1; 3] true = [1; 3].
Proof. reflexivity. Qed.
Example jfirst_4 : jfirst Znum 3 [[1; 5; 9]; [4; 2; 3]] [7; 3; (-1)] true = [7; 3; (-1)].
Proof. reflexivity. Qed.
(** test_jlast *)
Example jlast_0 : jlast Znum 2 [] [0; 0] false = [0; 0].
Proof. reflexivity. Qed.
Example jlast_1 : jlast Znum 2 [] [1; 3] true = [1; 3].
Proof. reflexivity. Qed.
Example jlast_2 : jlast Znum 3 [[1; 5; 9]; [4; (-2); 3]] [0; 0; 0] false = [4; (-2); 3].
Proof. reflexivity. Qed.
Example jlast_3 : jlast Znum 2 [[4; 2]] [1; 3] true = [4; 2].
Proof. reflexivity. Qed.
Example jlast_4 : jlast Znum 3 [[1; 5; 9]; [4; 2; 3]] [7; 3; (-1)] true = [4; 2; 3].
Proof. reflexivity. Qed.
(** test_jmax *)
Example jmax_0 : jmax Znum 2 [] [0; 0] false = [0; 0].
Proof. reflexivity. Qed.
Example jmax_1 : jmax Znum 2 [] [1; 3] true = [1; 3].
Proof. reflexivity. Qed.
Example jmax_2 : jmax Znum 3 [[1; 5; 9]; [4; 2; 3]] [0; 0; 0] false = [4; 5; 9].
Proof. reflexivity. Qed.
Example jmax_3 : jmax Znum 2 [[4; 2]] [1; 3] true = [4; 3].
Proof. reflexivity. Qed.
Example jmax_4 : jmax Znum 3 [[1; 5; 9]; [4; 2; 3]] [7; 3; (-1)] true = [7; 5; 9].
Proof. reflexivity. Qed.
(** test_jmin *)
Example jmin_0 : jmin Znum 2 [] [0; 0] false = [0; 0].
Proof. reflexivity. Qed.
Example jmin_1 : jmin Znum 2 [] [1; 3] true = [1; 3].
Proof. reflexivity. Qed.
Example jmin_2 : jmin Znum 3 [[1; 5; 9]; [4; (-2); 3]] [0; 0; 0] false = [1; (-2); 3].
Proof. reflexivity. Qed.
Example jmin_3 : jmin Znum 2 [[4; 2]] [1; 3] true = [1; 2].
Proof. reflexivity. Qed.
Example jmin_4 : jmin Znum 3 [[1; 5; 9]; [4; 2; 3]] [7; 3; (-1)] true = [1; 2; (-1)].
Proof. reflexivity. Qed.
(** test_jsum *)
Example jsum_0 : jsum Znum 2 [] [0; 0] false = [0; 0].
Proof. reflexivity. Qed.
Example jsum_1 : jsum Znum 2 [] [1; 3] true = [1; 3].
Proof. reflexivity. Qed.
Example jsum_2 : jsum Znum 3 [[1; 5; 9]; [4; (-2); 3]] [0; 0; 0] false = [5; 3; 12].
Proof. reflexivity. Qed.
Example jsum_3 : jsum Znum 2 [[4; 2]] [1; 3] true = [5; 5].
Proof. reflexivity. Qed.
Example jsum_4 : jsum Znum 3 [[1; 5; 9]; [4; 2; 3]] [7; 3; (-1)] true = [12; 10; 11].
Proof. reflexivity. Qed.

(** Arguments of 'jcsagg' for a single column and function; slots of null indices which are not
    written are -1 in the tests. *)
Definition j1 (f : afun) (data : list Z) (starts bin_indices : list nat) (preserve : bool) (chunk0 : Z)
  (n_bins n_snaps nb ns : nat) :=
  jcsagg Znum (map (fun v => [v]) data) [mkAgg1 f [0%nat] [0%nat]] starts bin_indices preserve [chunk0] 1
    n_bins n_snaps nb ns.
Definition col1 (l : list Z) : list (list Z) := map (fun v => [v]) l.

(** test_jcsagg_bin_1d_no_void *)
Example jcsagg_bin_1d_no_void_first : j1 First [1; 4; 3; 7; 2; 6] [3; 5; 6]%nat [0; 1; 2]%nat false 0 3 0 0 0 =
  Ok (mkJout [6] (col1 [1; 7; 6]) (col1 []) []%nat []%nat).
Proof. reflexivity. Qed.
Example jcsagg_bin_1d_no_void_last : j1 Last [1; 4; 3; 7; 2; 6] [3; 5; 6]%nat [0; 1; 2]%nat false 0 3 0 0 0 =
  Ok (mkJout [6] (col1 [3; 2; 6]) (col1 []) []%nat []%nat).
Proof. reflexivity. Qed.
Example jcsagg_bin_1d_no_void_min : j1 Min [1; 4; 3; 7; 2; 6] [3; 5; 6]%nat [0; 1; 2]%nat false 0 3 0 0 0 =
  Ok (mkJout [6] (col1 [1; 2; 6]) (col1 []) []%nat []%nat).
Proof. reflexivity. Qed.
Example jcsagg_bin_1d_no_void_max : j1 Max [1; 4; 3; 7; 2; 6] [3; 5; 6]%nat [0; 1; 2]%nat false 0 3 0 0 0 =
  Ok (mkJout [6] (col1 [4; 7; 6]) (col1 []) []%nat []%nat).
Proof. reflexivity. Qed.
Example jcsagg_bin_1d_no_void_sum : j1 Sum [1; 4; 3; 7; 2; 6] [3; 5; 6]%nat [0; 1; 2]%nat false 0 3 0 0 0 =
  Ok (mkJout [6] (col1 [8; 9; 6]) (col1 []) []%nat []%nat).
Proof. reflexivity. Qed.
(** test_jcsagg_bin_1d_with_void *)
Example jcsagg_bin_1d_with_void_first : j1 First [1; 4; 3; 7; 2; 6] [0; 0; 3; 3; 5; 5; 6]%nat [0; 1; 2; 3; 4; 5; 6]%nat false 0 7 0 4 0 =
  Ok (mkJout [6] (col1 [0; 0; 1; 0; 7; 0; 6]) (col1 []) [0; 1; 3; 5]%nat []%nat).
Proof. reflexivity. Qed.
Example jcsagg_bin_1d_with_void_last : j1 Last [1; 4; 3; 7; 2; 6] [0; 0; 3; 3; 5; 5; 6]%nat [0; 1; 2; 3; 4; 5; 6]%nat false 0 7 0 4 0 =
  Ok (mkJout [6] (col1 [0; 0; 3; 0; 2; 0; 6]) (col1 []) [0; 1; 3; 5]%nat []%nat).
Proof. reflexivity. Qed.
Example jcsagg_bin_1d_with_void_min : j1 Min [1; 4; 3; 7; 2; 6] [0; 0; 3; 3; 5; 5; 6]%nat [0; 1; 2; 3; 4; 5; 6]%nat false 0 7 0 4 0 =
  Ok (mkJout [6] (col1 [0; 0; 1; 0; 2; 0; 6]) (col1 []) [0; 1; 3; 5]%nat []%nat).
Proof. reflexivity. Qed.
Example jcsagg_bin_1d_with_void_max : j1 Max [1; 4; 3; 7; 2; 6] [0; 0; 3; 3; 5; 5; 6]%nat [0; 1; 2; 3; 4; 5; 6]%nat false 0 7 0 4 0 =
  Ok (mkJout [6] (col1 [0; 0; 4; 0; 7; 0; 6]) (col1 []) [0; 1; 3; 5]%nat []%nat).
Proof. reflexivity. Qed.
Example jcsagg_bin_1d_with_void_sum : j1 Sum [1; 4; 3; 7; 2; 6] [0; 0; 3; 3; 5; 5; 6]%nat [0; 1; 2; 3; 4; 5; 6]%nat false 0 7 0 4 0 =
  Ok (mkJout [6] (col1 [0; 0; 8; 0; 9; 0; 6]) (col1 []) [0; 1; 3; 5]%nat []%nat).
Proof. reflexivity. Qed.
(** test_jcsagg_snap_1d_no_void *)
Example jcsagg_snap_1d_no_void_first : j1 First [1; 4; 3; 7; 2; 6] [3; 5; 6]%nat []%nat false 0 0 3 0 0 =
  Ok (mkJout [1] (col1 []) (col1 [1; 1; 1]) []%nat []%nat).
Proof. reflexivity. Qed.
Example jcsagg_snap_1d_no_void_last : j1 Last [1; 4; 3; 7; 2; 6] [3; 5; 6]%nat []%nat false 0 0 3 0 0 =
  Ok (mkJout [6] (col1 []) (col1 [3; 2; 6]) []%nat []%nat).
Proof. reflexivity. Qed.
Example jcsagg_snap_1d_no_void_min : j1 Min [1; 4; 3; 7; 2; 6] [3; 5; 6]%nat []%nat false 0 0 3 0 0 =
  Ok (mkJout [1] (col1 []) (col1 [1; 1; 1]) []%nat []%nat).
Proof. reflexivity. Qed.
Example jcsagg_snap_1d_no_void_max : j1 Max [1; 4; 3; 7; 2; 6] [3; 5; 6]%nat []%nat false 0 0 3 0 0 =
  Ok (mkJout [7] (col1 []) (col1 [4; 7; 7]) []%nat []%nat).
Proof. reflexivity. Qed.
Example jcsagg_snap_1d_no_void_sum : j1 Sum [1; 4; 3; 7; 2; 6] [3; 5; 6]%nat []%nat false 0 0 3 0 0 =
  Ok (mkJout [23] (col1 []) (col1 [8; 17; 23]) []%nat []%nat).
Proof. reflexivity. Qed.
(** test_jcsagg_snap_1d_with_void *)
Example jcsagg_snap_1d_with_void_first : j1 First [1; 4; 3; 7; 2; 6] [0; 0; 3; 3; 5; 5; 6]%nat []%nat false 0 0 7 0 4 =
  Ok (mkJout [1] (col1 []) (col1 [0; 0; 1; 1; 1; 1; 1]) []%nat [0; 1]%nat).
Proof. reflexivity. Qed.
Example jcsagg_snap_1d_with_void_last : j1 Last [1; 4; 3; 7; 2; 6] [0; 0; 3; 3; 5; 5; 6]%nat []%nat false 0 0 7 0 4 =
  Ok (mkJout [6] (col1 []) (col1 [0; 0; 3; 3; 2; 2; 6]) []%nat [0; 1]%nat).
Proof. reflexivity. Qed.
Example jcsagg_snap_1d_with_void_min : j1 Min [1; 4; 3; 7; 2; 6] [0; 0; 3; 3; 5; 5; 6]%nat []%nat false 0 0 7 0 4 =
  Ok (mkJout [1] (col1 []) (col1 [0; 0; 1; 1; 1; 1; 1]) []%nat [0; 1]%nat).
Proof. reflexivity. Qed.
Example jcsagg_snap_1d_with_void_max : j1 Max [1; 4; 3; 7; 2; 6] [0; 0; 3; 3; 5; 5; 6]%nat []%nat false 0 0 7 0 4 =
  Ok (mkJout [7] (col1 []) (col1 [0; 0; 4; 4; 7; 7; 7]) []%nat [0; 1]%nat).
Proof. reflexivity. Qed.
Example jcsagg_snap_1d_with_void_sum : j1 Sum [1; 4; 3; 7; 2; 6] [0; 0; 3; 3; 5; 5; 6]%nat []%nat false 0 0 7 0 4 =
  Ok (mkJout [23] (col1 []) (col1 [0; 0; 8; 8; 17; 17; 23]) []%nat [0; 1]%nat).
Proof. reflexivity. Qed.
(** test_jcsagg_bin_snap_1d *)
Example jcsagg_bin_snap_1d_0 : j1 First [1; 4; 3; 7; 2; 6; 11; 5; 13; 9] [0; 0; 1; 3; 4; 4; 4; 4; 4; 5; 5; 7; 7; 8; 8; 10; 10; 10; 10]%nat [1; 3; 5; 8; 11; 12; 16]%nat false 1 7 12 3 5 =
  Ok (mkJout [5] (col1 [0; 1; 7; 0; 2; 0; 5]) (col1 [0; 1; 7; 0; 0; 2; 2; 5; 5; 5; 0; 0]) [0; 3; 5]%nat [0; 3; 4; 10; 11]%nat).
Proof. reflexivity. Qed.
Example jcsagg_bin_snap_1d_1 : j1 First [1; 4; 3; 7; 2; 6; 11; 5; 13; 9] [0; 0; 1; 3; 4; 4; 4; 4; 4; 5; 5; 7; 7; 8; 8; 10; 10; 10; 10]%nat [1; 3; 5; 6; 11; 12; 17]%nat false 1 7 12 3 5 =
  Ok (mkJout [5] (col1 [0; 1; 7; 0; 2; 0; 5]) (col1 [0; 1; 7; 0; 0; 2; 2; 5; 5; 5; 5; 0]) [0; 3; 5]%nat [0; 3; 4; 11]%nat).
Proof. reflexivity. Qed.
Example jcsagg_bin_snap_1d_2 : j1 Last [1; 4; 3; 7; 2; 6; 11; 5; 13; 9] [0; 0; 1; 3; 4; 4; 4; 4; 4; 5; 5; 7; 7; 8; 8; 10; 10; 10; 10]%nat [1; 3; 5; 8; 11; 12; 16]%nat false 1 7 12 3 5 =
  Ok (mkJout [9] (col1 [0; 3; 7; 0; 11; 0; 9]) (col1 [0; 1; 7; 0; 0; 2; 2; 5; 5; 9; 0; 0]) [0; 3; 5]%nat [0; 3; 4; 10; 11]%nat).
Proof. reflexivity. Qed.
Example jcsagg_bin_snap_1d_3 : j1 Last [1; 4; 3; 7; 2; 6; 11; 5; 13; 9] [0; 0; 1; 3; 4; 4; 4; 4; 4; 5; 5; 7; 7; 8; 8; 10; 10; 10; 10]%nat [1; 3; 5; 8; 11; 12; 17]%nat false 1 7 12 3 5 =
  Ok (mkJout [9] (col1 [0; 3; 7; 0; 11; 0; 9]) (col1 [0; 1; 7; 0; 0; 2; 2; 5; 5; 9; 9; 0]) [0; 3; 5]%nat [0; 3; 4; 11]%nat).
Proof. reflexivity. Qed.
Example jcsagg_bin_snap_1d_4 : j1 Min [1; 4; 3; 7; 2; 6; 11; 5; 13; 9] [0; 0; 1; 3; 4; 4; 4; 4; 4; 5; 5; 7; 7; 8; 8; 10; 10; 10; 10]%nat [1; 3; 5; 8; 11; 12; 16]%nat false 1 7 12 3 5 =
  Ok (mkJout [5] (col1 [0; 1; 7; 0; 2; 0; 5]) (col1 [0; 1; 7; 0; 0; 2; 2; 5; 5; 5; 0; 0]) [0; 3; 5]%nat [0; 3; 4; 10; 11]%nat).
Proof. reflexivity. Qed.
Example jcsagg_bin_snap_1d_5 : j1 Min [1; 4; 3; 7; 2; 6; 11; 5; 13; 9] [0; 0; 1; 3; 4; 4; 4; 4; 4; 5; 5; 7; 7; 8; 8; 10; 10; 10; 10]%nat [1; 3; 5; 8; 11; 12; 17]%nat false 1 7 12 3 5 =
  Ok (mkJout [5] (col1 [0; 1; 7; 0; 2; 0; 5]) (col1 [0; 1; 7; 0; 0; 2; 2; 5; 5; 5; 5; 0]) [0; 3; 5]%nat [0; 3; 4; 11]%nat).
Proof. reflexivity. Qed.
Example jcsagg_bin_snap_1d_6 : j1 Max [1; 4; 3; 7; 2; 6; 11; 5; 13; 9] [0; 0; 1; 3; 4; 4; 4; 4; 4; 5; 5; 7; 7; 8; 8; 10; 10; 10; 10]%nat [1; 3; 5; 8; 11; 12; 16]%nat false 1 7 12 3 5 =
  Ok (mkJout [13] (col1 [0; 4; 7; 0; 11; 0; 13]) (col1 [0; 1; 7; 0; 0; 2; 2; 5; 5; 13; 0; 0]) [0; 3; 5]%nat [0; 3; 4; 10; 11]%nat).
Proof. reflexivity. Qed.
Example jcsagg_bin_snap_1d_7 : j1 Max [1; 4; 3; 7; 2; 6; 11; 5; 13; 9] [0; 0; 1; 3; 4; 4; 4; 4; 4; 5; 5; 7; 7; 8; 8; 10; 10; 10; 10]%nat [1; 3; 5; 8; 11; 12; 17]%nat false 1 7 12 3 5 =
  Ok (mkJout [13] (col1 [0; 4; 7; 0; 11; 0; 13]) (col1 [0; 1; 7; 0; 0; 2; 2; 5; 5; 13; 13; 0]) [0; 3; 5]%nat [0; 3; 4; 11]%nat).
Proof. reflexivity. Qed.
Example jcsagg_bin_snap_1d_8 : j1 Sum [1; 4; 3; 7; 2; 6; 11; 5; 13; 9] [0; 0; 1; 3; 4; 4; 4; 4; 4; 5; 5; 7; 7; 8; 8; 10; 10; 10; 10]%nat [1; 3; 5; 8; 11; 12; 16]%nat false 1 7 12 3 5 =
  Ok (mkJout [27] (col1 [0; 8; 7; 0; 19; 0; 27]) (col1 [0; 1; 7; 0; 0; 2; 2; 5; 5; 27; 0; 0]) [0; 3; 5]%nat [0; 3; 4; 10; 11]%nat).
Proof. reflexivity. Qed.
Example jcsagg_bin_snap_1d_9 : j1 Sum [1; 4; 3; 7; 2; 6; 11; 5; 13; 9] [0; 0; 1; 3; 4; 4; 4; 4; 4; 5; 5; 7; 7; 8; 8; 10; 10; 10; 10]%nat [1; 3; 5; 8; 11; 12; 17]%nat false 1 7 12 3 5 =
  Ok (mkJout [27] (col1 [0; 8; 7; 0; 19; 0; 27]) (col1 [0; 1; 7; 0; 0; 2; 2; 5; 5; 27; 27; 0]) [0; 3; 5]%nat [0; 3; 4; 11]%nat).
Proof. reflexivity. Qed.
Example jcsagg_bin_snap_1d_10 : j1 First [1; 4; 3; 7; 2; 6; 11; 5; 13; 9] [0; 0; 1; 3; 4; 4; 4; 4; 4; 5; 5; 7; 7; 8; 8; 10; 10; 10; 10]%nat [1; 3; 5; 8; 11; 12; 16]%nat true 1 7 12 3 5 =
  Ok (mkJout [5] (col1 [1; 1; 7; 0; 2; 0; 5]) (col1 [1; 1; 7; 0; 0; 2; 2; 5; 5; 5; 0; 0]) [3; 5]%nat [3; 4; 10; 11]%nat).
Proof. reflexivity. Qed.
Example jcsagg_bin_snap_1d_11 : j1 First [1; 4; 3; 7; 2; 6; 11; 5; 13; 9] [0; 0; 1; 3; 4; 4; 4; 4; 4; 5; 5; 7; 7; 8; 8; 10; 10; 10; 10]%nat [1; 3; 5; 6; 11; 12; 17]%nat true 1 7 12 3 5 =
  Ok (mkJout [5] (col1 [1; 1; 7; 0; 2; 0; 5]) (col1 [1; 1; 7; 0; 0; 2; 2; 5; 5; 5; 5; 0]) [3; 5]%nat [3; 4; 11]%nat).
Proof. reflexivity. Qed.
Example jcsagg_bin_snap_1d_12 : j1 Last [1; 4; 3; 7; 2; 6; 11; 5; 13; 9] [0; 0; 1; 3; 4; 4; 4; 4; 4; 5; 5; 7; 7; 8; 8; 10; 10; 10; 10]%nat [1; 3; 5; 8; 11; 12; 16]%nat true 1 7 12 3 5 =
  Ok (mkJout [9] (col1 [1; 3; 7; 0; 11; 0; 9]) (col1 [1; 1; 7; 0; 0; 2; 2; 5; 5; 9; 0; 0]) [3; 5]%nat [3; 4; 10; 11]%nat).
Proof. reflexivity. Qed.
Example jcsagg_bin_snap_1d_13 : j1 Last [1; 4; 3; 7; 2; 6; 11; 5; 13; 9] [0; 0; 1; 3; 4; 4; 4; 4; 4; 5; 5; 7; 7; 8; 8; 10; 10; 10; 10]%nat [1; 3; 5; 8; 11; 12; 17]%nat true 1 7 12 3 5 =
  Ok (mkJout [9] (col1 [1; 3; 7; 0; 11; 0; 9]) (col1 [1; 1; 7; 0; 0; 2; 2; 5; 5; 9; 9; 0]) [3; 5]%nat [3; 4; 11]%nat).
Proof. reflexivity. Qed.
Example jcsagg_bin_snap_1d_14 : j1 Min [1; 4; 3; 7; 2; 6; 11; 5; 13; 9] [0; 0; 1; 3; 4; 4; 4; 4; 4; 5; 5; 7; 7; 8; 8; 10; 10; 10; 10]%nat [1; 3; 5; 8; 11; 12; 16]%nat true 1 7 12 3 5 =
  Ok (mkJout [5] (col1 [1; 1; 7; 0; 2; 0; 5]) (col1 [1; 1; 7; 0; 0; 2; 2; 5; 5; 5; 0; 0]) [3; 5]%nat [3; 4; 10; 11]%nat).
Proof. reflexivity. Qed.
Example jcsagg_bin_snap_1d_15 : j1 Min [1; 4; 3; 7; 2; 6; 11; 5; 13; 9] [0; 0; 1; 3; 4; 4; 4; 4; 4; 5; 5; 7; 7; 8; 8; 10; 10; 10; 10]%nat [1; 3; 5; 8; 11; 12; 17]%nat true 1 7 12 3 5 =
  Ok (mkJout [5] (col1 [1; 1; 7; 0; 2; 0; 5]) (col1 [1; 1; 7; 0; 0; 2; 2; 5; 5; 5; 5; 0]) [3; 5]%nat [3; 4; 11]%nat).
Proof. reflexivity. Qed.
Example jcsagg_bin_snap_1d_16 : j1 Max [1; 4; 3; 7; 2; 6; 11; 5; 13; 9] [0; 0; 1; 3; 4; 4; 4; 4; 4; 5; 5; 7; 7; 8; 8; 10; 10; 10; 10]%nat [1; 3; 5; 8; 11; 12; 16]%nat true 1 7 12 3 5 =
  Ok (mkJout [13] (col1 [1; 4; 7; 0; 11; 0; 13]) (col1 [1; 1; 7; 0; 0; 2; 2; 5; 5; 13; 0; 0]) [3; 5]%nat [3; 4; 10; 11]%nat).
Proof. reflexivity. Qed.
Example jcsagg_bin_snap_1d_17 : j1 Max [1; 4; 3; 7; 2; 6; 11; 5; 13; 9] [0; 0; 1; 3; 4; 4; 4; 4; 4; 5; 5; 7; 7; 8; 8; 10; 10; 10; 10]%nat [1; 3; 5; 8; 11; 12; 17]%nat true 1 7 12 3 5 =
  Ok (mkJout [13] (col1 [1; 4; 7; 0; 11; 0; 13]) (col1 [1; 1; 7; 0; 0; 2; 2; 5; 5; 13; 13; 0]) [3; 5]%nat [3; 4; 11]%nat).
Proof. reflexivity. Qed.
Example jcsagg_bin_snap_1d_18 : j1 Sum [1; 4; 3; 7; 2; 6; 11; 5; 13; 9] [0; 0; 1; 3; 4; 4; 4; 4; 4; 5; 5; 7; 7; 8; 8; 10; 10; 10; 10]%nat [1; 3; 5; 8; 11; 12; 16]%nat true 1 7 12 3 5 =
  Ok (mkJout [27] (col1 [1; 8; 7; 0; 19; 0; 27]) (col1 [1; 1; 7; 0; 0; 2; 2; 5; 5; 27; 0; 0]) [3; 5]%nat [3; 4; 10; 11]%nat).
Proof. reflexivity. Qed.
Example jcsagg_bin_snap_1d_19 : j1 Sum [1; 4; 3; 7; 2; 6; 11; 5; 13; 9] [0; 0; 1; 3; 4; 4; 4; 4; 4; 5; 5; 7; 7; 8; 8; 10; 10; 10; 10]%nat [1; 3; 5; 8; 11; 12; 17]%nat true 1 7 12 3 5 =
  Ok (mkJout [27] (col1 [1; 8; 7; 0; 19; 0; 27]) (col1 [1; 1; 7; 0; 0; 2; 2; 5; 5; 27; 27; 0]) [3; 5]%nat [3; 4; 11]%nat).
Proof. reflexivity. Qed.
(** test_jcsagg_bin_snap_2d *)
Example jcsagg_bin_snap_2d :
  jcsagg Znum [[1; 9; 5]; [4; 7; 11]; [3; 3; 17]; [7; 12; 19]; [8; 5; 6]; [2; 17; 7]; [11; 8; 13]; [5; 20; 4]; [13; 4; 10]; [9; 2; 9]]
    [mkAgg1 First [0;2]%nat [0;1]%nat; mkAgg1 Last [1;2]%nat [2;3]%nat; mkAgg1 Min [0;2]%nat [4;5]%nat;
     mkAgg1 Max [0;1]%nat [6;7]%nat; mkAgg1 Sum [1;2]%nat [8;9]%nat]
    [0; 0; 1; 4; 4; 4; 4; 5; 5; 7; 8; 8; 8; 10; 10; 10; 10]%nat [1; 4; 5; 6; 12; 15]%nat false [0; 0; 0; 0; 0; 0; 0; 0; 0; 0] 10 6 11 3 3 =
  Ok (mkJout [13; 10; 2; 9; 9; 9; 13; 4; 6; 19]
        [[0; 0; 0; 0; 0; 0; 0; 0; 0; 0]; [1; 5; 12; 19; 1; 5; 7; 12; 31; 52]; [0; 0; 0; 0; 0; 0; 0; 0; 0; 0]; [0; 0; 0; 0; 0; 0; 0; 0; 0; 0]; [8; 6; 20; 4; 2; 4; 11; 20; 50; 30]; [13; 10; 2; 9; 9; 9; 13; 4; 6; 19]]
        [[0; 0; 0; 0; 0; 0; 0; 0; 0; 0]; [1; 5; 9; 5; 1; 5; 1; 9; 9; 5]; [1; 5; 12; 19; 1; 5; 7; 12; 31; 52]; [8; 6; 5; 6; 8; 6; 8; 5; 5; 6]; [8; 6; 5; 6; 8; 6; 8; 5; 5; 6]; [8; 6; 8; 13; 2; 6; 11; 17; 30; 26]; [8; 6; 20; 4; 2; 4; 11; 20; 50; 30]; [8; 6; 20; 4; 2; 4; 11; 20; 50; 30]; [13; 10; 2; 9; 9; 9; 13; 4; 6; 19]; [13; 10; 2; 9; 9; 9; 13; 4; 6; 19]; [0; 0; 0; 0; 0; 0; 0; 0; 0; 0]]
        [0; 2; 3]%nat [0; 10]%nat).
Proof. reflexivity. Qed.

(** * test_cumsegagg.py *)

Definition t (h m : Z) : Z := (h * 60 + m) * 60 * 1000000000.
(** Rows: time, value, quantity; names of columns: 0 is the time, 1 the value, 2 the quantity. *)
Definition drow : Type := Z * Z * Z.
Definition time (r : drow) : Z := fst (fst r).
Definition val (r : drow) (c : cname) : Z :=
  match c with 0%nat => fst (fst r) | 1%nat => snd (fst r) | _ => snd r end.
Definition dtypes := [(0, DDatetime64); (1, DFloat64); (2, DInt64)]%nat.
Definition nums (d : dtype) : num Z := Znum.
(** 'first', 'max', 'min', 'last' of the value. *)
Definition agg4 : aggspec :=
  [(10, (1, Some First)); (11, (1, Some Max)); (12, (1, Some Min)); (13, (1, Some Last))]%nat.
(** And 'sum' of the quantity, 'first' of the time. *)
Definition agg6 : aggspec := agg4 ++ [(14, (2, Some Sum)); (15, (0, Some First))]%nat.
Definition tg (freq : Z) (closed label : side) := mkTG (t 0 freq) closed label OStartDay 0.
Definition csa (agg : aggspec) (tgb : tgrouper) (snap : option byspec) (data : list drow) :=
  match cumsegagg nums val agg dtypes (time_bins time tgb) sbuf_empty (Some time) snap true data None with
  | Ok (r, _) => Ok r
  | Err e => Err e
  end.
(** 'snap_by' as a DatetimeIndex. *)
Definition dti (l : list Z) : byspec := ByVals PIndex l l.
(** A frame by its labels and columns; the columns come by dtype, in the order of 'agg'. *)
Definition fr (labels : list Z) (cols : list (cname * list (option Z))) : frame Z := mkFrame labels cols.
Notation "h !! m" := (t h m) (at level 30, no associativity).
Definition S := @Some Z.
Definition X := @None Z.

(** test_setup_csagg: names 1, 2, 3, 4 are val1_float, val2_float, val3_int, val4_datetime. *)
Example setup_csagg :
  setup_cumsegagg [(10, (1, Some First)); (11, (2, Some First)); (12, (2, Some Sum)); (13, (4, Some First));
                   (14, (3, Some Last)); (15, (3, Some Min)); (16, (3, Some Max))]%nat
    [(1, DFloat64); (2, DFloat64); (3, DInt64); (4, DDatetime64)]%nat =
  Ok [(DFloat64, mkAcfg [1; 2] [10; 11; 12] [mkAgg1 First [0; 1] [0; 1]; mkAgg1 Sum [1] [2]] 3);
      (DDatetime64, mkAcfg [4] [13] [mkAgg1 First [0] [0]] 1);
      (DInt64, mkAcfg [3] [14; 15; 16] [mkAgg1 Last [0] [0]; mkAgg1 Min [0] [1]; mkAgg1 Max [0] [2]] 3)]%nat.
Proof. reflexivity. Qed.

(** test_cumsegagg_bin_single_dtype (integers, two columns) and test_cumsegagg_bin_mixed_dtype. *)
Example bin_single_dtype :
  csa [(10, (1, Some First)); (11, (1, Some Last)); (12, (2, Some Last))]%nat (tg 5 SLeft SLeft) None
    [(8!!0, 20, 20); (8!!5, 40, 40); (8!!8, 50, 50); (8!!12, 80, 80); (8!!14, 90, 90)] =
  Ok (Some ((fr [8!!0; 8!!5; 8!!10]
     [(10%nat, [S 20; S 40; S 80]);
      (11%nat, [S 20; S 50; S 90]);
      (12%nat, [S 20; S 50; S 90])]), None)).
Proof. vm_compute. reflexivity. Qed.
Example bin_mixed_dtype :
  csa [(10, (1, Some First)); (11, (1, Some Sum)); (12, (1, Some Last)); (13, (2, Some Min)); (14, (2, Some Max)); (15, (0, Some First))]%nat
    (tg 5 SLeft SLeft) None
    [(8!!0, 20, 1); (8!!5, 40, 3); (8!!8, 50, 6); (8!!12, 80, 7); (8!!14, 90, 9)] =
  Ok (Some ((fr [8!!0; 8!!5; 8!!10]
     [(10%nat, [S 20; S 40; S 80]);
      (11%nat, [S 20; S 90; S 170]);
      (12%nat, [S 20; S 50; S 90]);
      (13%nat, [S 1; S 3; S 7]);
      (14%nat, [S 1; S 6; S 9]);
      (15%nat, [S (8!!0); S (8!!5); S (8!!12)])]), None)).
Proof. vm_compute. reflexivity. Qed.

(** test_cumsegagg_bin_snap_with_null_chunks *)
Example bin_snap_with_null_chunks_0 :
  csa agg6 (tg 30 SLeft SRight) (Some (ByTG (tg 5 SLeft SRight)))
    [(8!!10, 40, 4); (8!!10, 42, 3); (8!!12, 39, 1); (8!!17, 56, 7); (8!!19, 60, 2); (8!!20, 98, 6); (9!!0, 45, 2); (9!!10, 11, 8); (9!!30, 32, 1)] =
  Ok (Some
    ((fr [8!!30; 9!!0; 9!!30; 10!!0]
     [(10%nat, [S 40; X; S 45; S 32]);
      (11%nat, [S 98; X; S 45; S 32]);
      (12%nat, [S 39; X; S 11; S 32]);
      (13%nat, [S 98; X; S 11; S 32]);
      (14%nat, [S 23; X; S 10; S 1]);
      (15%nat, [S (8!!10); X; S (9!!0); S (9!!30)])]),
     Some
     (fr [8!!15; 8!!20; 8!!25; 8!!30; 8!!35; 8!!40; 8!!45; 8!!50; 8!!55; 9!!0; 9!!5; 9!!10; 9!!15; 9!!20; 9!!25; 9!!30; 9!!35]
     [(10%nat, [S 40; S 40; S 40; S 40; X; X; X; X; X; X; S 45; S 45; S 45; S 45; S 45; S 45; S 32]);
      (11%nat, [S 42; S 60; S 98; S 98; X; X; X; X; X; X; S 45; S 45; S 45; S 45; S 45; S 45; S 32]);
      (12%nat, [S 39; S 39; S 39; S 39; X; X; X; X; X; X; S 45; S 45; S 11; S 11; S 11; S 11; S 32]);
      (13%nat, [S 39; S 60; S 98; S 98; X; X; X; X; X; X; S 45; S 45; S 11; S 11; S 11; S 11; S 32]);
      (14%nat, [S 8; S 17; S 23; S 23; X; X; X; X; X; X; S 2; S 2; S 10; S 10; S 10; S 10; S 1]);
      (15%nat, [S (8!!10); S (8!!10); S (8!!10); S (8!!10); X; X; X; X; X; X; S (9!!0); S (9!!0); S (9!!0); S (9!!0); S (9!!0); S (9!!0); S (9!!30)])]))).
Proof. vm_compute. reflexivity. Qed.
Example bin_snap_with_null_chunks_1 :
  csa agg6 (tg 30 SRight SLeft) (Some (ByTG (tg 5 SRight SRight)))
    [(8!!10, 40, 4); (8!!10, 42, 3); (8!!12, 39, 1); (8!!17, 56, 7); (8!!19, 60, 2); (8!!20, 98, 6); (9!!0, 45, 2); (9!!10, 11, 8); (9!!30, 32, 1)] =
  Ok (Some
    ((fr [8!!0; 8!!30; 9!!0]
     [(10%nat, [S 40; S 45; S 11]);
      (11%nat, [S 98; S 45; S 32]);
      (12%nat, [S 39; S 45; S 11]);
      (13%nat, [S 98; S 45; S 32]);
      (14%nat, [S 23; S 2; S 9]);
      (15%nat, [S (8!!10); S (9!!0); S (9!!10)])]),
     Some
     (fr [8!!10; 8!!15; 8!!20; 8!!25; 8!!30; 8!!35; 8!!40; 8!!45; 8!!50; 8!!55; 9!!0; 9!!5; 9!!10; 9!!15; 9!!20; 9!!25; 9!!30]
     [(10%nat, [S 40; S 40; S 40; S 40; S 40; X; X; X; X; X; S 45; X; S 11; S 11; S 11; S 11; S 11]);
      (11%nat, [S 42; S 42; S 98; S 98; S 98; X; X; X; X; X; S 45; X; S 11; S 11; S 11; S 11; S 32]);
      (12%nat, [S 40; S 39; S 39; S 39; S 39; X; X; X; X; X; S 45; X; S 11; S 11; S 11; S 11; S 11]);
      (13%nat, [S 42; S 39; S 98; S 98; S 98; X; X; X; X; X; S 45; X; S 11; S 11; S 11; S 11; S 32]);
      (14%nat, [S 7; S 8; S 23; S 23; S 23; X; X; X; X; X; S 2; X; S 8; S 8; S 8; S 8; S 9]);
      (15%nat, [S (8!!10); S (8!!10); S (8!!10); S (8!!10); S (8!!10); X; X; X; X; X; S (9!!0); X; S (9!!10); S (9!!10); S (9!!10); S (9!!10); S (9!!10)])]))).
Proof. vm_compute. reflexivity. Qed.

(** test_cumsegagg_bin_snap_with_null_chunks_other *)
Example bin_snap_with_null_chunks_other_0 :
  csa agg6 (tg 30 SLeft SRight) (Some (ByTG (tg 5 SLeft SRight)))
    [(8!!0, 40, 4); (8!!10, 42, 3); (8!!12, 39, 1); (8!!17, 56, 7); (8!!19, 60, 2); (8!!20, 98, 6); (9!!10, 11, 8)] =
  Ok (Some
    ((fr [8!!30; 9!!0; 9!!30]
     [(10%nat, [S 40; X; S 11]);
      (11%nat, [S 98; X; S 11]);
      (12%nat, [S 39; X; S 11]);
      (13%nat, [S 98; X; S 11]);
      (14%nat, [S 23; X; S 8]);
      (15%nat, [S (8!!0); X; S (9!!10)])]),
     Some
     (fr [8!!5; 8!!10; 8!!15; 8!!20; 8!!25; 8!!30; 8!!35; 8!!40; 8!!45; 8!!50; 8!!55; 9!!0; 9!!5; 9!!10; 9!!15]
     [(10%nat, [S 40; S 40; S 40; S 40; S 40; S 40; X; X; X; X; X; X; X; X; S 11]);
      (11%nat, [S 40; S 40; S 42; S 60; S 98; S 98; X; X; X; X; X; X; X; X; S 11]);
      (12%nat, [S 40; S 40; S 39; S 39; S 39; S 39; X; X; X; X; X; X; X; X; S 11]);
      (13%nat, [S 40; S 40; S 39; S 60; S 98; S 98; X; X; X; X; X; X; X; X; S 11]);
      (14%nat, [S 4; S 4; S 8; S 17; S 23; S 23; X; X; X; X; X; X; X; X; S 8]);
      (15%nat, [S (8!!0); S (8!!0); S (8!!0); S (8!!0); S (8!!0); S (8!!0); X; X; X; X; X; X; X; X; S (9!!10)])]))).
Proof. vm_compute. reflexivity. Qed.
Example bin_snap_with_null_chunks_other_1 :
  csa agg6 (tg 30 SRight SLeft) (Some (ByTG (tg 5 SRight SRight)))
    [(8!!0, 40, 4); (8!!10, 42, 3); (8!!12, 39, 1); (8!!17, 56, 7); (8!!19, 60, 2); (8!!20, 98, 6); (9!!10, 11, 8)] =
  Ok (Some
    ((fr [7!!30; 8!!0; 8!!30; 9!!0]
     [(10%nat, [S 40; S 42; X; S 11]);
      (11%nat, [S 40; S 98; X; S 11]);
      (12%nat, [S 40; S 39; X; S 11]);
      (13%nat, [S 40; S 98; X; S 11]);
      (14%nat, [S 4; S 19; X; S 8]);
      (15%nat, [S (8!!0); S (8!!10); X; S (9!!10)])]),
     Some
     (fr [8!!0; 8!!5; 8!!10; 8!!15; 8!!20; 8!!25; 8!!30; 8!!35; 8!!40; 8!!45; 8!!50; 8!!55; 9!!0; 9!!5; 9!!10]
     [(10%nat, [S 40; X; S 42; S 42; S 42; S 42; S 42; X; X; X; X; X; X; X; S 11]);
      (11%nat, [S 40; X; S 42; S 42; S 98; S 98; S 98; X; X; X; X; X; X; X; S 11]);
      (12%nat, [S 40; X; S 42; S 39; S 39; S 39; S 39; X; X; X; X; X; X; X; S 11]);
      (13%nat, [S 40; X; S 42; S 39; S 98; S 98; S 98; X; X; X; X; X; X; X; S 11]);
      (14%nat, [S 4; X; S 3; S 4; S 19; S 19; S 19; X; X; X; X; X; X; X; S 8]);
      (15%nat, [S (8!!0); X; S (8!!10); S (8!!10); S (8!!10); S (8!!10); S (8!!10); X; X; X; X; X; X; X; S (9!!10)])]))).
Proof. vm_compute. reflexivity. Qed.

(** test_cumsegagg_single_bin_several_snaps *)
Example single_bin_several_snaps_0 :
  csa agg4 (tg 30 SLeft SLeft) (Some (ByTG (tg 5 SLeft SRight)))
    [(8!!2, 40, 1); (8!!10, 42, 1); (8!!12, 39, 1); (8!!17, 56, 1); (8!!19, 60, 1); (8!!20, 98, 1)] =
  Ok (Some
    ((fr [8!!0]
     [(10%nat, [S 40]);
      (11%nat, [S 98]);
      (12%nat, [S 39]);
      (13%nat, [S 98])]),
     Some
     (fr [8!!5; 8!!10; 8!!15; 8!!20; 8!!25]
     [(10%nat, [S 40; S 40; S 40; S 40; S 40]);
      (11%nat, [S 40; S 40; S 42; S 60; S 98]);
      (12%nat, [S 40; S 40; S 39; S 39; S 39]);
      (13%nat, [S 40; S 40; S 39; S 60; S 98])]))).
Proof. vm_compute. reflexivity. Qed.
Example single_bin_several_snaps_1 :
  csa agg4 (tg 30 SRight SRight) (Some (ByTG (tg 5 SRight SRight)))
    [(8!!2, 40, 1); (8!!10, 42, 1); (8!!12, 39, 1); (8!!17, 56, 1); (8!!19, 60, 1); (8!!20, 98, 1)] =
  Ok (Some
    ((fr [8!!30]
     [(10%nat, [S 40]);
      (11%nat, [S 98]);
      (12%nat, [S 39]);
      (13%nat, [S 98])]),
     Some
     (fr [8!!5; 8!!10; 8!!15; 8!!20]
     [(10%nat, [S 40; S 40; S 40; S 40]);
      (11%nat, [S 40; S 42; S 42; S 98]);
      (12%nat, [S 40; S 40; S 39; S 39]);
      (13%nat, [S 40; S 42; S 39; S 98])]))).
Proof. vm_compute. reflexivity. Qed.

(** test_cumsegagg_several_null_snaps_at_start_of_bins *)
Example several_null_snaps_at_start_of_bins_0 :
  csa agg4 (tg 30 SLeft SRight) (Some (dti [8!!0; 8!!5; 8!!6; 8!!10; 8!!44; 8!!48; 8!!52; 8!!55; 9!!6; 9!!9; 9!!16]))
    [(8!!10, 42, 1); (8!!55, 32, 1)] =
  Ok (Some
    ((fr [8!!30; 9!!0]
     [(10%nat, [S 42; S 32]);
      (11%nat, [S 42; S 32]);
      (12%nat, [S 42; S 32]);
      (13%nat, [S 42; S 32])]),
     Some
     (fr [8!!0; 8!!5; 8!!6; 8!!10; 8!!44; 8!!48; 8!!52; 8!!55; 9!!6]
     [(10%nat, [X; X; X; X; X; X; X; X; X]);
      (11%nat, [X; X; X; X; X; X; X; X; X]);
      (12%nat, [X; X; X; X; X; X; X; X; X]);
      (13%nat, [X; X; X; X; X; X; X; X; X])]))).
Proof. vm_compute. reflexivity. Qed.
Example several_null_snaps_at_start_of_bins_1 :
  csa agg4 (tg 30 SRight SRight) (Some (dti [8!!0; 8!!5; 8!!6; 8!!10; 8!!44; 8!!48; 8!!52; 8!!55; 9!!6; 9!!9; 9!!16]))
    [(8!!10, 42, 1); (8!!55, 32, 1)] =
  Ok (Some
    ((fr [8!!30; 9!!0]
     [(10%nat, [S 42; S 32]);
      (11%nat, [S 42; S 32]);
      (12%nat, [S 42; S 32]);
      (13%nat, [S 42; S 32])]),
     Some
     (fr [8!!0; 8!!5; 8!!6; 8!!10; 8!!44; 8!!48; 8!!52; 8!!55]
     [(10%nat, [X; X; X; S 42; X; X; X; S 32]);
      (11%nat, [X; X; X; S 42; X; X; X; S 32]);
      (12%nat, [X; X; X; S 42; X; X; X; S 32]);
      (13%nat, [X; X; X; S 42; X; X; X; S 32])]))).
Proof. vm_compute. reflexivity. Qed.

(** test_cumsegagg_binby_grouper_snapby_intervalindex *)
Example binby_grouper_snapby_intervalindex_0 :
  csa agg4 (tg 30 SLeft SRight) (Some (dti [7!!58; 8!!0; 8!!13; 8!!20; 8!!50; 9!!6]))
    [(8!!0, 40, 4); (8!!10, 42, 3); (8!!12, 39, 1); (8!!17, 56, 7); (8!!19, 60, 2); (8!!20, 98, 6); (9!!10, 11, 8)] =
  Ok (Some
    ((fr [8!!30; 9!!0; 9!!30]
     [(10%nat, [S 40; X; S 11]);
      (11%nat, [S 98; X; S 11]);
      (12%nat, [S 39; X; S 11]);
      (13%nat, [S 98; X; S 11])]),
     Some
     (fr [7!!58; 8!!0; 8!!13; 8!!20; 8!!50; 9!!6]
     [(10%nat, [X; X; S 40; S 40; X; X]);
      (11%nat, [X; X; S 42; S 60; X; X]);
      (12%nat, [X; X; S 39; S 39; X; X]);
      (13%nat, [X; X; S 39; S 60; X; X])]))).
Proof. vm_compute. reflexivity. Qed.
Example binby_grouper_snapby_intervalindex_1 :
  csa agg4 (tg 30 SRight SLeft) (Some (dti [7!!58; 8!!0; 8!!13; 8!!20; 8!!50; 9!!6]))
    [(8!!0, 40, 4); (8!!10, 42, 3); (8!!12, 39, 1); (8!!17, 56, 7); (8!!19, 60, 2); (8!!20, 98, 6); (9!!10, 11, 8)] =
  Ok (Some
    ((fr [7!!30; 8!!0; 8!!30; 9!!0]
     [(10%nat, [S 40; S 42; X; S 11]);
      (11%nat, [S 40; S 98; X; S 11]);
      (12%nat, [S 40; S 39; X; S 11]);
      (13%nat, [S 40; S 98; X; S 11])]),
     Some
     (fr [7!!58; 8!!0; 8!!13; 8!!20; 8!!50; 9!!6]
     [(10%nat, [X; S 40; S 42; S 42; X; X]);
      (11%nat, [X; S 40; S 42; S 98; X; X]);
      (12%nat, [X; S 40; S 39; S 39; X; X]);
      (13%nat, [X; S 40; S 39; S 98; X; X])]))).
Proof. vm_compute. reflexivity. Qed.

(** test_cumsegagg_binby_callable_snapby_intervalindex *)
Example binby_callable_snapby_intervalindex_0 :
  match cumsegagg nums val agg4 dtypes (row_bins time 4 SLeft) None (Some time) (Some (dti [7!!58; 8!!0; 8!!13; 8!!20; 8!!50; 9!!6])) true
    [(8!!0, 40, 4); (8!!10, 42, 3); (8!!12, 39, 1); (8!!17, 56, 7); (8!!19, 60, 2); (8!!20, 98, 6); (9!!10, 11, 8)] None with
  | Ok (r, _) => Ok r
  | Err e => Err e
  end =
  Ok (Some
    ((fr [8!!0; 8!!19]
     [(10%nat, [S 40; S 60]);
      (11%nat, [S 56; S 98]);
      (12%nat, [S 39; S 11]);
      (13%nat, [S 56; S 11])]),
     Some
     (fr [7!!58; 8!!0; 8!!13; 8!!20; 8!!50; 9!!6]
     [(10%nat, [X; X; S 40; S 60; S 60; S 60]);
      (11%nat, [X; X; S 42; S 60; S 98; S 98]);
      (12%nat, [X; X; S 39; S 60; S 60; S 60]);
      (13%nat, [X; X; S 39; S 60; S 98; S 98])]))).
Proof. vm_compute. reflexivity. Qed.
Example binby_callable_snapby_intervalindex_1 :
  match cumsegagg nums val agg4 dtypes (row_bins time 4 SRight) None (Some time) (Some (dti [7!!58; 8!!0; 8!!13; 8!!20; 8!!50; 9!!6])) true
    [(8!!0, 40, 4); (8!!10, 42, 3); (8!!12, 39, 1); (8!!17, 56, 7); (8!!19, 60, 2); (8!!20, 98, 6); (9!!10, 11, 8)] None with
  | Ok (r, _) => Ok r
  | Err e => Err e
  end =
  Ok (Some
    ((fr [8!!0; 8!!19]
     [(10%nat, [S 40; S 60]);
      (11%nat, [S 56; S 98]);
      (12%nat, [S 39; S 11]);
      (13%nat, [S 56; S 11])]),
     Some
     (fr [7!!58; 8!!0; 8!!13; 8!!20; 8!!50; 9!!6]
     [(10%nat, [X; S 40; S 40; S 60; S 60; S 60]);
      (11%nat, [X; S 40; S 42; S 98; S 98; S 98]);
      (12%nat, [X; S 40; S 39; S 60; S 60; S 60]);
      (13%nat, [X; S 40; S 39; S 98; S 98; S 98])]))).
Proof. vm_compute. reflexivity. Qed.

(** test_exit_on_null_data, test_exception_col_not_existing, test_exception_error_on_0,
    test_exception_unknown_agg_function *)
Example exit_on_null_data : csa agg4 (tg 10 SLeft SRight) (Some (ByTG (tg 5 SLeft SLeft))) [] = Ok None.
Proof. reflexivity. Qed.
Example exception_col_not_existing :
  csa [(10, (7, Some First))]%nat (tg 10 SLeft SRight) (Some (ByTG (tg 5 SLeft SLeft))) [(8!!0, 10, 1)] = Err ValueError.
Proof. vm_compute. reflexivity. Qed.
Example exception_error_on_0 :
  csa [(10, (1, Some First))]%nat (tg 10 SLeft SRight) (Some (ByTG (tg 5 SLeft SRight))) [(8!!0, 0, 1)] = Err ValueError.
Proof. vm_compute. reflexivity. Qed.
Example exception_unknown_agg_function :
  csa [(10, (1, None))]%nat (tg 10 SLeft SRight) None [(8!!0, 0, 1)] = Err ValueError.
Proof. vm_compute. reflexivity. Qed.

(** * test_cumsegagg_restart.py *)

(** Successive calls on slices of data, each with its snapshots: the frames, the last chunk results
    left in the buffer after each call. *)
Fixpoint calls {B} (agg : aggspec) (bin_by : list drow -> option B -> res (seg * option B)) (empty : B)
  (data : list drow) (start : nat) (ends : list (nat * option byspec)) (b : csabuf B Z)
  : res (list (frame Z * option (frame Z) * list (cname * Z))) :=
  match ends with
  | [] => Ok []
  | (stop, snap) :: ends' =>
      match cumsegagg nums val agg dtypes bin_by empty (Some time) snap true (slice start stop data) (Some b) with
      | Ok (Some (bf, sf), Some b') =>
          let* l := calls agg bin_by empty data stop ends' b' in
          Ok ((bf, sf, match cb_last b' with Some r => r | None => [] end) :: l)
      | Ok _ => Err TypeError
      | Err e => Err e
      end
  end.

(** 'pconcat' of frames, then the last row for each label. *)
Fixpoint keep_last (l : list (Z * list (option Z))) : list (Z * list (option Z)) :=
  match l with
  | [] => []
  | (k, r) :: l' => if existsb (fun x => fst x =? k) l' then keep_last l' else (k, r) :: keep_last l'
  end.
Definition frame_rows (f : frame Z) : list (Z * list (option Z)) :=
  map (fun il => (snd il, map (fun c => nth (fst il) (snd c) None) (f_cols f)))
    (combine (seq 0 (length (f_labels f))) (f_labels f)).
Definition concat_last (fs : list (frame Z)) : list (Z * list (option Z)) := keep_last (flat_map frame_rows fs).

(** Last chunk results after each call, rows of bins, rows of snapshots. *)
Definition summary (r : res (list (frame Z * option (frame Z) * list (cname * Z)))) :=
  match r with
  | Err e => Err e
  | Ok l => Ok (map snd l, concat_last (map (fun x => fst (fst x)) l),
                concat_last (flat_map (fun x => match snd (fst x) with Some f => [f] | None => [] end) l))
  end.

Definition agg_fs : aggspec := [(10, (1, Some First)); (14, (2, Some Sum))]%nat.
Definition agg_ml : aggspec := [(12, (2, Some Min)); (13, (2, Some Last))]%nat.

(** test_cumsegagg_bin_only *)
Example bin_only_0 :
  summary (calls agg_fs (time_bins time (tg 15 SLeft SRight)) sbuf_empty
    [(8!!10, 40, 4); (8!!10, 42, 3); (8!!12, 39, 1); (8!!17, 56, 7); (8!!19, 60, 2); (8!!20, 98, 6); (9!!0, 45, 2); (9!!10, 11, 8); (9!!30, 32, 1)]
    0 [(6%nat, None); (11%nat, None)] csabuf_empty) =
  Ok ([[(10%nat, 56); (14%nat, 15)]; [(10%nat, 32); (14%nat, 1)]], [(8!!15, [S 40; S 8]); (8!!30, [S 56; S 15]); (8!!45, [X; X]); (9!!0, [X; X]); (9!!15, [S 45; S 10]); (9!!30, [X; X]); (9!!45, [S 32; S 1])], []).
Proof. vm_compute. reflexivity. Qed.
Example bin_only_1 :
  summary (calls agg_fs (time_bins time (tg 15 SLeft SRight)) sbuf_empty
    [(8!!10, 40, 4); (8!!10, 42, 3); (8!!12, 39, 1); (8!!17, 56, 7); (8!!19, 60, 2); (8!!20, 98, 6); (9!!0, 45, 2); (9!!10, 11, 8); (9!!30, 32, 1)]
    0 [(5%nat, None); (11%nat, None)] csabuf_empty) =
  Ok ([[(10%nat, 56); (14%nat, 9)]; [(10%nat, 32); (14%nat, 1)]], [(8!!15, [S 40; S 8]); (8!!30, [S 56; S 15]); (8!!45, [X; X]); (9!!0, [X; X]); (9!!15, [S 45; S 10]); (9!!30, [X; X]); (9!!45, [S 32; S 1])], []).
Proof. vm_compute. reflexivity. Qed.
Example bin_only_2 :
  summary (calls agg_fs (row_bins time 6 SLeft) None
    [(8!!10, 40, 4); (8!!10, 42, 3); (8!!12, 39, 1); (8!!17, 56, 7); (8!!19, 60, 2); (8!!20, 98, 6); (9!!0, 45, 2); (9!!10, 11, 8); (9!!30, 32, 1)]
    0 [(6%nat, None); (11%nat, None)] csabuf_empty) =
  Ok ([[(10%nat, 40); (14%nat, 23)]; [(10%nat, 45); (14%nat, 11)]], [(8!!10, [S 40; S 23]); (9!!0, [S 45; S 11])], []).
Proof. vm_compute. reflexivity. Qed.
Example bin_only_3 :
  summary (calls agg_fs (row_bins time 6 SLeft) None
    [(8!!10, 40, 4); (8!!10, 42, 3); (8!!12, 39, 1); (8!!17, 56, 7); (8!!19, 60, 2); (8!!20, 98, 6); (9!!0, 45, 2); (9!!10, 11, 8); (9!!30, 32, 1)]
    0 [(5%nat, None); (11%nat, None)] csabuf_empty) =
  Ok ([[(10%nat, 40); (14%nat, 17)]; [(10%nat, 45); (14%nat, 11)]], [(8!!10, [S 40; S 23]); (9!!0, [S 45; S 11])], []).
Proof. vm_compute. reflexivity. Qed.

(** test_cumsegagg_bin_snap *)
Example bin_snap_0 :
  summary (calls agg_ml (row_bins time 4 SLeft) None
    [(8!!10, 0, 1); (8!!10, 0, 4); (8!!12, 0, 6); (8!!17, 0, 2); (8!!19, 0, 3); (8!!20, 0, 1); (9!!0, 0, 9); (9!!10, 0, 3); (9!!30, 0, 2)]
    0 [(4%nat, Some (dti [8!!12; 8!!15]));
       (9%nat, Some (dti [8!!15; 8!!20; 8!!35; 8!!40; 9!!0; 9!!11; 9!!20; 9!!40; 9!!44]))] csabuf_empty) =
  Ok ([[(12%nat, 1); (13%nat, 2)]; [(12%nat, 2); (13%nat, 2)]],
      [(8!!10, [S 1; S 2]); (8!!19, [S 1; S 3]); (9!!30, [S 2; S 2])],
      [(8!!12, [S 1; S 4]); (8!!15, [S 1; S 6]); (8!!20, [S 3; S 3]); (8!!35, [S 1; S 1]); (8!!40, [S 1; S 1]); (9!!0, [S 1; S 1]); (9!!11, [S 1; S 3]); (9!!20, [S 1; S 3]); (9!!40, [S 2; S 2])]).
Proof. vm_compute. reflexivity. Qed.
Example bin_snap_1 :
  summary (calls agg_ml (time_bins time (tg 60 SLeft SLeft)) sbuf_empty
    [(8!!10, 0, 1); (8!!10, 0, 4); (8!!12, 0, 6); (8!!17, 0, 2); (8!!19, 0, 3); (8!!20, 0, 1); (9!!0, 0, 9); (9!!10, 0, 3); (9!!30, 0, 2)]
    0 [(3%nat, Some (dti [8!!12]));
       (6%nat, Some (dti [8!!12]));
       (9%nat, Some (dti [8!!12; 9!!10]))] csabuf_empty) =
  Ok ([[(12%nat, 1); (13%nat, 6)]; [(12%nat, 1); (13%nat, 1)]; [(12%nat, 2); (13%nat, 2)]],
      [(8!!0, [S 1; S 1]); (9!!0, [S 2; S 2])],
      [(8!!12, [S 1; S 4]); (9!!10, [S 9; S 9])]).
Proof. vm_compute. reflexivity. Qed.
Example bin_snap_2 :
  summary (calls agg_ml (time_bins time (tg 30 SLeft SLeft)) sbuf_empty
    [(8!!10, 0, 1); (8!!10, 0, 4); (8!!12, 0, 6); (8!!17, 0, 2); (8!!19, 0, 3); (8!!20, 0, 1); (9!!0, 0, 9); (9!!10, 0, 3); (9!!30, 0, 2)]
    0 [(6%nat, Some (dti [8!!12]));
       (9%nat, Some (dti [8!!12; 8!!33; 9!!0; 9!!10]))] csabuf_empty) =
  Ok ([[(12%nat, 1); (13%nat, 1)]; [(12%nat, 2); (13%nat, 2)]],
      [(8!!0, [S 1; S 1]); (8!!30, [X; X]); (9!!0, [S 3; S 3]); (9!!30, [S 2; S 2])],
      [(8!!12, [S 1; S 4]); (8!!33, [X; X]); (9!!0, [X; X]); (9!!10, [S 9; S 9])]).
Proof. vm_compute. reflexivity. Qed.
Example bin_snap_3 :
  summary (calls agg_ml (time_bins time (tg 30 SLeft SLeft)) sbuf_empty
    [(8!!10, 0, 1); (8!!10, 0, 4); (8!!12, 0, 6); (8!!17, 0, 2); (8!!19, 0, 3); (8!!20, 0, 1); (9!!0, 0, 9); (9!!10, 0, 3); (9!!30, 0, 2)]
    0 [(6%nat, Some (dti [8!!12]));
       (9%nat, Some (dti [8!!12; 8!!22; 8!!23; 9!!10]))] csabuf_empty) =
  Ok ([[(12%nat, 1); (13%nat, 1)]; [(12%nat, 2); (13%nat, 2)]],
      [(8!!0, [S 1; S 1]); (8!!30, [X; X]); (9!!0, [S 3; S 3]); (9!!30, [S 2; S 2])],
      [(8!!12, [S 1; S 4]); (8!!22, [S 1; S 1]); (8!!23, [S 1; S 1]); (9!!10, [S 9; S 9])]).
Proof. vm_compute. reflexivity. Qed.
Example bin_snap_4 :
  summary (calls agg_ml (time_bins time (tg 30 SLeft SLeft)) sbuf_empty
    [(8!!10, 0, 1); (8!!10, 0, 4); (8!!12, 0, 6); (8!!17, 0, 2); (8!!19, 0, 3); (8!!20, 0, 1); (9!!0, 0, 9); (9!!10, 0, 3); (9!!30, 0, 2)]
    0 [(6%nat, Some (dti []));
       (9%nat, Some (dti [8!!33; 9!!0; 9!!10]))] csabuf_empty) =
  Ok ([[(12%nat, 1); (13%nat, 1)]; [(12%nat, 2); (13%nat, 2)]],
      [(8!!0, [S 1; S 1]); (8!!30, [X; X]); (9!!0, [S 3; S 3]); (9!!30, [S 2; S 2])],
      [(8!!33, [X; X]); (9!!0, [X; X]); (9!!10, [S 9; S 9])]).
Proof. vm_compute. reflexivity. Qed.
