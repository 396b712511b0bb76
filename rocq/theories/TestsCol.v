(** Unit tests of the repository (test_collection.py, test_utils.py), on the model. *)
Require Import String List Arith ZArith Bool.
Require Import Verif.Common Verif.IdxModel Verif.ColModel.
Import ListNotations.
Local Open Scope list_scope.

Definition d (s : string) : path * kind := (dir_names (lit s), KDir).
Definition f (s : string) : path * kind := (dir_names (lit s), KFile []).
(** dummy_store.zip *)
Definition dummy : fs := [d "/t"; d "/t/store";
  d "/t/store/london.temperature"; d "/t/store/london.temperature/greenwich.summer"; f "/t/store/london.temperature/greenwich.summer/dataset.parquet";
  d "/t/store/london.temperature/westminster.winter"; f "/t/store/london.temperature/westminster.winter/dummyfile.txt";
  d "/t/store/paris.temperature"; d "/t/store/paris.temperature/bastille.summer";
  f "/t/store/paris.temperature/bastille.summer/datasetfile1.parq"; f "/t/store/paris.temperature/bastille.summer/datasetfile2.parq";
  d "/t/store/paris.temperature/bastille.summer/forgottendir"; f "/t/store/paris.temperature/bastille.summer/forgottendir/forgottenfile.parq";
  d "/t/store/stockholm.pressure"; d "/t/store/stockholm.pressure/skansen.fall"; f "/t/store/stockholm.pressure/skansen.fall/datasetfile.parquet";
  d "/t/store/stockholm.pressure/flemings.spring"; d "/t/store/stockholm.pressure/flemings.spring/innerplace.morning";
  f "/t/store/stockholm.pressure/flemings.spring/innerplace.morning/_metadata"].

Definition trimmed (depth : nat) := match files_at_depth dummy (lit "/t/store") depth with
  | Ok l => Some (map (fun pf => (path_tail depth (fst pf), snd pf)) l) | Err _ => None end.
Example files_at_depth_2 : trimmed 2 = Some
  [(lit "london.temperature/greenwich.summer", [lit "dataset.parquet"]);
   (lit "london.temperature/westminster.winter", [lit "dummyfile.txt"]);
   (lit "paris.temperature/bastille.summer", [lit "datasetfile1.parq"; lit "datasetfile2.parq"]);
   (lit "stockholm.pressure/skansen.fall", [lit "datasetfile.parquet"])].
Proof. reflexivity. Qed.
Example files_at_depth_1 : trimmed 1 = Some [].
Proof. reflexivity. Qed.
Example files_at_depth_3 : trimmed 3 = Some
  [(lit "paris.temperature/bastille.summer/forgottendir", [lit "forgottenfile.parq"]);
   (lit "stockholm.pressure/flemings.spring/innerplace.morning", [lit "_metadata"])].
Proof. reflexivity. Qed.

Definition we (sep : nat) := mkCls sep [TStr; TStr; TDC [TStr; TStr]].
Definition key (a b c d : string) := VDC [VStr (lit a); VStr (lit b); VDC [VStr (lit c); VStr (lit d)]].
Definition bp := mkBase (lit "/t/store") false.

Example parquet_set_init_minus : open_store (we minus) bp dummy = Ok (mkStore dummy []).
Proof. reflexivity. Qed.
Example parquet_set_init_dot : open_store (we dot) bp dummy = Ok (mkStore dummy
  [key "london" "temperature" "greenwich" "summer"; key "paris" "temperature" "bastille" "summer"; key "stockholm" "pressure" "skansen" "fall"]).
Proof. reflexivity. Qed.

(** A writer which creates directories and a metadata file. *)
Definition prefixes (p : path) : list path := map (fun n => firstn n p) (seq 1 (length p)).
Definition makedirs (f : fs) (p : path) : fs :=
  f ++ map (fun q => (q, KDir)) (filter (fun q => match lookup f q with None => true | Some _ => false end) (prefixes p)).
Definition write_metadata (f : fs) (s : str) : fs * option exn :=
  let p := dir_names s in
  (dict_set path_eqb (p ++ [lit "_metadata"]) (KFile []) (makedirs f p), None).

Definition set (st : store) (k : value) : store := fst (ps_set (we minus) bp st (Instance k) (DataFrame write_metadata)).
Definition del (st : store) (k : value) : store := fst (ps_delitem (we minus) bp st k).
Definition we1 := key "paris" "temperature" "notredame" "winter".
Definition we2 := key "paris" "temperature" "notredame" "summer".
Definition we3 := key "london" "temperature" "greenwich" "winter".
Definition st3 := set (set (set (mkStore [d "/t"] []) we1) we2) we3.
Definition exists_dir (st : store) (s : string) : bool := match lookup (disk st) (dir_names (lit s)) with Some _ => true | None => false end.

Example dataset_removal_0 : keys st3 = [we3; we2; we1] /\ ps_len st3 = 3 /\ exists_dir st3 "/t/store/london-temperature/greenwich-winter" = true.
Proof. repeat split. Qed.
Example dataset_removal_1 : ps_len (del st3 we3) = 2 /\ exists_dir (del st3 we3) "/t/store/london-temperature/greenwich-winter" = false
  /\ exists_dir (del st3 we3) "/t/store/london-temperature" = false.
Proof. repeat split. Qed.
Example dataset_removal_2 : let st := del (del st3 we3) we2 in ps_len st = 1
  /\ exists_dir st "/t/store/paris-temperature/notredame-summer" = false
  /\ exists_dir st "/t/store/paris-temperature/notredame-winter" = true.
Proof. repeat split. Qed.
Example exceptions : snd (ps_setitem (we minus) bp st3 (Instance we1) (Tuple false (DataFrame write_metadata))) = Some TypeError
  /\ snd (ps_setitem (we minus) bp st3 NotInstance (Plain (DataFrame write_metadata))) = Some TypeError
  /\ snd (ps_setitem (we minus) bp st3 (Instance we1) (Plain NotDataFrame)) = Some TypeError.
Proof. repeat split. Qed.
