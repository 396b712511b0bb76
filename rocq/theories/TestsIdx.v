(** Unit tests of /repo/tests/test_store/test_indexer.py run on the model. *)
Require Import String List Arith ZArith Bool.
Require Import Verif.Common Verif.IdxModel.
Import ListNotations.
Open Scope string_scope.

Definition sep := minus.
Definition sub2 := TDC [TStr; TInt; TInt].
Definition sub1 := TDC [TInt; TStr; sub2].
Definition top := mkCls sep [TStr; TInt; sub1].
Definition sl2 := VDC [VStr (lit "ou"); VInt 3; VInt 7].
Definition sl1 := VDC [VInt 5; VStr (lit "oh"); sl2].
Definition tl1 := VDC [VStr (lit "aha"); VInt 2; sl1].

(** test_toplevel_to_str *)
Example to_str1 : key_str (mkCls sep [TInt; TStr]) (VDC [VInt 3; VStr (lit "oh")]) = Ok (lit "3-oh").
Proof. reflexivity. Qed.
Example to_str2 : key_str (mkCls dot [TInt; TStr]) (VDC [VInt 3; VStr (lit "oh")]) = Ok (lit "3.oh").
Proof. reflexivity. Qed.
(** test_toplevel_nested_dataclass_to_str *)
Example nested : make_key top [VStr (lit "aha"); VInt 2; sl1] true = Ok tl1.
Proof. reflexivity. Qed.
Example nested_str : key_str top tl1 = Ok (lit "aha-2-5-oh-ou-3-7").
Proof. reflexivity. Qed.
Example nested_pickle : unpickle top tl1 = Some tl1.
Proof. reflexivity. Qed.
(** test_toplevel_nested_dataclass_attributes *)
Example nested_depth : depth top = 3%nat.
Proof. reflexivity. Qed.
(** test_sublevel_with_single_attribute *)
Example single : to_path top (VDC [VStr (lit "ah"); VInt 5; VDC [VStr (lit "oh")]]) = Ok (lit "ah-5/oh").
Proof. reflexivity. Qed.
(** test_toplevel_nested_dataclass_validation *)
Example val1 : validate top (VDC [VStr (lit "aha"); VInt 2; VDC [VInt 5; VOther (lit "{5: ['ah']}"); sl2]]) = Err TypeError.
Proof. reflexivity. Qed.
Example val2 : validate top (VDC [VStr (lit "aha"); VInt 2; VDC [VInt 5; VStr (lit "oh"); sl2; sl2]]) = Err TypeError.
Proof. reflexivity. Qed.
Example val3 : validate top (VDC [VStr (lit "aha"); VInt 2; VDC [sl2]]) = Err TypeError.
Proof. reflexivity. Qed.
Example val4 : validate top (VDC [VStr (lit "aha"); VInt 2; VDC [VInt 4; VStr (lit "6/2"); sl2]]) = Err ValueError.
Proof. reflexivity. Qed.
Example val5 : validate top (VDC [VStr (lit "aha"); VInt 2; VDC [VInt 4; VStr (lit "6-2"); sl2]]) = Err ValueError.
Proof. reflexivity. Qed.
(** test_toplevel_nested_dataclass_str_roundtrip_3_levels *)
Example rt_path : to_path top tl1 = Ok (lit "aha-2/5-oh/ou-3-7").
Proof. reflexivity. Qed.
Example rt_from_path : from_str top (lit "aha-2/5-oh/ou-3-7") = Some tl1.
Proof. reflexivity. Qed.
Example rt_from_str : from_str top (lit "aha-2-5-oh-ou-3-7") = Some tl1.
Proof. reflexivity. Qed.
(** test_toplevel_nested_dataclass_str_roundtrip_2_levels *)
Definition top2 (sep : nat) := mkCls sep [TStr; TDC [TInt; TStr]].
Example rt2 : to_path (top2 sep) (VDC [VStr (lit "aha"); VDC [VInt 5; VStr (lit "oh")]]) = Ok (lit "aha/5-oh")
  /\ from_str (top2 sep) (lit "aha/5-oh") = Some (VDC [VStr (lit "aha"); VDC [VInt 5; VStr (lit "oh")]])
  /\ from_str (top2 dot) (lit "aha/5-oh") = None.
Proof. repeat split; reflexivity. Qed.
