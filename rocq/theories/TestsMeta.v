(** Unit tests of tests/test_store/test_metadata.py, replayed on the model. *)
Require Import String List ZArith.
Require Import Verif.Common Verif.MetaModel.
Import ListNotations.
Local Open Scope list_scope.
Local Open Scope string_scope.
Definition step1 := Text 1. Definition step2 := Text 2.

(* test_custom_metadata *)
Example t_custom : let s1 := run (start (fun _ => [])) [Write 0 (MdFresh [("md1", Some step1); ("md2", Some step1); ("md3", Some step1)])] in
  kvs s1 0 = [("md1", step1); ("md2", step1); ("md3", step1)] /\
  kvs (run s1 [Write 0 (MdFresh [("md1", None); ("md2", Some step2); ("md4", Some step2)])]) 0 = [("md2", step2); ("md3", step1); ("md4", step2)].
Proof. split; reflexivity. Qed.
(* test_oups_metadata_wo_custom_metadata *)
Example t_oups : let s1 := run (start (fun _ => [])) [Register 0 [("md1", JTrue 1); ("md2", JTrue 1); ("md3", JTrue 1)]; Write 0 MdNone] in
  kvs s1 0 = [("oups", Oups [("md1", JTrue 1); ("md2", JTrue 1); ("md3", JTrue 1)])] /\ pendings s1 0 = None /\
  let s2 := run s1 [Register 0 [("md1", JNone); ("md2", JTrue 2); ("md4", JTrue 2)]; Write 0 MdNone] in
  kvs s2 0 = [("oups", Oups [("md2", JTrue 2); ("md3", JTrue 1); ("md4", JTrue 2)])] /\ pendings s2 0 = None.
Proof. repeat split. Qed.
(* test_oups_metadata_with_custom_metadata *)
Example t_both : let s1 := run (start (fun _ => [])) [Register 0 [("md1", JTrue 1); ("md2", JTrue 1)]; Write 0 (MdFresh [("md1", Some step1); ("md2", Some step1)])] in
  kvs s1 0 = [("md1", step1); ("md2", step1); ("oups", Oups [("md1", JTrue 1); ("md2", JTrue 1)])] /\ pendings s1 0 = None /\
  let s2 := run s1 [Register 0 [("md1", JNone); ("md4", JTrue 2)]; Write 0 (MdFresh [("md1", None); ("md4", Some step2)])] in
  kvs s2 0 = [("md2", step1); ("oups", Oups [("md2", JTrue 1); ("md4", JTrue 2)]); ("md4", step2)].
Proof. repeat split. Qed.
(* test_write_metadata *)
Example t_write : write_metadata [] (Some [("my_app", JTrue 1)]) None = Ok ([("oups", Oups [("my_app", JTrue 1)])], None, None).
Proof. reflexivity. Qed.
