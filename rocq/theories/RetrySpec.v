(** Vocabulary for calls made one after the other in a same process. *)
Require Import List Arith ZArith Bool.
Require Import Verif.Common Verif.StreamModel Verif.StreamSpec Verif.RetryModel.
Import ListNotations.

Section Spec.
Context {D : Type}.
(** A new AggStream instance is used after a call which raises, and in a new process. [tr] gives what each call returns or raises, and if metadata is
    pending afterwards. *)
Fixpoint renewed (lost : bool) (xs : list (@attempt D)) (tr : list (res (option exn) * bool)) : Prop :=
  match xs, tr with
  | x :: xs', (r, _) :: tr' => (lost = true \/ at_new x = true -> r_fresh (at_run x) = true) /\ renewed (match r with Ok None => false | _ => true end) xs' tr'
  | _, _ => True
  end.
(** After a call which leaves metadata pending, the next one is in a new process, or does not raise and writes final results. *)
Fixpoint settled (pend : bool) (xs : list (@attempt D)) (tr : list (res (option exn) * bool)) : Prop :=
  match xs, tr with
  | x :: xs', (r, p) :: tr' => (pend = true -> at_new x = true \/ r = Ok None /\ r_final (at_run x) = true) /\ settled p xs' tr'
  | _, _ => True
  end.
End Spec.
