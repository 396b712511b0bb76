(** Vocabulary for calls to 'agg' of a same AggStream instance. *)
Require Import List Arith ZArith Bool.
Require Import Verif.Common Verif.SegSpec Verif.StreamSpec Verif.ReuseModel.
Import ListNotations.
Local Open Scope Z_scope.

Section Spec.
Context {D : Type}.
Variable idx : D -> Z.

(** Seed data grows at its end from a call to the next ('extends'), whatever the chunks, but for calls which are not given seed data. It is
    ordered, and chunks have rows. *)
Fixpoint calls_grow (before : list D) (cs : list (@call D)) : Prop :=
  match cs with
  | [] => True
  | c :: cs' =>
      match u_seed c with
      | [] => calls_grow before cs'
      | seed => extends idx before (concat seed) /\ sorted (map idx (concat seed)) /\ (forall x, In x seed -> x <> []) /\ calls_grow (concat seed) cs'
      end
  end.
(** All seed data. *)
Fixpoint seed_of_calls (before : list D) (cs : list (@call D)) : list D :=
  match cs with
  | [] => before
  | c :: cs' => seed_of_calls (match u_seed c with [] => before | seed => concat seed end) cs'
  end.
(** Nothing is raised by the call, or by its final write only. *)
Definition written_or_not (o : outcome) : Prop := match o with Returned | RaisedAtEnd _ => True | _ => False end.
End Spec.
