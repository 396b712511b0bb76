(** Vocabulary for calls to 'agg' which are given seed data from the restart index only. *)
Require Import List Arith ZArith Bool.
Require Import Verif.Common Verif.WrModel Verif.FilterModel Verif.StreamModel Verif.StreamSpec Verif.BatchSpec.
Import ListNotations.
Local Open Scope Z_scope.

Section Cut.
Context {D P SB PB : Type}.
Variable idx : D -> Z.
Variable truthy : Z -> bool.
Variable usage : frame -> Z.

(** Rows from index [R], chunk by chunk. Chunks without such a row are not given. *)
Definition has_rows (c : list D) : bool := match c with [] => false | _ => true end.
Definition rows_from (R : Z) (seed : list (list D)) : list (list D) := filter has_rows (map (filter (fun r => R <=? idx r)) seed).

(** A function 'pre' which does not change data nor its buffer, nor raises. *)
Definition neutral (pre : option (list D -> P -> list D * P * bool)) : Prop :=
  match pre with
  | None => True
  | Some f => forall rows p, f rows p = (rows, p, true)
  end.

(** A step of a history, in which all seed data is given, or only rows from the restart index of the AggStream instance (attribute
    'restart_index'), if it has one. *)
Definition feed := (bool * @step D)%type.
Definition with_seed (x : @step D) (seed : list (list D)) : @step D :=
  match x with
  | Complete r => Complete (mkRun (r_fresh r) (r_final r) seed)
  | Interrupted r n => Interrupted (mkRun (r_fresh r) (r_final r) seed) n
  end.
Definition feed_once (pre : option (list D -> P -> list D * P * bool)) (fs : filters) (pre0 : P) (seg0 : SB) (post0 : PB) (g : stream D P SB PB) (x : feed) : res (stream D P SB PB) :=
  let r := run_of (snd x) in
  let* g1 := if r_fresh r then init pre0 seg0 post0 (map (fun x => let '(k, b, s) := x in (k, s)) (g_keys g)) else Ok g in
  let given := match fst x, g_restart g1 with true, Some R => rows_from R (r_seed r) | _, _ => r_seed r end in
  step_once idx truthy usage pre fs pre0 seg0 post0 g (with_seed (snd x) given).
Fixpoint feed_all (pre : option (list D -> P -> list D * P * bool)) (fs : filters) (pre0 : P) (seg0 : SB) (post0 : PB) (g : stream D P SB PB) (xs : list feed) : res (stream D P SB PB) :=
  match xs with
  | [] => Ok g
  | x :: xs' => let* g := feed_once pre fs pre0 seg0 post0 g x in feed_all pre fs pre0 seg0 post0 g xs'
  end.
End Cut.
