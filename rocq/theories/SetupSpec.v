(** Vocabulary for instances whose aggregations are set by the first chunk of data. *)
Require Import List Arith ZArith Bool.
Require Import Verif.Common Verif.AggModel Verif.SegModel Verif.CsaModel Verif.KeyModel Verif.StreamModel Verif.StreamSpec Verif.SetupModel.
Import ListNotations.

Section Spec.
Context {D V P PB : Type}.
Variable N : dtype -> num V.
Variable val : D -> cname -> V.
Variable idx : D -> Z.
Variable enc : option V -> Z.
Notation inst := (@inst V P PB).
Notation ikey := (@ikey V P PB).

(** A new instance, with keys which are not in store. *)
Definition empty_inst (pre0 : P) (post0 : PB) (confs : list (bconf PB)) : inst :=
  mkInst None pre0 (map (fun c => (c, None, mkBuf 0 None None [] [] segbuf_empty post0, mkStore None None)) confs) [].
(** Configurations of keys, and all the rest of an instance but for 'agg_cs'. *)
Definition confs_of (x : inst) : list (bconf PB) := map (fun k : ikey => fst (fst (fst k))) (i_keys x).
Definition set_keys (x : inst) : list bool := map (fun k : ikey => match snd (fst (fst k)) with Some _ => true | None => false end) (i_keys x).
Definition others (x : inst) := (i_restart x, i_pre x, i_log x, map (fun k : ikey => let '(c, _, b, s) := k in (c, b, s)) (i_keys x)).
(** The same state as a stream of C50, whose aggregations are set beforehand for columns with types [dtypes]. *)
Definition as_stream (dtypes : list (cname * dtype)) (x : inst) : stream D P (@segbuf V) PB :=
  mkStream (i_restart x) (i_pre x) (map (fun k : ikey => let '(c, _, b, s) := k in (key_of N val dtypes idx enc c, b, s)) (i_keys x)) (i_log x).
(** All chunks have these data types. *)
Definition types_ok (dtypes : list (cname * dtype)) (s : @seed D) : Prop := forall c, In c (chunks s) -> fst c = dtypes.
(** No call with an empty iterator before data has been given to the instance ([set]). *)
Fixpoint no_empty_first (set : bool) (ys : list (@icall D)) : Prop :=
  match ys with
  | [] => True
  | y :: ys' =>
      let set := set && negb (ic_fresh y) in
      (set = false -> ic_seed y <> Iter []) /\ no_empty_first (set || match chunks (ic_seed y) with [] => false | _ => true end) ys'
  end.
(** A call, as in C50. *)
Definition run_of_call (y : @icall D) : @run D := mkRun (ic_fresh y) (ic_final y) (map snd (chunks (ic_seed y))).
(** Calls with the same instance, whatever they raise. *)
Definition after_calls truthy usage (pre : option (@pre_fun D P)) (fs : filters) (x : inst) (l : list (@seed D * (bool * bool * bool))) : inst :=
  fold_left (fun x y => let '(s, (trim, discard, final)) := y in fst (agg_inst N val idx enc truthy usage pre fs x s trim discard final)) l x.
End Spec.
