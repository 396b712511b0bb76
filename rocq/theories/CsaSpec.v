(** Specification of the results of 'cumsegagg'. *)
Require Import List Arith ZArith Bool Permutation.
Require Import Verif.Common Verif.AggModel Verif.AggSpec Verif.CsaModel.
Import ListNotations.

Section Spec.
Context {D V : Type}.
Variable N : dtype -> num V.
Variable val : D -> cname -> V.

(** Every requested column exists and every function is known. *)
Definition agg_valid (agg : aggspec) (dtypes : list (cname * dtype)) : Prop :=
  forall out i f, In (out, (i, f)) agg -> (exists d, dict_get Nat.eqb i dtypes = Some d) /\ f <> None.

(** Aggregation of a column over rows; nothing if there is no row. *)
Definition agg_of (d : dtype) (f : afun) (i : cname) (rows : list D) : option V :=
  spec_agg (N d) f (map (fun r => val r i) rows).

(** [fr] has one row per element of [groups], which are (label, rows) pairs: for each requested
    output column, the aggregation of the rows of the group; a null value if it has no row. *)
Definition frame_is (agg : aggspec) (dtypes : list (cname * dtype)) (groups : list (Z * list D)) (fr : frame V) : Prop :=
  f_labels fr = map fst groups /\
  Permutation (map fst (f_cols fr)) (map fst agg) /\
  forall out i f d, In (out, (i, Some f)) agg -> dict_get Nat.eqb i dtypes = Some d ->
    dict_get Nat.eqb out (f_cols fr) = Some (map (fun g => agg_of d f i (snd g)) groups).

(** The same for a one-row table, over rows that are not empty. *)
Definition last_is (agg : aggspec) (dtypes : list (cname * dtype)) (rows : list D) (l : list (cname * V)) : Prop :=
  forall out i f d, In (out, (i, Some f)) agg -> dict_get Nat.eqb i dtypes = Some d ->
    exists v, dict_get Nat.eqb out l = Some v /\ agg_of d f i rows = Some v.

(** Some aggregated value of a group is 0. *)
Definition some_zero (agg : aggspec) (dtypes : list (cname * dtype)) (groups : list (Z * list D)) : Prop :=
  exists out i f d g v, In (out, (i, Some f)) agg /\ dict_get Nat.eqb i dtypes = Some d /\
    In g groups /\ agg_of d f i (snd g) = Some v /\ is0 (N d) v = true.

End Spec.

(** Outcome of a call of 'cumsegagg' on data that is not empty, when bins are expected to be made of
    the (label, rows) pairs [gb], and snapshots, if requested, of [gs]: ValueError if zeros are to be
    refused and there is one; else the two data frames, and a buffer in which [P] holds. *)
Section Outcome.
Context {D V B : Type}.
Variable N : dtype -> num V.
Variable val : D -> cname -> V.

Definition zero_refused (agg : aggspec) (dtypes : list (cname * dtype)) (error_on_0 : bool)
  (gb : list (Z * list D)) (gs : option (list (Z * list D))) : Prop :=
  error_on_0 = true /\
  (some_zero N val agg dtypes gb \/ exists g, gs = Some g /\ some_zero N val agg dtypes g).

Definition outcome (agg : aggspec) (dtypes : list (cname * dtype)) (error_on_0 : bool)
  (gb : list (Z * list D)) (gs : option (list (Z * list D))) (P : option (csabuf B V) -> Prop)
  (r : res (option (frame V * option (frame V)) * option (csabuf B V))) : Prop :=
  (zero_refused agg dtypes error_on_0 gb gs -> r = Err ValueError) /\
  (~ zero_refused agg dtypes error_on_0 gb gs ->
   exists fb fs b',
     r = Ok (Some (fb, fs), b') /\
     frame_is N val agg dtypes gb fb /\
     match gs, fs with
     | None, None => True
     | Some g, Some f => frame_is N val agg dtypes g f
     | _, _ => False
     end /\ P b').
End Outcome.

(** Results of successive calls put together: the last row of a result is provisional, it is replaced
    by the rows of the next result. *)
Definition stitch {A} (ls : list (list A)) : list A := fold_left (fun acc g => removelast acc ++ g) ls [].

(** Column of a frame. *)
Definition fcol {V} (out : cname) (fr : frame V) : list (option V) :=
  match dict_get Nat.eqb out (f_cols fr) with Some c => c | None => [] end.

(** Bins, and snapshots, of the calls which return something. *)
Definition results_of {V} (rs : list (option (frame V * option (frame V)))) : list (frame V * option (frame V)) :=
  flat_map (fun o => match o with Some r => [r] | None => [] end) rs.
Definition bin_frames {V} (rs : list (option (frame V * option (frame V)))) : list (frame V) :=
  map fst (results_of rs).
Definition snap_frames {V} (rs : list (option (frame V * option (frame V)))) : list (frame V) :=
  flat_map (fun r => match snd r with Some f => [f] | None => [] end) (results_of rs).

(** The successive frames [fs] put together have the content of the frame [w]. *)
Definition frames_make {V} (agg : aggspec) (fs : list (frame V)) (w : frame V) : Prop :=
  stitch (map f_labels fs) = f_labels w /\
  forall out, In out (map fst agg) -> stitch (map (fcol out) fs) = fcol out w.
