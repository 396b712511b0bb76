(** Model of oups/aggstream/jcumsegagg.py.

    The model is generic over the number type [V] (int64 or float64 in the code): no law is
    assumed on the operations, so that what is proved for all [num V] holds in particular for
    floating point numbers (NaN and rounding included) and wrapping integers. *)
Require Import List Arith Bool.
Require Import Verif.Common.
Import ListNotations.

(** Operations of the dtype: [zero] of numpy.zeros, [+=], and the comparison [<]
    ([a > b] is [nlt b a]); [is0] is pandas [.eq(0)]. *)
Record num (V : Type) := mkNum { zero : V; add : V -> V -> V; nlt : V -> V -> bool; is0 : V -> bool }.
Arguments zero {V} _.
Arguments add {V} _ _ _.
Arguments nlt {V} _ _ _.
Arguments is0 {V} _ _.

(** jcumsegagg.py:221-226, ids of the aggregation functions. *)
Inductive afun := First | Last | Min | Max | Sum.

Definition afun_eqb (f g : afun) : bool :=
  match f, g with
  | First, First | Last, Last | Min, Min | Max, Max | Sum, Sum => true
  | _, _ => false
  end.

Section Agg.
Context {V : Type} (N : num V).

Local Notation row := (list V).

(** numpy.zeros(n). *)
Definition zeros (n : nat) : row := repeat (zero N) n.

(** jcumsegagg.py:20-49. *)
Definition jfirst (ncols : nat) (ar : list row) (initial : row) (use_init : bool) : row :=
  if use_init then initial
  else match ar with
       | r :: _ => r
       | [] => zeros ncols
       end.

(** jcumsegagg.py:52-82. *)
Definition jlast (ncols : nat) (ar : list row) (initial : row) (use_init : bool) : row :=
  match ar with
  | _ :: _ => last ar []
  | [] => if use_init then initial else zeros ncols
  end.

(** jcumsegagg.py:121-123: loop body of 'jmax'. *)
Definition row_max (res_ row_ : row) : row :=
  map2 (fun r v => if nlt N r v then v else r) res_ row_.

(** jcumsegagg.py:167-169: loop body of 'jmin'. *)
Definition row_min (res_ row_ : row) : row :=
  map2 (fun r v => if nlt N v r then v else r) res_ row_.

(** jcumsegagg.py:213: loop body of 'jsum'. *)
Definition row_sum (res_ row_ : row) : row := map2 (add N) res_ row_.

(** jcumsegagg.py:111-128, 157-174, 203-218: common shape of 'jmax', 'jmin', 'jsum'. *)
Definition jloop (upd : row -> row -> row) (ncols : nat)
  (ar : list row) (initial : row) (use_init : bool) : row :=
  match ar with
  | r0 :: rest => if use_init then fold_left upd ar initial else fold_left upd rest r0
  | [] => if use_init then initial else zeros ncols
  end.

(** jcumsegagg.py:85-128. *)
Definition jmax := jloop row_max.
(** jcumsegagg.py:131-174. *)
Definition jmin := jloop row_min.
(** jcumsegagg.py:177-218. *)
Definition jsum := jloop row_sum.

(** jcumsegagg.py:227, 'AGG_FUNCS'. *)
Definition agg_func (f : afun) : nat -> list row -> row -> bool -> row :=
  match f with
  | First => jfirst
  | Last => jlast
  | Min => jmin
  | Max => jmax
  | Sum => jsum
  end.

(** One item of 'aggs': function, columns in data, columns in result. *)
Record agg1 := mkAgg1 { a_fun : afun; a_cols_data : list nat; a_cols_res : list nat }.

(** Fancy column indexing [a[cols]]. *)
Definition take_cols (cols : list nat) (r : row) : row := map (fun i => nth i r (zero N)) cols.

(** Fancy column assignment [a[cols] = vals]. *)
Fixpoint put_cols (cols : list nat) (vals : row) (r : row) : row :=
  match cols, vals with
  | c :: cols', v :: vals' => put_cols cols' vals' (update r c v)
  | _, _ => r
  end.

(** jcumsegagg.py:395-401: update of 'chunk_res' with all aggregation functions. *)
Definition apply_aggs (aggs : list agg1) (chunk : list row) (preserve : bool) (chunk_res : row) : row :=
  fold_left
    (fun cr a =>
       put_cols (a_cols_res a)
         (agg_func (a_fun a) (length (a_cols_data a)) (map (take_cols (a_cols_data a)) chunk)
            (take_cols (a_cols_res a) cr) preserve)
         cr)
    aggs chunk_res.

(** Which chunk is being processed, jcumsegagg.py:329-361.
    [SnapsOff]: 'some_snaps' is False, every chunk is a bin.
    [SnapsOn bi last]: 'some_snaps' is True; [bi] holds 'next_bin_idx' and what is left of the
    iterator over 'bin_indices'; [last] is 'last_bin_idx'. An empty [bi] is 'next_bin_idx = -1'. *)
Inductive binptr := SnapsOff | SnapsOn (bi : list nat) (last : nat).

(** jcumsegagg.py:351-361: returns 'is_update' and the pointer for the next chunk. *)
Definition is_update (idx : nat) (p : binptr) : bool * binptr :=
  match p with
  | SnapsOff => (false, SnapsOff)
  | SnapsOn [] l => (true, SnapsOn [] l)
  | SnapsOn (b :: bi) l =>
      if idx =? b then (false, if b =? l then SnapsOn (b :: bi) l else SnapsOn bi l)
      else (true, SnapsOn (b :: bi) l)
  end.

(** Result of one chunk, in processing order; [None] marks a null chunk. *)
Inductive jev := JBin (o : option row) | JSnap (o : option row).

(** Loop variables of 'jcsagg', jcumsegagg.py:323-326. [bin_start = None] stands for -1, which
    equals no row position. *)
Record jstate := mkJ {
  bin_start : option nat;
  chunk_start : nat;
  preserve_res : bool;
  chunk_res : row }.

(** jcumsegagg.py:366: "bin_start == next_chunk_start". *)
Definition is_null (s : jstate) (next_chunk_start : nat) : bool :=
  match bin_start s with Some b => b =? next_chunk_start | None => false end.

(** jcumsegagg.py:350-416: body of the main loop for one chunk. *)
Definition jstep (data : list row) (aggs : list agg1) (upd : bool) (next_chunk_start : nat)
  (s : jstate) : jstate * jev :=
  if is_null s next_chunk_start then
    if upd then
      (mkJ (bin_start s) next_chunk_start (preserve_res s) (chunk_res s), JSnap None)
    else
      (mkJ (bin_start s) next_chunk_start false (chunk_res s), JBin None)
  else
    let chunk := slice (chunk_start s) next_chunk_start data in
    let cr := match chunk with
              | [] => chunk_res s
              | _ => apply_aggs aggs chunk (preserve_res s) (chunk_res s)
              end in
    if upd then
      (mkJ (bin_start s) next_chunk_start true cr, JSnap (Some cr))
    else
      (mkJ (Some next_chunk_start) next_chunk_start false cr, JBin (Some cr)).

(** jcumsegagg.py:350-416: the main loop. *)
Fixpoint jrun (data : list row) (aggs : list agg1) (idx : nat) (p : binptr)
  (next_chunk_starts : list nat) (s : jstate) : list jev * row :=
  match next_chunk_starts with
  | [] => ([], chunk_res s)
  | ncs :: rest =>
      let '(upd, p') := is_update idx p in
      let '(s', ev) := jstep data aggs upd ncs s in
      let '(evs, cr) := jrun data aggs (S idx) p' rest s' in
      (ev :: evs, cr)
  end.

Definition bins_of (evs : list jev) : list (option row) :=
  flat_map (fun e => match e with JBin o => [o] | JSnap _ => [] end) evs.
Definition snaps_of (evs : list jev) : list (option row) :=
  flat_map (fun e => match e with JSnap o => [o] | JBin _ => [] end) evs.

Definition is_none {A} (o : option A) : bool := match o with None => true | Some _ => false end.

(** Content of 'bin_res' / 'snap_res', pre-filled with zeros and with one row per chunk. *)
Definition fill (ncols : nat) (l : list (option row)) : list row :=
  map (fun o => match o with Some r => r | None => zeros ncols end) l.

(** Output arrays of 'jcsagg'. *)
Record jout := mkJout {
  o_chunk_res : row;
  o_bin_res : list row;
  o_snap_res : list row;
  o_null_bins : list nat;
  o_null_snaps : list nat }.

(** jcumsegagg.py:230-416. The output arrays are passed to 'jcsagg' pre-allocated; only their
    sizes matter: [n_bins], [n_snaps] rows, [n_max_null_bins], [n_max_null_snaps] slots for
    indices of null chunks. Writing past one of them is [OutOfBounds]; rows that are not reached
    stay zero. Simplification: arrays are assembled after the loop and not in place. *)
Definition jcsagg (data : list row) (aggs : list agg1) (next_chunk_starts bin_indices : list nat)
  (preserve : bool) (chunk_res0 : row) (ncols n_bins n_snaps n_max_null_bins n_max_null_snaps : nat)
  : res jout :=
  let p := if n_snaps =? 0 then SnapsOff
           else SnapsOn bin_indices (last bin_indices 0) in
  let s0 := mkJ (if preserve then None else Some 0) 0 preserve chunk_res0 in
  let '(evs, cr) := jrun data aggs 0 p next_chunk_starts s0 in
  let bins := bins_of evs in
  let snaps := snaps_of evs in
  let null_bins := nonzero_from 0 is_none bins in
  let null_snaps := nonzero_from 0 is_none snaps in
  if (length bins <=? n_bins) && (length snaps <=? n_snaps)
     && (length null_bins <=? n_max_null_bins) && (length null_snaps <=? n_max_null_snaps)
  then Ok (mkJout cr
             (fill ncols bins ++ repeat (zeros ncols) (n_bins - length bins))
             (fill ncols snaps ++ repeat (zeros ncols) (n_snaps - length snaps))
             null_bins null_snaps)
  else Err OutOfBounds.

End Agg.

Arguments JBin {V} _.
Arguments JSnap {V} _.
