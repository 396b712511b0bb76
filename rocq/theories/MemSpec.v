(** Vocabulary for the arrays written by the compiled loop. *)
Require Import List Arith ZArith Bool Sorted.
Require Import Verif.Common Verif.SegModel Verif.SegSpec Verif.CalModel Verif.CalSpec Verif.CsaModel.
Import ListNotations.
Local Open Scope Z_scope.

(** Snapshots at points which are in order: by a frequency, by a calendar, or at given points. *)
Definition points_in_order (x : byspec) : Prop :=
  match x with
  | ByTG s => 0 < tg_freq s
  | ByCal cg => calendar_ok (cg_cal cg) /\ 0 < cg_n cg
  | ByVals _ _ ends => sorted ends
  end.

(** At least as many null bins are announced as there are bins without rows. In a restart the first bin is the one of the
    previous call, it does not count. *)
Definition null_announced (restart : bool) (sg : seg) : Prop :=
  (match restart, s_starts sg with
   | true, p :: ps => n_empty p ps
   | _, ps => n_empty 0 ps
   end <= s_nnull sg)%nat.

(** There is a bin, bin ends are in order, and rows of bins up to a given one do not come after its end, unless this end is the last one and
    said to be unknown. *)
Definition ends_after_rows {D} (o : D -> Z) (data : list D) (sg : seg) : Prop :=
  s_starts sg <> [] /\ sorted (s_ends sg) /\
  forall i p e, nth_error (s_starts sg) i = Some p -> nth_error (s_ends sg) i = Some e ->
    (s_unknown_last_end sg = true -> (S i < length (s_starts sg))%nat) ->
    forall r, In r (firstn p data) -> o r <= e.

(** The buffer given to the binning function in a call with this buffer. *)
Definition bin_state {B V} (empty : B) (buffer : option (csabuf B V)) : option B :=
  match buffer with
  | None => None
  | Some b => Some (match mb_bin (cb_main b) with Some x => x | None => empty end)
  end.

(** There has been a call with this buffer. *)
Definition restarted {B V} (buffer : option (csabuf B V)) : bool :=
  match buffer with
  | Some b => match mb_last_label (cb_main b) with Some _ => true | None => false end
  | None => false
  end.
