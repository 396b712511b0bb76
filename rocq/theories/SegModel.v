(** Model of oups/aggstream/segmentby.py.

    Time stamps, bin labels and bin ends are integers (nanoseconds for datetime64, or the values
    of an int64 column). Row positions are [nat]. *)
Require Import String.
Require Import List Arith ZArith Bool.
Require Import Verif.Common.
Import ListNotations.
Local Open Scope Z_scope.

Inductive side := SLeft | SRight.
Definition side_eqb (a b : side) : bool :=
  match a, b with SLeft, SLeft | SRight, SRight => true | _, _ => false end.

(** segmentby.py:106-119, the inner loop: index of the value on which the loop ends, counted from
    the start of the slice, and 'prev_bin' (True if the loop was not broken).
    [i] is the index of the head of [l]. The code is never run on an empty slice. *)
Fixpoint scan (stop : Z -> bool) (l : list Z) (i : nat) : nat * bool :=
  match l with
  | [] => (Nat.pred i, true)
  | v :: t => if stop v then (i, false) else scan stop t (S i)
  end.

(** segmentby.py:110 and 116, break condition. *)
Definition stops (right : bool) (edge : Z) (v : Z) : bool :=
  if right then edge <? v else edge <=? v.

(** segmentby.py:97-138, the outer loop. *)
Fixpoint ncs_loop (data : list Z) (right : bool) (edges : list Z) (d_idx prev_d_idx n_null : nat)
  : list nat * nat * bool :=
  match edges with
  | [] => ([], n_null, false)
  | e :: edges' =>
      let '(loc, prev_bin) := scan (stops right e) (skipn d_idx data) 0 in
      let d_idx' := (d_idx + loc)%nat in
      if (d_idx' =? length data - 1)%nat && prev_bin then
        ([S d_idx'], n_null, true)
      else
        let '(n_null', prev') :=
          if (prev_d_idx =? d_idx')%nat then (S n_null, prev_d_idx) else (n_null, d_idx') in
        let '(rest, nn, tr) := ncs_loop data right edges' d_idx' prev' n_null' in
        (d_idx' :: rest, nn, tr)
  end.

(** segmentby.py:63-138. *)
Definition next_chunk_starts (data right_edges : list Z) (right : bool) : list nat * nat * bool :=
  ncs_loop data right right_edges 0 0 0.

(** pandas TimeGrouper: frequency (fixed, in ns), closed side, label side, origin, offset. *)
Inductive origin := OEpoch | OStartDay | OStart | OFixed (t : Z).
Record tgrouper := mkTG { tg_freq : Z; tg_closed : side; tg_label : side; tg_origin : origin; tg_offset : Z }.

(** Nanoseconds in a day, and pandas Timestamp.normalize() for naive time stamps. *)
Definition day : Z := 86400 * 1000000000.
Definition normalize (t : Z) : Z := t - t mod day.

(** pandas.core.resample._get_timestamp_range_edges ('gtre' in segmentby.py:203-219) for a fixed
    frequency and naive time stamps (pandas source, '_adjust_dates_anchored'); external code whose
    behaviour is assumed, see DESIGN.md. *)
Definition origin_ts (o : origin) (offset first : Z) : Z :=
  match o with
  | OEpoch => 0
  | OStartDay => normalize first
  | OStart => first
  | OFixed t => t
  end + offset.

Definition gtre (first last freq : Z) (closed : side) (o : origin) (offset : Z) : Z * Z :=
  let ot := origin_ts o offset first in
  let foffset := (first - ot) mod freq in
  let loffset := (last - ot) mod freq in
  match closed with
  | SRight =>
      (if 0 <? foffset then first - foffset else first - freq,
       if 0 <? loffset then last + (freq - loffset) else last)
  | SLeft =>
      (if 0 <? foffset then first - foffset else first,
       if 0 <? loffset then last + (freq - loffset) else last + freq)
  end.

(** pandas.date_range(start, end, freq): start, start+freq, ... not exceeding end. *)
Definition date_range (start stop freq : Z) : list Z :=
  map (fun k => start + Z.of_nat k * freq) (seq 0 (Z.to_nat ((stop - start) / freq + 1))).

(** Result of a binning function, segmentby.py:171-185.
    [s_label_idx] is the integer label of the first element in the index of the Series of labels
    (0, but for a Series trimmed at restart, which keeps its initial index). *)
Record seg := mkSeg {
  s_starts : list nat;
  s_labels : list Z;
  s_nnull : nat;
  s_closed : side;
  s_ends : list Z;
  s_unknown_last_end : bool;
  s_label_idx : nat }.

(** Buffer dict of 'by_scale': KEY_RESTART_KEY and KEY_LAST_ON_VALUE. The empty dict has none. *)
Record sbuf := mkSbuf { sb_restart : option Z; sb_last_on : option Z }.
Definition sbuf_empty : sbuf := mkSbuf None None.
(** Truth value of the dict. *)
Definition sbuf_true (b : sbuf) : bool :=
  match b with mkSbuf None None => false | _ => true end.

(** Values given as a pandas DatetimeIndex (positional indexing) or Series (label indexing). *)
Inductive pkind := PIndex | PSeries.

(** [x[i]] on a DatetimeIndex, or on a Series whose integer index starts at [off]. *)
Definition getitem (k : pkind) (off : nat) (l : list Z) (i : nat) : res Z :=
  match k with
  | PIndex => match nth_error l i with Some v => Ok v | None => Err IndexError end
  | PSeries => if (off <=? i)%nat
               then match nth_error l (i - off) with Some v => Ok v | None => Err KeyError end
               else Err KeyError
  end.

(** ** Calendar frequencies: month starts, month ends, weeks, quarters, years, business days..., alone or by multiples *)
(** A calendar frequency (a pandas DateOffset which is not a Tick): its points, in order, and the number of the last
    point at or before a time stamp. *)
Record calendar := mkCal { point : Z -> Z; number : Z -> Z }.

(** pandas 'is_on_offset'. *)
Definition on_point (cal : calendar) (t : Z) : bool := point cal (number cal t) =? t.
(** pandas DateOffset arithmetic, external code whose behaviour is assumed: 'freq.rollback(t)', 't + n * freq' and
    't - n * freq'. Out of a point, the first step is to the next (or previous) point. *)
Definition rollback (cal : calendar) (t : Z) : Z := point cal (number cal t).
Definition plus_freq (cal : calendar) (n t : Z) : Z := point cal (number cal t + n).
Definition minus_freq (cal : calendar) (n t : Z) : Z :=
  point cal (if on_point cal t then number cal t - n else number cal t - n + 1).

(** pandas.core.resample._get_timestamp_range_edges ('gtre' in segmentby.py:210-218), case of a frequency which is not
    a Tick; [n] is the multiple. 'origin' and 'offset' are not used. *)
Definition gtre_cal (cal : calendar) (n first last : Z) (closed : side) : Z * Z :=
  let first := normalize first in
  let last := normalize last in
  (match closed with SLeft => rollback cal first | SRight => minus_freq cal n first end, plus_freq cal n last).

(** pandas.date_range(start, end, freq), [start] being a point: every [n]th point, not exceeding end. *)
Definition date_range_cal (cal : calendar) (n start stop : Z) : list Z :=
  map (fun i => point cal (number cal start + Z.of_nat i * n)) (seq 0 (Z.to_nat ((number cal stop - number cal start) / n + 1))).

(** TimeGrouper with a calendar frequency. *)
Record cgrouper := mkCG { cg_cal : calendar; cg_n : Z; cg_closed : side; cg_label : side }.

(** Specification of chunk ends, segmentby.py:141-146: TimeGrouper (with a fixed frequency, or a calendar one), or
    one set of values used as ends and labels, or two of them (labels, ends). *)
Inductive byspec :=
| ByTG (tg : tgrouper)
| ByCal (cg : cgrouper)
| ByVals (k : pkind) (labels ends : list Z).

(** segmentby.py:331-367: common end of 'by_scale'. [is_tg] is 'isinstance(by, TimeGrouper)'. *)
Definition by_scale_finish (is_tg : bool) (k : pkind) (off : nat) (on : list Z) (closed : side)
  (labels ends : list Z) (buffer : option sbuf) : res (seg * option sbuf) :=
  let '(starts, n_null, traversed) := next_chunk_starts on ends (side_eqb closed SRight) in
  let n_chunks := length starts in
  let last_on := last on 0 in
  if traversed then
    let labels' := firstn n_chunks labels in
    let ends' := firstn n_chunks ends in
    let* buffer' :=
      match buffer with
      | None => Ok None
      | Some b =>
          if side_eqb closed SLeft && is_tg then
            if (1 <? n_chunks)%nat then
              let* r := getitem k off ends' (n_chunks - 2) in
              Ok (Some (mkSbuf (Some r) (sb_last_on b)))
            else Ok (Some (mkSbuf (Some (hd 0 on)) (sb_last_on b)))
          else
            let* r := getitem k off ends' (n_chunks - 1) in
            Ok (Some (mkSbuf (Some r) (sb_last_on b)))
      end in
    Ok (mkSeg starts labels' n_null closed ends' false off, buffer')
  else
    let* buffer' :=
      match buffer with
      | None => Ok None
      | Some _ =>
          let* r := getitem k off ends (n_chunks - 1) in
          Ok (Some (mkSbuf (Some r) (Some last_on)))
      end in
    Ok (mkSeg starts labels n_null closed ends false off, buffer').

(** segmentby.py:234-294: restart of 'by_scale' on given values. Returns offset of the index,
    labels, ends and buffer. *)
Definition by_vals_restart (k : pkind) (closed : side) (labels ends : list Z) (b : sbuf)
  : res (nat * list Z * list Z * sbuf) :=
  (* lines 238-252 *)
  let* '(off, labels1, ends1) :=
    match sb_restart b with
    | None => Ok (0%nat, labels, ends)
    | Some rk =>
        let* e0 := getitem k 0 ends 0 in
        if rk =? e0 then Ok (0%nat, labels, ends)
        else
          let kept := filter (fun e => rk <=? e) ends in
          (* A Series keeps its index: the mask removes the leading values of sorted ends. *)
          let off := (length ends - length kept)%nat in
          let* e0' := getitem k off kept 0 in
          if rk =? e0' then Ok (off, skipn off labels, kept) else Err ValueError
    end in
  (* lines 253-294 *)
  match sb_last_on b with
  | None => Ok (off, labels1, ends1, b)
  | Some lo =>
      let before (e : Z) := match closed with SRight => e <? lo | SLeft => e <=? lo end in
      let* bad := if (1 <? length ends1)%nat
                  then let* e1 := getitem k off ends1 1 in Ok (before e1)
                  else Ok false in
      if bad then Err ValueError else
      let* e0 := getitem k off ends1 0 in
      let b' := mkSbuf (sb_restart b) None in
      if before e0 then Ok (S off, skipn 1 labels1, skipn 1 ends1, b')
      else Ok (off, labels1, ends1, b')
  end.

(** segmentby.py:141-367. [on] is not empty ('cumsegagg' returns before for empty data). *)
Definition by_scale (on : list Z) (by_ : byspec) (closed : option side) (buffer : option sbuf)
  : res (seg * option sbuf) :=
  match by_ with
  | ByTG tg =>
      (* lines 203-221 *)
      let* first :=
        match buffer with
        | Some b => if sbuf_true b
                    then match sb_restart b with Some r => Ok r | None => Err KeyError end
                    else Ok (hd 0 on)
        | None => Ok (hd 0 on)
        end in
      let closed' := match closed with Some c => c | None => tg_closed tg end in
      let '(start, stop) := gtre first (last on 0) (tg_freq tg) closed' (tg_origin tg) (tg_offset tg) in
      let edges := date_range start stop (tg_freq tg) in
      let ends := tl edges in
      let labels := match tg_label tg with SRight => ends | SLeft => removelast edges end in
      by_scale_finish true PIndex 0 on closed' labels ends buffer
  | ByCal cg =>
      (* the same lines *)
      let* first :=
        match buffer with
        | Some b => if sbuf_true b
                    then match sb_restart b with Some r => Ok r | None => Err KeyError end
                    else Ok (hd 0 on)
        | None => Ok (hd 0 on)
        end in
      let closed' := match closed with Some c => c | None => cg_closed cg end in
      let '(start, stop) := gtre_cal (cg_cal cg) (cg_n cg) first (last on 0) closed' in
      let edges := date_range_cal (cg_cal cg) (cg_n cg) start stop in
      let ends := tl edges in
      let labels := match cg_label cg with SRight => ends | SLeft => removelast edges end in
      by_scale_finish true PIndex 0 on closed' labels ends buffer
  | ByVals k labels ends =>
      (* lines 224-298 *)
      match closed with
      | None => Err ValueError
      | Some c =>
          if negb (length labels =? length ends)%nat then Err ValueError else
          let* '(off, labels', ends', buffer') :=
            match buffer with
            | Some b => if sbuf_true b
                        then let* '(o, l, e, b') := by_vals_restart k c labels ends b in
                             Ok (o, l, e, Some b')
                        else Ok (0%nat, labels, ends, Some b)
            | None => Ok (0%nat, labels, ends, None)
            end in
          match ends' with
          | [] => Ok (mkSeg [] labels' 0 c ends' false (match k with PIndex => 0%nat | PSeries => off end),
                      match buffer' with
                      | Some b => Some (mkSbuf (sb_restart b) (Some (last on 0)))
                      | None => None
                      end)
          | _ =>
              (* a Series keeps its index, a DatetimeIndex has none *)
              let* '(sg, b) := by_scale_finish false k off on c labels' ends' buffer' in
              Ok (match k with
                  | PIndex => mkSeg (s_starts sg) (s_labels sg) (s_nnull sg) (s_closed sg) (s_ends sg)
                                (s_unknown_last_end sg) 0
                  | PSeries => sg
                  end, b)
          end
      end
  end.

(** Buffer dict of 'by_x_rows', segmentby.py:508-511; [None] is the empty dict. *)
Record xbuf := mkXbuf { xb_rows : nat; xb_label : Z; xb_end : option Z }.

(** ceil(a / b). *)
Definition ceil_div (a b : nat) : nat := ((a + b - 1) / b)%nat.

Definition set_last {A} (l : list A) (x : A) : list A :=
  match l with [] => [] | _ => removelast l ++ [x] end.

(** segmentby.py:370-519. [on] is the last column of 'on', not empty; [by_] > 0.
    ceil() and fmod() are taken on exact integers (the code uses floats, exact below 2^53).
    In a restart, the buffer of a right-closed run holds 'KEY_LAST_BIN_END'; it is read with
    KeyError otherwise. *)
Definition by_x_rows (by_ : nat) (closed : side) (on : list Z) (buffer : option (option xbuf))
  : res (seg * option (option xbuf)) :=
  let len_on := length on in
  (* lines 435-450 *)
  let '(rows_in_prev_last_bin, rows_in_continued_bin) :=
    match buffer with
    | Some (Some b) =>
        (xb_rows b, if (xb_rows b =? by_)%nat then 0%nat else Nat.min len_on (by_ - xb_rows b))
    | _ => (0%nat, 0%nat)
    end in
  let n_rows_for_new_bins := (len_on - rows_in_continued_bin)%nat in
  let n_bins := if (rows_in_continued_bin =? 0)%nat then ceil_div n_rows_for_new_bins by_
                else S (ceil_div n_rows_for_new_bins by_) in
  (* lines 452-457 *)
  let first_ncs := if (rows_in_continued_bin =? 0)%nat then Nat.min by_ len_on else rows_in_continued_bin in
  let ncs := map (fun i => first_ncs + i * by_)%nat (seq 0 n_bins) in
  (* lines 461-464 *)
  let chunk_starts := match ncs with [] => [] | _ :: t => 0%nat :: map (fun x => x - by_)%nat t end in
  let labels := map (fun i => nth i on 0) chunk_starts in
  (* lines 465-474 *)
  let n_rows_in_last_bin :=
    if (n_rows_for_new_bins =? 0)%nat then (rows_in_continued_bin + rows_in_prev_last_bin)%nat
    else if (n_rows_for_new_bins <=? by_)%nat then n_rows_for_new_bins
    else let m := (n_rows_for_new_bins mod by_)%nat in if (m =? 0)%nat then by_ else m in
  (* lines 475-488 *)
  let ncs_final := set_last ncs len_on in
  let ends := match closed with
              | SLeft => map (fun i => nth i on 0) (set_last ncs (len_on - 1)%nat)
              | SRight => map (fun i => nth (i - 1) on 0) ncs_final
              end in
  let unknown := match closed with
                 | SLeft => true
                 | SRight => negb (n_rows_in_last_bin =? by_)%nat
                 end in
  (* lines 491-511 *)
  match buffer with
  | None => Ok (mkSeg ncs_final labels 0 closed ends unknown 0, None)
  | Some ob =>
      let* '(ncs2, labels2, ends2, n_null) :=
        match ob with
        | None => Ok (ncs_final, labels, ends, 0%nat)
        | Some b =>
            if negb (rows_in_continued_bin =? 0)%nat then
              Ok (ncs_final, xb_label b :: tl labels, ends, 0%nat)
            else
              let* first_end := match closed with
                                | SRight => match xb_end b with Some e => Ok e | None => Err KeyError end
                                | SLeft => Ok (hd 0 on)
                                end in
              Ok (0%nat :: ncs_final, xb_label b :: labels, first_end :: ends, 1%nat)
        end in
      let b' := mkXbuf n_rows_in_last_bin (last labels2 0)
                  (match closed with
                   | SRight => Some (last ends2 0)
                   | SLeft => match ob with Some b => xb_end b | None => None end
                   end) in
      Ok (mkSeg ncs2 labels2 n_null closed ends2 unknown 0, Some (Some b'))
  end.

(** numpy.argsort(kind="mergesort") is stable; modelled as a stable insertion sort of the
    elements tagged with their key. *)
Fixpoint ins {A} (x : Z * A) (l : list (Z * A)) : list (Z * A) :=
  match l with
  | [] => [x]
  | y :: t => if fst x <=? fst y then x :: l else y :: ins x t
  end.
Fixpoint stable_sort {A} (l : list (Z * A)) : list (Z * A) :=
  match l with [] => [] | x :: t => ins x (stable_sort t) end.

(** segmentby.py:522-576. The elements are tagged with the array they come from ([true] for the
    second one, the bins), from which the second result is derived. *)
Definition mergesort (labels1 labels2 : list nat) (keys1 keys2 : list Z) (force_last_from_second : bool)
  : res (list nat * list nat) :=
  if negb (length keys1 =? length labels1)%nat then Err ValueError
  else if negb (length keys2 =? length labels2)%nat then Err ValueError
  else
    let tag (b : bool) := map (fun kl => (fst kl, (snd kl, b))) in
    let all1 := tag false (combine keys1 labels1) in
    let all2 := tag true (combine keys2 labels2) in
    let sorted :=
      if force_last_from_second
      then stable_sort (all1 ++ removelast all2) ++ match all2 with [] => [] | x :: t => [last t x] end
      else stable_sort (all1 ++ all2) in
    Ok (map (fun x => fst (snd x)) sorted, nonzero_from 0 (fun x => snd (snd x)) sorted).

(** segmentby.py:579-675, on names only. [bin_key]: [Some k] if 'bin_by' is a TimeGrouper, with its
    key and closed side; [None] if it is a callable. A name is false in Python when None or "". *)
Definition name := option string.
Definition truthy (n : name) : bool :=
  match n with None => false | Some s => negb (String.eqb s EmptyString) end.
Definition name_eqb (a b : name) : bool :=
  match a, b with
  | None, None => true
  | Some x, Some y => String.eqb x y
  | _, _ => false
  end.

Inductive bin_kind := BinTG (key : name) (closed : side) | BinCallable | BinOther.
(** 'snap_by': absent, TimeGrouper, or values. *)
Inductive snap_kind := SnapNone | SnapTG (key : name) (closed : side) | SnapVals.

Record segcfg := mkSegcfg {
  cfg_on_cols : list name;      (* KEY_ON_COLS, one or two names *)
  cfg_ordered_on : name;
  cfg_bin_on : name;
  cfg_snap_kept : bool }.       (* KEY_SNAP_BY is not None *)

Definition setup_segmentby (bin_by : bin_kind) (bin_on ordered_on : name) (snap_by : snap_kind)
  : res segcfg :=
  let* '(closed, bin_on1, ordered_on1) :=
    match bin_by with
    | BinTG key c =>
        let* bin_on1 :=
          if truthy key then
            if truthy bin_on then
              if name_eqb key bin_on then Ok bin_on else Err ValueError
            else Ok key
          else if negb (truthy bin_on) then Err ValueError else Ok bin_on in
        if truthy ordered_on && negb (name_eqb ordered_on bin_on1) then Err ValueError
        else Ok (Some c, bin_on1, if truthy ordered_on then ordered_on else bin_on1)
    | BinCallable =>
        match bin_on, ordered_on with
        | None, None => Err ValueError
        | _, _ => Ok (None, bin_on, ordered_on)
        end
    | BinOther => Err ValueError
    end in
  let* ordered_on2 :=
    match snap_by with
    | SnapNone => Ok ordered_on1
    | SnapTG key c =>
        let* o := if truthy key then
                    match ordered_on1 with
                    | None => Ok key
                    | Some _ => if name_eqb key ordered_on1 then Ok ordered_on1 else Err ValueError
                    end
                  else Ok ordered_on1 in
        match closed with
        | Some bc => if side_eqb c bc then Ok o else Err ValueError
        | None => Ok o
        end
    | SnapVals => if truthy ordered_on1 then Ok ordered_on1 else Err ValueError
    end in
  Ok (mkSegcfg
        (if truthy ordered_on2 && truthy bin_on1 && negb (name_eqb ordered_on2 bin_on1)
         then [bin_on1; ordered_on2]
         else if truthy bin_on1 then [bin_on1] else [ordered_on2])
        ordered_on2 bin_on1
        (match snap_by with SnapTG _ _ => true | _ => false end)).

(** segmentby.py:894-910: order check of column 'ordered_on'. *)
Fixpoint sortedb (l : list Z) : bool :=
  match l with
  | x :: ((y :: _) as t) => (x <=? y) && sortedb t
  | _ => true
  end.

(** Main buffer, segmentby.py:698-706 and 1018-1019. [B] is the type of the dict of the binning
    function; 'KEY_BIN' and 'KEY_SNAP' may be absent. *)
Record mainbuf (B : Type) := mkMain { mb_bin : option B; mb_snap : option sbuf; mb_last_label : option Z }.
Arguments mkMain {B} _ _ _.
Arguments mb_bin {B} _.
Arguments mb_snap {B} _.
Arguments mb_last_label {B} _.

Definition main_empty {B} : mainbuf B := mkMain None None None.

(** segmentby.py:678-708. [empty] is the empty dict. *)
Definition setup_mainbuffer {B} (empty : B) (buffer : option (mainbuf B)) (with_snapshot : bool)
  : res (option B * option sbuf * option (mainbuf B)) :=
  match buffer with
  | None => Ok (None, None, None)
  | Some m =>
      let m' := match mb_bin m with
                | Some _ => m
                | None => mkMain (Some empty)
                            (if with_snapshot then Some sbuf_empty else mb_snap m) (mb_last_label m)
                end in
      if with_snapshot
      then match mb_snap m' with
           | Some s => Ok (mb_bin m', Some s, Some m')
           | None => Err KeyError
           end
      else Ok (mb_bin m', None, Some m')
  end.

(** Output of 'segmentby', segmentby.py:1020-1027. *)
Record segout := mkSegout {
  g_starts : list nat;
  g_bin_indices : list nat;
  g_bin_labels : list Z;
  g_n_null_bins : nat;
  g_snap_labels : option (list Z * nat);   (* labels and integer label of the first one *)
  g_n_max_null_snaps : nat }.

(** segmentby.py:997-1001: bins followed right after by a snapshot; [n] is the number of chunks. *)
Fixpoint bins_followed (bin_indices : list nat) (n : nat) : list nat :=
  match bin_indices with
  | [] => []
  | b :: t => let next := match t with [] => n | b' :: _ => b' end in
              if (next - b - 1 =? 0)%nat then bins_followed t n else b :: bins_followed t n
  end.

(** segmentby.py:887-1027. [D] is the type of data rows, [ordered] the value of the column
    'ordered_on' ([None] if not set), [bin_by] the binning callable (with 'by_scale' and a
    TimeGrouper turned into such a callable by 'setup_segmentby'), [snap_by] the snapshots. *)
Definition segmentby {D B} (bin_by : list D -> option B -> res (seg * option B)) (empty : B)
  (ordered : option (D -> Z)) (snap_by : option byspec) (data : list D) (buffer : option (mainbuf B))
  : res (segout * option (mainbuf B)) :=
  let* '(buffer_bin, buffer_snap, main) :=
    setup_mainbuffer empty buffer (match snap_by with Some _ => true | None => false end) in
  let* _ := match ordered with
            | Some o => if sortedb (map o data) then Ok tt else Err ValueError
            | None => Ok tt
            end in
  let* '(sg, buffer_bin') := bin_by data buffer_bin in
  let n_bins := length (s_starts sg) in
  (* lines 932-936 *)
  if negb (n_bins =? length (s_labels sg))%nat then Err ValueError else
  if negb (n_bins =? length (s_ends sg))%nat then Err ValueError else
  let* _ :=
    match main with
    | None => Ok tt
    | Some m =>
        (* lines 937-964; 'next_chunk_starts[-1]' of an empty array raises *)
        match s_starts sg with
        | [] => Err IndexError
        | _ =>
            if negb (last (s_starts sg) 0 =? length data)%nat then Err ValueError else
            if (1 <? n_bins)%nat && (nth (n_bins - 2) (s_starts sg) 0 =? length data)%nat
            then Err ValueError else
            match mb_last_label m with
            | Some l => if l =? hd 0 (s_labels sg) then Ok tt else Err ValueError
            | None => Ok tt
            end
        end
    end in
  let* '(starts, bin_indices, snap_labels, n_max_null_snaps, buffer_snap') :=
    match snap_by with
    | None => Ok (s_starts sg, [], None, 0%nat, buffer_snap)
    | Some sb =>
        match ordered with
        | None => Err KeyError          (* data.loc[:, None] *)
        | Some o =>
            let* '(ss, bs) := by_scale (map o data) sb (Some (s_closed sg)) buffer_snap in
            let* '(starts, bi) := mergesort (s_starts ss) (s_starts sg) (s_ends ss) (s_ends sg)
                                    (s_unknown_last_end sg) in
            let followed := bins_followed bi (length starts) in
            let extra := length (filter (fun b => (nth b starts 0 =? nth (S b) starts 0)%nat) followed) in
            Ok (starts, bi, Some (s_labels ss, s_label_idx ss), (s_nnull ss + extra)%nat, bs)
        end
    end in
  let main' := match main with
               | None => None
               | Some m => Some (mkMain buffer_bin'
                                   (match snap_by with Some _ => buffer_snap' | None => mb_snap m end)
                                   (Some (last (s_labels sg) 0)))
               end in
  Ok (mkSegout starts bin_indices (s_labels sg) (s_nnull sg) snap_labels n_max_null_snaps, main').
