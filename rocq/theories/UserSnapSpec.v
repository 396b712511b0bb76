(** Specification of snapshots made along with any bins. *)
Require Import List Arith ZArith Bool Sorted.
Require Import Verif.Common Verif.SegModel Verif.SegSpec Verif.UserBinsSpec.
Import ListNotations.

(** * Ends of bins *)
(** Ends a binning function gives, but for the one of the last bin if it says this one is not known. *)
Definition known_ends (sg : seg) : list Z := if s_unknown_last_end sg then removelast (s_ends sg) else s_ends sg.

(** Ends of bins, with which snapshots are placed. [ends] are those of bins of rows, in the order of bins, [t] being the
    values of the column they refer to and [c] the side on which bins are closed. The end of the last bin may be missing: it is
    then not known yet. An end is not before rows of its bin and of previous ones; rows of next bins are not before it.
    More rows leave the ends of bins before the last one. *)
Record bin_ends {D B} (t : D -> Z) (c : side) (bin_by : list D -> option B -> res (seg * option B))
  (bins : list D -> list (Z * list D)) (after : list D -> B -> Prop) (good : list D -> Prop) (ends : list D -> list Z) : Prop := {
  be_order : forall rows, good rows -> sorted (ends rows);
  be_rows : forall rows i j e r, good rows -> nth_error (ends rows) i = Some e -> In r (nth j (map snd (bins rows)) []) ->
    if (j <=? i)%nat then (t r <= e)%Z else before c e (t r) = false;
  be_more : forall rows more, rows <> [] -> good (rows ++ more) ->
    firstn (length (bins rows) - 1) (ends (rows ++ more)) = firstn (length (bins rows) - 1) (ends rows);
  be_call : forall rows more b sg b', more <> [] -> good (rows ++ more) -> after rows b -> bin_by more (Some b) = Ok (sg, b') ->
    s_closed sg = c /\ sorted (s_ends sg) /\ known_ends sg = skipn (length (bins rows) - 1) (ends (rows ++ more));
  be_once : forall rows sg b', rows <> [] -> good rows -> bin_by rows None = Ok (sg, b') ->
    s_closed sg = c /\ sorted (s_ends sg) /\ known_ends sg = ends rows }.

(** * Points of snapshots *)
(** What 'by_scale' returns for values [on], with points (label, end): the number of values before each end. *)
Record tells (c : side) (ss : seg) (on : list Z) (points : list (Z * Z)) : Prop := {
  tl_labels : s_labels ss = map fst points;
  tl_ends : s_ends ss = map snd points;
  tl_starts : s_starts ss = map (fun p => n_before c on (snd p)) points;
  tl_null : (n_empty 0 (s_starts ss) <= s_nnull ss)%nat;
  tl_idx : s_label_idx ss = 0%nat }.

(** [points] are the points of snapshots for values of the ordered column, as made by 'by_scale' in one call. *)
Record snap_points (by_ : byspec) (c : side) (points : list Z -> list (Z * Z)) : Prop := {
  sp_labels : forall on, sorted on -> NoDup (map fst (points on));
  sp_order : forall on, sorted on -> sorted (map snd (points on));
  sp_once : forall on, on <> [] -> sorted on -> exists ss, by_scale on by_ (Some c) None = Ok (ss, None) /\ tells c ss on (points on) }.

(** They are made on successive pieces too. The last point is after all values, other ones are not after the last value. *)
Record snapping (by_ : byspec) (c : side) (points : list Z -> list (Z * Z)) (after : list Z -> sbuf -> Prop) : Prop := {
  sn_points : snap_points by_ c points;
  sn_nothing : points [] = [] /\ after [] sbuf_empty;
  sn_more : forall on more, on <> [] -> sorted (on ++ more) -> exists ps x ps', points on = ps ++ [x] /\ points (on ++ more) = ps ++ x :: ps';
  sn_between : forall on ps x, on <> [] -> sorted on -> points on = ps ++ [x] ->
    (forall v, In v on -> before c (snd x) v = true) /\ (forall y, In y ps -> before c (snd y) (last on 0%Z) = false);
  sn_call : forall on more b, more <> [] -> sorted (on ++ more) -> after on b -> exists ss b',
    by_scale more by_ (Some c) (Some b) = Ok (ss, Some b') /\ after (on ++ more) b' /\
    tells c ss more (skipn (length (points on) - 1) (points (on ++ more))) }.

(** * Snapshots *)
(** Rows of the snapshot at point [e]: those before it, in the bin in progress: the first one whose end is not before [e]. *)
Definition shot {D} (t : D -> Z) (c : side) (bins : list (Z * list D)) (ends : list Z) (e : Z) : list D :=
  filter (fun r => before c e (t r)) (nth (length (filter (fun k => k <? e)%Z ends)) (map snd bins) []).
Definition shots {D} (t : D -> Z) (c : side) (bins : list D -> list (Z * list D)) (ends : list D -> list Z) (points : list Z -> list (Z * Z))
  (rows : list D) : list (Z * list D) :=
  map (fun p => (fst p, shot t c (bins rows) (ends rows) (snd p))) (points (map t rows)).
(** Snapshots given for rows [more] after rows [seen]: from the last one so far. *)
Definition new_shots {D} (t : D -> Z) (c : side) (bins : list D -> list (Z * list D)) (ends : list D -> list Z) (points : list Z -> list (Z * Z))
  (seen more : list D) : list (Z * list D) :=
  skipn (length (points (map t seen)) - 1) (shots t c bins ends points (seen ++ more)).
