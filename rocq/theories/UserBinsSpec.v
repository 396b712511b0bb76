(** Specification of the functions a user may give to make bins. *)
Require Import List Arith ZArith Bool Sorted.
Require Import Verif.Common Verif.SegModel Verif.SegSpec.
Import ListNotations.

(** Rows of the last bin. *)
Definition last_rows {D} (bins : list (Z * list D)) : list D := last (map snd bins) [].

(** Bins touched by rows [more] after rows [seen]: from the last bin so far. *)
Definition new_bins {D} (bins : list D -> list (Z * list D)) (seen more : list D) : list (Z * list D) :=
  skipn (length (bins seen) - 1) (bins (seen ++ more)).

(** What a binning function returns for rows [more], [bs] being the bins they touch, the first one of
    which has already rows [running]: one label, one end and one position per bin; the position at which
    the next bin starts, the last one being the number of rows, and the last bin having rows; the number
    of bins without rows. *)
Record describes {D} (sg : seg) (running more : list D) (bs : list (Z * list D)) : Prop := {
  ds_labels : s_labels sg = map fst bs;
  ds_ends : length (s_ends sg) = length bs;
  ds_starts : length (s_starts sg) = length bs;
  ds_order : StronglySorted le (s_starts sg);
  ds_last : last (s_starts sg) 0 = length more;
  ds_last_has_rows : forall n, length (s_starts sg) = S (S n) -> nth n (s_starts sg) 0 < length more;
  ds_rows : map snd bs = match cut 0 (s_starts sg) more with [] => [] | r :: rs => (running ++ r) :: rs end;
  ds_null : length (filter is_nil (map snd bs)) <= s_nnull sg }.

(** A binning function which can be called on successive pieces of data. [bins] are the bins of rows, with
    their labels; [after] says what its buffer may hold once rows have been given (this may depend on pieces). More rows complete the last
    bin and add bins. It may be made for some data only: [good]. *)
Record binning {D B} (bin_by : list D -> option B -> res (seg * option B)) (empty : B)
  (bins : list D -> list (Z * list D)) (after : list D -> B -> Prop) (good : list D -> Prop) : Prop := {
  bn_good : forall rows more, good (rows ++ more) -> good rows;
  bn_nothing : bins [] = [] /\ after [] empty;
  bn_labels : forall rows, good rows -> NoDup (map fst (bins rows));
  bn_more : forall rows more, rows <> [] -> good (rows ++ more) -> exists bs l r r' bs',
    bins rows = bs ++ [(l, r)] /\ r <> [] /\ bins (rows ++ more) = bs ++ (l, r ++ r') :: bs';
  bn_call : forall rows more b, more <> [] -> good (rows ++ more) -> after rows b -> exists sg b',
    bin_by more (Some b) = Ok (sg, Some b') /\ after (rows ++ more) b' /\
    describes sg (last_rows (bins rows)) more (new_bins bins rows more);
  bn_once : forall rows, rows <> [] -> good rows -> exists sg, bin_by rows None = Ok (sg, None) /\ describes sg [] rows (bins rows) }.
