(** Vocabulary for the arguments given to 'post'. *)
Require Import List Arith ZArith Bool.
Require Import Verif.Common Verif.AggModel Verif.SegModel Verif.CsaModel Verif.CsaSpec Verif.WrModel Verif.StreamModel Verif.StreamSpec Verif.KeyModel Verif.BatchSpec.
Import ListNotations.
Local Open Scope Z_scope.

(** A call to 'post': rows of bins, rows of snapshots if any. *)
Definition call := (list row * option (list row))%type.

(** A post-processing which records its calls in its buffer, its results being those of any post-processing [f]. *)
Definition recorder {PB} (f : PB -> frame -> option frame -> res (post_res * PB)) (b : PB * list call) (bins : frame) (snaps : option frame)
    : res (post_res * (PB * list call)) :=
  let* '(r, pb) := f (fst b) bins snaps in
  Ok (r, (pb, snd b ++ [(rows bins, option_map rows snaps)])).

(** Rows of a table are given by successive calls: each one gives the rows which follow those already given. A call is
    marked when the last row it gives is provisional. This row is then given again, possibly with other values, as the first
    row of the next call giving rows. [passed A mark calls] tells that [calls] have given the rows of [A], and if the last one
    is provisional. *)
Inductive passed : list row -> bool -> list (bool * list row) -> Prop :=
| P_none : passed [] false []
| P_next : forall A calls mark W, passed A false calls -> (mark = true -> W <> []) -> passed (A ++ W) mark (calls ++ [(mark, W)])
| P_again : forall A r calls mark W, passed (A ++ [r]) true calls -> (mark = true -> W <> []) ->
    (forall w W', W = w :: W' -> col 0 w = col 0 r) -> passed (A ++ W) mark (calls ++ [(mark, W)]).

(** Number of calls with a provisional row. *)
Definition provisional (calls : list (bool * list row)) : nat := length (filter fst calls).

(** Number of runs with a final write. *)
Definition finals {D} (rs : list (@run D)) : nat := length (filter r_final rs).

(** Calls give all rows of the tables of bins and of snapshots of a single aggregation of [rows_], with no more than [n]
    provisional rows. *)
Definition passed_batch {D V PB} (N : dtype -> num V) (val : D -> cname -> V) (dtypes : list (cname * dtype)) (idx : D -> Z) (enc : option V -> Z)
    (c : bconf PB) (n : nat) (rows_ : list D) (calls : list call) : Prop :=
  match rows_ with
  | [] => calls = []
  | _ => exists bins snaps, batch N val dtypes idx c rows_ = Ok (Some (bins, snaps)) /\
      (exists marks, map snd marks = map fst calls /\ passed (rows (table enc (c_agg c) bins)) true marks /\ (provisional marks <= n)%nat) /\
      match snaps with
      | None => Forall (fun x => snd x = None) calls
      | Some sn => exists marks, map (fun x => Some (snd x)) marks = map snd calls /\ passed (rows (table enc (c_agg c) sn)) true marks /\ (provisional marks <= n)%nat
      end
  end.
