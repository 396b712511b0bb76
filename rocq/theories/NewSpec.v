(** Vocabulary for calls to 'agg' which are given new data only. *)
Require Import List Arith ZArith Bool.
Require Import Verif.Common Verif.AggModel Verif.SegSpec Verif.CsaModel Verif.WrModel Verif.FilterModel Verif.StreamModel Verif.StreamSpec Verif.KeyModel Verif.BatchSpec.
Import ListNotations.
Local Open Scope Z_scope.

Section Calls.
Context {D P SB PB : Type}.
Variable idx : D -> Z.
Variable truthy : Z -> bool.
Variable usage : frame -> Z.

(** A call to 'agg', with a new AggStream instance on the store left by previous calls, or with the same one, and with any
    values of 'trim_start', 'discard_last' and 'final_write'. *)
Record call := mkCall { c_fresh : bool; c_trim : bool; c_discard : bool; c_final : bool; c_seed : list (list D) }.
Definition call_once (pre : option (list D -> P -> list D * P * bool)) (fs : filters) (pre0 : P) (seg0 : SB) (post0 : PB)
    (g : stream D P SB PB) (c : call) : res (stream D P SB PB) :=
  let* g := if c_fresh c then init pre0 seg0 post0 (map (fun x => let '(k, b, s) := x in (k, s)) (g_keys g)) else Ok g in
  let* '(g, ex) := agg idx truthy usage pre fs g (c_seed c) (c_trim c) (c_discard c) (c_final c) in
  match ex with Some e => Err e | None => Ok g end.
Fixpoint call_all (pre : option (list D -> P -> list D * P * bool)) (fs : filters) (pre0 : P) (seg0 : SB) (post0 : PB)
    (g : stream D P SB PB) (cs : list call) : res (stream D P SB PB) :=
  match cs with
  | [] => Ok g
  | c :: cs' => let* g := call_once pre fs pre0 seg0 post0 g c in call_all pre fs pre0 seg0 post0 g cs'
  end.

(** Rows a call takes into account: all of them, but those at the last index if they are discarded. *)
Definition taken (c : call) : list D :=
  if c_discard c then filter (fun r => idx r <? last_index idx (concat (c_seed c))) (concat (c_seed c)) else concat (c_seed c).
Definition all_taken (cs : list call) : list D := flat_map taken cs.
Definition all_seed (cs : list call) : list D := flat_map (fun c => concat (c_seed c)) cs.

(** New data only: data of a call comes after the one of previous calls. Chunks have rows. *)
Definition new_data (cs : list call) : Prop := sorted (map idx (all_seed cs)) /\ forall c chunk, In c cs -> In chunk (c_seed c) -> chunk <> [].
(** Results are written before the use of a new AggStream instance. *)
Fixpoint written_before_fresh (written : bool) (cs : list call) : Prop :=
  match cs with
  | [] => True
  | c :: cs' => (c_fresh c = true -> written = true) /\ written_before_fresh (c_final c) cs'
  end.
End Calls.

(** Each key holds the results of a single aggregation of rows [rows_], those of its filter. *)
Definition all_batch_of {D V P PB} (N : dtype -> num V) val dtypes (idx : D -> Z) enc (gs : list (nat * (D -> bool))) (confs : list (bconf PB)) (m ms : bconf PB -> row -> row) (rows_ : list D)
    (g : stream D P (@segbuf V) PB) : Prop :=
  forall i c, nth_error confs i = Some c -> exists b s, nth_error (g_keys g) i = Some (key_of N val dtypes idx enc c, b, s) /\
    forall keep, In (c_filter c, keep) gs -> holds_batch N val dtypes idx enc c (m c) (ms c) (filter keep rows_) s.
(** Configurations are valid, post-processings work row by row, the filter of each key keeps rows which have no tie at the end of bins made of
    a number of rows. *)
Definition stream_ok_on {D V PB} (N : dtype -> num V) (val : D -> cname -> V) dtypes (idx : D -> Z) (enc : option V -> Z) (gs : list (nat * (D -> bool))) (confs : list (bconf PB)) (m ms : bconf PB -> row -> row) (rows_ : list D) : Prop :=
  forall c, In c confs -> conf_ok dtypes c /\ post_does (c_post c) (type_of c) (m c) (ms c) /\
    exists keep, In (c_filter c, keep) gs /\ no_tie idx c (filter keep rows_).
