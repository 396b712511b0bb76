(** Specification of calls to 'AggStream.agg' which are given new data only. *)
Require Import List Arith ZArith Bool.
Require Import Verif.Common Verif.AggModel Verif.SegModel Verif.SegSpec Verif.CsaModel Verif.WrModel Verif.StreamModel Verif.StreamSpec Verif.KeyModel Verif.BatchSpec Verif.UserKeyModel Verif.UserKeySpec Verif.UserBinsSpec.
Import ListNotations.
Local Open Scope Z_scope.

(** A call to 'agg', without 'discard_last': on a new AggStream instance or not, with 'trim_start' or not, with final write or
    not, chunks of seed data. Without chunk, 'agg' is called without seed data. *)
Record fcall {D : Type} := mkCall { f_fresh : bool; f_trim : bool; f_final : bool; f_seed : list (list D) }.
Arguments mkCall {D}.

Section Calls.
Context {D P SB PB : Type}.
Variable idx : D -> Z.
Variable truthy : Z -> bool.
Variable usage : frame -> Z.

Definition feed_once (pre : option (list D -> P -> list D * P * bool)) (fs : filters) (pre0 : P) (seg0 : SB) (post0 : PB)
    (g : stream D P SB PB) (c : fcall) : res (stream D P SB PB) :=
  let* g := if f_fresh c then init pre0 seg0 post0 (map (fun x => let '(k, b, s) := x in (k, s)) (g_keys g)) else Ok g in
  let* '(g, ex) := agg idx truthy usage pre fs g (f_seed c) (f_trim c) false (f_final c) in
  match ex with Some e => Err e | None => Ok g end.
Fixpoint feed_all (pre : option (list D -> P -> list D * P * bool)) (fs : filters) (pre0 : P) (seg0 : SB) (post0 : PB)
    (g : stream D P SB PB) (cs : list fcall) : res (stream D P SB PB) :=
  match cs with
  | [] => Ok g
  | c :: cs' => let* g := feed_once pre fs pre0 seg0 post0 g c in feed_all pre fs pre0 seg0 post0 g cs'
  end.
End Calls.

(** All rows which are given, in order. *)
Definition fed {D} (cs : list (@fcall D)) : list D := concat (map (fun c => concat (f_seed c)) cs).
(** A new instance is used once results have been written only. *)
Fixpoint written_first {D} (written : bool) (cs : list (@fcall D)) : Prop :=
  match cs with
  | [] => True
  | c :: cs' => (f_fresh c = true -> written = true) /\ written_first (f_final c) cs'
  end.

(** Number of chunks given at most between two writings of results, [n] having been given before. *)
Fixpoint calls_between {D} (n : nat) (cs : list (@fcall D)) : nat :=
  match cs with
  | [] => n
  | c :: cs' => let n' := (n + length (f_seed c))%nat in Nat.max n' (calls_between (if f_final c then 0%nat else n') cs')
  end.

(** Keys which are valid for the rows of their filters, and hold the results of a single aggregation of all of these rows. *)
Definition fed_ok {D V PB} (N : dtype -> num V) (val : D -> cname -> V) dtypes (idx : D -> Z) (enc : option V -> Z) (gs : list (nat * (D -> bool))) (confs : list (bconf PB)) (m ms : bconf PB -> row -> row) (data : list D) : Prop :=
  forall c, In c confs -> conf_ok dtypes c /\ post_does (c_post c) (type_of c) (m c) (ms c) /\
    exists keep, In (c_filter c, keep) gs /\ no_tie idx c (filter keep data).
Definition fed_batch {D V P PB} (N : dtype -> num V) val dtypes (idx : D -> Z) enc (gs : list (nat * (D -> bool))) (confs : list (bconf PB)) (m ms : bconf PB -> row -> row) (data : list D)
    (g : stream D P (@segbuf V) PB) : Prop :=
  forall i c, nth_error confs i = Some c -> exists b s, nth_error (g_keys g) i = Some (key_of N val dtypes idx enc c, b, s) /\
    forall keep, In (c_filter c, keep) gs -> holds_batch N val dtypes idx enc c (m c) (ms c) (filter keep data) s.

(** The same for keys with any bins: of time, of a number of rows, or made by functions of the user (C68). *)
Definition any_fed_ok {D V B PB} (N : dtype -> num V) (val : D -> cname -> V) dtypes (idx : D -> Z) (enc : option V -> Z) (sp : uconf D B PB -> uspec D B) (m ms : @anykey D B PB -> row -> row)
    (gs : list (nat * (D -> bool))) (confs : list (@anykey D B PB)) (data : list D) : Prop :=
  forall c, In c confs -> post_does (any_post c) (any_type c) (m c) (ms c) /\
    exists keep, In (any_filter c, keep) gs /\
      match c with
      | inl c => conf_ok dtypes c /\ no_tie idx c (filter keep data)
      | inr u => user_ok dtypes idx u (sp u) /\ us_good (sp u) (filter keep data)
      end.
Definition any_fed_batch {D V B P PB} (N : dtype -> num V) val dtypes (idx : D -> Z) enc (m ms : @anykey D B PB -> row -> row)
    (gs : list (nat * (D -> bool))) (confs : list (@anykey D B PB)) (data : list D) (g : stream D P (@anybuf V B) PB) : Prop :=
  forall i c, nth_error confs i = Some c -> exists b s, nth_error (g_keys g) i = Some (any_key N val dtypes idx enc c, b, s) /\
    forall keep, In (any_filter c, keep) gs ->
      match c with
      | inl c' => holds_batch N val dtypes idx enc c' (m c) (ms c) (filter keep data) s
      | inr u => holds_user N val dtypes idx enc u (m c) (ms c) (filter keep data) s
      end.
