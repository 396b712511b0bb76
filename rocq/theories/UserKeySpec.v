(** Vocabulary for streams with keys whose bins are made by a function of the user. *)
Require Import List Arith ZArith Bool Sorting.Sorted.
Require Import Verif.Common Verif.AggModel Verif.SegModel Verif.SegSpec Verif.CsaModel Verif.CsaSpec Verif.WrModel Verif.StreamModel Verif.StreamSpec
  Verif.KeyModel Verif.BatchSpec Verif.UserBinsSpec Verif.UserSnapSpec Verif.UserKeyModel.
Import ListNotations.
Local Open Scope Z_scope.

(** What the functions of the user are meant to make: bins of rows, with what their buffer holds after some rows and the data
    they are made for; with snapshots, the side on which bins are closed and their ends, points of snapshots for values of the
    ordered column, and what the buffer of 'by_scale' holds after some values. *)
Record uspec (D B : Type) := mkUspec {
  us_bins : list D -> list (Z * list D);
  us_after : list D -> B -> Prop;
  us_good : list D -> Prop;
  us_closed : side;
  us_ends : list D -> list Z;
  us_points : list Z -> list (Z * Z);
  us_safter : list Z -> sbuf -> Prop }.
Arguments mkUspec {D B}.
Arguments us_bins {D B}. Arguments us_after {D B}. Arguments us_good {D B}. Arguments us_closed {D B}. Arguments us_ends {D B}.
Arguments us_points {D B}. Arguments us_safter {D B}.
(** Bins only. *)
Definition only_bins {D B} (bins : list D -> list (Z * list D)) (after : list D -> B -> Prop) (good : list D -> Prop) : uspec D B :=
  mkUspec bins after good SLeft (fun _ => []) (fun _ => []) (fun _ _ => True).

(** A configuration: columns exist, aggregation functions are known; the binning function makes the bins meant, on data which is
    good. Labels of bins of ordered data are in ascending order. With snapshots, ends of bins are those meant, and points of
    snapshots too, their labels being in ascending order. *)
Definition user_ok {D B PB} (dtypes : list (cname * dtype)) (idx : D -> Z) (u : uconf D B PB) (sp : uspec D B) : Prop :=
  agg_valid (u_agg u) dtypes /\ NoDup (map fst (u_agg u)) /\ u_agg u <> [] /\
  binning (u_bins u) (u_empty u) (us_bins sp) (us_after sp) (us_good sp) /\
  (forall rows, sorted (map idx rows) -> us_good sp rows -> StronglySorted Z.lt (map fst (us_bins sp rows))) /\
  (forall by_, u_snap u = Some by_ ->
     bin_ends idx (us_closed sp) (u_bins u) (us_bins sp) (us_after sp) (us_good sp) (us_ends sp) /\
     snapping by_ (us_closed sp) (us_points sp) (us_safter sp) /\
     (forall on, sorted on -> StronglySorted Z.lt (map fst (us_points sp on)))).

(** Datasets of a key hold the results of a single aggregation of [rows], up to post-processing [m], and [ms] for snapshots
    when they have their own dataset. *)
Definition holds_user {D V B P SB PB} (N : dtype -> num V) (val : D -> cname -> V) dtypes (idx : D -> Z) (enc : option V -> Z)
    (u : uconf D B PB) (m ms : row -> row) (rows_ : list D) (s : kstore P SB PB) : Prop :=
  match rows_ with
  | [] => all_rows (data_of (s_main s)) = [] /\ (u_snap u <> None -> u_two u = true -> all_rows (data_of (s_snap s)) = [])
  | _ => exists bins snaps, user_batch N val dtypes idx u rows_ = Ok (Some (bins, snaps)) /\
      (u_snap u <> None <-> snaps <> None) /\
      match snaps with
      | None => all_rows (data_of (s_main s)) = map m (rows (table enc (u_agg u) bins))
      | Some sn =>
          if u_two u
          then all_rows (data_of (s_main s)) = map m (rows (table enc (u_agg u) bins)) /\ all_rows (data_of (s_snap s)) = map ms (rows (table enc (u_agg u) sn))
          else all_rows (data_of (s_main s)) = map m (rows (table enc (u_agg u) sn))
      end
  end.

Section Any.
Context {D V B PB : Type}.
Variable N : dtype -> num V.
Variable val : D -> cname -> V.
Variable dtypes : list (cname * dtype).
Variable idx : D -> Z.
Variable enc : option V -> Z.
Notation anykey := (@anykey D B PB).
Notation any_key := (@any_key D V B PB N val dtypes idx enc).

Definition any_filter (c : anykey) : nat := match c with inl c => c_filter c | inr u => u_filter u end.
Definition any_post (c : anykey) := match c with inl c => c_post c | inr u => u_post u end.
Definition any_type (c : anykey) : res_type := match c with inl c => type_of c | inr u => user_type u end.
Definition any_nirgs (c : anykey) : option Z := match c with inl c => c_nirgs c | inr u => u_nirgs u end.
(** Post-processings. *)
Variables (m ms : anykey -> row -> row).

(** Each key holds the results of a single aggregation of the rows of its filter, before the last index. *)
Definition any_batch {P} (gs : list (nat * (D -> bool))) (confs : list anykey) (seed : list D) (g : stream D P (@anybuf V B) PB) : Prop :=
  forall i c, nth_error confs i = Some c -> exists b s, nth_error (g_keys g) i = Some (any_key c, b, s) /\
    forall keep, In (any_filter c, keep) gs ->
      match c with
      | inl c' => holds_batch N val dtypes idx enc c' (m c) (ms c) (given idx keep seed) s
      | inr u => holds_user N val dtypes idx enc u (m c) (ms c) (given idx keep seed) s
      end.

(** A configuration with which nothing is raised: see [accepted_conf]. *)
Definition user_accepted (u : uconf D B PB) (w : Z) (n : nat) (rows_ : list D) : Prop :=
  u_nirgs u = None /\ (forall z, u_size u = Some z -> 0 < z) /\ (forall z, u_size_snap u = Some z -> 0 < z) /\ post_keeps (u_post u) 0 /\
  (forall out i f d l v, In (out, (i, Some f)) (u_agg u) -> dict_get Nat.eqb i dtypes = Some d -> incl l rows_ -> agg_of N val d f i l = Some v -> is0 (N d) v = false) /\
  match user_type u with
  | BINS => 4 * w * Z.of_nat n <= u_max u
  | _ =>
      let results := match user_batch N val dtypes idx u rows_ with
                     | Ok (Some (bins, Some snaps)) => (length (f_labels bins) + length (f_labels snaps))%nat
                     | _ => 0%nat
                     end in
      2 * w * Z.of_nat (4 * n + results) <= u_max u
  end.
Definition any_accepted (c : anykey) (w : Z) (n : nat) (rows_ : list D) : Prop :=
  match c with
  | inl c => accepted_conf N val dtypes idx enc c w n rows_
  | inr u => user_accepted u w n rows_
  end.
End Any.

(** A stream: its configurations are valid, post-processings [m] and [ms] work row by row, the filter of each key keeps rows
    [keep], which have no tie at the end of bins made of a number of rows, or are good for the function of the user. *)
Definition any_stream_ok {D V B PB} (N : dtype -> num V) (val : D -> cname -> V) dtypes (idx : D -> Z) (enc : option V -> Z) (sp : uconf D B PB -> uspec D B) (m ms : @anykey D B PB -> row -> row)
    (gs : list (nat * (D -> bool))) (confs : list (@anykey D B PB)) (seed : list D) : Prop :=
  forall c, In c confs -> post_does (any_post c) (any_type c) (m c) (ms c) /\
    exists keep, In (any_filter c, keep) gs /\
      match c with
      | inl c => conf_ok dtypes c /\ no_tie idx c (given idx keep seed)
      | inr u => user_ok dtypes idx u (sp u) /\ us_good (sp u) (given idx keep seed)
      end.

