(** Calls to 'agg' made one after the other in a same process, some of which raise: pending metadata of a key (global
    dictionary 'OUPS_METADATA' of oups/store/writer.py) stays after a write which fails. Same code as in RaiseModel.v, with
    this dictionary.

    The store may fail at any time, for any keys: for each key, some modifications of store succeed, and the next one is not made
    (a write which is stopped halfway is in CrashModel.v), either because it raises 'OSError', or because it is not reached
    before the call stops, jobs of keys being run in threads. An AggStream instance is not used again once it has raised. *)
Require Import List Arith ZArith Bool.
Require Import Verif.Common Verif.WrModel Verif.StreamModel Verif.StreamSpec.
Import ListNotations.
Local Open Scope Z_scope.

Section Retry.
Context {D P SB PB : Type}.
Variable idx : D -> Z.
Variable truthy : Z -> bool.
Variable usage : frame -> Z.
Notation kconf := (kconf D SB PB).
Notation kbuf := (kbuf SB PB).
Notation kstore := (kstore P SB PB).
Notation aggmd := (aggmd P SB PB).
Notation act := (@act P SB PB).

(** Number of modifications of store which are made for a key, and if the next one is tried. *)
Definition limit : Type := nat * bool.
(** aggstream.py:640-840, '_post_n_write_agg_chunks', with 'OUPS_METADATA[main_key]' as [pend]: modifications of store,
    pending metadata afterwards, and buffers or exception. Metadata is set before the write, if it is reached. 'write' and 'write_metadata' (writer.py:291-314) write pending
    metadata, whatever the call which has set it, then remove it; when they raise, it stays. *)
Definition post_n_write_p (m : limit) (k : kconf) (b : kbuf) (s : kstore) (pend : option aggmd) (append_last : bool)
    (last_seed_index : option Z) (pre_buffer : P) : list act * option aggmd * res kbuf :=
  match results k b append_last with
  | Err e => ([], pend, Err e)
  | Ok (main, snap, pb) =>
      let b' := mkBuf (b_size b) (b_bin b) (b_snap b) (b_bins b) (b_snaps b) (b_seg b) pb in
      let done := match b_bin b with Some _ => reset_buffers b' | None => b' end in
      let last := match last_seed_index with Some i => truthy i | None => false end in
      let '(n, tried) := m in
      let old := pend in
      let pend := match last_seed_index with
                  | Some i => if truthy i then Some (mkMd i pre_buffer (b_seg b) pb) else pend
                  | None => pend
                  end in
      match main with
      | Some m =>
          match n with
          | O => ([], if tried then pend else old, Err OSError)
          | S n =>
              match store_write (k_write k) (s_main s) m pend with
              | Err x => ([], pend, Err x)
              | Ok e =>
                  match k_type k, snap with
                  | BOTH, Some sn =>
                      match n with
                      | O => ([(false, e)], None, Err OSError)
                      | S _ =>
                          match store_write (k_write_snap k) (s_snap s) sn None with
                          | Err x => ([(false, e)], None, Err x)
                          | Ok e' => ([(false, e); (true, e')], None, Ok done)
                          end
                      end
                  | BOTH, None => ([(false, e)], None, Err TypeError)
                  | _, _ => ([(false, e)], None, Ok done)
                  end
              end
          end
      | None =>
          match pend with
          | Some md => if last then match n with O => ([], if tried then pend else old, Err OSError) | S _ => ([(false, store_md (s_main s) md)], None, Ok done) end
                       else ([], pend, Ok done)
          | None => ([], None, Ok done)
          end
      end
  end.

(** aggstream.py:877-914 *)
Definition buffer_results_p (n : limit) (k : kconf) (b : kbuf) (s : kstore) (pend : option aggmd) (pre_buffer : P) : list act * option aggmd * res kbuf :=
  match b_bin b with
  | None => ([], pend, Ok b)
  | Some bin =>
      match rows bin with
      | [] => ([], pend, Ok b)
      | _ =>
          let size := b_size b in
          let bins := b_bins b ++ [chop bin] in
          let b' := match b_snap b with
                    | None => mkBuf (size + usage bin) (b_bin b) None bins (b_snaps b) (b_seg b) (b_post b)
                    | Some sn => mkBuf (size + (usage bin + usage sn)) (b_bin b) (Some sn) bins (b_snaps b ++ [chop sn]) (b_seg b) (b_post b)
                    end in
          if k_max k <? size + size / Z.of_nat (length bins)
          then post_n_write_p n k b' s pend false None pre_buffer
          else ([], pend, Ok b')
      end
  end.

(** aggstream.py:843-928 *)
Definition agg_iter_p (n : limit) (k : kconf) (b : kbuf) (s : kstore) (pend : option aggmd) (pre_buffer : P) (chunk : list D) : list act * option aggmd * res kbuf :=
  let '(acts, pend, r) := buffer_results_p n k b s pend pre_buffer in
  match r with
  | Err e => (acts, pend, Err e)
  | Ok b =>
      match k_agg k chunk (b_seg b) with
      | Err e => (acts, pend, Err e)
      | Ok (r, seg') =>
          let '(bin, snap) := match r with Some (f, sn) => (Some f, sn) | None => (None, None) end in
          (acts, pend, Ok (mkBuf (b_size b) bin snap (b_bins b) (b_snaps b) seg' (b_post b)))
      end
  end.

(** Keys with their buffers, datasets and pending metadata; modifications of store made by the current call; those which can
    still be made, for the key at each position. *)
Definition pkey : Type := kconf * kbuf * kstore * option aggmd.
Record pstream := mkP { p_restart : option Z; p_pre : P; p_keys : list pkey; p_log : list (nat * act); p_left : nat -> limit }.

(** Modifications of store for a key. *)
Definition acts_at (i : nat) (log : list (nat * act)) : list act := map snd (filter (fun x => (fst x =? i)%nat) log).
Definition spend (left : nat -> limit) (log : list (nat * act)) : nat -> limit := fun i => (fst (left i) - length (acts_at i log), snd (left i))%nat.
(** Jobs of keys, run in threads: see RaiseModel.v. *)
Fixpoint run_jobs_p (job : limit -> kconf -> kbuf -> kstore -> option aggmd -> list act * option aggmd * res kbuf) (left : nat -> limit) (i : nat) (ks : list pkey)
    : list pkey * list (nat * act) * option exn :=
  match ks with
  | [] => ([], [], None)
  | (k, b, s, pend) :: ks' =>
      let '(acts, pend', r) := job (left i) k b s pend in
      let log := map (fun a => (i, a)) acts in
      let '(l, log', ex) := run_jobs_p job left (S i) ks' in
      match r with
      | Err e => ((k, b, apply_acts s acts, pend') :: l, log ++ log', Some e)
      | Ok b' => ((k, b', apply_acts s acts, pend') :: l, log ++ log', ex)
      end
  end.
(** aggstream.py:1489-1507 *)
Definition consume1_p (g : pstream) (y : @yielded D) : pstream * option exn :=
  let '(last_index, id, chunk) := y in
  let '(ks, log, ex) := run_jobs_p (fun n k b s pend => if (k_filter k =? id)%nat then agg_iter_p n k b s pend (p_pre g) chunk else ([], pend, Ok b)) (p_left g) 0 (p_keys g) in
  (mkP (Some last_index) (p_pre g) ks (p_log g ++ log) (spend (p_left g) log), ex).
(** aggstream.py:1478-1510 *)
Fixpoint consume_p (g : pstream) (ys : list (res (@yielded D))) : pstream * res (option exn) :=
  match ys with
  | [] => (g, Ok None)
  | Err SeedPre :: _ => (g, Ok (Some SeedPre))
  | Err e :: _ => (g, Err e)
  | Ok y :: ys' =>
      match consume1_p g y with
      | (g, Some e) => (g, Err e)
      | (g, None) => consume_p g ys'
      end
  end.
(** aggstream.py:1511-1529 *)
Definition final_write_p (g : pstream) : pstream * option exn :=
  let '(ks, log, ex) := run_jobs_p (fun n k b s pend => post_n_write_p n k b s pend true (p_restart g) (p_pre g)) (p_left g) 0 (p_keys g) in
  (mkP (p_restart g) (p_pre g) ks (p_log g ++ log) (spend (p_left g) log), ex).
(** aggstream.py:1386-1531 *)
Definition agg_p (pre : option (@pre_fun D P)) (fs : filters) (g : pstream) (seed : list (list D)) (trim_start discard_last final : bool)
    : pstream * res (option exn) :=
  let '(g, r) :=
    match seed with
    | [] => (g, Ok None)
    | _ =>
        let '(ys, p) := iter_data idx (p_restart g) pre fs trim_start discard_last (p_pre g) seed in
        let '(g, r) := consume_p g ys in
        (mkP (p_restart g) p (p_keys g) (p_log g) (p_left g), r)
    end in
  match r with
  | Err e => (g, Err e)
  | Ok ex =>
      if final then match final_write_p g with (g, None) => (g, Ok ex) | (g, Some e) => (g, Err e) end
      else (g, Ok ex)
  end.

(** A call, in the same process as the previous one or in a new one ([at_new]), in which no metadata is pending: [at_n]
    gives modifications of store which can be made for each key. A new instance reads metadata of datasets; pending one is left as it is. *)
Record attempt := mkAttempt { at_new : bool; at_run : @run D; at_n : list limit }.
Definition forget (g : pstream) : pstream := mkP (p_restart g) (p_pre g) (map (fun x => (fst x, None)) (p_keys g)) (p_log g) (p_left g).
Definition renew (pre0 : P) (seg0 : SB) (post0 : PB) (g : pstream) : res pstream :=
  let* g' := init pre0 seg0 post0 (map (fun x => let '(k, b, s, _) := x in (k, s)) (p_keys g)) in
  Ok (mkP (g_restart g') (g_pre g') (combine (g_keys g') (map snd (p_keys g))) [] (fun _ => (O, true))).
Definition attempt_once (pre : option (@pre_fun D P)) (fs : filters) (pre0 : P) (seg0 : SB) (post0 : PB) (g : pstream) (x : attempt) : res (pstream * res (option exn)) :=
  let r := at_run x in
  let g := if at_new x then forget g else g in
  let* g := if r_fresh r then renew pre0 seg0 post0 g else Ok g in
  Ok (agg_p pre fs (mkP (p_restart g) (p_pre g) (p_keys g) [] (fun i => nth i (at_n x) (O, true))) (r_seed r) true true (r_final r)).
(** Successive calls: outcome of each of them, and if metadata is pending afterwards. *)
Definition pending (g : pstream) : bool := existsb (fun x => match snd x with Some _ => true | None => false end) (p_keys g).
Fixpoint attempts (pre : option (@pre_fun D P)) (fs : filters) (pre0 : P) (seg0 : SB) (post0 : PB) (g : pstream) (xs : list attempt)
    : res (pstream * list (res (option exn) * bool)) :=
  match xs with
  | [] => Ok (g, [])
  | x :: xs' =>
      let* '(g, r) := attempt_once pre fs pre0 seg0 post0 g x in
      let* '(g', l) := attempts pre fs pre0 seg0 post0 g xs' in
      Ok (g', (r, pending g) :: l)
  end.
(** A process, with the datasets of a stream and no pending metadata. *)
Definition new_process (g : stream D P SB PB) : pstream := mkP (g_restart g) (g_pre g) (map (fun x => (x, None)) (g_keys g)) [] (fun _ => (O, true)).
End Retry.
