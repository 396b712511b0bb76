(** Calls to 'agg' of a same AggStream instance, some of which raise (oups/aggstream/aggstream.py): same code as in
    StreamModel.v, with the buffers left by a job which raises, these being modified in place, and metadata which stays pending
    (dictionary 'OUPS_METADATA' of oups/store/writer.py).

    Pending metadata refers to buffers of the instance (aggstream.py:804-811), it does not copy them: only the restart index
    is that of the time it has been set, buffers are those of the time it is written.

    Simplifications: 'cumsegagg' and 'post', when they raise, leave their buffer unchanged; 'post' does not modify the data frames it is given; the buffer of 'pre' in
    metadata written in the course of a call is the one before this call. Jobs which are running when another one raises
    come to their end before the next call. *)
Require Import List Arith ZArith Bool.
Require Import Verif.Common Verif.WrModel Verif.StreamModel.
Import ListNotations.
Local Open Scope Z_scope.

(** Writing of the results of a key: the store works; or it makes some modifications, then raises 'OSError'; or the job is not started, as
    another one has raised. *)
Inductive fault := Works | Fails (n : nat) | NotRun.
(** Modification number [i] of the job of a key can be made. *)
Definition allowed (w : fault) (i : nat) : bool := match w with Works => true | Fails n => (i <? n)%nat | NotRun => false end.

Section Reuse.
Context {D P SB PB : Type}.
Variable idx : D -> Z.
Variable truthy : Z -> bool.
Variable usage : frame -> Z.
Notation kconf := (kconf D SB PB).
Notation kbuf := (kbuf SB PB).
Notation kstore := (kstore P SB PB).
Notation aggmd := (aggmd P SB PB).
Notation act := (@act P SB PB).

(** Buffers, modifications of store, restart index of pending metadata, and exception if any, once a job is ended. *)
Definition job_end : Type := kbuf * list act * option Z * option exn.

(** aggstream.py:640-840, '_post_n_write_agg_chunks'; [pend] is for 'OUPS_METADATA[main_key]'. 'write' and 'write_metadata'
    (writer.py:291-314) write pending metadata, whatever the call which has set it, then remove it; when they raise, it stays. *)
Definition post_n_write_u (w : fault) (k : kconf) (b : kbuf) (s : kstore) (pend : option Z) (append_last : bool)
    (last_seed_index : option Z) (pre_buffer : P) : job_end :=
  match results k b append_last with
  | Err e => (b, [], pend, Some e)
  | Ok (main, snap, pb) =>
      let b' := mkBuf (b_size b) (b_bin b) (b_snap b) (b_bins b) (b_snaps b) (b_seg b) pb in
      let done := match b_bin b with Some _ => reset_buffers b' | None => b' end in
      let last := match last_seed_index with Some i => truthy i | None => false end in
      let pend := if last then last_seed_index else pend in
      let md := match pend with Some i => Some (mkMd i pre_buffer (b_seg b) pb) | None => None end in
      match main with
      | Some m =>
          if allowed w 0 then
            match store_write (k_write k) (s_main s) m md with
            | Err x => (b', [], pend, Some x)
            | Ok e =>
                match k_type k, snap with
                | BOTH, Some sn =>
                    if allowed w 1 then
                      match store_write (k_write_snap k) (s_snap s) sn None with
                      | Err x => (b', [(false, e)], None, Some x)
                      | Ok e' => (done, [(false, e); (true, e')], None, None)
                      end
                    else (b', [(false, e)], None, Some OSError)
                | BOTH, None => (b', [(false, e)], None, Some TypeError)
                | _, _ => (done, [(false, e)], None, None)
                end
            end
          else (b', [], pend, Some OSError)
      | None =>
          if last then
            if allowed w 0 then (done, match md with Some md => [(false, store_md (s_main s) md)] | None => [] end, None, None)
            else (b', [], pend, Some OSError)
          else (done, [], pend, None)
      end
  end.

(** aggstream.py:877-914: previous results are added to buffers before these are written. *)
Definition buffer_results_u (w : fault) (k : kconf) (b : kbuf) (s : kstore) (pend : option Z) (pre_buffer : P) : job_end :=
  match b_bin b with
  | None => (b, [], pend, None)
  | Some bin =>
      match rows bin with
      | [] => (b, [], pend, None)
      | _ =>
          let size := b_size b in
          let bins := b_bins b ++ [chop bin] in
          let b' := match b_snap b with
                    | None => mkBuf (size + usage bin) (b_bin b) None bins (b_snaps b) (b_seg b) (b_post b)
                    | Some sn => mkBuf (size + (usage bin + usage sn)) (b_bin b) (Some sn) bins (b_snaps b ++ [chop sn]) (b_seg b) (b_post b)
                    end in
          if k_max k <? size + size / Z.of_nat (length bins)
          then post_n_write_u w k b' s pend false None pre_buffer
          else (b', [], pend, None)
      end
  end.

(** aggstream.py:843-928 *)
Definition agg_iter_u (w : fault) (k : kconf) (b : kbuf) (s : kstore) (pend : option Z) (pre_buffer : P) (chunk : list D) : job_end :=
  let '(b, acts, pend, ex) := buffer_results_u w k b s pend pre_buffer in
  match ex with
  | Some e => (b, acts, pend, Some e)
  | None =>
      match k_agg k chunk (b_seg b) with
      | Err e => (b, acts, pend, Some e)
      | Ok (r, seg') =>
          let '(bin, snap) := match r with Some (f, sn) => (Some f, sn) | None => (None, None) end in
          (mkBuf (b_size b) bin snap (b_bins b) (b_snaps b) seg' (b_post b), acts, pend, None)
      end
  end.

(** Keys with their buffers, datasets, and pending metadata. *)
Definition ukey : Type := kconf * kbuf * kstore * option Z.
Record ustream := mkU { u_restart : option Z; u_pre : P; u_keys : list ukey }.

(** The job of a key, if it is started. When it is not, another one has raised. *)
Definition started (w : fault) (b : kbuf) (pend : option Z) (j : job_end) : job_end :=
  match w with NotRun => (b, [], pend, Some OSError) | _ => j end.
(** Jobs of keys, run in threads (aggstream.py:1312-1320): an exception raised by one of them does not prevent others from
    being run, unless they are not started. The exception is the one of the first key. *)
Fixpoint run_jobs_u (job : fault -> kconf -> kbuf -> kstore -> option Z -> job_end) (ws : nat -> fault) (i : nat) (ks : list ukey) : list ukey * option exn :=
  match ks with
  | [] => ([], None)
  | (k, b, s, pend) :: ks' =>
      let '(b', acts, pend', ex) := job (ws i) k b s pend in
      let '(l, ex') := run_jobs_u job ws (S i) ks' in
      ((k, b', apply_acts s acts, pend') :: l, match ex with Some e => Some e | None => ex' end)
  end.
(** aggstream.py:1489-1507: buffers are modified in place, the restart index is not updated when there is an exception. *)
Definition consume1_u (g : ustream) (ws : nat -> fault) (y : @yielded D) : ustream * option exn :=
  let '(last_index, id, chunk) := y in
  let '(ks, ex) := run_jobs_u (fun w k b s pend => if (k_filter k =? id)%nat then started w b pend (agg_iter_u w k b s pend (u_pre g) chunk) else (b, [], pend, None))
                     ws 0 (u_keys g) in
  (mkU (match ex with Some _ => u_restart g | None => Some last_index end) (u_pre g) ks, ex).
(** aggstream.py:1478-1510. [Err] is for an exception which is raised at once, [Ok] for 'SeedPreException', if any. [ws] gives
    faults of store for each of the chunks. *)
Fixpoint consume_u (g : ustream) (ws : nat -> nat -> fault) (n : nat) (ys : list (res (@yielded D))) : ustream * res (option exn) :=
  match ys with
  | [] => (g, Ok None)
  | Err SeedPre :: _ => (g, Ok (Some SeedPre))
  | Err e :: _ => (g, Err e)
  | Ok y :: ys' =>
      match consume1_u g (ws n) y with
      | (g, Some e) => (g, Err e)
      | (g, None) => consume_u g ws (S n) ys'
      end
  end.
(** aggstream.py:1511-1529 *)
Definition final_write_u (g : ustream) (ws : nat -> fault) : ustream * option exn :=
  let '(ks, ex) := run_jobs_u (fun w k b s pend => started w b pend (post_n_write_u w k b s pend true (u_restart g) (u_pre g))) ws 0 (u_keys g) in
  (mkU (u_restart g) (u_pre g) ks, ex).

(** What a call does: it returns; it raises 'SeedPreException', results being written if they are to be; it raises when iterating
    over seed data; it raises when writing final results. *)
Inductive outcome := Returned | RaisedSeed | RaisedInLoop (e : exn) | RaisedAtEnd (e : exn).
(** A call: seed data (no chunk for a call without seed data), final write or not, faults of store for each chunk and key, then
    for each key in the final write. *)
Record call := mkCall { u_seed : list (list D); u_final : bool; u_loop : nat -> nat -> fault; u_end : nat -> fault }.
(** aggstream.py:1386-1531 *)
Definition agg_u (pre : option (@pre_fun D P)) (fs : filters) (g : ustream) (trim_start discard_last : bool) (c : call) : ustream * outcome :=
  let '(g, r) :=
    match u_seed c with
    | [] => (g, Ok None)
    | _ =>
        let '(ys, p) := iter_data idx (u_restart g) pre fs trim_start discard_last (u_pre g) (u_seed c) in
        let '(g, r) := consume_u g (u_loop c) 0 ys in
        (mkU (u_restart g) p (u_keys g), r)
    end in
  match r with
  | Err e => (g, RaisedInLoop e)
  | Ok ex =>
      let raised := match ex with Some _ => RaisedSeed | None => Returned end in
      if u_final c then match final_write_u g (u_end c) with (g, None) => (g, raised) | (g, Some e) => (g, RaisedAtEnd e) end
      else (g, raised)
  end.
(** Calls, one after the other, with the same instance, whatever is raised. *)
Fixpoint calls_u (pre : option (@pre_fun D P)) (fs : filters) (g : ustream) (cs : list call) : ustream * list outcome :=
  match cs with
  | [] => (g, [])
  | c :: cs' =>
      let '(g, o) := agg_u pre fs g true true c in
      let '(g, os) := calls_u pre fs g cs' in
      (g, o :: os)
  end.

(** aggstream.py:1330-1345: a new AggStream instance, from what is in store, nothing being pending. *)
Definition of_stream (g : stream D P SB PB) : ustream := mkU (g_restart g) (g_pre g) (map (fun x => (x, None)) (g_keys g)).
(** The instance as in StreamModel.v, without what is pending. *)
Definition to_stream (g : ustream) : stream D P SB PB := mkStream (u_restart g) (u_pre g) (map fst (u_keys g)) [].
End Reuse.
