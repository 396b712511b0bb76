(** What is in store when a call to 'agg' raises (oups/aggstream/aggstream.py): same code as in StreamModel.v, with the
    modifications of store made before the exception. Definitions of StreamModel.v give the exception only.

    Buffers of an instance after an exception are not modelled: those before the job which has raised are given. *)
Require Import List Arith ZArith Bool.
Require Import Verif.Common Verif.WrModel Verif.StreamModel.
Import ListNotations.
Local Open Scope Z_scope.

Section Raise.
Context {D P SB PB : Type}.
Variable idx : D -> Z.
Variable truthy : Z -> bool.
Variable usage : frame -> Z.
Notation kconf := (kconf D SB PB).
Notation kbuf := (kbuf SB PB).
Notation kstore := (kstore P SB PB).
Notation act := (@act P SB PB).
Notation stream := (stream D P SB PB).

(** aggstream.py:640-840, '_post_n_write_agg_chunks': modifications of store, and buffers or exception. A call to 'write'
    which raises does so before any modification (writer.py:326-615, see C27). *)
Definition post_n_write_t (k : kconf) (b : kbuf) (s : kstore) (append_last : bool) (last_seed_index : option Z) (pre_buffer : P)
    : list act * res kbuf :=
  match results k b append_last with
  | Err e => ([], Err e)
  | Ok (main, snap, pb) =>
      let b' := mkBuf (b_size b) (b_bin b) (b_snap b) (b_bins b) (b_snaps b) (b_seg b) pb in
      let done := match b_bin b with Some _ => reset_buffers b' | None => b' end in
      let pending := match last_seed_index with
                     | Some i => if truthy i then Some (mkMd i pre_buffer (b_seg b) pb) else None
                     | None => None
                     end in
      match main with
      | Some m =>
          match store_write (k_write k) (s_main s) m pending with
          | Err x => ([], Err x)
          | Ok e =>
              match k_type k, snap with
              | BOTH, Some sn =>
                  match store_write (k_write_snap k) (s_snap s) sn None with
                  | Err x => ([(false, e)], Err x)
                  | Ok e' => ([(false, e); (true, e')], Ok done)
                  end
              | BOTH, None => ([(false, e)], Err TypeError)
              | _, _ => ([(false, e)], Ok done)
              end
          end
      | None => (match pending with Some md => [(false, store_md (s_main s) md)] | None => [] end, Ok done)
      end
  end.

(** aggstream.py:877-914 *)
Definition buffer_results_t (k : kconf) (b : kbuf) (s : kstore) (pre_buffer : P) : list act * res kbuf :=
  match b_bin b with
  | None => ([], Ok b)
  | Some bin =>
      match rows bin with
      | [] => ([], Ok b)
      | _ =>
          let size := b_size b in
          let bins := b_bins b ++ [chop bin] in
          let b' := match b_snap b with
                    | None => mkBuf (size + usage bin) (b_bin b) None bins (b_snaps b) (b_seg b) (b_post b)
                    | Some sn => mkBuf (size + (usage bin + usage sn)) (b_bin b) (Some sn) bins (b_snaps b ++ [chop sn]) (b_seg b) (b_post b)
                    end in
          if k_max k <? size + size / Z.of_nat (length bins)
          then post_n_write_t k b' s false None pre_buffer
          else ([], Ok b')
      end
  end.

(** aggstream.py:843-928 *)
Definition agg_iter_t (k : kconf) (b : kbuf) (s : kstore) (pre_buffer : P) (chunk : list D) : list act * res kbuf :=
  let '(acts, r) := buffer_results_t k b s pre_buffer in
  match r with
  | Err e => (acts, Err e)
  | Ok b =>
      match k_agg k chunk (b_seg b) with
      | Err e => (acts, Err e)
      | Ok (r, seg') =>
          let '(bin, snap) := match r with Some (f, sn) => (Some f, sn) | None => (None, None) end in
          (acts, Ok (mkBuf (b_size b) bin snap (b_bins b) (b_snaps b) seg' (b_post b)))
      end
  end.

(** Jobs of keys. They are run in threads, at least for final writes (aggstream.py:1312-1320, 1489, 1515): an exception raised by
    one of them does not prevent others from being run, so that all of them are. Modifications actually made when
    there is an exception, for instance none for keys whose jobs are not started, are a part of this log: see [made] in BatchSpec.v.
    The exception is the one of the first key which raises. *)
Fixpoint run_jobs_t (job : kconf -> kbuf -> kstore -> list act * res kbuf) (n : nat) (ks : list (kconf * kbuf * kstore))
    : list (kconf * kbuf * kstore) * list (nat * act) * option exn :=
  match ks with
  | [] => ([], [], None)
  | (k, b, s) :: ks' =>
      let '(acts, r) := job k b s in
      let log := map (fun a => (n, a)) acts in
      let '(l, log', ex) := run_jobs_t job (S n) ks' in
      match r with
      | Err e => ((k, b, apply_acts s acts) :: l, log ++ log', Some e)
      | Ok b' => ((k, b', apply_acts s acts) :: l, log ++ log', ex)
      end
  end.

(** aggstream.py:1489-1507 *)
Definition consume1_t (g : stream) (y : @yielded D) : stream * option exn :=
  let '(last_index, id, chunk) := y in
  let '(ks, log, ex) := run_jobs_t (fun k b s => if (k_filter k =? id)%nat then agg_iter_t k b s (g_pre g) chunk else ([], Ok b)) 0 (g_keys g) in
  (mkStream (Some last_index) (g_pre g) ks (g_log g ++ log), ex).
(** aggstream.py:1478-1510. [Err] is for an exception which is raised at once, [Ok] for 'SeedPreException', if any. *)
Fixpoint consume_t (g : stream) (ys : list (res (@yielded D))) : stream * res (option exn) :=
  match ys with
  | [] => (g, Ok None)
  | Err SeedPre :: _ => (g, Ok (Some SeedPre))
  | Err e :: _ => (g, Err e)
  | Ok y :: ys' =>
      match consume1_t g y with
      | (g, Some e) => (g, Err e)
      | (g, None) => consume_t g ys'
      end
  end.
(** aggstream.py:1511-1529 *)
Definition final_write_t (g : stream) : stream * option exn :=
  let '(ks, log, ex) := run_jobs_t (fun k b s => post_n_write_t k b s true (g_restart g) (g_pre g)) 0 (g_keys g) in
  (mkStream (g_restart g) (g_pre g) ks (g_log g ++ log), ex).
(** aggstream.py:1386-1531 *)
Definition agg_t (pre : option (@pre_fun D P)) (fs : filters) (g : stream) (seed : list (list D)) (trim_start discard_last final : bool)
    : stream * res (option exn) :=
  let '(g, r) :=
    match seed with
    | [] => (g, Ok None)
    | _ =>
        let '(ys, p) := iter_data idx (g_restart g) pre fs trim_start discard_last (g_pre g) seed in
        let '(g, r) := consume_t g ys in
        (mkStream (g_restart g) p (g_keys g) (g_log g), r)
    end in
  match r with
  | Err e => (g, Err e)
  | Ok ex =>
      if final then match final_write_t g with (g, None) => (g, Ok ex) | (g, Some e) => (g, Err e) end
      else (g, Ok ex)
  end.
End Raise.
