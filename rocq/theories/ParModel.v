(** Model of parallel jobs of AggStream: oups/aggstream/aggstream.py:1489-1529 (joblib threads) for 'agg_iter' (843-928) and
    '_post_n_write_agg_chunks' (640-840), with the shared variables they read and write.

    A job is a program whose steps are reads and writes of locations of a shared memory. Locations are the buffers of a key
    ('self.agg_buffers[key]'), datasets of the store, items of the global dictionary 'OUPS_METADATA', and the dictionaries of
    the parameter 'metadata' of 'write' (of which only the item for oups metadata is kept: other items are not modified).
    A step is atomic. A schedule is any sequence of jobs, the next step of each being made in turn. *)
Require Import List Arith ZArith Bool.
Require Import Verif.Common Verif.WrModel Verif.StreamModel.
Import ListNotations.
Local Open Scope Z_scope.

(** ** Programs and schedules *)
Section Threads.
Context {loc val : Type}.
Variable eqb : loc -> loc -> bool.

Inductive prog :=
| Ret
| Fail (e : exn)
| Get (l : loc) (k : val -> prog)
| Put (l : loc) (v : val) (p : prog).

Definition memory := loc -> val.
Definition put (m : memory) (l : loc) (v : val) : memory := fun x => if eqb x l then v else m x.
(** A step of a job. *)
Definition exec (m : memory) (p : prog) : memory * prog :=
  match p with
  | Ret => (m, Ret)
  | Fail e => (m, Fail e)
  | Get l k => (m, k (m l))
  | Put l v p => (put m l v, p)
  end.
(** A job run alone: resulting memory, exception if any. *)
Fixpoint solo (m : memory) (p : prog) : memory * option exn :=
  match p with
  | Ret => (m, None)
  | Fail e => (m, Some e)
  | Get l k => solo m (k (m l))
  | Put l v p => solo (put m l v) p
  end.
Fixpoint set_nth (i : nat) (p : prog) (ps : list prog) : list prog :=
  match ps, i with
  | [], _ => []
  | _ :: ps, O => p :: ps
  | q :: ps, S i => q :: set_nth i p ps
  end.
(** The next step of job [i]. *)
Definition tick (s : memory * list prog) (i : nat) : memory * list prog :=
  match nth_error (snd s) i with
  | Some p => let '(m, p') := exec (fst s) p in (m, set_nth i p' (snd s))
  | None => s
  end.
Definition run_sched (sched : list nat) (s : memory * list prog) : memory * list prog := fold_left tick sched s.
Definition over (p : prog) : bool := match p with Ret | Fail _ => true | _ => false end.
Definition outcome (p : prog) : option exn := match p with Fail e => Some e | _ => None end.
(** Jobs are run one after the other, up to the first exception. *)
Fixpoint sequential (m : memory) (ps : list prog) : memory * option exn :=
  match ps with
  | [] => (m, None)
  | p :: ps => match solo m p with
               | (m, None) => sequential m ps
               | (m, Some e) => (m, Some e)
               end
  end.
End Threads.
Arguments prog : clear implicits.

(** ** Jobs *)
Section Jobs.
Context {D P SB PB : Type}.
Variable truthy : Z -> bool.
Variable usage : frame -> Z.
Notation kconf := (kconf D SB PB).
Notation kbuf := (kbuf SB PB).
Notation entry := (entry P SB PB).
Notation aggmd := (aggmd P SB PB).

Inductive loc := LBuf (i : nat) | LData (a : nat) | LMeta (a : nat) | LDict (v : nat).
Inductive val := VBuf (b : kbuf) | VData (e : option entry) | VMeta (md : option aggmd).
Definition loc_eqb (l l' : loc) : bool :=
  match l, l' with
  | LBuf i, LBuf j | LData i, LData j | LMeta i, LMeta j | LDict i, LDict j => Nat.eqb i j
  | _, _ => false
  end.
Notation prog := (prog loc val).

(** Reads, values being of the kind of their locations. *)
Definition get_buf (i : nat) (k : kbuf -> prog) : prog := Get (LBuf i) (fun v => match v with VBuf b => k b | _ => Fail TypeError end).
Definition get_data (a : nat) (k : option entry -> prog) : prog := Get (LData a) (fun v => match v with VData e => k e | _ => Fail TypeError end).
Definition get_meta (l : loc) (k : option aggmd -> prog) : prog := Get l (fun v => match v with VMeta md => k md | _ => Fail TypeError end).

(** Where the data of a key is: its buffers, its main dataset and its dataset of snapshots, and the dictionary 'metadata' of its
    parameters for writing, if any. *)
Record place := mkPlace { p_buf : nat; p_main : nat; p_snap : nat; p_dict : option nat }.

(** writer.py:250-323, 'write_metadata', with [pd] the pending metadata of the key, read at the start: metadata is put in
    the dictionary of the caller, which is then read again in 'update_custom_metadata'. *)
Definition write_metadata_job (a : nat) (dict : option nat) (k : prog) : prog :=
  let update (md : option aggmd) (k : prog) : prog :=
    match md with
    | None => k
    | Some md => get_data a (fun e => Put (LData a) (VData (Some (mkEntry (data_of e) (Some md)))) k)
    end in
  get_meta (LMeta a) (fun pd =>
    match pd, dict with
    | None, None => k
    | None, Some v => get_meta (LDict v) (fun md => update md k)
    | Some md, None => Put (LMeta a) (VMeta None) (update (Some md) k)
    | Some md, Some v =>
        Put (LMeta a) (VMeta None)
          (Put (LDict v) (VMeta (Some md))
             (get_meta (LDict v) (fun md => update md k)))
    end).

(** writer.py:326-615, 'write': data, then metadata. *)
Definition write_job (w : params) (a : nat) (dict : option nat) (data : frame) (k : prog) : prog :=
  get_data a (fun e =>
    match write w false (data_of e) data with
    | Err x => Fail x
    | Ok ds => Put (LData a) (VData (Some (mkEntry ds (match data_of e with [] => None | _ => md_of e end)))) (write_metadata_job a dict k)
    end).

(** aggstream.py:640-840. *)
Definition post_n_write_job (k : kconf) (w : place) (append_last : bool) (last_seed_index : option Z) (pre_buffer : P) (next : prog) : prog :=
  get_buf (p_buf w) (fun b =>
    match results k b append_last with
    | Err e => Fail e
    | Ok (main, snap, pb) =>
        let b' := mkBuf (b_size b) (b_bin b) (b_snap b) (b_bins b) (b_snaps b) (b_seg b) pb in
        let last := match b_bin b with Some _ => Put (LBuf (p_buf w)) (VBuf (reset_buffers b')) next | None => next end in
        let pending := match last_seed_index with
                       | Some i => if truthy i then Some (mkMd i pre_buffer (b_seg b) pb) else None
                       | None => None
                       end in
        let writing :=
          match main with
          | Some m =>
              write_job (k_write k) (p_main w) (p_dict w) m
                (match k_type k with
                 | BOTH => match snap with
                           | Some sn => write_job (k_write_snap k) (p_snap w) (p_dict w) sn last
                           | None => Fail TypeError
                           end
                 | _ => last
                 end)
          | None =>
              match pending with
              | Some _ =>
                  get_data (p_main w) (fun e =>
                    match e with
                    | Some _ => write_metadata_job (p_main w) None last
                    | None => Put (LData (p_main w)) (VData (Some (mkEntry [] None))) (write_metadata_job (p_main w) None last)
                    end)
              | None => last
              end
          end in
        Put (LBuf (p_buf w)) (VBuf b')
          (match pending with
           | Some md => Put (LMeta (p_main w)) (VMeta (Some md)) writing
           | None => writing
           end)
    end).

(** aggstream.py:922-928 *)
Definition segagg_job (k : kconf) (w : place) (chunk : list D) : prog :=
  get_buf (p_buf w) (fun b =>
    match k_agg k chunk (b_seg b) with
    | Err e => Fail e
    | Ok (r, seg') =>
        let '(bin, snap) := match r with Some (f, sn) => (Some f, sn) | None => (None, None) end in
        Put (LBuf (p_buf w)) (VBuf (mkBuf (b_size b) bin snap (b_bins b) (b_snaps b) seg' (b_post b))) Ret
    end).
(** aggstream.py:843-928 *)
Definition agg_iter_job (k : kconf) (w : place) (pre_buffer : P) (chunk : list D) : prog :=
  get_buf (p_buf w) (fun b =>
    match b_bin b with
    | None => segagg_job k w chunk
    | Some bin =>
        match rows bin with
        | [] => segagg_job k w chunk
        | _ =>
            let size := b_size b in
            let bins := b_bins b ++ [chop bin] in
            let b' := match b_snap b with
                      | None => mkBuf (size + usage bin) (b_bin b) None bins (b_snaps b) (b_seg b) (b_post b)
                      | Some sn => mkBuf (size + (usage bin + usage sn)) (b_bin b) (Some sn) bins (b_snaps b ++ [chop sn]) (b_seg b) (b_post b)
                      end in
            Put (LBuf (p_buf w)) (VBuf b')
              (if k_max k <? size + size / Z.of_nat (length bins)
               then post_n_write_job k w false None pre_buffer (segagg_job k w chunk)
               else segagg_job k w chunk)
        end
    end).

(** aggstream.py:1489-1501: jobs of the keys with filter [id]. *)
Definition iter_jobs (id : nat) (pre_buffer : P) (chunk : list D) (ks : list (kconf * place)) : list prog :=
  map (fun x => if (k_filter (fst x) =? id)%nat then agg_iter_job (fst x) (snd x) pre_buffer chunk else Ret) ks.
(** aggstream.py:1515-1529: jobs for all keys. *)
Definition final_jobs (last_seed_index : option Z) (pre_buffer : P) (ks : list (kconf * place)) : list prog :=
  map (fun x => post_n_write_job (fst x) (snd x) true last_seed_index pre_buffer Ret) ks.
End Jobs.
