(** Model of oups/aggstream/aggstream.py: iteration over seed data, aggregation iterations, recording of
    results, and restart from recorded results.

    Rows of seed data are of some type [D], [idx] is the value of a row in column 'ordered_on' (number or
    time stamp, as an integer). [P], [SB] and [PB] are the types of the buffers of 'pre', of segmentation
    and aggregation, and of 'post'. Buffers written in metadata are read back unchanged (cloudpickle).

    Not modelled: compression and column names (data frames are those of WrModel.v, the first column being
    the label of bins), the mutation of data frames given by the user in 'pre'. The store left by a call which
    raises is the one of RaiseModel.v. *)
Require Import List Arith ZArith Bool.
Require Import Verif.Common Verif.WrModel Verif.SegModel Verif.FilterModel.
Import ListNotations.
Local Open Scope Z_scope.

Section Stream.
Context {D P SB PB : Type}.
Variable idx : D -> Z.
(** Truth value of an index in Python: a number is false when it is 0, a Timestamp is always true. *)
Variable truthy : Z -> bool.

(** ** Seed data *)

(** 'pre(on=seed_chunk, buffer=pre_buffer)': data and buffer are modified in place, and an exception may
    be raised ([false]). *)
Definition pre_fun := list D -> P -> list D * P * bool.
(** Items of dict 'filters', by filter id: [None] for NO_FILTER_ID. *)
Definition filters := list (nat * option (list D -> res (list bool))).
(** last_seed_index, filter id, filtered chunk. *)
Definition yielded := (Z * nat * list D)%type.

(** aggstream.py:576-596: filters applied to a chunk. The generator stops at the first exception. *)
Fixpoint filter_chunk (fs : filters) (last_index : Z) (chunk : list D) (filter_array : list bool) : list (res yielded) :=
  match fs with
  | [] => []
  | (id, f) :: fs' =>
      match match f with
            | None => Ok filter_array
            | Some f => let* m := f chunk in Ok (map2 andb m filter_array)
            end with
      | Err e => [Err e]
      | Ok m =>
          if negb (existsb (fun b => b) m) then filter_chunk fs' last_index chunk filter_array
          else if forallb (fun b => b) m then Ok (last_index, id, chunk) :: filter_chunk fs' last_index chunk filter_array
          else Ok (last_index, id, compress m chunk) :: filter_chunk fs' last_index chunk filter_array
      end
  end.

(** Last item of a list of yielded items is an exception. *)
Definition stopped (ys : list (res yielded)) : bool := existsb (fun y => negb (is_ok y)) ys.

(** aggstream.py:532-596: the loop over seed chunks, up to the first exception. [trim] is 'trim_start',
    [rem] is 'seed_remainder'. The buffer of 'pre' when the loop ends is also returned. *)
Fixpoint iter_chunks (restart_index : Z) (pre : option pre_fun) (fs : filters) (discard_last : bool)
    (trim : bool) (rem : list D) (pre_buffer : P) (seed : list (list D)) : list (res yielded) * P :=
  match seed with
  | [] => ([], pre_buffer)
  | chunk :: seed' =>
      if negb (sortedb (map idx chunk)) then ([Err SeedPre], pre_buffer)
      else
        let '(chunk, pre_buffer, passed) :=
          match pre with Some f => f chunk pre_buffer | None => (chunk, pre_buffer, true) end in
        if negb passed then ([Err SeedPre], pre_buffer)
        else
          let chunk := rem ++ chunk in
          match rev chunk with
          | [] => ([Err IndexError], pre_buffer)
          | r :: _ =>
              let last_index := idx r in
              if trim && (last_index <? restart_index) then
                iter_chunks restart_index pre fs discard_last trim rem pre_buffer seed'
              else
                let filter_array :=
                  if trim then map (fun r => restart_index <=? idx r) chunk else repeat true (length chunk) in
                let main := map (fun r => idx r <? last_index) chunk in
                let rem' := if discard_last then compress (map negb main) chunk else rem in
                let filter_array := if discard_last then map2 andb filter_array main else filter_array in
                let ys := filter_chunk fs last_index chunk filter_array in
                if stopped ys then (ys, pre_buffer)
                else let '(ys', p') := iter_chunks restart_index pre fs discard_last false rem' pre_buffer seed' in
                     (ys ++ ys', p')
          end
  end.

(** aggstream.py:442-596. *)
Definition iter_data (restart_index : option Z) (pre : option pre_fun) (fs : filters) (trim_start discard_last : bool)
    (pre_buffer : P) (seed : list (list D)) : list (res yielded) * P :=
  match restart_index with
  | None => iter_chunks 0 pre fs discard_last false [] pre_buffer seed
  | Some r => iter_chunks r pre fs discard_last trim_start [] pre_buffer seed
  end.

(** ** Aggregation of one key *)

(** aggstream.py:95 *)
Inductive res_type := BINS | SNAPS | BOTH.

(** Result of 'post': one or two data frames, [None] standing for anything which is not a data frame. *)
Inductive post_res := POne (f : option frame) | PTwo (f s : option frame).

(** Configuration of a key: id of the filter, segmentation and aggregation ('cumsegagg', which returns
    bins, and snapshots if requested), type of results, post-processing, 'max_in_memory_size_b',
    'write_config' for main key, and for the key of snapshots. *)
Record kconf := mkConf {
  k_filter : nat;
  k_agg : list D -> SB -> res (option (frame * option frame) * SB);
  k_type : res_type;
  k_post : option (PB -> frame -> option frame -> res (post_res * PB));
  k_max : Z;
  k_write : params;
  k_write_snap : params }.

(** aggstream.py:414-420 and 330, 'agg_buffers[key]'. *)
Record kbuf := mkBuf {
  b_size : Z;
  b_bin : option frame;
  b_snap : option frame;
  b_bins : list frame;
  b_snaps : list frame;
  b_seg : SB;
  b_post : PB }.
(** aggstream.py:424 *)
Definition reset_buffers (b : kbuf) : kbuf := mkBuf 0 None None [] [] (b_seg b) (b_post b).

(** Metadata of 'aggstream' in a dataset (aggstream.py:804-811). *)
Record aggmd := mkMd { m_restart : Z; m_pre : P; m_seg : SB; m_post : PB }.
(** A dataset in store: row groups, and metadata of 'aggstream' if any. *)
Record entry := mkEntry { e_data : dataset; e_md : option aggmd }.
(** Datasets of a key: main one, and the one of snapshots. [None] if not in store. *)
Record kstore := mkStore { s_main : option entry; s_snap : option entry }.
(** A modification of store: dataset of snapshots or not, new content. *)
Definition act := (bool * entry)%type.
Definition apply_act (s : kstore) (a : act) : kstore :=
  if fst a then mkStore (s_main s) (Some (snd a)) else mkStore (Some (snd a)) (s_snap s).
Definition apply_acts (s : kstore) (l : list act) : kstore := fold_left apply_act l s.

(** Size in memory of a data frame ('memory_usage().sum()'). *)
Variable usage : frame -> Z.

Definition chop (f : frame) : frame := mkFrame (ncols f) (removelast (rows f)).

(** aggstream.py:599-637 *)
Definition concat_agg_res (buffers : list frame) (last_res : frame) (append_last : bool) : res frame :=
  match (if append_last then buffers ++ [last_res] else buffers) with
  | [] => Err IndexError
  | f :: l => Ok (mkFrame (ncols f) (concat (map rows (f :: l))))
  end.

(** 'store[key] = write_config, data' (collection.py:200, writer.py:456-615): pending metadata is written,
    otherwise metadata of an existing dataset is kept. Without parquet file, the dataset is created
    anew, its metadata too. *)
Definition data_of (e : option entry) : dataset := match e with Some e => e_data e | None => [] end.
Definition md_of (e : option entry) : option aggmd := match e with Some e => e_md e | None => None end.
Definition store_write (p : params) (e : option entry) (data : frame) (pending : option aggmd) : res entry :=
  let* ds' := write p false (data_of e) data in
  Ok (mkEntry ds' (match pending with
                   | Some md => Some md
                   | None => match data_of e with [] => None | _ => md_of e end
                   end)).

(** aggstream.py:826-834: 'write_metadata', or the creation of a dataset without data. *)
Definition store_md (e : option entry) (md : aggmd) : entry := mkEntry (data_of e) (Some md).

(** aggstream.py:735-790. 'post' modifies its buffer in place. Results are those of main key, and of the
    key for snapshots. With two keys, the result of 'post' is unpacked: unpacking a data frame gives names of its columns, hence
    an exception unless there are two, which are then strings, not data frames. Values of 'post' which are not a data frame are taken
    as not iterable ([POne None], 'None' for instance). *)
Definition results (k : kconf) (b : kbuf) (append_last : bool) : res (option frame * option frame * PB) :=
  match b_bin b with
  | None => Ok (None, None, b_post b)
  | Some bin =>
      let* bin := concat_agg_res (b_bins b) bin append_last in
      let* snap := match b_snap b with
                   | None => Ok None
                   | Some s => let* s := concat_agg_res (b_snaps b) s append_last in Ok (Some s)
                   end in
      match k_post k with
      | Some post =>
          let* '(r, pb) := post (b_post b) bin (match k_type k with BINS => None | _ => snap end) in
          match k_type k, r with
          | BOTH, PTwo m s => Ok (m, s, pb)
          | BOTH, POne None => Err TypeError
          | BOTH, POne (Some f) => if (ncols f =? 2)%nat then Ok (None, None, pb) else Err ValueError
          | _, POne m => Ok (m, snap, pb)
          | _, PTwo _ _ => Ok (None, snap, pb)
          end
      | None => Ok (match k_type k with SNAPS => snap | _ => Some bin end, snap, b_post b)
      end
  end.

(** aggstream.py:640-840. *)
Definition post_n_write (k : kconf) (b : kbuf) (s : kstore) (append_last : bool) (last_seed_index : option Z) (pre_buffer : P)
    : res (kbuf * list act) :=
  let* '(main, snap, pb) := results k b append_last in
  let b' := mkBuf (b_size b) (b_bin b) (b_snap b) (b_bins b) (b_snaps b) (b_seg b) pb in
  let pending := match last_seed_index with
                 | Some i => if truthy i then Some (mkMd i pre_buffer (b_seg b) pb) else None
                 | None => None
                 end in
  let* acts :=
    match main with
    | Some m =>
        let* e := store_write (k_write k) (s_main s) m pending in
        match k_type k with
        | BOTH => match snap with
                  | Some sn => let* e' := store_write (k_write_snap k) (s_snap s) sn None in Ok [(false, e); (true, e')]
                  | None => Err TypeError
                  end
        | _ => Ok [(false, e)]
        end
    | None => match pending with
              | Some md => Ok [(false, store_md (s_main s) md)]
              | None => Ok []
              end
    end in
  Ok (match b_bin b with Some _ => reset_buffers b' | None => b' end, acts).

(** aggstream.py:877-914: previous results are added to buffers, which are possibly written. *)
Definition buffer_results (k : kconf) (b : kbuf) (s : kstore) (pre_buffer : P) : res (kbuf * list act) :=
  match b_bin b with
  | None => Ok (b, [])
  | Some bin =>
      match rows bin with
      | [] => Ok (b, [])
      | _ =>
          let size := b_size b in
          let bins := b_bins b ++ [chop bin] in
          let b' := match b_snap b with
                    | None => mkBuf (size + usage bin) (b_bin b) None bins (b_snaps b) (b_seg b) (b_post b)
                    | Some sn => mkBuf (size + (usage bin + usage sn)) (b_bin b) (Some sn) bins (b_snaps b ++ [chop sn]) (b_seg b) (b_post b)
                    end in
          if k_max k <? size + size / Z.of_nat (length bins)
          then post_n_write k b' s false None pre_buffer
          else Ok (b', [])
      end
  end.

(** aggstream.py:843-928. *)
Definition agg_iter (k : kconf) (b : kbuf) (s : kstore) (pre_buffer : P) (chunk : list D) : res (kbuf * list act) :=
  let* '(b, acts) := buffer_results k b s pre_buffer in
  let* '(r, seg') := k_agg k chunk (b_seg b) in
  let '(bin, snap) := match r with Some (f, sn) => (Some f, sn) | None => (None, None) end in
  Ok (mkBuf (b_size b) bin snap (b_bins b) (b_snaps b) seg' (b_post b), acts).

(** ** Stream *)

(** Keys with their buffers, and datasets; 'restart_index' and 'pre_buffer' of 'seed_config'; history of
    store modifications, by position of key. *)
Record stream := mkStream {
  g_restart : option Z;
  g_pre : P;
  g_keys : list (kconf * kbuf * kstore);
  g_log : list (nat * act) }.

(** A job is run for each of the keys, in order. *)
Fixpoint run_jobs (job : kconf -> kbuf -> kstore -> res (kbuf * list act)) (n : nat) (ks : list (kconf * kbuf * kstore))
    : res (list (kconf * kbuf * kstore) * list (nat * act)) :=
  match ks with
  | [] => Ok ([], [])
  | (k, b, s) :: ks' =>
      let* '(b', acts) := job k b s in
      let* '(l, log) := run_jobs job (S n) ks' in
      Ok ((k, b', apply_acts s acts) :: l, map (fun a => (n, a)) acts ++ log)
  end.

(** aggstream.py:1489-1507: the body of the loop, keys without the filter being left unchanged. *)
Definition consume1 (g : stream) (y : yielded) : res stream :=
  let '(last_index, id, chunk) := y in
  let* '(ks, log) := run_jobs (fun k b s => if (k_filter k =? id)%nat then agg_iter k b s (g_pre g) chunk else Ok (b, []))
                       0 (g_keys g) in
  Ok (mkStream (Some last_index) (g_pre g) ks (g_log g ++ log)).

(** aggstream.py:1478-1510. 'SeedPreException' is kept, other exceptions are raised. *)
Fixpoint consume (g : stream) (ys : list (res yielded)) : res (stream * option exn) :=
  match ys with
  | [] => Ok (g, None)
  | Err SeedPre :: _ => Ok (g, Some SeedPre)
  | Err e :: _ => Err e
  | Ok y :: ys' => let* g := consume1 g y in consume g ys'
  end.

(** aggstream.py:1511-1529 *)
Definition final_write (g : stream) : res stream :=
  let* '(ks, log) := run_jobs (fun k b s => post_n_write k b s true (g_restart g) (g_pre g)) 0 (g_keys g) in
  Ok (mkStream (g_restart g) (g_pre g) ks (g_log g ++ log)).

(** aggstream.py:1386-1531, 'AggStream.agg', on a list of chunks. The exception which is raised once results
    are written is returned with the state. The setup of aggregation made on the first chunk is in
    CsaModel.v. *)
Definition agg (pre : option pre_fun) (fs : filters) (g : stream) (seed : list (list D)) (trim_start discard_last final : bool)
    : res (stream * option exn) :=
  let* '(g, ex) :=
    match seed with
    | [] => Ok (g, None)
    | _ =>
        let '(ys, p) := iter_data (g_restart g) pre fs trim_start discard_last (g_pre g) seed in
        let* '(g, ex) := consume g ys in
        Ok (mkStream (g_restart g) p (g_keys g) (g_log g), ex)
    end in
  let* g := if final then final_write g else Ok g in
  Ok (g, ex).

(** ** Initialization from store *)

Definition memZ (z : Z) (l : list Z) : bool := memb Z.eqb z l.

(** aggstream.py:279-374 and 1336-1340. Empty buffers are given, as well as keys with their datasets. *)
Fixpoint init_keys (seg0 : SB) (post0 : PB) (ks : list (kconf * kstore)) (restarts : list Z) (pre : P)
    : res (list (kconf * kbuf * kstore) * list Z * P) :=
  match ks with
  | [] => Ok ([], restarts, pre)
  | (k, s) :: ks' =>
      match s_main s with
      | None =>
          let* '(l, r, p) := init_keys seg0 post0 ks' restarts pre in
          Ok ((k, mkBuf 0 None None [] [] seg0 post0, s) :: l, r, p)
      | Some e =>
          match e_md e with
          | None => Err ValueError
          | Some md =>
              let restarts := if memZ (m_restart md) restarts then restarts else m_restart md :: restarts in
              let* '(l, r, p) := init_keys seg0 post0 ks' restarts (m_pre md) in
              Ok ((k, mkBuf 0 None None [] [] (m_seg md) (m_post md), s) :: l, r, p)
          end
      end
  end.
Definition init (pre0 : P) (seg0 : SB) (post0 : PB) (ks : list (kconf * kstore)) : res stream :=
  let* '(l, restarts, pre) := init_keys seg0 post0 ks [] pre0 in
  match restarts with
  | [] => Ok (mkStream None pre l [])
  | [r] => Ok (mkStream (Some r) pre l [])
  | _ => Err ValueError
  end.

End Stream.

Arguments mkConf {D SB PB} _ _ _ _ _ _ _.
Arguments kconf : clear implicits.
Arguments kbuf : clear implicits.
Arguments kstore : clear implicits.
Arguments entry : clear implicits.
Arguments aggmd : clear implicits.
Arguments stream : clear implicits.
