(** Model of the configuration of AggStream: oups/aggstream/aggstream.py, 'AggStream.__init__' and '_init_keys_config'.

    Buffers read from the store ('_init_buffers') are in StreamModel.v, the segmentation parameters ('setup_segmentby') in
    SegModel.v. The number of parallel jobs of each filter is not modelled. Keys of the store are numbers. *)
Require Import String List Arith ZArith Bool.
Require Import Verif.Common Verif.SegModel Verif.MetaModel.
Import ListNotations.
Local Open Scope string_scope.
Local Open Scope list_scope.

(** Values of parameters: None, a string, a tuple with two items, an integer, a TimeGrouper (with its 'key' and 'closed'
    attributes), a callable, a dict 'agg' (with its keys, which are the names of output columns), and other objects. *)
Inductive pv :=
| PNone
| PName (s : string)
| PPair (a b : pv)
| PNum (z : Z)
| PGrouper (key : SegModel.name) (closed : side) (id : nat)
| PCallable (id : nat)
| PAgg (cols : list string) (id : nat)
| PObj (id : nat).

(** Dict of parameters, by their names. *)
Definition conf := dict pv.
(** 'a | b' for dicts. *)
Definition union {V} (a b : dict V) : dict V := fold_left (fun d kv => set (fst kv) (snd kv) d) b a.

(** aggstream.py:76, parameters of 'write' (writer.py:326-338). *)
Definition WRITE_PARAMS : list string :=
  ["dirpath"; "data"; "max_row_group_size"; "compression"; "cmidx_expand"; "cmidx_levels"; "ordered_on"; "duplicates_on";
   "max_nirgs"; "metadata"; "md_key"].
(** aggstream.py:77-83 *)
Definition KEY_CONF_IN_PARAMS : list string :=
  ["bin_on"; "snap_by"; "agg"; "post"; "max_in_memory_size_b"] ++ WRITE_PARAMS.
Definition mem (s : string) (l : list string) : bool := existsb (String.eqb s) l.

(** aggstream.py:88 *)
Definition MEGABYTES_TO_BYTES : Z := 1048576.

(** 'keys': a key of the store, or a tuple of two of them, for bins and for snapshots. *)
Inductive ckey := One (k : nat) | Two (bins snaps : nat).
Definition ckey_eqb (a b : ckey) : bool :=
  match a, b with
  | One x, One y => Nat.eqb x y
  | Two x y, Two x' y' => Nat.eqb x x' && Nat.eqb y y'
  | _, _ => false
  end.

Inductive res_type := BINS | SNAPS | BOTH.
(** aggstream.py:268-275, and item of 'agg_pd'. *)
Record kcfg := mkKcfg {
  kc_seg : segcfg;
  kc_bin_on_out : pv;
  kc_max : pv;
  kc_post : pv;
  kc_write : conf;
  kc_type : res_type;
  kc_agg : pv }.

(** 'd.get(k)' for a dict in which the item is present. *)
Definition item (k : string) (c : conf) : pv := match get k c with Some v => v | None => PNone end.

(** Parameters as they are used by 'setup_segmentby'. A name which is neither None nor a string is not modelled
    (TypeError). *)
Definition bin_kind_of (v : pv) : bin_kind :=
  match v with PGrouper key c _ => BinTG key c | PCallable _ => BinCallable | _ => BinOther end.
Definition snap_kind_of (v : pv) : snap_kind :=
  match v with PNone => SnapNone | PGrouper key c _ => SnapTG key c | _ => SnapVals end.
Definition name_of (v : pv) : res SegModel.name :=
  match v with PNone => Ok None | PName s => Ok (Some s) | _ => Err TypeError end.
Definition of_name (n : SegModel.name) : pv := match n with None => PNone | Some s => PName s end.
(** Truth value of a parameter, for a name. *)
Definition set_name (v : pv) : bool := match v with PNone => false | PName s => negb (String.eqb s "") | _ => true end.

(** aggstream.py:177-186: 'bin_by' and 'max_in_memory_size' are removed from the dict of the user, which is modified in
    place. [None] when 'bin_by' is missing. Sizes in MB are integers (not floats). *)
Definition pop_params (c : conf) : option (pv * conf * bool) :=
  match get "bin_by" c with
  | None => None
  | Some by_ =>
      let c := del "bin_by" c in
      match get "max_in_memory_size" c with
      | None => Some (by_, c, true)
      | Some (PNum z) => Some (by_, set "max_in_memory_size_b" (PNum (z * MEGABYTES_TO_BYTES)) (del "max_in_memory_size" c), true)
      | Some _ => Some (by_, del "max_in_memory_size" c, false)
      end
  end.

(** aggstream.py:187-275, with the dict of a key once 'bin_by' has been removed. *)
Definition consolidate (seed_ordered_on : string) (default : conf) (key : ckey) (bin_by : pv) (own : conf) : res kcfg :=
  let c := union default own in
  if existsb (fun kv => negb (mem (fst kv) KEY_CONF_IN_PARAMS)) c then Err ValueError else
  let bin_on := item "bin_on" c in
  let c := del "bin_on" c in
  let '(bin_on, bin_on_out) := match bin_on with PPair a b => (a, b) | v => (v, PNone) end in
  let snap_by := item "snap_by" c in
  let c := del "snap_by" c in
  let* bin_on := name_of bin_on in
  let* seg := match setup_segmentby (bin_kind_of bin_by) bin_on (Some seed_ordered_on) (snap_kind_of snap_by) with
              | Ok s => Ok s
              | Err _ => Err ValueError
              end in
  let bin_on_out := if truthy (cfg_bin_on seg)
                    then match bin_on_out with PNone => of_name (cfg_bin_on seg) | v => v end
                    else bin_on_out in
  let agg := item "agg" c in
  let c := del "agg" c in
  let* _ := match agg, bin_on_out with
            | PAgg cols _, PName s => if mem s cols then Err ValueError else Ok tt
            | PAgg _ _, _ => Ok tt
            | _, _ => Err TypeError
            end in
  let c := match get "duplicates_on" c with
           | None | Some PNone => set "duplicates_on" (if set_name bin_on_out then bin_on_out else item "ordered_on" c) c
           | Some _ => c
           end in
  let type := if cfg_snap_kept seg then match key with Two _ _ => BOTH | One _ => SNAPS end else BINS in
  let c := match type with
           | BOTH => match get "max_row_group_size" c with
                     | Some (PPair _ _) => c
                     | Some v => set "max_row_group_size" (PPair v v) c
                     | None => set "max_row_group_size" (PPair PNone PNone) c
                     end
           | _ => c
           end in
  let size := item "max_in_memory_size_b" c in
  let c := del "max_in_memory_size_b" c in
  let post := item "post" c in
  let c := del "post" c in
  Ok (mkKcfg seg bin_on_out size post c type agg).

(** aggstream.py:173-275, for one key: dict of the user afterwards, and result. *)
Definition init_key (seed_ordered_on : string) (default : conf) (key : ckey) (own : conf) : conf * res kcfg :=
  match pop_params own with
  | None => (own, Err ValueError)
  | Some (by_, own', false) => (own', Err TypeError)
  | Some (by_, own', true) => (own', consolidate seed_ordered_on default key by_ own')
  end.
(** aggstream.py:171-276: keys in order, up to the first exception. *)
Fixpoint init_keys (seed_ordered_on : string) (default : conf) (keys : list (ckey * conf))
    : list (ckey * conf) * res (list (ckey * kcfg)) :=
  match keys with
  | [] => ([], Ok [])
  | (k, own) :: keys' =>
      match init_key seed_ordered_on default k own with
      | (own', Err e) => ((k, own') :: keys', Err e)
      | (own', Ok c) =>
          let '(l, r) := init_keys seed_ordered_on default keys' in
          ((k, own') :: l, let* cs := r in Ok ((k, c) :: cs))
      end
  end.

(** ** AggStream.__init__ *)
(** 'keys': a single key, a dict of keys, or a dict of dicts by filter ids. *)
Inductive keys_arg := OneKey (k : ckey) | Keys (l : list (ckey * conf)) | FilterKeys (l : list (string * list (ckey * conf))).
(** A filter: None, or a list whose items are tuples or not. *)
Inductive fitem := FTuple (id : nat) | FOther (id : nat).
Inductive filt := FNone | FList (l : list fitem).
(** Filters once processed: None, a list of conditions put in a list, or the list of the user. *)
Inductive filt_out := NoFilter | Enclosed (l : list fitem) | AsIs (l : list fitem).

(** aggstream.py:1264-1270, for one filter. *)
Definition enclose (f : filt) : res filt_out :=
  match f with
  | FNone => Err TypeError
  | FList [] => Err IndexError
  | FList (FTuple i :: l) => Ok (Enclosed (FTuple i :: l))
  | FList l => Ok (AsIs l)
  end.
Fixpoint enclose_all (l : dict filt) : res (dict filt_out) :=
  match l with
  | [] => Ok []
  | (id, f) :: l' => let* f := enclose f in let* r := enclose_all l' in Ok ((id, f) :: r)
  end.

Definition NO_FILTER_ID : string := "_".
Definition ids {V} (d : dict V) : list string := filter (fun s => negb (String.eqb s NO_FILTER_ID)) (map fst d).
Definition same_set (a b : list string) : bool := forallb (fun s => mem s b) a && forallb (fun s => mem s a) b.

(** aggstream.py:1321-1324: keys which are met more than once. *)
Fixpoint has_dupes (l : list ckey) : bool :=
  match l with [] => false | k :: l' => existsb (ckey_eqb k) l' || has_dupes l' end.

(** aggstream.py:1282-1310: filters, once checked against the keys. *)
Definition check_filters (filters : option (dict filt_out)) (keys : list (string * list (ckey * conf))) : res (dict filt_out) :=
  match filters with
  | None => Err ValueError
  | Some filters =>
      let* filters :=
        match get NO_FILTER_ID filters with
        | Some NoFilter => Ok filters
        | Some _ => Err ValueError
        | None => Ok (if mem NO_FILTER_ID (map fst keys) then set NO_FILTER_ID NoFilter filters else filters)
        end in
      if same_set (ids filters) (ids keys) then Ok filters else Err ValueError
  end.

(** Parameters of AggStream. *)
Record params := mkParams {
  p_ordered_on : string;
  p_keys : keys_arg;
  p_filters : option (dict filt);
  p_agg : pv;
  p_bin_by : pv;
  p_bin_on : pv;
  p_snap_by : pv;
  p_post : pv;
  p_max : Z;
  p_kwargs : conf }.

(** aggstream.py:1272-1278 *)
Definition keys_default (p : params) : conf :=
  union [("snap_by", p_snap_by p); ("agg", p_agg p); ("post", p_post p); ("ordered_on", PName (p_ordered_on p));
         ("max_in_memory_size_b", PNum (p_max p * MEGABYTES_TO_BYTES))] (p_kwargs p).

(** Attributes of the object: filters, keys of each filter, configuration of each key. *)
Record aggstream := mkAggstream {
  a_filters : dict filt_out;
  a_filter_apps : list (string * list ckey);
  a_keys : list (ckey * kcfg) }.

(** aggstream.py:1255-1335. Dicts of keys as they are afterwards, and result. 'ChainMap' gives the items of the last dict
    first. A dict of the user without any item raises 'StopIteration'. Keys of a dict are all strings, or all keys. *)
Definition unchain (maps : list (string * list (ckey * conf))) : list (ckey * conf) := flat_map snd (rev maps).
Fixpoint rechain {A} (maps : list (string * list A)) (l : list A) : list (string * list A) :=
  match maps with
  | [] => []
  | (f, m) :: maps' => (f, firstn (length m) l) :: rechain maps' (skipn (length m) l)
  end.
Definition agg_stream (p : params) : keys_arg * res aggstream :=
  if existsb (fun kv => negb (mem (fst kv) WRITE_PARAMS)) (p_kwargs p) then (p_keys p, Err ValueError) else
  match match p_filters p with None => Ok None | Some d => let* d := enclose_all d in Ok (Some d) end with
  | Err e => (p_keys p, Err e)
  | Ok filters =>
      let default := keys_default p in
      let checked :=
        match p_keys p with
        | FilterKeys [] | Keys [] => Err StopIteration
        | FilterKeys l => let* filters := check_filters filters l in Ok (l, filters)
        | Keys l => Ok ([(NO_FILTER_ID, l)], [(NO_FILTER_ID, NoFilter)])
        | OneKey k => Ok ([(NO_FILTER_ID, [(k, union default [("bin_by", p_bin_by p); ("bin_on", p_bin_on p)])])], [(NO_FILTER_ID, NoFilter)])
        end in
      match checked with
      | Err e => (p_keys p, Err e)
      | Ok (keys, filters) =>
          if has_dupes (flat_map (fun f => map fst (snd f)) keys) then (p_keys p, Err ValueError)
          else
            let '(l, r) := init_keys (p_ordered_on p) default (unchain keys) in
            (match p_keys p with
             | OneKey k => OneKey k
             | Keys _ => Keys l
             | FilterKeys _ => FilterKeys (rev (rechain (rev keys) l))
             end,
             let* cs := r in Ok (mkAggstream filters (map (fun f => (fst f, map fst (snd f))) keys) cs))
      end
  end.

(** aggstream.py:815-826: parameters given to 'store[key]' for the main key, and for the key of snapshots. *)
Definition main_write (c : kcfg) : conf :=
  match kc_type c, get "max_row_group_size" (kc_write c) with
  | BOTH, Some (PPair a _) => set "max_row_group_size" a (kc_write c)
  | _, _ => kc_write c
  end.
Definition snap_write (c : kcfg) : conf :=
  match kc_type c, get "max_row_group_size" (kc_write c) with
  | BOTH, Some (PPair _ b) => set "max_row_group_size" b (kc_write c)
  | _, _ => kc_write c
  end.
(** collection.py:177-200: 'store.set(key, data, **kwargs)' calls 'write(dirpath=..., data=..., md_key=..., **kwargs)': a
    name given twice raises TypeError ('self' and 'key' are the other parameters of 'set'). *)
Definition call_write (kwargs : conf) : res unit :=
  if existsb (fun kv => mem (fst kv) ["self"; "key"; "dirpath"; "data"; "md_key"]) kwargs then Err TypeError
  else if existsb (fun kv => negb (mem (fst kv) WRITE_PARAMS)) kwargs then Err TypeError else Ok tt.
