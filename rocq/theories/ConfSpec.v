(** Specification of the configuration of AggStream: what a user reads in the documentation, without the steps of the code. *)
Require Import String List Arith ZArith Bool.
Require Import Verif.Common Verif.SegModel Verif.MetaModel Verif.ConfModel.
Import ListNotations.
Local Open Scope string_scope.
Local Open Scope list_scope.

(** ** Columns used by a segmentation *)
(** A name which is not given. *)
Definition unset (n : SegModel.name) : Prop := n = None \/ n = Some "".
(** A name which is not given, or is that of column [c]. *)
Definition may_be (c : string) (n : SegModel.name) : Prop := unset n \/ n = Some c.

(** Bins by time: column [c] is given by the TimeGrouper or by 'bin_on', no other column is named, and snapshots are closed
    on the same side as bins. *)
Definition time_column (key : SegModel.name) (closed : side) (bin_on ordered_on : SegModel.name) (snap : snap_kind) (c : string) : Prop :=
  c <> "" /\ (key = Some c \/ bin_on = Some c) /\
  may_be c key /\ may_be c bin_on /\ may_be c ordered_on /\
  match snap with SnapTG k s => may_be c k /\ s = closed | _ => True end.

(** Bins by a function: [o] is the column of order, which is given by 'ordered_on' or by the TimeGrouper of snapshots. *)
Definition order_column (ordered_on : SegModel.name) (snap : snap_kind) (o : SegModel.name) : Prop :=
  match snap with
  | SnapNone => o = ordered_on
  | SnapVals => o = ordered_on /\ ~ unset ordered_on
  | SnapTG k _ => (unset k /\ o = ordered_on) \/ (~ unset k /\ (ordered_on = None \/ ordered_on = k) /\ o = k)
  end.
(** Columns given to the function: those which are named, once each. *)
Definition columns_given (bin_on o : SegModel.name) (cols : list SegModel.name) : Prop :=
  (~ unset bin_on /\ (unset o \/ o = bin_on) /\ cols = [bin_on]) \/
  (unset bin_on /\ cols = [o]) \/
  (~ unset bin_on /\ ~ unset o /\ o <> bin_on /\ cols = [bin_on; o]).

(** ** Configuration of a key *)
(** Value of a parameter: the one of the key if given, otherwise the one given to AggStream. *)
Definition first_given (own default : option pv) : option pv := match own with Some v => Some v | None => default end.

(** Parameters of AggStream which are default values for keys. *)
Definition default_of (p : ConfModel.params) (name : string) : option pv :=
  if String.eqb name "snap_by" then Some (p_snap_by p)
  else if String.eqb name "agg" then Some (p_agg p)
  else if String.eqb name "post" then Some (p_post p)
  else if String.eqb name "ordered_on" then Some (PName (p_ordered_on p))
  else if String.eqb name "max_in_memory_size_b" then Some (PNum (p_max p * 1048576))
  else get name (p_kwargs p).
Definition effective (p : ConfModel.params) (own : conf) (name : string) : option pv := first_given (get name own) (default_of p name).
(** Memory size of results before they are written, in bytes. *)
Definition effective_size (p : ConfModel.params) (own : conf) : option pv :=
  match get "max_in_memory_size" own with
  | Some (PNum z) => Some (PNum (z * 1048576))
  | Some _ => None
  | None => effective p own "max_in_memory_size_b"
  end.

(** Keys with their configurations, as given by the user. *)
Definition key_confs (p : ConfModel.params) : list (ckey * conf) :=
  match p_keys p with
  | OneKey k => [(k, [("bin_by", p_bin_by p); ("bin_on", p_bin_on p)])]
  | Keys l => l
  | FilterKeys l => flat_map snd l
  end.

(** Column of bins in results: second item of 'bin_on', otherwise the column of bins. *)
Definition bins_column (own : conf) (seg : segcfg) : pv :=
  match get "bin_on" own with
  | Some (PPair _ b) => match b with PNone => if truthy (cfg_bin_on seg) then of_name (cfg_bin_on seg) else PNone | _ => b end
  | _ => if truthy (cfg_bin_on seg) then of_name (cfg_bin_on seg) else PNone
  end.
(** Column from which bins are made, as given by the user. *)
Definition bins_name (own : conf) : option SegModel.name :=
  match get "bin_on" own with
  | None | Some PNone | Some (PPair PNone _) => Some None
  | Some (PName s) | Some (PPair (PName s) _) => Some (Some s)
  | _ => None
  end.
Definition snapshots (p : ConfModel.params) (own : conf) : snap_kind :=
  snap_kind_of (match effective p own "snap_by" with Some v => v | None => PNone end).

(** Names given twice are refused by Python, 'ordered_on' being a parameter of AggStream; a dict has an item once;
    parameters have the documented types. *)
Definition dict_ok {V} (d : dict V) : Prop := NoDup (map fst d).
Definition key_args_ok (p : ConfModel.params) (own : conf) : Prop :=
  dict_ok own /\ bins_name own <> None /\
  (forall v, get "max_in_memory_size" own = Some v -> exists z, v = PNum z) /\
  (forall v, effective p own "agg" = Some v -> v = PNone \/ exists cols id, v = PAgg cols id).
Definition args_ok (p : ConfModel.params) : Prop :=
  dict_ok (p_kwargs p) /\ get "ordered_on" (p_kwargs p) = None /\
  Forall (fun kc => key_args_ok p (snd kc)) (key_confs p).

(** Results of a key: bins only without snapshots by time, otherwise snapshots in the only dataset, or both. *)
Definition results_of (k : ckey) (snap : snap_kind) : res_type :=
  match snap, k with
  | SnapTG _ _, One _ => SNAPS
  | SnapTG _ _, Two _ _ => BOTH
  | _, _ => BINS
  end.
(** Value of a parameter given to 'write' for the results of a key. *)
Definition written_with (p : ConfModel.params) (k : ckey) (own : conf) (seg : segcfg) (name : string) : option pv :=
  if String.eqb name "duplicates_on" then
    match effective p own name with
    | Some PNone | None =>
        match bins_column own seg with
        | PNone | PName "" => effective p own "ordered_on"
        | v => Some v
        end
    | v => v
    end
  else if String.eqb name "max_row_group_size" then
    match results_of k (snapshots p own), effective p own name with
    | BOTH, Some (PPair a b) => Some (PPair a b)
    | BOTH, Some v => Some (PPair v v)
    | BOTH, None => Some (PPair PNone PNone)
    | _, v => v
    end
  else if existsb (String.eqb name) WRITE_PARAMS then effective p own name else None.

(** Configuration of a key. *)
Definition configured (p : ConfModel.params) (k : ckey) (own : conf) (c : kcfg) : Prop :=
  (exists by_ n, get "bin_by" own = Some by_ /\ bins_name own = Some n /\
     setup_segmentby (bin_kind_of by_) n (Some (p_ordered_on p)) (snapshots p own) = Ok (kc_seg c)) /\
  kc_bin_on_out c = bins_column own (kc_seg c) /\
  Some (kc_max c) = effective_size p own /\
  Some (kc_post c) = effective p own "post" /\
  Some (kc_agg c) = effective p own "agg" /\
  kc_type c = results_of k (snapshots p own) /\
  forall name, get name (kc_write c) = written_with p k own (kc_seg c) name.

(** Size of row groups for the dataset of bins, or for the one of snapshots, of a key with both. *)
Definition size_for (t : res_type) (snaps : bool) (v : option pv) : option pv :=
  match t, v with
  | BOTH, Some (PPair a b) => Some (if snaps then b else a)
  | BOTH, None => Some PNone
  | _, _ => v
  end.
(** A filter which is a list of conditions is a group; otherwise it is a list of groups. *)
Inductive groups_of : filt -> filt_out -> Prop :=
| one_group : forall i l, groups_of (FList (FTuple i :: l)) (Enclosed (FTuple i :: l))
| several_groups : forall i l, groups_of (FList (FOther i :: l)) (AsIs (FOther i :: l)).
(** Filters of the object. *)
Definition filters_used (p : ConfModel.params) (a : aggstream) : Prop :=
  match p_keys p with
  | FilterKeys l =>
      a_filter_apps a = map (fun f => (fst f, map fst (snd f))) l /\
      (In "_" (map fst l) <-> get "_" (a_filters a) = Some NoFilter) /\
      exists given, p_filters p = Some given /\ forall id, id <> "_" ->
        match get id given, get id (a_filters a) with
        | Some f, Some f' => groups_of f f'
        | None, None => True
        | _, _ => False
        end
  | _ => a_filter_apps a = [("_", map fst (key_confs p))] /\ a_filters a = [("_", NoFilter)]
  end.

(** The configuration of a key is accepted. *)
Definition valid_key (p : ConfModel.params) (own : conf) : Prop :=
  exists by_ n seg cols id,
    get "bin_by" own = Some by_ /\
    (forall name, get name own <> None ->
       In name (["bin_by"; "max_in_memory_size"; "bin_on"; "snap_by"; "agg"; "post"; "max_in_memory_size_b"] ++ WRITE_PARAMS)) /\
    bins_name own = Some n /\
    setup_segmentby (bin_kind_of by_) n (Some (p_ordered_on p)) (snapshots p own) = Ok seg /\
    effective p own "agg" = Some (PAgg cols id) /\
    (forall s, bins_column own seg = PName s -> ~ In s cols).

(** Filters given for the keys. *)
Definition valid_filters (p : ConfModel.params) : Prop :=
  (forall d, p_filters p = Some d -> forall id f, In (id, f) d -> exists x l, f = FList (x :: l)) /\
  match p_keys p with
  | OneKey _ => True
  | Keys l => l <> []
  | FilterKeys l =>
      l <> [] /\
      exists d, p_filters p = Some d /\ ~ In "_" (map fst d) /\
                forall id, id <> "_" -> (In id (map fst d) <-> In id (map fst l))
  end.

Definition consistent (p : ConfModel.params) : Prop :=
  (forall name, get name (p_kwargs p) <> None -> In name WRITE_PARAMS) /\
  valid_filters p /\
  NoDup (map fst (key_confs p)) /\
  Forall (fun kc => valid_key p (snd kc)) (key_confs p).
