(** Model of oups/aggstream/cumsegagg.py.

    Column names are natural numbers. All the values of a data frame are of one type [V]; the
    operations on the values of a column depend on its dtype (argument [N]). *)
Require Import List Arith ZArith Bool.
Require Import Verif.Common Verif.AggModel Verif.SegModel.
Import ListNotations.

(** cumsegagg.py:34-36. The other dtypes are not modelled. *)
Inductive dtype := DInt64 | DFloat64 | DDatetime64.
Definition dtype_eqb (a b : dtype) : bool :=
  match a, b with
  | DInt64, DInt64 | DFloat64, DFloat64 | DDatetime64, DDatetime64 => true
  | _, _ => false
  end.

Definition cname := nat.

(** Aggregation specification: output column, input column, function; [None] is a function name
    that is not in AGG_FUNCS. A dict, hence output columns are distinct. *)
Definition aggspec := list (cname * (cname * option afun)).

(** cumsegagg.py:101-107, temporary lists of one dtype. *)
Record tmpcfg := mkTmp {
  t_in : list cname;              (* cols_name_in_data *)
  t_out : list cname;             (* cols_name_in_res *)
  t_funs : list afun;             (* agg_func_idx *)
  t_cols_data : list (list nat);
  t_cols_res : list (list nat) }.
Definition tmp_empty : tmpcfg := mkTmp [] [] [] [] [].

(** cumsegagg.py:109-143, for one output column. *)
Definition tmp_add (tup : tmpcfg) (out_col in_col : cname) (func : option afun) : res tmpcfg :=
  let '(ins, in_idx) :=
    match index_of Nat.eqb in_col (t_in tup) with
    | Some i => (t_in tup, i)
    | None => (t_in tup ++ [in_col], length (t_in tup))
    end in
  let out_idx := length (t_out tup) in
  let outs := t_out tup ++ [out_col] in
  match func with
  | None => Err ValueError
  | Some f =>
      let '(funs, func_idx) :=
        match index_of afun_eqb f (t_funs tup) with
        | Some i => (t_funs tup, i)
        | None => (t_funs tup ++ [f], length (t_funs tup))
        end in
      if (length (t_cols_data tup) <=? func_idx)%nat then
        Ok (mkTmp ins outs funs (t_cols_data tup ++ [[in_idx]]) (t_cols_res tup ++ [[out_idx]]))
      else
        Ok (mkTmp ins outs funs
              (update (t_cols_data tup) func_idx (nth func_idx (t_cols_data tup) [] ++ [in_idx]))
              (update (t_cols_res tup) func_idx (nth func_idx (t_cols_res tup) [] ++ [out_idx])))
  end.

(** cumsegagg.py:93-143, step 1. *)
Fixpoint setup_step1 (agg : aggspec) (data_dtype : list (cname * dtype)) (cfg : list (dtype * tmpcfg))
  : res (list (dtype * tmpcfg)) :=
  match agg with
  | [] => Ok cfg
  | (out_col, (in_col, func)) :: agg' =>
      match dict_get Nat.eqb in_col data_dtype with
      | None => Err ValueError
      | Some d =>
          let tup := match dict_get dtype_eqb d cfg with Some t => t | None => tmp_empty end in
          let* tup' := tmp_add tup out_col in_col func in
          setup_step1 agg' data_dtype (dict_set dtype_eqb d tup' cfg)
      end
  end.

(** Configuration of one dtype: cols_name_in_data, cols_name_in_res, aggs, n_cols. *)
Record acfg := mkAcfg { ac_in : list cname; ac_out : list cname; ac_aggs : list agg1; ac_ncols : nat }.

(** zip of three lists. *)
Fixpoint zip_aggs (funs : list afun) (cd cr : list (list nat)) : list agg1 :=
  match funs, cd, cr with
  | f :: funs', d :: cd', r :: cr' => mkAgg1 f d r :: zip_aggs funs' cd' cr'
  | _, _, _ => []
  end.

(** cumsegagg.py:144-155, step 2. *)
Definition setup_step2 (t : tmpcfg) : acfg :=
  mkAcfg (t_in t) (t_out t) (zip_aggs (t_funs t) (t_cols_data t) (t_cols_res t))
    (list_sum (map (@length nat) (t_cols_res t))).

(** cumsegagg.py:47-155. *)
Definition setup_cumsegagg (agg : aggspec) (data_dtype : list (cname * dtype)) : res (list (dtype * acfg)) :=
  let* cfg := setup_step1 agg data_dtype [] in
  Ok (map (fun dt => (fst dt, setup_step2 (snd dt))) cfg).

(** Data frame of results: labels of rows, and named columns; [None] is a null value. *)
Record frame (V : Type) := mkFrame { f_labels : list Z; f_cols : list (cname * list (option V)) }.
Arguments mkFrame {V} _ _.
Arguments f_labels {V} _.
Arguments f_cols {V} _.

(** Buffer dict: segmentation part, and KEY_LAST_CHUNK_RES (a one-row data frame). *)
Record csabuf (B V : Type) := mkCsabuf { cb_main : mainbuf B; cb_last : option (list (cname * V)) }.
Arguments mkCsabuf {B V} _ _.
Arguments cb_main {B V} _.
Arguments cb_last {B V} _.
Definition csabuf_empty {B V} : csabuf B V := mkCsabuf main_empty None.

Section Csa.
Context {D V B : Type}.
Variable N : dtype -> num V.
Variable val : D -> cname -> V.

(** cumsegagg.py:158-173. *)
Definition setup_chunk_res (cfg : list (dtype * acfg)) : list (cname * V) :=
  flat_map (fun dc => map (fun n => (n, zero (N (fst dc)))) (ac_out (snd dc))) cfg.

(** Column [j] of a 2d array. *)
Definition column (d : dtype) (j : nat) (rows : list (list V)) : list V :=
  map (fun r => nth j r (zero (N d))) rows.

(** 'null_bin_indices', 'null_snap_indices': the slots written by 'jcsagg' replace the first ones,
    [None] is -1. *)
Definition write_slots (arr : list (option nat)) (idx : list nat) : list (option nat) :=
  map Some idx ++ skipn (length idx) arr.

Fixpoint somes {A} (l : list (option A)) : list A :=
  match l with [] => [] | Some x :: t => x :: somes t | None :: t => somes t end.

(** Results accumulated over dtypes: chunk_res, bin_res, snap_res, null indices. *)
Record accu := mkAccu {
  c_chunk : list (cname * V);
  c_bin : list (cname * list V);
  c_snap : list (cname * list V);
  c_nullb : list (option nat);
  c_nulls : list (option nat) }.

(** [chunk_res_prev.loc[:, cols]] on a one-row data frame. *)
Fixpoint lookup_all (names : list cname) (d : list (cname * V)) : res (list V) :=
  match names with
  | [] => Ok []
  | n :: ns => match dict_get Nat.eqb n d with
               | None => Err KeyError
               | Some v => let* vs := lookup_all ns d in Ok (v :: vs)
               end
  end.

(** cumsegagg.py:459-514: body of the loop, for one dtype. Datetimes are seen as integers. *)
Definition csa_dtype (data : list D) (so : segout) (preserve : bool) (chunk_prev : list (cname * V))
  (n_bins n_snaps : nat) (dc : dtype * acfg) (a : accu) : res accu :=
  let '(d, c) := dc in
  let rows := map (fun r => map (val r) (ac_in c)) data in
  let* chunk0 := lookup_all (ac_out c) chunk_prev in
  let* o := jcsagg (N d) rows (ac_aggs c) (g_starts so) (g_bin_indices so) preserve chunk0
              (ac_ncols c) n_bins n_snaps (length (c_nullb a)) (length (c_nulls a)) in
  let named (rows : list (list V)) :=
    map (fun jn => (snd jn, column d (fst jn) rows)) (combine (seq 0 (length (ac_out c))) (ac_out c)) in
  Ok (mkAccu (c_chunk a ++ combine (ac_out c) (o_chunk_res o))
        (c_bin a ++ named (o_bin_res o))
        (c_snap a ++ named (o_snap_res o))
        (write_slots (c_nullb a) (o_null_bins o))
        (write_slots (c_nulls a) (o_null_snaps o))).

Fixpoint csa_loop (data : list D) (so : segout) (preserve : bool) (chunk_prev : list (cname * V))
  (n_bins n_snaps : nat) (cfg : list (dtype * acfg)) (a : accu) : res accu :=
  match cfg with
  | [] => Ok a
  | dc :: cfg' => let* a' := csa_dtype data so preserve chunk_prev n_bins n_snaps dc a in
                  csa_loop data so preserve chunk_prev n_bins n_snaps cfg' a'
  end.

(** cumsegagg.py:532-541 and 556-569: '.loc[null_labels, cols] = null' sets all rows which have one of
    these labels. *)
Definition set_nulls (labels : list Z) (null_labels : list Z) (cols : list (cname * list V))
  : list (cname * list (option V)) :=
  map (fun nc => (fst nc, map2 (fun l v => if memb Z.eqb l null_labels then None else Some v) labels (snd nc))) cols.

(** cumsegagg.py:561: 'snap_labels[indices]', on the labels of the index of a Series which starts at
    [off] (0 for a DatetimeIndex). *)
Fixpoint take_labels (off : nat) (labels : list Z) (idx : list nat) : res (list Z) :=
  match idx with
  | [] => Ok []
  | i :: idx' => let* l := getitem PSeries off labels i in
                 let* ls := take_labels off labels idx' in Ok (l :: ls)
  end.

(** cumsegagg.py:570-578: some value is 0. [d_of] gives the dtype of an output column. *)
Definition has_zero (d_of : cname -> dtype) (f : frame V) : bool :=
  existsb (fun nc => existsb (fun o => match o with Some v => is0 (N (d_of (fst nc))) v | None => false end)
                       (snd nc)) (f_cols f).

Definition out_dtype (cfg : list (dtype * acfg)) (n : cname) : dtype :=
  match find (fun dc => memb Nat.eqb n (ac_out (snd dc))) cfg with
  | Some dc => fst dc
  | None => DInt64
  end.

(** cumsegagg.py:391-582, from the configuration made by 'setup_cumsegagg'. 'bin_by' is the binning
    function prepared by 'setup_segmentby' (see 'segmentby' in the model). The result is [None] for
    empty data; the updated buffer is returned. When an exception is raised the buffer, already
    updated in place, is not modelled. *)
Definition cumsegagg_cfg (cfg : list (dtype * acfg))
  (bin_by : list D -> option B -> res (seg * option B)) (empty : B)
  (ordered : option (D -> Z)) (snap_by : option byspec) (error_on_0 : bool)
  (data : list D) (buffer : option (csabuf B V))
  : res (option (frame V * option (frame V)) * option (csabuf B V)) :=
  match data with
  | [] => Ok (None, buffer)
  | _ =>
      (* lines 398-406 *)
      let prev_last_bin_label := match buffer with Some b => mb_last_label (cb_main b) | None => None end in
      let* '(so, main') := segmentby bin_by empty ordered snap_by data (option_map cb_main buffer) in
      (* lines 431-434 *)
      let preserve := match buffer, prev_last_bin_label with
                      | Some _, Some l => (l =? hd 0 (g_bin_labels so))%Z
                      | _, _ => false
                      end in
      let chunk_prev := match buffer with
                        | Some b => match cb_last b with Some r => r | None => setup_chunk_res cfg end
                        | None => setup_chunk_res cfg
                        end in
      let n_bins := length (g_bin_labels so) in
      let n_snaps := match g_snap_labels so with Some (l, _) => length l | None => 0 end in
      let n_null_snaps := match snap_by with Some _ => g_n_max_null_snaps so | None => 0 end in
      let* a := csa_loop data so preserve chunk_prev n_bins n_snaps cfg
                  (mkAccu [] [] [] (repeat None (g_n_null_bins so)) (repeat None n_null_snaps)) in
      let buffer' := match main' with
                     | Some m => Some (mkCsabuf m (Some (c_chunk a)))
                     | None => None
                     end in
      (* lines 517-543 *)
      let null_bin_labels := map (fun i => nth i (g_bin_labels so) 0%Z) (somes (c_nullb a)) in
      let bin_res := mkFrame (g_bin_labels so) (set_nulls (g_bin_labels so) null_bin_labels (c_bin a)) in
      (* lines 544-574 *)
      let* snap_res :=
        match g_snap_labels so with
        | None => Ok None
        | Some (labels, off) =>
            let* nl := take_labels off labels (somes (c_nulls a)) in
            Ok (Some (mkFrame labels (set_nulls labels nl (c_snap a))))
        end in
      (* lines 575-584 *)
      let d_of := out_dtype cfg in
      if error_on_0 && (match snap_res with Some f => has_zero d_of f | None => false end
                        || has_zero d_of bin_res)
      then Err ValueError
      else Ok (Some (bin_res, snap_res), buffer')
  end.

(** cumsegagg.py:176-582, with the aggregation specification: 'next(iter(agg.values()))' raises on
    an empty dict, after the test on empty data. *)
Definition cumsegagg (agg : aggspec) (dtypes : list (cname * dtype))
  (bin_by : list D -> option B -> res (seg * option B)) (empty : B)
  (ordered : option (D -> Z)) (snap_by : option byspec) (error_on_0 : bool)
  (data : list D) (buffer : option (csabuf B V))
  : res (option (frame V * option (frame V)) * option (csabuf B V)) :=
  match data with
  | [] => Ok (None, buffer)
  | _ =>
      match agg with
      | [] => Err StopIteration
      | _ => let* cfg := setup_cumsegagg agg dtypes in
             cumsegagg_cfg cfg bin_by empty ordered snap_by error_on_0 data buffer
      end
  end.

(** Binning callables given to 'segmentby': 'by_scale' with a TimeGrouper on column [t]
    (setup_segmentby, segmentby.py:642-675), and 'by_x_rows' (segmentby.py:370-519) on column [t]. *)
Definition time_bins (t : D -> Z) (tg : tgrouper) (data : list D) (b : option sbuf) : res (seg * option sbuf) :=
  by_scale (map t data) (ByTG tg) None b.
Definition row_bins (t : D -> Z) (x : nat) (c : side) (data : list D) (b : option (option xbuf))
  : res (seg * option (option xbuf)) :=
  by_x_rows x c (map t data) b.

End Csa.
