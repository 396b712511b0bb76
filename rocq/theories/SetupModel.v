(** An AggStream instance, with 'agg_cs': aggregations of keys are set at the first call to 'agg' which is given data, from data
    types of the first chunk (oups/aggstream/aggstream.py, '_init_agg_cs' and 'agg').

    A chunk comes with data types of its columns. Only those of the first one are looked at: values of all chunks are taken as
    being of these types. The loop over data and the final write are those of RaiseModel.v. *)
Require Import List Arith ZArith Bool.
Require Import Verif.Common Verif.AggModel Verif.SegModel Verif.CsaModel Verif.KeyModel Verif.StreamModel Verif.RaiseModel.
Import ListNotations.

Section Setup.
Context {D V P PB : Type}.
Variable N : dtype -> num V.
Variable val : D -> cname -> V.
Variable idx : D -> Z.
Variable enc : option V -> Z.
Variable truthy : Z -> bool.
Variable usage : WrModel.frame -> Z.
Notation segbuf := (@segbuf V).
Notation kconf := (kconf D segbuf PB).
Notation kbuf := (kbuf segbuf PB).
Notation kstore := (kstore P segbuf PB).
Notation stream := (stream D P segbuf PB).

(** Item of dict 'agg_cs', as made by 'setup_cumsegagg'. *)
Definition aggcs : Type := list (dtype * acfg).
(** cumsegagg.py:391-396, with such an item as 'agg': 'next(iter(agg.values()))' raises if it is empty. *)
Definition cumsegagg_cs {B} (cs : aggcs) (bin_by : list D -> option B -> res (seg * option B)) (empty : B) (snap : option byspec)
    (data : list D) (b : option (csabuf B V)) : res (option (frame V * option (frame V)) * option (csabuf B V)) :=
  match data with
  | [] => Ok (None, b)
  | _ => match cs with
         | [] => Err StopIteration
         | _ => cumsegagg_cfg N val cs bin_by empty (Some idx) snap true data b
         end
  end.
(** aggstream.py:916-921, with 'agg_cs[key]' as 'agg' (aggstream.py:1496): as [segagg] of KeyModel.v. *)
Definition segagg_cs (agg : aggspec) (cs : aggcs) (by_ : bspec) (snap : option tgrouper) (data : list D) (b : segbuf)
    : res (option (WrModel.frame * option WrModel.frame) * segbuf) :=
  match by_ with
  | ByTime tg =>
      let* '(r, b') := cumsegagg_cs cs (time_bins idx tg) sbuf_empty (option_map ByTG snap) data (fst b) in
      Ok (tables enc agg r, (b', snd b))
  | ByRows x c =>
      let* '(r, b') := cumsegagg_cs cs (row_bins idx x c) None (option_map ByTG snap) data (snd b) in
      Ok (tables enc agg r, (fst b, b'))
  end.
(** Configuration of a key. 'agg_cs[key]' raises 'KeyError' when it is missing (aggstream.py:1496). *)
Definition key_cs (c : bconf PB) (cs : option aggcs) : kconf :=
  mkConf (c_filter c) (match cs with Some cs => segagg_cs (c_agg c) cs (c_by c) (c_snap c) | None => fun _ _ => Err KeyError end) (type_of c) (c_post c)
    (c_max c) (write_conf (c_size c) (c_nirgs c)) (write_conf (c_size_snap c) (c_nirgs c)).

(** An instance: keys with their configuration, item of 'agg_cs' if any, buffers and datasets. *)
Definition ikey : Type := bconf PB * option aggcs * kbuf * kstore.
Record inst := mkInst { i_restart : option Z; i_pre : P; i_keys : list ikey; i_log : list (nat * @act P segbuf PB) }.
Definition to_stream (x : inst) : stream :=
  mkStream (i_restart x) (i_pre x) (map (fun k => let '(c, cs, b, s) := k in (key_cs c cs, b, s)) (i_keys x)) (i_log x).
(** Buffers and datasets after a call. *)
Definition of_stream (x : inst) (g : stream) : inst :=
  mkInst (g_restart g) (g_pre g) (map (fun ky => let '(c, cs, _, _) := fst ky in let '(_, b, s) := snd ky in (c, cs, b, s)) (combine (i_keys x) (g_keys g))) (g_log g).
Definition with_keys (x : inst) (ks : list ikey) : inst := mkInst (i_restart x) (i_pre x) ks (i_log x).

(** aggstream.py:1379-1383: items are set one after the other, up to the first exception. *)
Fixpoint set_cs (dtypes : list (cname * dtype)) (ks : list ikey) : list ikey * bool :=
  match ks with
  | [] => ([], true)
  | (c, cs, b, s) :: ks' =>
      match setup_cumsegagg (c_agg c) dtypes with
      | Err _ => (ks, false)
      | Ok cfg => let '(l, ok) := set_cs dtypes ks' in ((c, Some cfg, b, s) :: l, ok)
      end
  end.
(** 'not self.agg_cs': the dict is empty. *)
Definition unset (x : inst) : bool := forallb (fun k => match snd (fst (fst k)) with None => true | Some _ => false end) (i_keys x).

(** 'seed': None, a data frame, a list of them, or another iterable, which is true even without any item. *)
Definition chunk : Type := list (cname * dtype) * list D.
Inductive seed := NoSeed | Frame (c : chunk) | Chunks (l : list chunk) | Iter (l : list chunk).
Definition chunks (s : seed) : list chunk := match s with NoSeed => [] | Frame c => [c] | Chunks l => l | Iter l => l end.
(** 'if seed:', once a data frame has been put in a list. *)
Definition given_seed (s : seed) : bool := match s with NoSeed => false | Frame _ => true | Chunks l => match l with [] => false | _ => true end | Iter _ => true end.

Definition run_inst (pre : option (@pre_fun D P)) (fs : filters) (x : inst) (l : list chunk) (trim_start discard_last final : bool) : inst * res (option exn) :=
  let '(g, r) := agg_t idx truthy usage pre fs (to_stream x) (map snd l) trim_start discard_last final in (of_stream x g, r).
(** aggstream.py:1386-1531, with '_init_agg_cs' (1355-1384): 'next' raises 'StopIteration' if there is no chunk; the exception of
    'setup_cumsegagg' is replaced by 'ValueError'. *)
Definition agg_inst (pre : option (@pre_fun D P)) (fs : filters) (x : inst) (s : seed) (trim_start discard_last final : bool) : inst * res (option exn) :=
  if given_seed s && unset x then
    match chunks s with
    | [] => (x, Err StopIteration)
    | (dtypes, _) :: _ =>
        match set_cs dtypes (i_keys x) with
        | (ks, true) => run_inst pre fs (with_keys x ks) (chunks s) trim_start discard_last final
        | (ks, false) => (with_keys x ks, Err ValueError)
        end
    end
  else run_inst pre fs x (chunks s) trim_start discard_last final.

(** aggstream.py:1336-1353: a new instance, with buffers read from the store. *)
Definition new_inst (pre0 : P) (post0 : PB) (ks : list (bconf PB * kstore)) : res inst :=
  let* g := init pre0 segbuf_empty post0 (map (fun k => (key_cs (fst k) None, snd k)) ks) in
  Ok (mkInst (g_restart g) (g_pre g) (map (fun ky => let '(_, b, s) := snd ky in (fst (fst ky), None, b, s)) (combine ks (g_keys g))) (g_log g)).

(** Calls, with the same instance or with a new one, with 'trim_start' and 'discard_last', up to the first exception. *)
Record icall := mkCall { ic_fresh : bool; ic_final : bool; ic_seed : seed }.
Definition call_once (pre : option (@pre_fun D P)) (fs : filters) (pre0 : P) (post0 : PB) (x : inst) (y : icall) : res inst :=
  let* x := if ic_fresh y then new_inst pre0 post0 (map (fun k => let '(c, _, _, s) := k in (c, s)) (i_keys x)) else Ok x in
  match agg_inst pre fs x (ic_seed y) true true (ic_final y) with
  | (x, Ok None) => Ok x
  | (_, Ok (Some e)) => Err e
  | (_, Err e) => Err e
  end.
Fixpoint call_all (pre : option (@pre_fun D P)) (fs : filters) (pre0 : P) (post0 : PB) (x : inst) (ys : list icall) : res inst :=
  match ys with
  | [] => Ok x
  | y :: ys' => let* x := call_once pre fs pre0 post0 x y in call_all pre fs pre0 post0 x ys'
  end.
End Setup.
