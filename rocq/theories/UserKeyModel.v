(** Keys of AggStream whose bins are made by a function of the user (oups/aggstream/aggstream.py), along with keys of
    KeyModel.v. *)
Require Import List Arith ZArith Bool.
Require Import Verif.Common Verif.AggModel Verif.SegModel Verif.CsaModel Verif.CsaSpec Verif.KeyModel.
Require Verif.WrModel Verif.StreamModel.
Import ListNotations.
Local Open Scope Z_scope.

(** Configuration of a key: filter id, 'agg', 'bin_by' (a function, and the value which stands for an empty buffer of this
    function), 'snap_by', whether results of bins and of snapshots are both kept (two keys), 'post', 'max_in_memory_size_b', and
    parameters for writing. *)
Record uconf (D B PB : Type) := mkUconf {
  u_filter : nat;
  u_agg : aggspec;
  u_bins : list D -> option B -> res (seg * option B);
  u_empty : B;
  u_snap : option byspec;
  u_two : bool;
  u_post : option (PB -> WrModel.frame -> option WrModel.frame -> res (StreamModel.post_res * PB));
  u_max : Z;
  u_size : option Z;
  u_size_snap : option Z;
  u_nirgs : option Z }.
Arguments mkUconf {D B PB}.
Arguments u_filter {D B PB}. Arguments u_agg {D B PB}. Arguments u_bins {D B PB}. Arguments u_empty {D B PB}. Arguments u_post {D B PB}.
Arguments u_snap {D B PB}. Arguments u_two {D B PB}. Arguments u_max {D B PB}. Arguments u_size {D B PB}. Arguments u_size_snap {D B PB}. Arguments u_nirgs {D B PB}.

(** The buffer of segmentation and aggregation is a pair: a key uses the part for its kind of bins, as in KeyModel.v. *)
Section Parts.
Context {D SB SB' PB : Type}.
Definition on_left (k : StreamModel.kconf D SB PB) : StreamModel.kconf D (SB * SB') PB :=
  StreamModel.mkConf (StreamModel.k_filter k) (fun data b => let* '(r, b') := StreamModel.k_agg k data (fst b) in Ok (r, (b', snd b)))
    (StreamModel.k_type k) (StreamModel.k_post k) (StreamModel.k_max k) (StreamModel.k_write k) (StreamModel.k_write_snap k).
Definition on_right (k : StreamModel.kconf D SB' PB) : StreamModel.kconf D (SB * SB') PB :=
  StreamModel.mkConf (StreamModel.k_filter k) (fun data b => let* '(r, b') := StreamModel.k_agg k data (snd b) in Ok (r, (fst b, b')))
    (StreamModel.k_type k) (StreamModel.k_post k) (StreamModel.k_max k) (StreamModel.k_write k) (StreamModel.k_write_snap k).
End Parts.

Section Key.
Context {D V B PB : Type}.
Variable N : dtype -> num V.
Variable val : D -> cname -> V.
Variable dtypes : list (cname * dtype).
Variable idx : D -> Z.
Variable enc : option V -> Z.

(** aggstream.py:916-921, 'cumsegagg' (cumsegagg.py:176-582), 'error_on_0' being true by default. *)
Definition user_segagg (u : uconf D B PB) (data : list D) (b : option (csabuf B V)) : res (option (WrModel.frame * option WrModel.frame) * option (csabuf B V)) :=
  let* '(r, b') := cumsegagg N val (u_agg u) dtypes (u_bins u) (u_empty u) (Some idx) (u_snap u) true data b in
  Ok (tables enc (u_agg u) r, b').
(** aggstream.py:247-258 *)
Definition user_type (u : uconf D B PB) : StreamModel.res_type :=
  match u_snap u with
  | None => StreamModel.BINS
  | Some _ => if u_two u then StreamModel.BOTH else StreamModel.SNAPS
  end.
(** aggstream.py:167-275, for parameters above. *)
Definition user_key (u : uconf D B PB) : StreamModel.kconf D (option (csabuf B V)) PB :=
  StreamModel.mkConf (u_filter u) (user_segagg u) (user_type u) (u_post u) (u_max u) (write_conf (u_size u) (u_nirgs u)) (write_conf (u_size_snap u) (u_nirgs u)).

(** A key is one of KeyModel.v, or one with bins made by a function of the user. *)
Definition anykey := (bconf PB + uconf D B PB)%type.
Definition anybuf := (@segbuf V * option (csabuf B V))%type.
(** aggstream.py:330: '{}' *)
Definition anybuf_empty : anybuf := (segbuf_empty, Some csabuf_empty).
Definition any_key (c : anykey) : StreamModel.kconf D anybuf PB :=
  match c with
  | inl c => on_left (key_of N val dtypes idx enc c)
  | inr u => on_right (user_key u)
  end.

(** A single aggregation of rows: 'cumsegagg' without buffer, and without the check of zeros. *)
Definition user_batch (u : uconf D B PB) (rows : list D) : res (option (frame V * option (frame V))) :=
  let* '(r, _) := cumsegagg N val (u_agg u) dtypes (u_bins u) (u_empty u) (Some idx) (u_snap u) false rows None in Ok r.
End Key.
