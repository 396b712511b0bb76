(** Keys of AggStream whose bins are made by a function of the user, results being ordered on another column than the one with
    labels of bins (oups/aggstream/aggstream.py). *)
Require Import List Arith ZArith Bool.
Require Import Verif.Common Verif.AggModel Verif.SegModel Verif.CsaModel Verif.CsaSpec Verif.KeyModel Verif.UserKeyModel Verif.OrderModel.
Require Verif.WrModel Verif.StreamModel.
Local Open Scope Z_scope.

(** Configuration of a key, position, in its results, of the column given in 'ordered_on', and positions of columns of
    'duplicates_on', as in OrderModel.v (aggstream.py:186-211, 232-246). *)
Record uoconf (D B PB : Type) := mkUoconf { uo_conf : uconf D B PB; uo_on : nat; uo_dup : list nat }.
Arguments mkUoconf {D B PB}. Arguments uo_conf {D B PB}. Arguments uo_on {D B PB}. Arguments uo_dup {D B PB}.

Section Key.
Context {D V B PB : Type}.
Variable N : dtype -> num V.
Variable val : D -> cname -> V.
Variable dtypes : list (cname * dtype).
Variable idx : D -> Z.
Variable enc : option V -> Z.

(** aggstream.py:167-275, as [user_key] for other parameters. *)
Definition order_user_key (o : uoconf D B PB) : StreamModel.kconf D (option (csabuf B V)) PB :=
  let u := uo_conf o in
  StreamModel.mkConf (u_filter u) (user_segagg N val dtypes idx enc u) (user_type u) (u_post u) (u_max u)
    (write_on (uo_on o) (uo_dup o) (u_size u) (u_nirgs u)) (write_on (uo_on o) (uo_dup o) (u_size_snap u) (u_nirgs u)).
End Key.
