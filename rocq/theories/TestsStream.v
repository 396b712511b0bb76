(** Unit tests of /repo/tests/test_aggstream/test_aggstream_simple.py and test_aggstream_advanced.py run on the model, as a
    check that the model behaves as the code does.

    Time stamps are given in minutes. Tests with random data are not run. The memory used by a data frame is a parameter of the model: figures
    used below put intermediate writes where comments of tests put them. *)
Require Import List Arith ZArith Bool.
Require Import Verif.Common Verif.AggModel Verif.SegModel Verif.CsaModel Verif.CsaSpec Verif.StreamModel Verif.KeyModel.
Require Import Verif.WrModel Verif.AggSpec.
Import ListNotations.
Local Open Scope Z_scope.

(** Time stamp, value, and a flag some filters are on. *)
Definition trow := (Z * Z * bool)%type.
Definition tidx (r : trow) : Z := fst (fst r).
Definition at_ (h m : Z) : Z := h * 60 + m.
Definition rows_at (l : list (Z * Z * Z)) : list trow := map (fun x => (at_ (fst (fst x)) (snd (fst x)), snd x, true)) l.
Definition tval (r : trow) (c : cname) : Z := match c with O => tidx r | _ => snd (fst r) end.
Definition tdtypes : list (cname * dtype) := [(0%nat, DDatetime64); (1%nat, DInt64)].
Definition tenc (o : option Z) : Z := match o with Some v => v | None => -999 end.
Definition hours (n : Z) : tgrouper := mkTG (60 * n) SLeft SLeft OEpoch 0.
Definition sum_agg : aggspec := [(10%nat, (1%nat, Some Sum))].
Definition usage_row (n : Z) (f : WrModel.frame) : Z := n * Z.of_nat (length (rows f)).
Notation tstream PB := (stream trow unit (@segbuf Z) PB).
Definition tkey {PB} (c : bconf PB) := key_of (fun _ => Znum) tval tdtypes tidx tenc c.
Definition tinit {PB} (pb : PB) (cs : list (bconf PB)) : res (tstream PB) :=
  init tt segbuf_empty pb (map (fun c => (tkey c, mkStore None None)) cs).
(** A new AggStream on the same store. *)
Definition tagain {PB} (pb : PB) (g : tstream PB) : res (tstream PB) := init tt segbuf_empty pb (map (fun x => (fst (fst x), snd x)) (g_keys g)).
Definition no_filter : list (nat * option (list trow -> res (list bool))) := [(0%nat, None)].
Definition tagg {PB} (n : Z) fs (seed : list (list trow)) (trim discard final : bool) (g : tstream PB) : res (tstream PB * option exn) :=
  agg tidx (fun _ => true) (usage_row n) None fs g seed trim discard final.
Definition tagg1 {PB} n fs seed trim discard (g : tstream PB) : res (tstream PB) :=
  let* '(g, e) := tagg n fs seed trim discard true g in match e with None => Ok g | Some e => Err e end.
(** For each key: row groups of the main dataset, those of snapshots, and the restart index. *)
Definition groups {PB} (g : tstream PB) : list (option (list (list row)) * option (list (list row)) * option Z) :=
  map (fun x => (option_map (fun e => map content (e_data e)) (s_main (snd x)), option_map (fun e => map content (e_data e)) (s_snap (snd x)),
    option_map (@m_restart unit (@segbuf Z) PB) (md_of (s_main (snd x))))) (g_keys g).
Definition mains {PB} (g : tstream PB) : list (list row) := map (fun x => all_rows (data_of (s_main (snd x)))) (g_keys g).
Definition shows {A B} (f : A -> B) (r : res A) : res B := let* a := r in Ok (f a).

(** test_time_grouper_sum_agg *)
Definition seed_a : list trow := rows_at [(8,0,1);(8,30,2);(9,0,3);(9,30,4);(10,0,5);(10,20,6);(10,40,7);(11,0,8);(11,30,9);(12,0,10);(12,20,11);(12,40,12);
  (13,0,13);(13,20,14);(13,40,15);(14,0,16);(14,20,17)].
Definition cut (offsets : list nat) (l : list trow) : list (list trow) :=
  map (fun i => slice (nth i offsets 0%nat) (nth (S i) offsets (length l)) l) (seq 0 (length offsets)).
Definition seed_a_rgs := cut [0;4;6;10;12;13;15]%nat seed_a.
Definition conf_a : bconf unit := mkBconf 0 sum_agg (ByTime (hours 1)) None false None 209 (Some 6) None None.
Definition at_hours (l : list (Z * Z)) : list row := map (fun x => [at_ (fst x) 0; snd x]) l.
Definition run_a1 := let* g := tinit tt [conf_a] in tagg1 24 no_filter seed_a_rgs true true g.
Example sum_1 : shows groups run_a1 = Ok [(Some [at_hours [(8,3);(9,7);(10,18);(11,17)]; at_hours [(12,33);(13,42);(14,16)]], None, Some (at_ 14 20))].
Proof. reflexivity. Qed.
Definition seed_a2 := rows_at [(15,10,1);(15,11,2)].
Definition run_a2 := let* g := run_a1 in tagg1 24 no_filter (seed_a_rgs ++ [seed_a2]) true true g.
Example sum_2 : shows groups run_a2 = Ok [(Some [at_hours [(8,3);(9,7);(10,18);(11,17)]; at_hours [(12,33);(13,42);(14,33);(15,1)]], None, Some (at_ 15 11))].
Proof. reflexivity. Qed.
Definition run_a3 := let* g := run_a2 in tagg1 24 no_filter (seed_a_rgs ++ [seed_a2; rows_at [(15,20,11);(15,21,12)]]) true false g.
Example sum_3 : shows mains run_a3 = Ok [at_hours [(8,3);(9,7);(10,18);(11,17);(12,33);(13,42);(14,33);(15,26)]].
Proof. reflexivity. Qed.
Example sum_3_restart : shows groups run_a3 = Ok [(Some [at_hours [(8,3);(9,7);(10,18);(11,17)]; at_hours [(12,33);(13,42);(14,33);(15,26)]], None, Some (at_ 15 21))].
Proof. reflexivity. Qed.

(** test_time_grouper_trim_start: second call with 'trim_start=False'. *)
Definition plain : bconf unit := mkBconf 0 sum_agg (ByTime (hours 1)) None false None 1000000 (Some 100) None None.
Definition run_trim := let* g := tinit tt [plain] in
  let* g := tagg1 24 no_filter [rows_at [(8,0,1);(8,30,2);(9,0,3);(9,30,4)]] true true g in
  let* h := tagg1 24 no_filter [rows_at [(9,0,1);(9,30,2);(10,0,3);(10,30,4)]] false true g in Ok (groups g, mains h).
Example trim_start : run_trim = Ok ([(Some [at_hours [(8,3);(9,3)]], None, Some (at_ 9 30))], [at_hours [(8,3);(9,6);(10,3)]]).
Proof. reflexivity. Qed.

(** test_time_grouper_agg_sum, test_single_row, test_single_row_within_seed *)
Definition seed_b := rows_at [(8,0,1);(8,30,2);(9,0,3);(10,0,4)].
Definition seed_b2 := seed_b ++ rows_at [(10,20,1);(10,40,2);(11,0,3);(11,30,4)].
Definition run_sum := let* g := tinit tt [plain] in let* g := tagg1 24 no_filter [seed_b] true true g in
  let* h := tagg1 24 no_filter [seed_b2] true true g in Ok (mains g, mains h).
Example agg_sum : run_sum = Ok ([at_hours [(8,3);(9,3)]], [at_hours [(8,3);(9,3);(10,7);(11,3)]]).
Proof. reflexivity. Qed.
Example single_row : shows groups (let* g := tinit tt [plain] in tagg1 24 no_filter [rows_at [(8,0,1)]] true true g) = Ok [(None, None, None)].
Proof. reflexivity. Qed.
Definition seed_c := seed_a ++ rows_at [(14,20,18)].
Example single_row_within_seed : shows mains (let* g := tinit tt [plain] in tagg1 24 no_filter (cut [0;5;6]%nat seed_c) true true g) =
  Ok [at_hours [(8,3);(9,7);(10,18);(11,17);(12,33);(13,42);(14,16)]].
Proof. reflexivity. Qed.

(** test_bin_on_col_sum_agg *)
Definition seed_d := rows_at [(8,10,1);(8,10,2);(9,10,3);(9,10,4);(10,10,5);(10,10,6);(10,10,7);(11,10,8);(11,10,9);(12,10,10);(12,10,11);(12,10,12);
  (13,10,13);(13,10,14);(13,10,15);(14,10,16);(14,10,17)].
Definition conf_d : bconf unit := mkBconf 0 sum_agg (ByTime (hours 1)) None false None 10 (Some 6) None None.
Definition run_d := let* g := tinit tt [conf_d] in let* g := tagg1 24 no_filter [seed_d] true true g in
  let* h := tagg1 24 no_filter [seed_d ++ rows_at [(15,10,1);(15,10,2)]] true false g in Ok (groups g, mains h, map snd (groups h)).
Example bin_on_col : run_d = Ok ([(Some [at_hours [(8,3);(9,7);(10,18);(11,17);(12,33);(13,42)]], None, Some (at_ 14 10))],
  [at_hours [(8,3);(9,7);(10,18);(11,17);(12,33);(13,42);(14,33);(15,3)]], [Some (at_ 15 10)]).
Proof. reflexivity. Qed.

(** test_by_callable_wo_bin_on: 4 rows in a bin. *)
Definition first_max : aggspec := [(10%nat, (1%nat, Some First)); (11%nat, (1%nat, Some Max))].
Definition conf_e : bconf unit := mkBconf 0 first_max (ByRows 4 SLeft) None false None 10 (Some 4) None None.
Definition seed_e := seed_c ++ rows_at [(14,20,1);(14,30,2);(15,0,3);(15,30,4);(16,0,5);(16,40,6);(16,40,7)].
Definition run_e := let* g := tinit tt [conf_e] in let* g := tagg1 24 no_filter (cut [0;13]%nat seed_c) true true g in
  let* h := tagg1 24 no_filter (cut [0;13]%nat seed_e) true true g in Ok (mains g, map snd (groups g), mains h, map snd (groups h)).
Definition bins_e := [[at_ 8 0;1;4];[at_ 10 0;5;8];[at_ 11 30;9;12];[at_ 13 0;13;16]].
Example by_rows : run_e = Ok ([bins_e], [Some (at_ 14 20)], [bins_e ++ [[at_ 14 20;17;18];[at_ 15 0;3;5]]], [Some (at_ 16 40)]).
Proof. reflexivity. Qed.

(** test_time_grouper_agg_sum_filters_and_no_filter *)
Definition at_least (n : Z) : option (list trow -> res (list bool)) := Some (fun l => Ok (map (fun r => n <=? snd (fst r)) l)).
Definition on_filter {PB} (i : nat) (c : bconf PB) : bconf PB :=
  mkBconf i (c_agg c) (c_by c) (c_snap c) (c_two c) (c_post c) (c_max c) (c_size c) (c_size_snap c) (c_nirgs c).
Definition run_f := let* g := tinit tt [plain; on_filter 1 plain; on_filter 2 plain] in
  let fs := [(0%nat, None); (1%nat, at_least 2); (2%nat, at_least 3)] in
  let* g := tagg1 24 fs [seed_b] true true g in tagg1 24 fs [seed_b2] true true g.
Example filters_and_no_filter : shows mains run_f =
  Ok [at_hours [(8,3);(9,3);(10,7);(11,3)]; at_hours [(8,2);(9,3);(10,6);(11,3)]; at_hours [(9,3);(10,4);(11,3)]].
Proof. reflexivity. Qed.

(** test_exception_unordered_seed: results of the first chunk are written, and the exception is raised after. *)
Definition run_g := let* g := tinit tt [conf_d] in tagg 24 no_filter [rows_at [(8,0,1);(8,30,2);(9,0,3)]; rows_at [(9,30,4);(9,10,5)]] false false true g.
Example unordered_seed : shows (fun x => (groups (fst x), snd x)) run_g = Ok ([(Some [at_hours [(8,3);(9,3)]], None, Some (at_ 9 0))], Some SeedPre).
Proof. reflexivity. Qed.

(** test_post_with_warm_up: sum of the last ten values. The buffer keeps the ten last rows. *)
Fixpoint rolling (n : nat) (l : list row) : list row :=
  match l with
  | [] => []
  | _ :: l' => (if (n <=? length l)%nat then [[nth 0 (nth (n - 1) l []) 0; fold_right Z.add 0 (map (fun r : row => nth 1 r 0) (firstn n l))]] else []) ++ rolling n l'
  end.
Definition warm_post (pb : list row) (bin : WrModel.frame) (snap : option WrModel.frame) : res (post_res * list row) :=
  let l := match pb, rows bin with
           | [], l => l
           | _, r :: _ => (if nth 0 (last pb []) 0 =? nth 0 r 0 then removelast pb else pb) ++ rows bin
           | _, [] => pb
           end in
  Ok (POne (if (10 <=? length l)%nat then Some (mkFrame 2 (rolling 10 l)) else None), skipn (length l - 10) l).
Definition first_agg : aggspec := [(10%nat, (1%nat, Some First))].
Definition conf_h : bconf (list row) := mkBconf 0 first_agg (ByTime (mkTG 2 SLeft SLeft OEpoch 0)) None false (Some warm_post) 15 (Some 10) None None.
Definition seed_h : list trow := map (fun i => (at_ 8 0 + 2 * (Z.of_nat i - 1), Z.of_nat i, true)) (seq 1 20).
Definition posts {PB} (g : tstream PB) := map (fun x => option_map (@m_post unit (@segbuf Z) PB) (md_of (s_main (snd x)))) (g_keys g).
Definition rows_h : list row := map (fun r : trow => [tidx r; snd (fst r)]) seed_h.
Definition run_h := let* g1 := tinit [] [conf_h] in let* g1 := tagg1 24 no_filter [firstn 5 seed_h] true false g1 in
  let* g2 := tagg1 24 no_filter [slice 5 8 seed_h; slice 8 14 seed_h] true false g1 in
  let* g3 := tagain [] g2 in let* g3 := tagg1 24 no_filter [skipn 14 seed_h] true false g3 in
  Ok (posts g1, (mains g2, posts g2), (mains g3, posts g3)).
Example post_with_warm_up : run_h = Ok ([Some (firstn 5 rows_h)], ([rolling 10 (firstn 14 rows_h)], [Some (slice 4 14 rows_h)]),
  ([rolling 10 rows_h], [Some (skipn 10 rows_h)])).
Proof. reflexivity. Qed.
Example rolling_value : rolling 10 (firstn 11 rows_h) = [[at_ 8 18; 55]; [at_ 8 20; 65]].
Proof. reflexivity. Qed.

(** test_3_keys_bins_snaps_filters, data streams 1 to 7, without 'post': snapshots are those of a single 'cumsegagg'. Calls do not trim the start of
    seed data, and do not discard its last rows. *)
Definition minutes (n : Z) : tgrouper := mkTG n SLeft SRight OEpoch 0.
Definition first_last : aggspec := [(10%nat, (1%nat, Some First)); (11%nat, (1%nat, Some Last))].
Definition conf_i (f : nat) (n : Z) (two : bool) : bconf unit := mkBconf f first_last (ByTime (minutes n)) (Some (minutes 5)) two None 400 (Some 5) (Some 5) None.
Definition fs_i : list (nat * option (list trow -> res (list bool))) :=
  [(1%nat, Some (fun l => Ok (map (fun r => snd r) l))); (2%nat, Some (fun l => Ok (map (fun r => negb (snd r)) l)))].
Definition ints_i : list Z := [2;3;4;7;10;14;14;14;16;17;24;29;30;31;32;33;36;37;39;45;48;49;50;54;54;56;58;59;60;61;64;65;77;89;90;90;90;94;98;98;
  99;100;103;104;108;113;114;115;117;117].
Definition seed_i : list trow := map (fun x => (snd x, snd x, Nat.odd (fst x))) (combine (seq 0 50) ints_i).
(** '.loc' includes both ends: row 27 is given twice. *)
Definition stream_1 := [firstn 28 seed_i; skipn 27 seed_i].
Definition stream_2 : list (list trow) := [[(117, 118, true); (122, 127, true)]].
Definition stream_4 : list (list trow) := [[(122, 167, true)]].
Definition stream_5 : list (list trow) := [[(122, 167, false)]; [(172, 217, false)]].
Definition stream_6 : list (list trow) := [[(172, 227, true)]; [(172, 237, true)]; [(172, 247, true)]].
Definition stream_7 : list (list trow) := [[(180,1,true);(183,3,true);(184,4,true);(187,7,true)];[(190,10,true);(194,14,true);(194,14,true);(194,14,true);(196,16,true);(197,17,true)]].
Definition confs_i (two : bool) := [conf_i 1 10 two; conf_i 2 20 two; conf_i 1 2 two].
Definition tbatch {PB} (c : bconf PB) (l : list trow) : list row * list row :=
  match batch (fun _ => Znum) tval tdtypes tidx c l with
  | Ok (Some (b, s)) => (rows (table tenc (c_agg c) b), match s with Some s => rows (table tenc (c_agg c) s) | None => [] end)
  | _ => ([], [])
  end.
Definition kept (f : nat) (l : list trow) := filter (fun r : trow => if Nat.eqb f 1 then snd r else negb (snd r)) l.
Definition batches {PB} (cs : list (bconf PB)) (l : list trow) := map (fun c => tbatch c (kept (c_filter c) l)) cs.
Definition both {PB} (g : tstream PB) : list (list row * list row) := map (fun x => (all_rows (data_of (s_main (snd x))), all_rows (data_of (s_snap (snd x))))) (g_keys g).
Definition restarts {PB} (g : tstream PB) := map snd (groups g).
Definition agg_i final seed (g : tstream unit) : res (tstream unit) :=
  let* '(g, e) := tagg 24 fs_i seed false false final g in match e with None => Ok g | Some e => Err e end.
Definition run_i two := let* g := tinit tt (confs_i two) in
  let* g1 := agg_i true stream_1 g in let* g2 := agg_i false stream_2 g1 in
  let* g3 := agg_i true [] g2 in let* g4 := agg_i true stream_4 g3 in let* g5 := agg_i true stream_5 g4 in
  let* g6 := agg_i true stream_6 g5 in let* g7 := agg_i true stream_7 g6 in Ok [g1; g2; g3; g4; g5; g6; g7].
(** Columns FIRST and LAST of the hard recorded results for key3. *)
Definition key3_first := [-1;-1;14;-1;-1;29;-1;-1;-1;49;54;59;-1;-1;-1;-1;-1;89;94;98;104;-1;-1;-1].
Definition enc_1 (o : option Z) : Z := match o with Some v => v | None => -1 end.
Definition key3 : list row := map (fun x => [5 * Z.of_nat (fst x); snd x; snd x]) (combine (seq 1 24) (map (fun v => if v =? -1 then -999 else v) key3_first)).
Example three_keys_reference : snd (tbatch (conf_i 1 2 false) (kept 1 (concat stream_1))) = key3.
Proof. reflexivity. Qed.
Definition upto (n : nat) : list trow := concat (firstn n [concat stream_1; concat stream_2; concat stream_4; concat stream_5; concat stream_6; concat stream_7]).
Example three_keys_snaps : shows (map (fun g => (mains g, restarts g))) (run_i false) =
  Ok (map (fun n => (map snd (batches (confs_i false) (upto (fst n))), repeat (Some (snd n)) 3)) [(1%nat,117);(1%nat,117);(2%nat,122);(3%nat,122);(4%nat,172);(5%nat,172);(6%nat,197)]).
Proof. vm_compute. reflexivity. Qed.
Example three_keys_both : shows (map both) (run_i true) = Ok (map (fun n => batches (confs_i true) (upto n)) [1;1;2;3;4;5;6]%nat).
Proof. vm_compute. reflexivity. Qed.

(** test_exception_different_indexes_at_restart, with seed_a as data *)
Definition store_of {PB} (g : tstream PB) := map (fun x => (fst (fst x), snd x)) (g_keys g).
Definition run_j := let* g1 := tinit tt [conf_a] in let* g1 := tagg1 24 no_filter [firstn 10 seed_a] true true g1 in
  let* g2 := tinit tt [conf_d] in let* g2 := tagg1 24 no_filter [seed_a] true true g2 in init tt segbuf_empty tt (store_of g1 ++ store_of g2).
Example different_indexes_at_restart : shows groups run_j = Err ValueError.
Proof. reflexivity. Qed.

(** test_exception_two_keys_but_single_result_from_post *)
Definition one_post (pb : unit) (bin : WrModel.frame) (snap : option WrModel.frame) : res (post_res * unit) := Ok (POne (Some bin), tt).
Definition conf_k : bconf unit := mkBconf 0 first_last (ByTime (minutes 10)) (Some (minutes 5)) true (Some one_post) 400 (Some 5) (Some 5) None.
Example two_keys_single_result : shows (fun x => groups (fst x)) (let* g := tinit tt [conf_k] in tagg 24 no_filter [seed_i] false false true g) = Err ValueError.
Proof. reflexivity. Qed.
