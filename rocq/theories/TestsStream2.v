(** More unit tests of /repo/tests/test_aggstream/test_aggstream_simple.py and test_aggstream_advanced.py run on the model: results ordered on
    another column, bins made by a function of the user, keys recording bins, snapshots or both, 'pre' with a buffer. Same conventions as in TestsStream.v; tests with random data
    are run on other data. *)
Require Import List Arith ZArith Bool.
Require Import Verif.Common Verif.AggModel Verif.SegModel Verif.CsaModel Verif.CsaSpec Verif.StreamModel Verif.KeyModel.
Require Import Verif.WrModel Verif.AggSpec Verif.OrderModel Verif.UserKeyModel Verif.OrderUserModel Verif.TestsStream.
Import ListNotations.
Local Open Scope Z_scope.

Definition okey {PB} (o : oconf PB) := order_key (fun _ => Znum) tval tdtypes tidx tenc o.
Definition oinit {PB} (pb : PB) (os : list (oconf PB)) : res (tstream PB) := init tt segbuf_empty pb (map (fun o => (okey o, mkStore None None)) os).

(** test_seed_time_grouper_bin_on_as_tuple: results ordered on the last time stamp of bins. *)
Definition last_sum : aggspec := [(10%nat, (0%nat, Some Last)); (11%nat, (1%nat, Some Sum))].
Definition tuple_conf (n : Z) : oconf unit := mkOconf (mkBconf 0 last_sum (ByTime (hours 1)) None false None n (Some 4) None None) 1 [0%nat].
Definition tuple_seed := rows_at [(8,0,1);(8,30,2);(9,0,3);(9,30,4);(10,0,5);(10,20,6);(10,40,7);(11,0,8);(11,30,9);(12,0,10)].
Definition tuple_more := rows_at [(12,30,11);(13,0,12);(13,30,13);(14,0,14)].
Definition tuple_run := let* g := oinit tt [tuple_conf 10] in let* g := tagg1 24 no_filter (cut [0;4;6]%nat tuple_seed) true true g in
  let* h := tagg1 24 no_filter (cut [0;4;6]%nat tuple_seed ++ [tuple_more]) true true g in Ok (mains g, mains h).
Definition tuple_rows : list row := [[at_ 8 0; at_ 8 30; 3]; [at_ 9 0; at_ 9 30; 7]; [at_ 10 0; at_ 10 40; 18]; [at_ 11 0; at_ 11 30; 17]].
Example bin_on_as_tuple : tuple_run = Ok ([tuple_rows], [tuple_rows ++ [[at_ 12 0; at_ 12 30; 21]; [at_ 13 0; at_ 13 30; 25]]]).
Proof. reflexivity. Qed.
(** The same with a first run which does not end at the limit of a bin: label 9:00 is recorded twice. *)
Definition tuple_run_bis := let* g := oinit tt [tuple_conf 10] in let* g := tagg1 24 no_filter [firstn 4 tuple_seed] true true g in
  let* h := tagg1 24 no_filter [firstn 6 tuple_seed] true true g in Ok (mains g, mains h).
Example bin_on_as_tuple_bis : tuple_run_bis = Ok ([[[at_ 8 0; at_ 8 30; 3]; [at_ 9 0; at_ 9 0; 3]]],
  [[[at_ 8 0; at_ 8 30; 3]; [at_ 9 0; at_ 9 0; 3]; [at_ 9 0; at_ 9 30; 7]; [at_ 10 0; at_ 10 0; 5]]]).
Proof. reflexivity. Qed.

(** test_time_grouper_duplicates_on_wo_bin_on: no column in 'duplicates_on'; the other column of time stamps is not used. *)
Definition wo_conf : oconf unit := mkOconf (mkBconf 0 sum_agg (ByRows 4 SLeft) None false (Some (fun pb bin _ => Ok (POne (Some bin), pb))) 1000000 (Some 100) None None) 0 [].
Example duplicates_on_wo_bin_on : shows mains (let* g := oinit tt [wo_conf] in tagg1 24 no_filter [rows_at [(8,0,1);(8,30,2);(9,0,3);(9,30,4)]] true true g) = Ok [[[at_ 8 0; 6]]].
Proof. reflexivity. Qed.

(** test_different_ordered_on: 'post' drops labels, which are in 'duplicates_on'. *)
Definition drop_first (pb : unit) (bin : WrModel.frame) (snap : option WrModel.frame) : res (post_res * unit) :=
  Ok (POne (Some (mkFrame (ncols bin - 1) (map (fun r : row => skipn 1 r) (rows bin)))), pb).
Definition val_conf (n : Z) : oconf unit := mkOconf (mkBconf 0 first_agg (ByTime (hours 1)) None false (Some drop_first) n (Some 3) None None) 0 [1%nat].
Definition val_run := let* g := oinit tt [val_conf 5] in tagg1 24 no_filter [seed_d] true false g.
Example different_ordered_on : shows groups val_run = Ok [(Some [[[1];[3];[5]]; [[8];[10];[13]]; [[16]]], None, Some (at_ 14 10))].
Proof. reflexivity. Qed.
(** A second run raises 'KeyError'. *)
Example different_ordered_on_bis : shows groups (let* g := val_run in tagg1 24 no_filter [rows_at [(14,20,18);(15,10,19)]] true false g) = Err KeyError.
Proof. reflexivity. Qed.

(** test_3_keys_recording_bins_snaps_filters_restart, with and without 'post', which adds 1 to values. *)
Definition plus_one (f : WrModel.frame) : WrModel.frame := mkFrame (ncols f) (map (fun r : row => firstn 1 r ++ map (fun v => if v =? -999 then v else v + 1) (skipn 1 r)) (rows f)).
Definition post_bin_snap (pb : unit) (bin : WrModel.frame) (snap : option WrModel.frame) : res (post_res * unit) :=
  Ok (match snap with None => POne (Some (plus_one bin)) | Some s => PTwo (Some (plus_one bin)) (Some (plus_one s)) end, pb).
Definition post_only_snap (pb : unit) (bin : WrModel.frame) (snap : option WrModel.frame) : res (post_res * unit) := Ok (POne (option_map plus_one snap), pb).
Definition rec_confs (with_post : bool) (n : Z) : list (bconf unit) :=
  let p := if with_post then Some post_bin_snap else None in
  [mkBconf 1 first_last (ByTime (minutes 10)) (Some (minutes 5)) true p n (Some 8) (Some 5) None;
   mkBconf 1 first_last (ByTime (minutes 2)) None false p n (Some 5) None None;
   mkBconf 2 first_last (ByTime (minutes 20)) (Some (minutes 5)) false (if with_post then Some post_only_snap else None) n (Some 5) (Some 5) None].
Definition rec_run with_post := let* g := tinit tt (rec_confs with_post 400) in
  let* g := agg_i true [firstn 17 seed_i; slice 17 31 seed_i] g in
  let* h := init tt segbuf_empty tt (combine (map tkey (rec_confs with_post 1000000)) (map snd (g_keys g))) in
  let* h := agg_i true [skipn 31 seed_i] h in Ok (g, h).
Definition recorded (with_post : bool) : list (list row * list row) :=
  let f := if with_post then (fun l => rows (plus_one (mkFrame 3 l))) else (fun l => l) in
  map (fun x => (f (fst x), f (snd x))) (match batches (rec_confs false 0) seed_i with [a; b; c] => [a; b; (snd c, [])] | l => l end).
Example recording_restart : forall with_post, shows (fun x => both (snd x)) (rec_run with_post) = Ok (recorded with_post).
Proof. intros [|]; vm_compute; reflexivity. Qed.
(** Both values of 'max_row_group_size' are used. *)
Definition sizes (o : option (list (list row))) : list nat := match o with Some l => map (@length row) l | None => [] end.
Example recording_sizes : forall with_post, shows (fun x => match groups (fst x) with (m, s, _) :: _ => (sizes s, sizes m) | [] => ([], []) end) (rec_run with_post) = Ok ([5; 5; 3], [7])%nat.
Proof. intros [|]; vm_compute; reflexivity. Qed.

(** test_exception_seed_check_and_restart: 'pre' refuses a chunk starting with a given time stamp, and keeps the last value of a chunk (plus 10
    from the second chunk on). *)
Definition check_pre (l : list trow) (p : option Z) : list trow * option Z * bool :=
  match l with
  | r :: _ => if tidx r =? 24 then (l, p, false)
              else (l, Some (snd (fst (last l r)) + match p with Some _ => 10 | None => 0 end), true)
  | [] => (l, p, true)
  end.
Definition first_max_conf : bconf unit := mkBconf 2 first_max (ByTime (hours 1)) None false None 400 (Some 6) None None.
Definition check_confs : list (bconf unit) := [mkBconf 1 first_last (ByTime (mkTG 2 SLeft SLeft OEpoch 0)) None false None 400 (Some 6) None None; first_max_conf].
Definition check_init (l : list (kconf trow (@segbuf Z) unit * kstore (option Z) (@segbuf Z) unit)) := init None segbuf_empty tt l.
Definition check_agg seed (g : stream trow (option Z) (@segbuf Z) unit) := agg tidx (fun _ => true) (usage_row 24) (Some check_pre) fs_i g seed false false true.
Definition check_seed : list trow := firstn 20 seed_i.
Definition check_fixed : list trow := map (fun r : trow => if tidx r =? 24 then (25, snd (fst r), snd r) else r) (skipn 10 check_seed).
Definition pres (g : stream trow (option Z) (@segbuf Z) unit) := map (fun x => option_map (fun m => (m_restart m, m_pre m)) (md_of (s_main (snd x)))) (g_keys g).
Definition check_rows (g : stream trow (option Z) (@segbuf Z) unit) := map (fun x => all_rows (data_of (s_main (snd x)))) (g_keys g).
Definition check_run := let* g := check_init (map (fun c => (tkey c, mkStore None None)) check_confs) in
  let* '(g, e) := check_agg [firstn 10 check_seed; skipn 10 check_seed] g in
  let* '(h, e') := check_agg [check_fixed] g in
  let* i := check_init (map (fun x => (fst (fst x), snd x)) (g_keys h)) in
  Ok ((e, pres g), (e', pres h, check_rows h), g_pre i).
Example seed_check_and_restart : check_run = Ok ((Some SeedPre, [Some (17, Some 17); Some (17, Some 17)]),
  (None, [Some (45, Some 55); Some (45, Some 55)], map fst (batches check_confs (firstn 10 check_seed ++ check_fixed))), Some 55).
Proof. vm_compute. reflexivity. Qed.

(** test_3_keys_only_bins: bins of 2 and 13 minutes, and of 4 rows; seed data grows twice, row groups of 6 rows. *)
Definition min_max : aggspec := [(10%nat, (1%nat, Some Min)); (11%nat, (1%nat, Some Max))].
Definition only_bins_confs : list (bconf unit) :=
  [mkBconf 0 first_last (ByTime (mkTG 2 SLeft SLeft OEpoch 0)) None false None 400 (Some 6) None None;
   mkBconf 0 first_max (ByTime (mkTG 13 SLeft SLeft OEpoch 0)) None false None 400 (Some 6) None None;
   mkBconf 0 min_max (ByRows 4 SLeft) None false None 400 (Some 6) None None].
Definition drawn : list Z := [2;3;14;14;24;25;28;29;30;40;42;47;51;53;57;59;75;79;82;82;82;86;94;95].
Definition drawn_rows (start more : Z) : list trow := map (fun z => (start + z, z + more, true)) drawn.
Definition only_bins_1 := drawn_rows 0 0.
Definition only_bins_2 := only_bins_1 ++ drawn_rows 95 100.
Definition only_bins_3 := only_bins_2 ++ drawn_rows 190 400.
Definition by_six (l : list trow) := cut (map (fun i => 6 * i)%nat (seq 0 (length l / 6))) l.
Definition only_bins_run := let* g1 := tinit tt only_bins_confs in let* g1 := tagg1 24 no_filter (by_six only_bins_1) true true g1 in
  let* g2 := tagg1 24 no_filter (by_six only_bins_2) true true g1 in let* g3 := tagg1 24 no_filter (by_six only_bins_3) true true g2 in Ok (mains g1, mains g2, mains g3).
Definition at_once (l : list trow) := map (fun c => fst (tbatch c l)) only_bins_confs.
Definition before_last (l : list trow) := filter (fun r => tidx r <? tidx (last l (0, 0, true))) l.
Example three_keys_only_bins : only_bins_run =
  Ok (at_once (before_last only_bins_1), at_once (before_last only_bins_2), at_once (before_last only_bins_3)).
Proof. vm_compute. reflexivity. Qed.
Example three_keys_rows : shows (fun x => firstn 2 (nth 2 (fst (fst x)) [])) only_bins_run = Ok [[2; 2; 14]; [24; 24; 29]].
Proof. vm_compute. reflexivity. Qed.

(** test_by_callable_with_bin_on: 'by_1val', bins starting each time a 1 is in the column of values, labelled with their time stamp; the
    buffer holds 'last_key' once set. Results are ordered on column 'ts', duplicates are found on this column and the maximum. *)
Definition is_one (r : trow) : bool := tval r 1%nat =? 1.
Definition by_1val (on : list trow) (buffer : option (option Z)) : res (seg * option (option Z)) :=
  let ncs := filter (fun i => match nth_error on i with Some r => is_one r | None => false end) (seq 0 (length on)) in
  let ts := fun i => tidx (nth i on (0, 0, true)) in
  let* '(ncs, first_lab) := match buffer with
    | Some (Some k) => Ok (ncs, k)
    | _ => match filter (fun i => match nth_error on i with Some r => negb (is_one r) | None => false end) (seq 0 (length on)) with
           | [] => Err IndexError
           | O :: _ => Ok (ncs, ts O)
           | S i :: _ => Ok (skipn (S i) ncs, ts i)
           end
    end in
  let labels := first_lab :: map ts ncs in
  Ok (mkSeg (ncs ++ [length on]) labels 0 SLeft (map Z.of_nat (ncs ++ [length on])) true 0, option_map (fun _ => Some (last labels 0)) buffer).
Definition first_ts_max : aggspec := [(10%nat, (0%nat, Some First)); (11%nat, (1%nat, Some Max))].
Definition one_conf : uconf trow (option Z) unit := mkUconf 0 first_ts_max by_1val None None false None 7 (Some 4) None None.
Definition one_key := order_user_key (fun _ => Znum) tval tdtypes tidx tenc (mkUoconf one_conf 1 [1; 2]%nat).
Definition one_seed := rows_at [(8,0,1);(8,30,2);(9,0,3);(9,30,1);(10,0,5);(10,20,6);(10,40,7);(11,0,8);(11,30,1);(12,0,10);(12,20,11);(12,40,12);(13,0,1);
  (13,20,14);(13,40,15);(14,0,16);(14,20,1);(14,20,18)].
Definition one_more := one_seed ++ rows_at [(14,20,1);(14,30,2);(15,0,3);(15,30,1);(16,0,5);(16,40,6);(16,40,7)].
Notation one_stream := (stream trow unit (option (csabuf (option Z) Z)) unit).
Definition one_agg seed (g : one_stream) : res one_stream :=
  let* '(g, e) := agg tidx (fun _ => true) (usage_row 24) None no_filter g seed true true true in match e with None => Ok g | Some e => Err e end.
Definition one_shown (g : one_stream) := map (fun x => (all_rows (data_of (s_main (snd x))), option_map (fun m => m_restart m) (md_of (s_main (snd x))))) (g_keys g).
Definition one_run := let* g := init tt (Some csabuf_empty) tt [(one_key, mkStore None None)] in let* g := one_agg (cut [0;13]%nat one_seed) g in
  let* h := one_agg (cut [0;13]%nat one_more) g in Ok (one_shown g, one_shown h).
Definition one_rows : list row := [[at_ 8 0; at_ 8 0; 3]; [at_ 9 30; at_ 9 30; 8]; [at_ 11 30; at_ 11 30; 12]; [at_ 13 0; at_ 13 0; 16]].
Example by_callable_with_bin_on : one_run = Ok ([(one_rows, Some (at_ 14 20))],
  [(one_rows ++ [[at_ 14 20; at_ 14 20; 18]; [at_ 14 20; at_ 14 20; 3]; [at_ 15 30; at_ 15 30; 5]], Some (at_ 16 40))]).
Proof. vm_compute. reflexivity. Qed.
