(** Unit tests of the repository, on the model: tests/test_aggstream/test_aggstream_init.py, and 'setup_segmentby' in
    tests/test_aggstream/test_segmentby.py. *)
Require Import String List Arith ZArith Bool.
Require Import Verif.Common Verif.SegModel Verif.MetaModel Verif.ConfModel.
Import ListNotations.
Local Open Scope string_scope.
Local Open Scope list_scope.

(** test_setup_segmentby *)
Definition cols_order (r : res segcfg) : res (list SegModel.name * SegModel.name) := let* c := r in Ok (cfg_on_cols c, cfg_ordered_on c).
Definition dti := Some "dti".
Example setup_0 : cols_order (setup_segmentby (BinTG dti SLeft) None None SnapNone) = Ok ([dti], dti). Proof. reflexivity. Qed.
Example setup_1 : cols_order (setup_segmentby (BinTG dti SLeft) dti None SnapNone) = Ok ([dti], dti). Proof. reflexivity. Qed.
Example setup_2 : cols_order (setup_segmentby (BinTG dti SLeft) None dti SnapNone) = Ok ([dti], dti). Proof. reflexivity. Qed.
Example setup_3 : cols_order (setup_segmentby BinCallable dti (Some "ordered_on") SnapNone) = Ok ([dti; Some "ordered_on"], Some "ordered_on").
Proof. reflexivity. Qed.
Example setup_4 : cols_order (setup_segmentby BinCallable dti None SnapNone) = Ok ([dti], None). Proof. reflexivity. Qed.
Example setup_5 : cols_order (setup_segmentby BinCallable dti None (SnapTG (Some "dti2") SLeft)) = Ok ([dti; Some "dti2"], Some "dti2").
Proof. reflexivity. Qed.
(** test_setup_segmentby_exception *)
Example setup_exc :
  map (fun t => match t with (a, b, c, d) => setup_segmentby a b c d end)
    [(BinTG None SLeft, None, None, SnapNone); (BinTG (Some "dti1") SLeft, Some "dti2", None, SnapNone);
     (BinTG (Some "dti1") SLeft, None, Some "dti2", SnapNone); (BinCallable, None, None, SnapNone);
     (BinTG (Some "dti1") SLeft, None, None, SnapTG (Some "dti2") SLeft); (BinTG dti SLeft, None, None, SnapTG dti SRight);
     (BinCallable, dti, None, SnapVals)] = repeat (Err ValueError) 7.
Proof. reflexivity. Qed.

(** test_aggstream_init, without the segmentation. *)
Definition shown (r : keys_arg * res aggstream) :=
  let* a := snd r in
  Ok (a_filters a, a_filter_apps a, map (fun kc => (fst kc, (kc_bin_on_out (snd kc), kc_post (snd kc), kc_max (snd kc), kc_write (snd kc)),
                                                    (kc_type (snd kc), kc_agg (snd kc)))) (a_keys a)).
Definition always_true := PCallable 1.
Definition always_false := PCallable 2.
Definition out_dflt := PAgg ["out_dflt"] 3.
Definition out_spec := PAgg ["out_spec"] 4.
Definition hour (s : string) := PGrouper (Some s) SLeft 5.
Example init_1 :
  shown (agg_stream (mkParams "ts" (OneKey (One 1)) None (PAgg ["agg_out"] 3) (hour "ts") PNone PNone PNone 140 [("max_row_group_size", PNum 6)])) =
  Ok ([("_", NoFilter)], [("_", [One 1])],
      [(One 1, (PName "ts", PNone, PNum 146800640, [("ordered_on", PName "ts"); ("max_row_group_size", PNum 6); ("duplicates_on", PName "ts")]),
        (BINS, PAgg ["agg_out"] 3))]).
Proof. reflexivity. Qed.
Definition kwargs_2 : conf := [("max_row_group_size", PNum 1000); ("max_nirgs", PNum 4)].
Definition write_2 (ordered : string) (size : Z) (dups : string) : conf :=
  [("ordered_on", PName ordered); ("max_row_group_size", PNum size); ("max_nirgs", PNum 4); ("duplicates_on", PName dups)].
Example init_2 :
  shown (agg_stream (mkParams "ts_dflt"
    (Keys [(One 1, [("agg", out_spec); ("bin_by", hour "ts_dflt"); ("post", always_false); ("max_in_memory_size", PNum 1)]);
           (One 2, [("agg", out_spec); ("bin_by", always_true); ("post", PNone); ("max_row_group_size", PNum 3000); ("ordered_on", PName "ts_spec")]);
           (One 3, [("bin_by", always_false); ("bin_on", PPair (PName "bin_on_spec") (PName "bin_out_spec"))]);
           (One 4, [("bin_by", hour "ts_dflt"); ("ordered_on", PName "ts_spec")])])
    None out_dflt PNone PNone PNone always_true 10 kwargs_2)) =
  Ok ([("_", NoFilter)], [("_", [One 1; One 2; One 3; One 4])],
      [(One 1, (PName "ts_dflt", always_false, PNum 1048576, write_2 "ts_dflt" 1000 "ts_dflt"), (BINS, out_spec));
       (One 2, (PNone, PNone, PNum 10485760, write_2 "ts_spec" 3000 "ts_spec"), (BINS, out_spec));
       (One 3, (PName "bin_out_spec", always_true, PNum 10485760, write_2 "ts_dflt" 1000 "bin_out_spec"), (BINS, out_dflt));
       (One 4, (PName "ts_dflt", always_true, PNum 10485760, write_2 "ts_spec" 1000 "ts_dflt"), (BINS, out_dflt))]).
Proof. reflexivity. Qed.
Example init_3 :
  shown (agg_stream (mkParams "ts_dflt"
    (FilterKeys
      [("filter1", [(One 1, [("agg", out_spec); ("bin_by", hour "ts_dflt"); ("post", always_false)]);
                    (One 2, [("agg", out_spec); ("bin_by", always_true); ("post", PNone); ("max_row_group_size", PNum 3000); ("ordered_on", PName "ts_spec");
                             ("max_in_memory_size", PNum 1)]);
                    (One 3, [("bin_by", always_false); ("bin_on", PPair (PName "bin_on_spec") (PName "bin_out_spec"))])]);
       ("filter2", [(One 4, [("bin_by", hour "ts_dflt"); ("ordered_on", PName "ts_spec")])])])
    (Some [("filter1", FList [FTuple 1]); ("filter2", FList [FOther 2])]) out_dflt PNone PNone (hour "ts_dflt") always_true 10 kwargs_2)) =
  Ok ([("filter1", Enclosed [FTuple 1]); ("filter2", AsIs [FOther 2])], [("filter1", [One 1; One 2; One 3]); ("filter2", [One 4])],
      [(One 4, (PName "ts_dflt", always_true, PNum 10485760, write_2 "ts_spec" 1000 "ts_dflt"), (SNAPS, out_dflt));
       (One 1, (PName "ts_dflt", always_false, PNum 10485760, write_2 "ts_dflt" 1000 "ts_dflt"), (SNAPS, out_spec));
       (One 2, (PNone, PNone, PNum 1048576, write_2 "ts_spec" 3000 "ts_spec"), (SNAPS, out_spec));
       (One 3, (PName "bin_out_spec", always_true, PNum 10485760, write_2 "ts_dflt" 1000 "bin_out_spec"), (SNAPS, out_dflt))]).
Proof. reflexivity. Qed.
(** test_exceptions_Aggstream_parameters *)
Definition exc (keys : keys_arg) (filters : option (dict filt)) (kwargs : conf) : res aggstream :=
  snd (agg_stream (mkParams "ts" keys filters PNone PNone PNone PNone PNone 140 kwargs)).
Definition k_agg : list (ckey * conf) := [(One 1, [("agg", out_spec)])].
Definition val := FList [FOther 1; FOther 2; FOther 3].
Example init_exc :
  [exc (Keys k_agg) None []; exc (Keys k_agg) None [("my_invented_parameter", PNum 0)];
   exc (FilterKeys [("filter1", k_agg)]) (Some [("filter2", val)]) []; exc (FilterKeys [("filter1", k_agg)]) None [];
   exc (FilterKeys [("_", k_agg)]) (Some [("_", val)]) [];
   exc (FilterKeys [("filter1", k_agg); ("filter2", k_agg)]) (Some [("filter1", val); ("filter2", val)]) []] = repeat (Err ValueError) 6.
Proof. reflexivity. Qed.
