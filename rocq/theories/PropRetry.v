(** Properties of calls made one after the other in a same process, some of which raise. *)
Require Import List Arith ZArith Bool Lia.
Require Import Verif.RecordProofs.
Require Import Verif.Common Verif.AggModel Verif.AggSpec Verif.SegModel Verif.CsaModel Verif.CsaSpec Verif.WrModel Verif.StreamModel Verif.RaiseModel Verif.StreamSpec Verif.KeyModel Verif.TableProofs
  Verif.BatchSpec Verif.PropBatch Verif.RetryModel Verif.RetrySpec Verif.RetryProofs.
Require Verif.IterProofs.
Import ListNotations.
Local Open Scope Z_scope.

(** Keys, with their datasets. *)
Definition datasets {D P SB PB} (g : stream D P SB PB) : list (kconf D SB PB * kstore P SB PB) := map (fun x => let '(k, b, s) := x in (k, s)) (g_keys g).
Definition process {D P SB PB} (g : @pstream D P SB PB) : stream D P SB PB := mkStream (p_restart g) (p_pre g) (map fst (p_keys g)) [].

Lemma same_process : forall {D P SB PB} (g : stream D P SB PB), same_stream g (new_process g) /\ pending (new_process g) = false /\ pks (new_process g) = datasets g.
Proof.
  intros D P SB PB g. assert (Q : map fst (p_keys (new_process g)) = g_keys g) by (cbn [new_process p_keys]; rewrite map_map; cbn; apply map_id).
  split; [split; [|split]; auto|]. split; [|unfold pks; rewrite Q; auto]. apply not_pending. intros x Hx. apply in_map_iff in Hx as (y & <- & _). auto.
Qed.

(** ** C69: calls which raise, then are made again in a same process *)

(** Calls in a same process have the effects on datasets of runs in separate processes, those which raise being interrupted, if
    metadata left pending by a call which raises is overwritten at the next one. *)
Theorem C69_same_process : forall {D P SB PB} (idx : D -> Z) truthy usage (pre : option (list D -> P -> list D * P * bool)) fs pre0 (seg0 : SB) (post0 : PB) (g0 : stream D P SB PB) xs gp tr,
  (forall i, truthy i = true) -> (forall s, In s (map snd (g_keys g0)) -> s_main s <> None) ->
  attempts idx truthy usage pre fs pre0 seg0 post0 (new_process g0) xs = Ok (gp, tr) -> renewed false xs tr -> settled false xs tr ->
  exists ys g, map run_of ys = map at_run xs /\ restarted false ys /\ step_all idx truthy usage pre fs pre0 seg0 post0 g0 ys = Ok g /\ datasets g = datasets (process gp) /\
    Forall2 (fun y o => match y with Complete _ => fst o = Ok None | Interrupted _ _ => fst o <> Ok None end) ys tr.
Proof.
  intros D P SB PB idx truthy usage pre fs pre0 seg0 post0 g0 xs gp tr Ht Hm E Hr Hs. destruct (same_process g0) as (A & B & C).
  destruct (attempts_steps idx truthy usage pre fs pre0 seg0 post0 xs false g0 (new_process g0) gp tr) as (ys & g & R1 & R2 & R3 & R4 & R5); auto.
  - intros [k s] Hx. cbn. rewrite C in Hx. apply in_map_iff in Hx as ([[k' b] s'] & Q & Hx). injection Q as -> ->. apply Hm. apply in_map_iff. exists (k, b, s). auto.
  - rewrite B. auto.
  - exists ys, g. repeat split; auto.
Qed.
Print Assumptions C69_same_process.

(** Hence, once the last call has returned and written its results, each key holds the results of a single aggregation. *)
Theorem C69_retried_is_batch : forall {D V P PB} (N : dtype -> num V) val dtypes (idx : D -> Z) enc truthy usage
    (pre : option (list D -> P -> list D * P * bool)) fs gs pre0 post0 (confs : list (bconf PB)) m ms rs g0 xs gp tr x p,
  harmless pre -> filters_are fs gs -> growing idx [] rs -> growing idx (whole_seed [] rs) (map at_run (xs ++ [x])) ->
  stream_ok N val dtypes idx enc gs confs m ms (whole_seed (whole_seed [] rs) (map at_run (xs ++ [x]))) ->
  (forall c, In c confs -> type_of c <> BOTH /\ c_nirgs c = None) -> (forall i, truthy i = true) ->
  run_all idx truthy usage pre fs pre0 segbuf_empty post0 (new_stream pre0 segbuf_empty post0 (map (key_of N val dtypes idx enc) confs)) rs = Ok g0 ->
  (forall s, In s (map snd (g_keys g0)) -> s_main s <> None) ->
  attempts idx truthy usage pre fs pre0 segbuf_empty post0 (new_process g0) (xs ++ [x]) = Ok (gp, tr ++ [(Ok None, p)]) ->
  renewed false (xs ++ [x]) (tr ++ [(Ok None, p)]) -> settled false (xs ++ [x]) (tr ++ [(Ok None, p)]) -> r_final (at_run x) = true ->
  all_batch N val dtypes idx enc gs confs m ms (whole_seed (whole_seed [] rs) (map at_run (xs ++ [x]))) (process gp).
Proof.
  intros D V P PB N val dtypes idx enc truthy usage pre fs gs pre0 post0 confs m ms rs g0 xs gp tr x p Hp Hf Hg Hg1 Hok Hc Ht E0 Hm E Hr Hs Hfin.
  destruct (C69_same_process idx truthy usage pre fs pre0 segbuf_empty post0 g0 _ gp _ Ht Hm E Hr Hs) as (ys & g & R1 & R2 & R3 & R4 & R5).
  apply Forall2_app_inv_r in R5 as (ys1 & ys2 & _ & F2 & ->). inversion F2 as [|y o ys3 os Hy F3]; subst. inversion F3; subst. destruct y as [r|r n]; [|cbn in Hy; congruence].
  assert (Er : r = at_run x). { rewrite !map_app in R1. apply (f_equal (fun l => last l (mkRun false false []))) in R1. cbn [map run_of] in R1. rewrite !last_last in R1. auto. }
  assert (B : all_batch N val dtypes idx enc gs confs m ms (whole_seed (whole_seed [] rs) (map at_run (xs ++ [x]))) g).
  { rewrite <- R1 in *. eapply (C51_interrupted_is_batch N val dtypes idx enc truthy usage pre fs gs pre0 post0 confs m ms rs g0 _ g r); eauto; [apply last_last|rewrite Er; auto]. }
  intros i c Hi. destruct (B i c Hi) as (b & s & Hn & Hb). apply (f_equal (fun l => nth_error l i)) in R4. unfold datasets in R4. rewrite !nth_error_map, Hn in R4. cbn [option_map] in R4.
  destruct (nth_error (g_keys (process gp)) i) as [[[k' b'] s']|]; [|discriminate]. injection R4 as <- <-. eauto.
Qed.
Print Assumptions C69_retried_is_batch.

(** Three calls in a same process: the second one fails when writing its final results, the third one, with a new instance, makes
    intermediate writes with metadata left by the second one, then overwrites it. *)
Notation ex_attempts := (attempts ex_idx (fun _ => true) (fun f => Z.of_nat (length (rows f))) (None : option (list ex_row -> unit -> list ex_row * unit * bool)) ex_fs tt (segbuf_empty : @segbuf Z) 0%nat).
Notation ex_run_p := (run_all ex_idx (fun _ => true) (fun f => Z.of_nat (length (rows f))) (None : option (list ex_row -> unit -> list ex_row * unit * bool)) ex_fs tt (segbuf_empty : @segbuf Z) 0%nat).
Definition ex_whole2 : list (list ex_row) := [concat ex_seed2].
Definition ex_pieces3 : list (list ex_row) := [[(1,1);(2,2);(2,3);(3,4);(4,5);(5,6);(8,7);(9,8)];[(11,10);(12,11)];[(13,12);(20,13)];[(21,15);(21,16);(22,18)]].
Definition lim n : list limit := [(n, true)].
Definition ex_call2 n := mkAttempt false (mkRun true true ex_whole2) (lim n).
Definition ex_call3 new n := mkAttempt new (mkRun true true ex_pieces3) (lim n).
(** Rows of datasets, restart indexes of their metadata and of the pending one. *)
Definition ex_held (g : @pstream ex_row unit (@segbuf Z) nat) :=
  map (fun x => (all_rows (data_of (s_main (snd (fst x)))), match s_main (snd (fst x)) with Some e => option_map m_restart (e_md e) | None => None end, option_map m_restart (snd x))) (p_keys g).
Lemma ex_retried_growing : forall new n l, l = [ex_call2 n; ex_call3 new 100] \/ (exists k, l = [ex_call2 n; ex_call3 new k; ex_call3 false 100]) -> growing ex_idx (whole_seed [] ex_first) (map at_run l).
Proof.
  intros new n l H.
  destruct H as [->|[k ->]]; repeat split; auto; try (apply IterProofs.sortedb_iff; reflexivity); try (apply ex_chunks; reflexivity); extended.
Qed.
Lemma ex_retried_ok : forall l, whole_seed (whole_seed [] ex_first) (map at_run l) = concat ex_pieces3 ->
  stream_ok (fun _ => Znum) ex_val ex_dtypes ex_idx ex_enc ex_gs [ex_C] ex_map ex_map (whole_seed (whole_seed [] ex_first) (map at_run l)).
Proof.
  intros l ->. intros c [<-|[]]. change (concat ex_pieces3) with (whole_seed [] ex_runs). apply ex_stream_ok. unfold ex_confs. simpl. auto.
Qed.
Example ex_C69 : exists g0 gp1 gp, ex_run_p (ex_start [ex_C]) ex_first = Ok g0 /\
  ex_attempts (new_process g0) [ex_call2 0] = Ok (gp1, [(Err OSError, true)]) /\ ex_held gp1 = [([[1; 6; 3]; [3; 15; 6]], Some 8, Some 21)] /\
  ex_attempts (new_process g0) [ex_call2 0; ex_call3 false 100] = Ok (gp, [(Err OSError, true); (Ok None, false)]) /\
  all_batch (fun _ => Znum) ex_val ex_dtypes ex_idx ex_enc ex_gs [ex_C] ex_map ex_map (concat ex_pieces3) (process gp) /\
  ex_held gp = [([[1; 6; 3]; [3; 15; 6]; [8; 25; 10]; [12; 36; 13]; [21; 31; 16]], Some 22, None)].
Proof.
  destruct (shown_ok _ _ (fun g => map (fun x => match s_main (snd x) with Some _ => true | None => false end) (g_keys g)) (ex_run_p (ex_start [ex_C]) ex_first) [true] ltac:(vm_cast_no_check (eq_refl (Some [true])))) as (g0 & E0 & D0).
  destruct (shown_bind _ _ _ (fun x => (ex_held (fst x), snd x)) (ex_run_p (ex_start [ex_C]) ex_first) (fun g => ex_attempts (new_process g) [ex_call2 0]) ([([[1; 6; 3]; [3; 15; 6]], Some 8, Some 21)], [(Err OSError, true)])
    ltac:(vm_cast_no_check (eq_refl (Some ([([[1; 6; 3]; [3; 15; 6]], Some 8, Some 21)], [(@Err (option exn) OSError, true)]))))) as (g0' & [gp1 tr1] & E0' & E1 & D1).
  assert (g0' = g0) as -> by congruence. clear E0'. cbn [fst snd] in D1. injection D1 as D1 ->.
  destruct (shown_bind _ _ _ (fun x => (ex_held (fst x), snd x)) (ex_run_p (ex_start [ex_C]) ex_first) (fun g => ex_attempts (new_process g) [ex_call2 0; ex_call3 false 100])
    ([([[1; 6; 3]; [3; 15; 6]; [8; 25; 10]; [12; 36; 13]; [21; 31; 16]], Some 22, None)], [(Err OSError, true); (Ok None, false)])
    ltac:(vm_cast_no_check (eq_refl (Some ([([[1; 6; 3]; [3; 15; 6]; [8; 25; 10]; [12; 36; 13]; [21; 31; 16]], Some 22, @None Z)], [(@Err (option exn) OSError, true); (Ok None, false)]))))) as (g0' & [gp tr] & E0' & E2 & D2).
  assert (g0' = g0) as -> by congruence. clear E0'. cbn [fst snd] in D2. injection D2 as D2 ->.
  exists g0, gp1, gp. repeat (split; [assumption|]). split; [|exact D2].
  change (concat ex_pieces3) with (whole_seed (whole_seed [] ex_first) (map at_run ([ex_call2 0] ++ [ex_call3 false 100]))).
  apply (C69_retried_is_batch (fun _ => Znum) ex_val ex_dtypes ex_idx ex_enc (fun _ => true) (fun f => Z.of_nat (length (rows f))) None ex_fs ex_gs tt 0%nat [ex_C] ex_map ex_map ex_first g0 [ex_call2 0] gp [(Err OSError, true)] (ex_call3 false 100) false).
  - exact I.
  - apply ex_filters_are.
  - destruct ex_growing as (A & B & C & _). repeat split; auto.
  - apply (ex_retried_growing false 0). left. reflexivity.
  - apply ex_retried_ok. reflexivity.
  - intros c [<-|[]]; split; [discriminate|reflexivity].
  - reflexivity.
  - exact E0.
  - intros s Hs Hn. apply in_map_iff in Hs as (x & Ex & Hx). apply (in_map (fun x : kconf ex_row (@segbuf Z) nat * kbuf (@segbuf Z) nat * kstore unit (@segbuf Z) nat => match s_main (snd x) with Some _ => true | None => false end)) in Hx.
    rewrite D0, Ex, Hn in Hx. destruct Hx as [Q|[]]; discriminate.
  - exact E2.
  - cbn. repeat split; auto.
  - cbn. repeat split; auto; try discriminate.
  - reflexivity.
Qed.

(** If the third call raises as well, once it has made an intermediate write, then the dataset has metadata of the second call,
    while it does not have its results: the fourth call starts from there, and some rows are never aggregated. *)
Theorem C69_twice_refuted : exists g0 gp1 gp, ex_run_p (ex_start [ex_C]) ex_first = Ok g0 /\
  let xs := [ex_call2 0; ex_call3 false 1; ex_call3 false 100] in let tr := [(Err OSError, true); (Err OSError, true); (Ok None, false)] in
  growing ex_idx (whole_seed [] ex_first) (map at_run xs) /\ renewed false xs tr /\
  ex_attempts (new_process g0) (firstn 2 xs) = Ok (gp1, firstn 2 tr) /\ ex_held gp1 = [([[1; 6; 3]; [3; 15; 6]], Some 21, Some 22)] /\
  ex_attempts (new_process g0) xs = Ok (gp, tr) /\ ex_held gp = [([[1; 6; 3]; [3; 15; 6]; [12; 36; 13]; [21; 31; 16]], Some 22, None)] /\
  ~ all_batch (fun _ => Znum) ex_val ex_dtypes ex_idx ex_enc ex_gs [ex_C] ex_map ex_map (concat ex_pieces3) (process gp) /\
  (** with a new process for the third call *)
  exists gp', ex_attempts (new_process g0) [ex_call2 0; ex_call3 true 1; ex_call3 false 100] = Ok (gp', tr) /\
    ex_held gp' = [([[1; 6; 3]; [3; 15; 6]; [8; 25; 10]; [12; 36; 13]; [21; 31; 16]], Some 22, None)].
Proof.
  destruct (shown_ok _ _ (fun _ => tt) (ex_run_p (ex_start [ex_C]) ex_first) tt ltac:(vm_cast_no_check (eq_refl (Some tt)))) as (g0 & E0 & _).
  destruct (shown_bind _ _ _ (fun x => (ex_held (fst x), snd x)) (ex_run_p (ex_start [ex_C]) ex_first) (fun g => ex_attempts (new_process g) [ex_call2 0; ex_call3 false 1]) ([([[1; 6; 3]; [3; 15; 6]], Some 21, Some 22)], [(Err OSError, true); (Err OSError, true)])
    ltac:(vm_cast_no_check (eq_refl (Some ([([[1; 6; 3]; [3; 15; 6]], Some 21, Some 22)], [(@Err (option exn) OSError, true); (Err OSError, true)]))))) as (g0' & [gp1 tr1] & E0' & E1 & D1).
  assert (g0' = g0) as -> by congruence. clear E0'. cbn [fst snd] in D1. injection D1 as D1 ->.
  destruct (shown_bind _ _ _ (fun x => (ex_held (fst x), snd x, stored (process (fst x)) 0)) (ex_run_p (ex_start [ex_C]) ex_first) (fun g => ex_attempts (new_process g) [ex_call2 0; ex_call3 false 1; ex_call3 false 100])
    ([([[1; 6; 3]; [3; 15; 6]; [12; 36; 13]; [21; 31; 16]], Some 22, None)], [(Err OSError, true); (Err OSError, true); (Ok None, false)], Some [[1; 6; 3]; [3; 15; 6]; [12; 36; 13]; [21; 31; 16]])
    ltac:(vm_cast_no_check (eq_refl (Some ([([[1; 6; 3]; [3; 15; 6]; [12; 36; 13]; [21; 31; 16]], Some 22, @None Z)], [(@Err (option exn) OSError, true); (Err OSError, true); (Ok None, false)], Some [[1; 6; 3]; [3; 15; 6]; [12; 36; 13]; [21; 31; 16]]))))) as (g0' & [gp tr] & E0' & E2 & D2).
  assert (g0' = g0) as -> by congruence. clear E0'. cbn [fst snd] in D2. injection D2 as D2 -> D3.
  destruct (shown_bind _ _ _ (fun x => (ex_held (fst x), snd x)) (ex_run_p (ex_start [ex_C]) ex_first) (fun g => ex_attempts (new_process g) [ex_call2 0; ex_call3 true 1; ex_call3 false 100])
    ([([[1; 6; 3]; [3; 15; 6]; [8; 25; 10]; [12; 36; 13]; [21; 31; 16]], Some 22, None)], [(Err OSError, true); (Err OSError, true); (Ok None, false)])
    ltac:(vm_cast_no_check (eq_refl (Some ([([[1; 6; 3]; [3; 15; 6]; [8; 25; 10]; [12; 36; 13]; [21; 31; 16]], Some 22, @None Z)], [(@Err (option exn) OSError, true); (Err OSError, true); (Ok None, false)]))))) as (g0' & [gp' tr] & E0' & E3 & D4).
  assert (g0' = g0) as -> by congruence. clear E0'. cbn [fst snd] in D4. injection D4 as D4 ->.
  exists g0, gp1, gp. split; [exact E0|]. cbv zeta. split; [apply (ex_retried_growing false 0); right; eexists; reflexivity|]. split; [cbn; repeat split; auto|]. split; [exact E1|]. split; [exact D1|]. split; [exact E2|]. split; [exact D2|]. split; [not_batch ex_C D3|].
  exists gp'. split; assumption.
Qed.
Print Assumptions C69_twice_refuted.
