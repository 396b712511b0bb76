(** Properties of streamed aggregation: arguments given to post-processing. *)
Require Import List Arith ZArith Bool Lia Sorting.Sorted.
Require Import Verif.RecordProofs.
Require Import Verif.Common Verif.AggModel Verif.AggSpec Verif.SegModel Verif.SegSpec Verif.CsaModel Verif.CsaSpec Verif.WrModel Verif.StreamModel Verif.StreamSpec
  Verif.KeyModel Verif.TableProofs Verif.BatchSpec Verif.BatchProofs Verif.BatchRunProofs Verif.BatchKeyProofs Verif.BatchHoldProofs Verif.PostSpec Verif.PostProofs Verif.PostRunProofs.
Require Verif.CsaProofs Verif.IterProofs Verif.SegProofs Verif.PropBatch.
Import ListNotations.
Local Open Scope Z_scope.

(** Configurations are valid, with a post-processing which records its calls, and is otherwise any function [f c]. The filter of
    each key keeps rows [keep], which have no tie at the end of bins made of a number of rows. *)
Definition recorded {D PB} dtypes (idx : D -> Z) (gs : list (nat * (D -> bool))) (confs : list (bconf (PB * list call)))
    (f : bconf (PB * list call) -> PB -> WrModel.frame -> option WrModel.frame -> res (post_res * PB)) (seed : list D) : Prop :=
  forall c, In c confs -> conf_ok dtypes c /\ c_post c = Some (recorder (f c)) /\ exists keep, In (c_filter c, keep) gs /\ no_tie idx c (given idx keep seed).

(** For each key, calls recorded give all rows of a single aggregation of the rows of its filter, before the last index. *)
Definition all_passed {D V P PB} (N : dtype -> num V) val dtypes (idx : D -> Z) enc (gs : list (nat * (D -> bool))) (confs : list (bconf (PB * list call))) (n : nat) (seed : list D)
    (g : stream D P (@segbuf V) (PB * list call)) : Prop :=
  forall i c, nth_error confs i = Some c -> exists b s, nth_error (g_keys g) i = Some (key_of N val dtypes idx enc c, b, s) /\
    forall keep, In (c_filter c, keep) gs -> passed_batch N val dtypes idx enc c n (given idx keep seed) (snd (b_post b)).

Section Main.
Context {D V P PB : Type}.
Variable N : dtype -> num V.
Variable val : D -> cname -> V.
Variable dtypes : list (cname * dtype).
Variable idx : D -> Z.
Variable enc : option V -> Z.
Variable truthy : Z -> bool.
Variable usage : WrModel.frame -> Z.
Variable pre : option (list D -> P -> list D * P * bool).
Variables (fs : @filters D) (gs : list (nat * (D -> bool))).
Variables (pre0 : P) (pb0 : PB).
Variable confs : list (bconf (PB * list call)).
Variable f : bconf (PB * list call) -> PB -> WrModel.frame -> option WrModel.frame -> res (post_res * PB).
Notation key_of := (@key_of D V (PB * list call) N val dtypes idx enc).
Notation kT := (kT N val dtypes idx enc).
Notation kTS := (kTS N val dtypes idx enc).
Notation kInv := (kInv N val dtypes idx).
Notation post0 := (pb0, @nil call).
Notation start := (new_stream pre0 segbuf_empty post0 (map key_of confs)).
Notation keep := (keep_of gs).

Lemma to_passed : forall Sf n (g : stream D P (@segbuf V) (PB * list call)), filters_are fs gs -> recorded dtypes idx gs confs f Sf -> sorted (map idx Sf) ->
  map (fun x => fst (fst x)) (g_keys g) = map key_of confs ->
  (forall i k b s, nth_error (g_keys g) i = Some (k, b, s) -> gives idx key_of confs kT kTS keep Sf i k b n) ->
  all_passed N val dtypes idx enc gs confs n Sf g.
Proof.
  intros Sf n g [Hnd _] Hok Hs Ek Hh i c Hc.
  assert (En : nth_error (map (fun x => fst (fst x)) (g_keys g)) i = Some (key_of c)) by (rewrite Ek, nth_error_map, Hc; auto).
  rewrite nth_error_map in En. destruct (nth_error (g_keys g) i) as [[[k b] s]|] eqn:Eg; [|discriminate]. cbn [fst option_map] in En. injection En as ->.
  exists b, s. split; auto. intros kp Hkp. destruct (Hh i _ b s Eg) as (c' & _ & Hc' & Ns & Dn). rewrite Hc in Hc'. injection Hc' as <-.
  destruct (Hok c (nth_error_In _ _ Hc)) as (Hv & _ & kp' & Hk' & Ht).
  assert (kp' = kp) as -> by (rewrite <- (keep_of_is gs c kp' Hnd Hk'); apply keep_of_is; auto).
  assert (Er : rows_of idx keep c Sf = given idx kp Sf) by (unfold rows_of; rewrite (keep_of_is gs c kp Hnd Hkp); auto). rewrite Er in Dn.
  assert (Hok' : kok idx c (given idx kp Sf)) by (split; auto; apply IterProofs.sorted_filter; auto).
  assert (Db : done (pbins (SB := @segbuf V) (PB0 := PB) (kT c)) (given idx kp Sf) (snd (b_post b)) n) by (apply Dn; unfold pchans; destruct (k_type (key_of c)); left; auto).
  unfold passed_batch. destruct (given idx kp Sf) as [|r l] eqn:Eg'; [apply Db; auto|]. rewrite <- Eg' in *.
  destruct (batch_tables N val dtypes idx enc c Hv (given idx kp Sf)) as (bins & snaps & E & Tb & Ts); [congruence|auto|].
  exists bins, snaps. split; auto.
  assert (Hne : kT c (given idx kp Sf) <> [] /\ (c_snap c <> None -> kTS c (given idx kp Sf) <> [])).
  { assert (Hg : given idx kp Sf <> []) by congruence. unfold kT, kTS, BatchKeyProofs.kT, BatchKeyProofs.kTS. rewrite tab_cons, tab_snap_cons by auto. split.
    - intro Q. apply map_eq_nil in Q. revert Q. apply (kgb_ne dtypes idx c Hv); auto.
    - intros Hsn Q. pose proof (kgs_ne dtypes idx c Hv [] (given idx kp Sf) Hg Hok') as Hq. destruct (kgs idx c [] (given idx kp Sf)) as [g0|] eqn:Ek'.
      + apply map_eq_nil in Q. congruence.
      + apply (kgs_none idx c) in Ek'. congruence. }
  destruct Hne as [Hne1 Hne2]. split.
  - destruct Db as (_ & marks & mark & M1 & M2 & M3 & M4). cbn [pbins p_calls p_tab] in *. rewrite (M4 Hne1) in M3. exists marks. rewrite Tb. auto.
  - destruct snaps as [sn|].
    + destruct Ts as [Ts1 Ts2].
      assert (Ds : done (psnaps (SB := @segbuf V) (PB0 := PB) (kTS c)) (given idx kp Sf) (snd (b_post b)) n).
      { apply Dn. unfold pchans. cbn [k_type KeyModel.key_of]. unfold type_of. destruct (c_snap c); [|congruence]. destruct (c_two c); right; left; auto. }
      destruct Ds as (_ & marks & mark & M1 & M2 & M3 & M4). cbn [psnaps p_calls p_tab] in *. rewrite (M4 (Hne2 Ts1)) in M3. exists marks. rewrite Ts2. rewrite map_map in M1. auto.
    + apply Ns. cbn [k_type KeyModel.key_of]. unfold type_of. rewrite Ts. auto.
Qed.

Lemma post_hyps : forall Sf, filters_are fs gs -> recorded dtypes idx gs confs f Sf ->
  (forall (c : bconf (PB * list call)) (a b : list D), no_tie idx c (a ++ b) -> no_tie idx c a) /\
  (forall c, In c confs -> tabular (key_of c) segbuf_empty (BatchRunProofs.ok idx (no_tie idx) c) (kT c) (kTS c) (kInv c)) /\
  (forall c, In c confs -> k_post (key_of c) = Some (recorder (f c))) /\
  (forall c, In c confs -> In (k_filter (key_of c), keep c) gs) /\ (forall c, In c confs -> no_tie idx c (rows_of idx keep c Sf)).
Proof.
  intros Sf [Hnd _] Hok. split; [apply no_tie_app|]. split; [intros c Hin; apply key_tabular; apply (Hok c Hin)|]. split; [intros c Hin; apply (Hok c Hin)|]. split.
  - intros c Hin. destruct (Hok c Hin) as (_ & _ & kp & Hk & _). cbn [k_filter KeyModel.key_of]. apply keep_of_in. apply in_map_iff. exists (c_filter c, kp). auto.
  - intros c Hin. destruct (Hok c Hin) as (_ & _ & kp & Hk & Ht). change (rows_of idx keep c Sf) with (given idx (keep c) Sf). rewrite (keep_of_is gs c kp Hnd Hk). auto.
Qed.
Lemma run_all_complete : forall rs (g : stream D P (@segbuf V) (PB * list call)), step_all idx truthy usage pre fs pre0 segbuf_empty post0 g (map Complete rs) = run_all idx truthy usage pre fs pre0 segbuf_empty post0 g rs.
Proof.
  induction rs as [|r rs IH]; intro g; auto. cbn [map step_all run_all step_once]. destruct (run_once _ _ _ _ _ _ _ _ g r); cbn [bind]; auto.
Qed.
Lemma runs_complete : forall rs : list (@run D), map run_of (map Complete rs) = rs.
Proof. intros. rewrite map_map. apply map_id. Qed.
Lemma restarted_complete : forall rs : list (@run D), restarted false (map Complete rs).
Proof. induction rs as [|r rs IH]; simpl; auto. split; [discriminate|auto]. Qed.
Lemma last_complete : forall (rs : list (@run D)) d, last (map Complete rs) (Complete d) = Complete (last rs d).
Proof. induction rs as [|r rs IH]; intro d; auto. destruct rs; auto. change (last (map Complete (r :: r0 :: rs)) (Complete d)) with (last (map Complete (r0 :: rs)) (Complete d)). apply IH. Qed.

Lemma passed_runs : forall rs g, harmless pre -> filters_are fs gs -> growing idx [] rs -> recorded dtypes idx gs confs f (whole_seed [] rs) ->
  run_all idx truthy usage pre fs pre0 segbuf_empty post0 start rs = Ok g -> rs <> [] -> r_final (last rs (mkRun false false [])) = true ->
  all_passed N val dtypes idx enc gs confs (finals rs) (whole_seed [] rs) g.
Proof.
  intros rs g Hp Hf Hg Hok E Hne Hl. assert (Hs : sorted (map idx (whole_seed [] rs))) by (apply PropBatch.sorted_whole; auto; constructor).
  destruct (post_hyps _ Hf Hok) as (T0 & T1 & T2 & T4 & T5).
  apply to_passed; auto.
  - rewrite (run_all_keys idx truthy usage _ _ _ _ _ _ _ _ E). unfold new_stream. cbn [g_keys]. rewrite map_map. cbn [fst]. apply map_id.
  - pose proof (new_pmem_inv (P := P) idx pre0 segbuf_empty pb0 key_of confs kT kTS kInv keep (no_tie idx) T1 (whole_seed [] rs)) as M.
    rewrite <- run_all_complete in E.
    destruct (step_all_pinv idx truthy usage fs gs Hf pre Hp pre0 segbuf_empty pb0 key_of confs kT kTS kInv keep f (no_tie idx) T0 T1 T2 T4 (whole_seed [] rs) Hs T5 (map Complete rs) [] start g false 0 (or_introl M)) as [A _]; auto.
    + right. intros x Hx. apply in_map_iff in Hx as (r & <- & _). eauto.
    + constructor.
    + rewrite runs_complete. auto.
    + rewrite runs_complete. apply grows_refl. auto.
    + apply restarted_complete.
    + rewrite runs_complete in A. apply (A (last rs (mkRun false false []))); auto. apply last_complete.
Qed.

Lemma passed_steps : forall rs g0 xs g r, harmless pre -> filters_are fs gs -> growing idx [] rs -> growing idx (whole_seed [] rs) (map run_of xs) ->
  recorded dtypes idx gs confs f (whole_seed (whole_seed [] rs) (map run_of xs)) ->
  run_all idx truthy usage pre fs pre0 segbuf_empty post0 start rs = Ok g0 ->
  (forall s, In s (map snd (g_keys g0)) -> s_main s <> None) -> restarted false xs ->
  step_all idx truthy usage pre fs pre0 segbuf_empty post0 g0 xs = Ok g ->
  last xs (Complete (mkRun false false [])) = Complete r -> r_final r = true ->
  all_passed N val dtypes idx enc gs confs (finals (rs ++ map run_of xs)) (whole_seed (whole_seed [] rs) (map run_of xs)) g.
Proof.
  intros rs g0 xs g r Hp Hf Hg Hg' Hok E0 Hmn Hr E Hl Hfin.
  assert (Hs0 : sorted (map idx (whole_seed [] rs))) by (apply PropBatch.sorted_whole; auto; constructor).
  assert (Hs : sorted (map idx (whole_seed (whole_seed [] rs) (map run_of xs)))) by (apply PropBatch.sorted_whole; auto).
  destruct (post_hyps _ Hf Hok) as (T0 & T1 & T2 & T4 & T5). set (Sf := whole_seed (whole_seed [] rs) (map run_of xs)) in *.
  apply to_passed; auto.
  - rewrite (step_all_keys idx truthy usage _ _ _ _ _ _ _ _ E), (run_all_keys idx truthy usage _ _ _ _ _ _ _ _ E0). unfold new_stream. cbn [g_keys]. rewrite map_map. cbn [fst]. apply map_id.
  - pose proof (new_pmem_inv (P := P) idx pre0 segbuf_empty pb0 key_of confs kT kTS kInv keep (no_tie idx) T1 Sf) as M.
    rewrite <- run_all_complete in E0.
    destruct (step_all_pinv idx truthy usage fs gs Hf pre Hp pre0 segbuf_empty pb0 key_of confs kT kTS kInv keep f (no_tie idx) T0 T1 T2 T4 Sf Hs T5 (map Complete rs) [] start g0 false 0 (or_introl M)) as [_ A]; auto.
    + right. intros x Hx. apply in_map_iff in Hx as (r' & <- & _). eauto.
    + constructor.
    + rewrite runs_complete. auto.
    + rewrite runs_complete. apply (growing_starts idx (map run_of xs)); auto.
    + apply restarted_complete.
    + rewrite runs_complete in A. assert (M0 : pmem_inv idx key_of confs kT kTS kInv keep Sf (whole_seed [] rs) g0 (0 + finals rs)).
      { apply A; auto. intros x Hx. apply in_map_iff in Hx as (r' & <- & _). eauto. }
      destruct (step_all_pinv idx truthy usage fs gs Hf pre Hp pre0 segbuf_empty pb0 key_of confs kT kTS kInv keep f (no_tie idx) T0 T1 T2 T4 Sf Hs T5 xs (whole_seed [] rs) g0 g false (0 + finals rs) (or_introl M0)) as [B _]; auto.
      * left. auto.
      * apply grows_refl. auto.
      * assert (Ef : finals (rs ++ map run_of xs) = (0 + finals rs + finals (map run_of xs))%nat) by (unfold finals; rewrite filter_app, app_length; auto).
        rewrite Ef. apply (B r); auto.
Qed.
End Main.

(** ** C62: arguments given to 'post' *)

(** Over any runs, whatever 'post' returns and whatever is written: calls to 'post' give each row of the results of a single
    aggregation, in order. A row is given again only if it was the last one given by a final write: it is then the first row
    of the next call (giving rows). *)
Theorem C62_post_arguments : forall {D V P PB} (N : dtype -> num V) val dtypes (idx : D -> Z) enc truthy usage
    (pre : option (list D -> P -> list D * P * bool)) fs gs pre0 (pb0 : PB) confs f rs g,
  harmless pre -> filters_are fs gs -> growing idx [] rs -> recorded dtypes idx gs confs f (whole_seed [] rs) ->
  run_all idx truthy usage pre fs pre0 segbuf_empty (pb0, []) (new_stream pre0 segbuf_empty (pb0, []) (map (key_of N val dtypes idx enc) confs)) rs = Ok g ->
  rs <> [] -> r_final (last rs (mkRun false false [])) = true ->
  all_passed N val dtypes idx enc gs confs (finals rs) (whole_seed [] rs) g.
Proof. intros. eapply passed_runs; eauto. Qed.
Print Assumptions C62_post_arguments.

(** The same with runs interrupted at any point, or which raise, all keys being in store: calls which are in the buffer of 'post' do so. Those of
    an interrupted run, which are not recorded, are forgotten. *)
Theorem C62_interrupted : forall {D V P PB} (N : dtype -> num V) val dtypes (idx : D -> Z) enc truthy usage
    (pre : option (list D -> P -> list D * P * bool)) fs gs pre0 (pb0 : PB) confs f rs g0 xs g r,
  harmless pre -> filters_are fs gs -> growing idx [] rs -> growing idx (whole_seed [] rs) (map run_of xs) ->
  recorded dtypes idx gs confs f (whole_seed (whole_seed [] rs) (map run_of xs)) ->
  run_all idx truthy usage pre fs pre0 segbuf_empty (pb0, []) (new_stream pre0 segbuf_empty (pb0, []) (map (key_of N val dtypes idx enc) confs)) rs = Ok g0 ->
  (forall s, In s (map snd (g_keys g0)) -> s_main s <> None) -> restarted false xs ->
  step_all idx truthy usage pre fs pre0 segbuf_empty (pb0, []) g0 xs = Ok g ->
  last xs (Complete (mkRun false false [])) = Complete r -> r_final r = true ->
  all_passed N val dtypes idx enc gs confs (finals (rs ++ map run_of xs)) (whole_seed (whole_seed [] rs) (map run_of xs)) g.
Proof. intros. eapply passed_steps; eauto. Qed.
Print Assumptions C62_interrupted.

(** *** Cases *)
Import PropBatch.
(** Nothing is returned for the first call (warm-up), then bins with a column doubled; with snapshots, bins and snapshots. *)
Definition ex_warm (n : nat) (f : WrModel.frame) (sn : option WrModel.frame) : res (post_res * nat) :=
  Ok (POne (if (n =? 0)%nat then None else Some (WrModel.mkFrame 3 (map ex_m (rows f)))), S n).
Definition ex_both (n : nat) (f : WrModel.frame) (sn : option WrModel.frame) : res (post_res * nat) := Ok (PTwo (Some f) sn, S n).
Definition ex_WA : bconf (nat * list call) := mkBconf 0 ex_agg (ByTime ex_tg) None false (Some (recorder ex_warm)) 1 (Some 2) None None.
Definition ex_WB : bconf (nat * list call) := mkBconf 1 ex_agg (ByTime ex_tg) (Some ex_snap) true (Some (recorder ex_both)) 100 (Some 2) (Some 3) None.
Definition ex_wf (c : bconf (nat * list call)) := match c_snap c with None => ex_warm | _ => ex_both end.
Notation ex_wkey := (@key_of ex_row Z (nat * list call) (fun _ => Znum) ex_val ex_dtypes ex_idx ex_enc).
Notation ex_wstart cs := (new_stream tt (segbuf_empty : @segbuf Z) (0%nat, @nil call) (map ex_wkey cs) : stream ex_row unit (@segbuf Z) (nat * list call)).
Notation ex_wrun := (run_all ex_idx ex_truthy (fun f => Z.of_nat (length (rows f))) (None : option (list ex_row -> unit -> list ex_row * unit * bool)) ex_fs tt (segbuf_empty : @segbuf Z) (0%nat, @nil call)).
Definition ex_calls (g : stream ex_row unit (@segbuf Z) (nat * list call)) := map (fun x => snd (b_post (snd (fst x)))) (g_keys g).
Definition ex_wstep := (step_all ex_idx ex_truthy (fun f => Z.of_nat (length (rows f))) (None : option (list ex_row -> unit -> list ex_row * unit * bool)) ex_fs tt (segbuf_empty : @segbuf Z) (0%nat, @nil call)).
Lemma ex_recorded : forall S, recorded ex_dtypes ex_idx ex_gs [ex_WA; ex_WB] ex_wf S.
Proof.
  intros S c Hc. split; [|split].
  - destruct Hc as [<-|[<-|[]]].
    + destruct (ex_conf_ok ex_A) as (A & B & C & D & E); [left; auto|]. split; [exact A|split; [exact B|split; [discriminate|split; [discriminate|exact E]]]].
    + destruct (ex_conf_ok ex_A) as (A & B & C & D & E); [left; auto|]. split; [exact A|split; [exact B|split; [discriminate|split; [|exact E]]]]. intros s H. injection H as <-. split; [reflexivity|exact I].
  - destruct Hc as [<-|[<-|[]]]; reflexivity.
  - destruct Hc as [<-|[<-|[]]]; eexists; (split; [first [left; reflexivity|right; left; reflexivity]|exact I]).
Qed.
(** Calls over three runs, the second one without final write: the last bin and snapshot of the first run are provisional, and are
    given again. Bins of the first call are not written (warm-up), and are not given again. *)
Example ex_C62 : exists g, ex_wrun (ex_wstart [ex_WA; ex_WB]) ex_runs = Ok g /\
  all_passed (fun _ => Znum) ex_val ex_dtypes ex_idx ex_enc ex_gs [ex_WA; ex_WB] 2 (concat ex_seed3) g /\
  ex_calls g = [[([[0; 15; 5]; [5; 6; 6]], None); ([[5; 21; 8]; [10; 33; 12]; [15; -1; -1]; [20; 44; 16]], None)];
    [([[0; 6; 4]; [5; 6; 6]], Some [[2; 6; 4]; [4; 6; 6]]);
     ([[5; 14; 8]; [10; 22; 12]; [15; -1; -1]; [20; 16; 16]], Some [[4; 6; 6]; [6; 6; 6]; [8; 14; 8]; [10; 10; 10]; [12; 22; 12]; [14; -1; -1]; [16; -1; -1]; [18; -1; -1]; [20; 16; 16]])]] /\
  map (fun x => all_rows (data_of (s_main (snd x)))) (g_keys g) = [[[5; 42; 8]; [10; 66; 12]; [15; -2; -1]; [20; 88; 16]]; [[0; 6; 4]; [5; 14; 8]; [10; 22; 12]; [15; -1; -1]; [20; 16; 16]]].
Proof.
  destruct (shown_ok _ _ (fun g => (ex_calls g, map (fun x => all_rows (data_of (s_main (snd x)))) (g_keys g))) (ex_wrun (ex_wstart [ex_WA; ex_WB]) ex_runs)
   ([[([[0; 15; 5]; [5; 6; 6]], None); ([[5; 21; 8]; [10; 33; 12]; [15; -1; -1]; [20; 44; 16]], None)];
    [([[0; 6; 4]; [5; 6; 6]], Some [[2; 6; 4]; [4; 6; 6]]);
     ([[5; 14; 8]; [10; 22; 12]; [15; -1; -1]; [20; 16; 16]], Some [[4; 6; 6]; [6; 6; 6]; [8; 14; 8]; [10; 10; 10]; [12; 22; 12]; [14; -1; -1]; [16; -1; -1]; [18; -1; -1]; [20; 16; 16]])]],
    [[[5; 42; 8]; [10; 66; 12]; [15; -2; -1]; [20; 88; 16]]; [[0; 6; 4]; [5; 14; 8]; [10; 22; 12]; [15; -1; -1]; [20; 16; 16]]])) as (g & E & Ed).
  { vm_cast_no_check (eq_refl (Some ([[([[0; 15; 5]; [5; 6; 6]], None); ([[5; 21; 8]; [10; 33; 12]; [15; -1; -1]; [20; 44; 16]], None)];
    [([[0; 6; 4]; [5; 6; 6]], Some [[2; 6; 4]; [4; 6; 6]]);
     ([[5; 14; 8]; [10; 22; 12]; [15; -1; -1]; [20; 16; 16]], Some [[4; 6; 6]; [6; 6; 6]; [8; 14; 8]; [10; 10; 10]; [12; 22; 12]; [14; -1; -1]; [16; -1; -1]; [18; -1; -1]; [20; 16; 16]])]],
    [[[5; 42; 8]; [10; 66; 12]; [15; -2; -1]; [20; 88; 16]]; [[0; 6; 4]; [5; 14; 8]; [10; 22; 12]; [15; -1; -1]; [20; 16; 16]]]))). }
  injection Ed as Ed Ed'. exists g. split; [exact E|]. split; [|split; [exact Ed|exact Ed']].
  apply (C62_post_arguments (fun _ => Znum) ex_val ex_dtypes ex_idx ex_enc ex_truthy (fun f => Z.of_nat (length (rows f))) (None : option (list ex_row -> unit -> list ex_row * unit * bool)) ex_fs ex_gs tt 0%nat [ex_WA; ex_WB] ex_wf ex_runs g).
  - exact I.
  - apply ex_filters_are.
  - apply ex_growing.
  - apply ex_recorded.
  - exact E.
  - discriminate.
  - reflexivity.
Qed.
(** Two runs interrupted: one between writes of bins and snapshots of the second key, another before any write; then a complete one. Calls recorded in the buffer are those of
    writes which were recorded. *)
Definition ex_wsteps := [Interrupted (mkRun true true ex_seed2) [1; 1]%nat; Interrupted (mkRun true true ex_seed3) []; Complete (mkRun true true ex_seed3)].
Example ex_C62_interrupted : exists g0 g, ex_wrun (ex_wstart [ex_WA; ex_WB]) ex_first = Ok g0 /\ ex_wstep g0 ex_wsteps = Ok g /\
  all_passed (fun _ => Znum) ex_val ex_dtypes ex_idx ex_enc ex_gs [ex_WA; ex_WB] (finals (ex_first ++ map run_of ex_wsteps)) (concat ex_seed3) g /\
  ex_calls g = [[([[0; 15; 5]; [5; 6; 6]], None); ([[5; 21; 8]; [10; 33; 12]; [15; -1; -1]; [20; 13; 13]], None); ([[20; 44; 16]], None)];
    [([[0; 6; 4]; [5; 6; 6]], Some [[2; 6; 4]; [4; 6; 6]]);
     ([[5; 14; 8]; [10; 22; 12]], Some [[4; 6; 6]; [6; 6; 6]; [8; 14; 8]; [10; 10; 10]; [12; 22; 12]]);
     ([[10; 22; 12]; [15; -1; -1]; [20; 16; 16]], Some [[12; 22; 12]; [14; -1; -1]; [16; -1; -1]; [18; -1; -1]; [20; 16; 16]])]].
Proof.
  destruct (shown_ok _ _ (fun g => map (fun x => match s_main (snd x) with Some _ => true | None => false end) (g_keys g)) (ex_wrun (ex_wstart [ex_WA; ex_WB]) ex_first) [true; true]) as (g0 & E0 & D0).
  { vm_cast_no_check (eq_refl (Some [true; true])). }
  destruct (shown_bind _ _ _ ex_calls (ex_wrun (ex_wstart [ex_WA; ex_WB]) ex_first) (fun g => ex_wstep g ex_wsteps)
   [[([[0; 15; 5]; [5; 6; 6]], None); ([[5; 21; 8]; [10; 33; 12]; [15; -1; -1]; [20; 13; 13]], None); ([[20; 44; 16]], None)];
    [([[0; 6; 4]; [5; 6; 6]], Some [[2; 6; 4]; [4; 6; 6]]);
     ([[5; 14; 8]; [10; 22; 12]], Some [[4; 6; 6]; [6; 6; 6]; [8; 14; 8]; [10; 10; 10]; [12; 22; 12]]);
     ([[10; 22; 12]; [15; -1; -1]; [20; 16; 16]], Some [[12; 22; 12]; [14; -1; -1]; [16; -1; -1]; [18; -1; -1]; [20; 16; 16]])]]) as (g0' & g & E0' & E & Ed).
  { vm_cast_no_check (eq_refl (Some [[([[0; 15; 5]; [5; 6; 6]], @None (list row)); ([[5; 21; 8]; [10; 33; 12]; [15; -1; -1]; [20; 13; 13]], None); ([[20; 44; 16]], None)];
    [([[0; 6; 4]; [5; 6; 6]], Some [[2; 6; 4]; [4; 6; 6]]);
     ([[5; 14; 8]; [10; 22; 12]], Some [[4; 6; 6]; [6; 6; 6]; [8; 14; 8]; [10; 10; 10]; [12; 22; 12]]);
     ([[10; 22; 12]; [15; -1; -1]; [20; 16; 16]], Some [[12; 22; 12]; [14; -1; -1]; [16; -1; -1]; [18; -1; -1]; [20; 16; 16]])]])). }
  assert (g0' = g0) as -> by congruence. exists g0, g. split; [exact E0|]. split; [exact E|]. split; [|exact Ed].
  change (concat ex_seed3) with (whole_seed (whole_seed [] ex_first) (map run_of ex_wsteps)).
  apply (C62_interrupted (fun _ => Znum) ex_val ex_dtypes ex_idx ex_enc ex_truthy (fun f => Z.of_nat (length (rows f))) (None : option (list ex_row -> unit -> list ex_row * unit * bool)) ex_fs ex_gs tt 0%nat [ex_WA; ex_WB] ex_wf ex_first g0 ex_wsteps g (mkRun true true ex_seed3)).
  - exact I.
  - apply ex_filters_are.
  - destruct ex_growing as (A & B & C & _). repeat split; auto.
  - destruct ex_growing as (_ & _ & _ & A & B & C & D & E' & F & _). repeat split; auto; extended.
  - apply ex_recorded.
  - exact E0.
  - intros s Hs Hn. assert (Q : In false (map (fun x : kconf ex_row (@segbuf Z) (nat * list call) * kbuf (@segbuf Z) (nat * list call) * kstore unit (@segbuf Z) (nat * list call) => match s_main (snd x) with Some _ => true | None => false end) (g_keys g0))).
    { apply in_map_iff in Hs as (x & Ex & Hx). apply in_map_iff. exists x. rewrite Ex, Hn. auto. }
    rewrite D0 in Q. destruct Q as [Q|[Q|[]]]; discriminate.
  - repeat split; auto; discriminate.
  - exact E.
  - reflexivity.
  - reflexivity.
Qed.

(** 'post' may be called without any row: results are written because of the memory limit, before any bin is complete. *)
Definition ex_WC : bconf (nat * list call) := mkBconf 0 ex_agg (ByTime ex_tg) None false (Some (recorder ex_warm)) 0 (Some 2) None None.
Theorem C62_rows_in_each_call_refuted : exists rs g, rs <> [] /\ growing ex_idx [] rs /\ filters_are ex_fs ex_gs /\ conf_ok ex_dtypes ex_WC /\
  ex_wrun (ex_wstart [ex_WC]) rs = Ok g /\ ex_calls g = [[([], None); ([[0; 15; 5]; [5; 6; 6]], None)]].
Proof.
  destruct (shown_ok _ _ ex_calls (ex_wrun (ex_wstart [ex_WC]) ex_first) [[([], None); ([[0; 15; 5]; [5; 6; 6]], None)]]) as (g & E & Ed).
  { vm_cast_no_check (eq_refl (Some [[(@nil row, @None (list row)); ([[0; 15; 5]; [5; 6; 6]], None)]])). }
  exists ex_first, g. split; [discriminate|]. split.
  { destruct ex_growing as (A & B & C & _). repeat split; auto. }
  split; [apply ex_filters_are|]. split; [|split; [exact E|exact Ed]].
  destruct (ex_conf_ok ex_A) as (A & B & C & D & F); [left; auto|]. split; [exact A|split; [exact B|split; [discriminate|split; [discriminate|exact F]]]].
Qed.
Print Assumptions C62_rows_in_each_call_refuted.
