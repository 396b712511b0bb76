(** Unit tests of /repo/tests/test_aggstream/test_segmentby.py and test_segmentby_restart.py run on
    the model, as a check that the model behaves as the code does. *)
Require Import List Arith ZArith Bool.
Require Import Verif.Common Verif.SegModel.
Import ListNotations.
Local Open Scope Z_scope.

Definition t (h m : Z) : Z := (h * 60 + m) * 60 * 1000000000.
Definition mins (l : list (Z * Z)) : list Z := map (fun hm => t (fst hm) (snd hm)) l.
Definition t5 (label closed : side) := mkTG (t 0 5) closed label OStartDay 0.

(** test_next_chunk_starts *)
Example ncs1 : next_chunk_starts [1;2;3;4;7;8;9] [2;5;6;7;8] true = ([2;4;4;5;6]%nat, 1%nat, false).
Proof. reflexivity. Qed.
Example ncs2 : next_chunk_starts [1;2;3;4;7;8;9] [2;5;6;7;8] false = ([1;4;4;4;5]%nat, 2%nat, false).
Proof. reflexivity. Qed.
Example ncs3 : next_chunk_starts [1;2;3;4;7;8;9] [50;60;70;88] false = ([7]%nat, 0%nat, true).
Proof. reflexivity. Qed.
Example ncs4 : next_chunk_starts [10;22;32] [5;6;7;8] false = ([0;0;0;0]%nat, 4%nat, false).
Proof. reflexivity. Qed.
Example ncs5 : next_chunk_starts [5;5;6] [5;6;7;8] false = ([0;2;3]%nat, 1%nat, true).
Proof. reflexivity. Qed.
Example ncs6 : next_chunk_starts [5;5;6] [5;6;7;8] true = ([2;3]%nat, 0%nat, true).
Proof. reflexivity. Qed.
Example ncs7 : next_chunk_starts [5;5;7;7;7] [5;6;7;8] false = ([0;2;2;5]%nat, 2%nat, true).
Proof. reflexivity. Qed.

(** test_by_scale (no restart) *)
Definition bs (on : list (Z * Z)) (label closed : side) : option (list nat * list Z * list Z) :=
  match by_scale (mins on) (ByTG (t5 label closed)) None None with
  | Ok (s, _) => Some (s_starts s, s_labels s, s_ends s)
  | Err _ => None
  end.
Example bs1 : bs [(8,0);(8,4);(8,5)] SLeft SLeft = Some ([2;3]%nat, mins [(8,0);(8,5)], mins [(8,5);(8,10)]).
Proof. reflexivity. Qed.
Example bs2 : bs [(8,0);(8,3);(8,4)] SLeft SLeft = Some ([3]%nat, mins [(8,0)], mins [(8,5)]).
Proof. reflexivity. Qed.
Example bs3 : bs [(8,1);(8,3);(8,5)] SLeft SLeft = Some ([2;3]%nat, mins [(8,0);(8,5)], mins [(8,5);(8,10)]).
Proof. reflexivity. Qed.
Example bs4 : bs [(8,0);(8,3);(8,5)] SRight SLeft = Some ([2;3]%nat, mins [(8,5);(8,10)], mins [(8,5);(8,10)]).
Proof. reflexivity. Qed.
Example bs5 : bs [(8,0);(8,4);(8,5)] SLeft SRight = Some ([1;3]%nat, mins [(7,55);(8,0)], mins [(8,0);(8,5)]).
Proof. reflexivity. Qed.
Example bs6 : bs [(8,0);(8,3);(8,4)] SLeft SRight = Some ([1;3]%nat, mins [(7,55);(8,0)], mins [(8,0);(8,5)]).
Proof. reflexivity. Qed.
Example bs7 : bs [(8,1);(8,3);(8,4)] SLeft SRight = Some ([3]%nat, mins [(8,0)], mins [(8,5)]).
Proof. reflexivity. Qed.
Example bs8 : bs [(8,0);(8,4);(8,5)] SRight SRight = Some ([1;3]%nat, mins [(8,0);(8,5)], mins [(8,0);(8,5)]).
Proof. reflexivity. Qed.

(** test_by_scale (restart): successive calls on slices of 'on' *)
Definition on9 := mins [(8,0);(8,3);(8,12);(8,15);(8,16);(8,21);(8,40);(8,41);(8,50)].

Fixpoint runs (on : list Z) (closed : option side) (b : sbuf) (start : nat) (l : list (nat * byspec))
  : list (option (list nat * list Z * nat * list Z * sbuf)) :=
  match l with
  | [] => []
  | (stop, by_) :: l' =>
      match by_scale (slice start stop on) by_ closed (Some b) with
      | Ok (s, Some b') => Some (s_starts s, s_labels s, s_nnull s, s_ends s, b') :: runs on closed b' stop l'
      | _ => [None]
      end
  end.

Definition rg (h1 m1 n : Z) : list Z := map (fun k => t h1 m1 + Z.of_nat k * t 0 5) (seq 0 (Z.to_nat n)).

Example br0 : runs on9 None sbuf_empty 0
  (map (fun e => (e, ByTG (t5 SLeft SLeft))) [3;6;9]%nat)
  = [Some ([2;2;3]%nat, rg 8 0 3, 1%nat, rg 8 5 3, mkSbuf (Some (t 8 10)) None);
     Some ([0;2;3]%nat, rg 8 10 3, 1%nat, rg 8 15 3, mkSbuf (Some (t 8 20)) None);
     Some ([0;0;0;0;2;2;3]%nat, rg 8 20 7, 5%nat, rg 8 25 7, mkSbuf (Some (t 8 50)) None)].
Proof. reflexivity. Qed.
Example br1 : runs on9 None sbuf_empty 0
  (map (fun e => (e, ByTG (t5 SLeft SLeft))) [2;7;9]%nat)
  = [Some ([2]%nat, rg 8 0 1, 0%nat, rg 8 5 1, mkSbuf (Some (t 8 0)) None);
     Some ([0;0;1;3;4;4;4;4;5]%nat, rg 8 0 9, 5%nat, rg 8 5 9, mkSbuf (Some (t 8 40)) None);
     Some ([1;1;2]%nat, rg 8 40 3, 1%nat, rg 8 45 3, mkSbuf (Some (t 8 50)) None)].
Proof. reflexivity. Qed.
Example br2 : runs on9 (Some SRight) sbuf_empty 0
  (map (fun e => (e, ByTG (t5 SLeft SLeft))) [1;7;9]%nat)
  = [Some ([1]%nat, rg 7 55 1, 0%nat, rg 8 0 1, mkSbuf (Some (t 8 0)) None);
     Some ([0;1;1;3;4;5;5;5;6]%nat, rg 7 55 9, 4%nat, rg 8 0 9, mkSbuf (Some (t 8 40)) None);
     Some ([0;1;2]%nat, rg 8 35 3, 1%nat, rg 8 40 3, mkSbuf (Some (t 8 50)) None)].
Proof. reflexivity. Qed.
Example br3 : runs on9 None sbuf_empty 0
  (map (fun e => (e, ByTG (t5 SLeft SRight))) [3;6;9]%nat)
  = [Some ([1;2;2;3]%nat, rg 7 55 4, 1%nat, rg 8 0 4, mkSbuf (Some (t 8 15)) None);
     Some ([1;2;3]%nat, rg 8 10 3, 0%nat, rg 8 15 3, mkSbuf (Some (t 8 25)) None);
     Some ([0;0;0;1;2;3]%nat, rg 8 20 6, 3%nat, rg 8 25 6, mkSbuf (Some (t 8 50)) None)].
Proof. reflexivity. Qed.

Definition vals (k : pkind) (l : list (Z * Z)) : byspec := ByVals k (mins l) (mins l).
Example br4 : runs on9 (Some SLeft) sbuf_empty 0
  [(3%nat, vals PIndex [(8,0);(8,6)]); (6%nat, vals PIndex [(8,6);(8,18)]);
   (9%nat, vals PIndex [(8,18);(8,36);(8,50)])]
  = [Some ([0;2]%nat, mins [(8,0);(8,6)], 1%nat, mins [(8,0);(8,6)], mkSbuf (Some (t 8 6)) (Some (t 8 12)));
     Some ([2]%nat, mins [(8,18)], 0%nat, mins [(8,18)], mkSbuf (Some (t 8 18)) (Some (t 8 21)));
     Some ([0;2]%nat, mins [(8,36);(8,50)], 1%nat, mins [(8,36);(8,50)],
           mkSbuf (Some (t 8 50)) (Some (t 8 50)))].
Proof. reflexivity. Qed.
Example br5 : runs on9 (Some SLeft) sbuf_empty 0
  [(3%nat, vals PIndex [(8,0);(8,16)]); (6%nat, vals PIndex [(8,16);(8,42)]);
   (9%nat, vals PIndex [(8,42);(8,52)])]
  = [Some ([0;3]%nat, mins [(8,0);(8,16)], 1%nat, mins [(8,0);(8,16)], mkSbuf (Some (t 8 16)) None);
     Some ([1;3]%nat, mins [(8,16);(8,42)], 0%nat, mins [(8,16);(8,42)], mkSbuf (Some (t 8 42)) None);
     Some ([2;3]%nat, mins [(8,42);(8,52)], 0%nat, mins [(8,42);(8,52)], mkSbuf (Some (t 8 52)) None)].
Proof. reflexivity. Qed.
Example br6 : runs on9 (Some SLeft) sbuf_empty 0
  [(3%nat, vals PIndex [(8,0);(8,12)]); (6%nat, vals PIndex [(8,12);(8,16)]);
   (9%nat, vals PIndex [(8,12);(8,16);(8,50)])]
  = [Some ([0;2]%nat, mins [(8,0);(8,12)], 1%nat, mins [(8,0);(8,12)], mkSbuf (Some (t 8 12)) (Some (t 8 12)));
     Some ([1]%nat, mins [(8,16)], 0%nat, mins [(8,16)], mkSbuf (Some (t 8 16)) (Some (t 8 21)));
     Some ([2]%nat, mins [(8,50)], 0%nat, mins [(8,50)], mkSbuf (Some (t 8 50)) (Some (t 8 50)))].
Proof. reflexivity. Qed.
Example br7 : runs on9 (Some SRight) sbuf_empty 0
  (map (fun e => (e, vals PIndex [(8,0);(8,16);(8,42);(8,52)])) [3;6;9]%nat)
  = [Some ([1;3]%nat, mins [(8,0);(8,16)], 0%nat, mins [(8,0);(8,16)], mkSbuf (Some (t 8 16)) None);
     Some ([2;3]%nat, mins [(8,16);(8,42)], 0%nat, mins [(8,16);(8,42)], mkSbuf (Some (t 8 42)) None);
     Some ([2;3]%nat, mins [(8,42);(8,52)], 0%nat, mins [(8,42);(8,52)], mkSbuf (Some (t 8 52)) None)].
Proof. reflexivity. Qed.

(** test_by_scale_exceptions *)
Definition raises (closed : side) (l : list (nat * byspec)) : bool :=
  match runs on9 (Some closed) sbuf_empty 0 l with [Some _; None] => true | _ => false end.
Example be0 : raises SLeft [(3%nat, vals PIndex [(8,3);(8,6)]); (6%nat, vals PIndex [(8,7)])] = true.
Proof. reflexivity. Qed.
Example be1 : raises SLeft [(3%nat, vals PIndex [(8,3)]); (6%nat, vals PIndex [(8,3);(8,12)])] = true.
Proof. reflexivity. Qed.
Example be2 : raises SRight [(3%nat, vals PIndex [(8,3)]); (6%nat, vals PIndex [(8,3);(8,11)])] = true.
Proof. reflexivity. Qed.

(** test_by_x_rows (restart) *)
Fixpoint xruns (by_ : nat) (closed : side) (on : list Z) (b : option xbuf) (start : nat) (l : list nat)
  : list (option (list nat * list Z * list Z * bool * nat * option xbuf)) :=
  match l with
  | [] => []
  | stop :: l' =>
      match by_x_rows by_ closed (slice start stop on) (Some b) with
      | Ok (s, Some b') =>
          Some (s_starts s, s_labels s, s_ends s, s_unknown_last_end s, s_nnull s, b')
            :: xruns by_ closed on b' stop l'
      | _ => [None]
      end
  end.
Example bx0 : xruns 4 SLeft on9 None 0 [3;6;9]%nat
  = [Some ([3]%nat, mins [(8,0)], mins [(8,12)], true, 0%nat, Some (mkXbuf 3 (t 8 0) None));
     Some ([1;3]%nat, mins [(8,0);(8,16)], mins [(8,16);(8,21)], true, 0%nat, Some (mkXbuf 2 (t 8 16) None));
     Some ([2;3]%nat, mins [(8,16);(8,50)], mins [(8,50);(8,50)], true, 0%nat, Some (mkXbuf 1 (t 8 50) None))].
Proof. reflexivity. Qed.
Example bx1 : xruns 4 SRight on9 None 0 [4;6;9]%nat
  = [Some ([4]%nat, mins [(8,0)], mins [(8,15)], false, 0%nat, Some (mkXbuf 4 (t 8 0) (Some (t 8 15))));
     Some ([0;2]%nat, mins [(8,0);(8,16)], mins [(8,15);(8,21)], true, 1%nat,
           Some (mkXbuf 2 (t 8 16) (Some (t 8 21))));
     Some ([2;3]%nat, mins [(8,16);(8,50)], mins [(8,41);(8,50)], true, 0%nat,
           Some (mkXbuf 1 (t 8 50) (Some (t 8 50))))].
Proof. reflexivity. Qed.
Example bx2 : xruns 4 SLeft on9 None 0 [4;6;9]%nat
  = [Some ([4]%nat, mins [(8,0)], mins [(8,15)], true, 0%nat, Some (mkXbuf 4 (t 8 0) None));
     Some ([0;2]%nat, mins [(8,0);(8,16)], mins [(8,16);(8,21)], true, 1%nat, Some (mkXbuf 2 (t 8 16) None));
     Some ([2;3]%nat, mins [(8,16);(8,50)], mins [(8,50);(8,50)], true, 0%nat, Some (mkXbuf 1 (t 8 50) None))].
Proof. reflexivity. Qed.
(** test_by_x_rows (no restart), (8, 4, RIGHT) and (7, 4, LEFT) *)
Definition hours (n : nat) : list Z := map Z.of_nat (seq 0 n).
Example bx3 : by_x_rows 4 SRight (hours 8) None
  = Ok (mkSeg [4;8]%nat [0;4] 0 SRight [3;7] false 0, None).
Proof. reflexivity. Qed.
Example bx4 : by_x_rows 4 SLeft (hours 7) None
  = Ok (mkSeg [4;7]%nat [0;4] 0 SLeft [4;6] true 0, None).
Proof. reflexivity. Qed.
(** test_by_x_rows_single_shot *)
Example bx5 : by_x_rows 4 SLeft (hours 7) (Some (Some (mkXbuf 1 (-1) None)))
  = Ok (mkSeg [3;7]%nat [-1;3] 0 SLeft [3;6] true 0, Some (Some (mkXbuf 4 3 None))).
Proof. reflexivity. Qed.
Example bx6 : by_x_rows 4 SLeft (hours 8) (Some (Some (mkXbuf 1 (-1) None)))
  = Ok (mkSeg [3;7;8]%nat [-1;3;7] 0 SLeft [3;7;7] true 0, Some (Some (mkXbuf 1 7 None))).
Proof. reflexivity. Qed.

(** test_mergesort_labels_and_keys and _force_last *)
Example ms1 : mergesort [10;5;98;12;32;2;2]%nat [20;4;16;17;18;20]%nat
                [1;5;9;15;19;20;20] [2;4;15;15;18;20] false
  = Ok ([10;20;4;5;98;12;16;17;18;32;2;2;20]%nat, [1;2;6;7;8;12]%nat).
Proof. reflexivity. Qed.
Example ms2 : mergesort [10;5;98;12;32;2;2]%nat [20;4;16;17;18;20]%nat
                [1;5;9;15;19;20;20] [2;4;15;15;18;19] false
  = Ok ([10;20;4;5;98;12;16;17;18;32;20;2;2]%nat, [1;2;6;7;8;10]%nat).
Proof. reflexivity. Qed.
Example ms3 : mergesort [10;5;98;12;32;2;2]%nat [20;4;16;17;18;20]%nat
                [1;5;9;15;19;20;20] [2;4;15;15;18;19] true
  = Ok ([10;20;4;5;98;12;16;17;18;32;2;2;20]%nat, [1;2;6;7;8;12]%nat).
Proof. reflexivity. Qed.
