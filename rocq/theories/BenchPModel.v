(** Model of the computations in the table benchmarks: bench/ptable/common.hpp, scan.cpp, point.cpp, and of the random choice of keys
    in bench/performance_test.cpp.  ints, longs and size_ts are unbounded here; the values stay below 2^31 for NUM_TUPLES up to 2^30. *)
From Verif Require Import Base.
Open Scope Z_scope.

(** hibit_pos, common.hpp:109-116; >> on a negative int keeps the sign (the usual choice of the compilers; defined so from C++20 on) *)
Fixpoint hibit_pos (fuel : nat) (n c : Z) : res Z :=
  match fuel with
  | O => NoFuel
  | S f => if Z.shiftr n 1 =? 0 then Ok c else hibit_pos f (Z.shiftr n 1) (c + 1)
  end.

(** createPointVector, common.hpp:118-125: the pairs (SIZE, SIZE / 2) *)
Fixpoint points (fuel : nat) (n : Z) : res (list (Z * Z)) :=
  match fuel with
  | O => NoFuel
  | S f => if 100 <=? n then do r <- points f (n / 10); Ok (r ++ [(n, n / 2)]) else Ok []
  end.
(** The test for a line of output in insert, common.hpp:153 *)
Definition progress (entries i : Z) : res bool :=
  if entries / 100 =? 0 then UB else Ok (i mod (entries / 100) =? 0).

(** KEY_RANGES, common.hpp:66-75, and NON_KEY_RANGES, 94-108, for NUM_TUPLES = [n] *)
Definition key_ranges (n : Z) : list (Z * Z) :=
  [(n / 1000, n - n / 1000); (n / 500, n - n / 500); (n / 200, n - n / 200); (n / 100, n - n / 100); (n / 50, n - n / 50);
   (n / 20, n - n / 20); (n / 10, n - n / 10); (n / 5, n - n / 5); (n, 1)].
Definition non_key_parts (n : Z) : list (Z * Z) :=
  [(n / 1000, n - n / 500); (n / 500, n - n / 250); (n / 200, n - n / 100); (n / 100, n - n / 50); (n / 50, n - n / 25);
   (n / 20, n - n / 10); (n / 10, n - n / 5); (n / 5, n - n * 2 / 5)].
Definition non_key_ranges (n : Z) : list (Z * Z) := non_key_parts n ++ [(n, 1)].

(** The rows inserted by insert, common.hpp:147-157: columns 0 and 3, both i + 1 *)
Definition rows (n : Z) : list (Z * Z) := map (fun i => (Z.of_nat i + 1, Z.of_nat i + 1)) (seq 0 (Z.to_nat n)).
(** The conditions of the scans: BM_RangeScan and BM_PBPTreeKeyScan, scan.cpp:46 and 123; BM_NonKeyRangeScan, 83-84;
    BM_PBPTreeScan, 159-162.  [s] is rangeStart, [w] is state.range(0). *)
Definition key_scan (s w : Z) (r : Z * Z) : bool := (s <=? fst r) && (fst r <=? s + w - 1).
Definition non_key_scan (s w : Z) (r : Z * Z) : bool :=
  (s - w <=? fst r) && (fst r <=? s + w) && (s <=? snd r) && (snd r <=? s + 2 * w - 1).
Definition tree_scan (s w : Z) (r : Z * Z) : bool :=
  (s - Z.quot w 2 <=? fst r) && (fst r <=? s + Z.quot w 2) && (s <=? snd r) && (snd r <=? s + w - 1).

(** performance_test.cpp: the array of keys, 83 and 140 *)
Definition pt_keys (T : nat) : arr Z := map (fun i => Some (Z.of_nat i + 1)) (seq 0 T).
(** The keys chosen for the random numbers [rs], 89-90, 104-105 (insert) and 143-144, 155-156 (delete); [cur] is curr_test_size *)
Fixpoint pt_choose (keys : arr Z) (cur : nat) (rs : list nat) {struct rs} : res (list Z) :=
  match rs with
  | [] => Ok []
  | r :: rs' =>
    match cur with
    | O => UB
    | S cur' =>
      do key <- aget keys (r mod cur);
      do last <- aget keys cur';
      do keys' <- aset keys (r mod cur) last;
      do ks <- pt_choose keys' cur' rs';
      Ok (key :: ks)
    end
  end.
