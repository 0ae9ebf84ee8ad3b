(** Model of the computations of the benchmarks: bench/trees/common.hpp, bench/pskiplists/common.hpp and bench/ptable/common.hpp.

    The sizes sizeof(KeyType) [k], sizeof(value) [v], NODE_PTR_SIZE [p], LEVEL [lev] and the target size [T] are arguments.
    The recursion over template arguments is recursion over numbers; a subtraction below zero (a template argument that wraps
    around) is [UB].  In the fill loops ELEMENTS is taken to fit into an int; measuring and output are left out. *)
From Verif Require Import Base.
Open Scope nat_scope.

(** if constexpr (SIZE <= TARGET) return KEYS; else return self<KEYS - 1>(). *)
Fixpoint shrink (size : nat -> nat) (T n : nat) : res nat :=
  if size n <=? T then Ok n else match n with 0 => UB | S m => shrink size T m end.
Definition csub (a b : nat) : res nat := if a <? b then UB else Ok (a - b).
Definition cdiv (a b : nat) : res nat := if b =? 0 then UB else Ok (a / b).

(** getBranchKeyswBPTree<KEYS>, trees/common.hpp:62-72, and getBranchKeyswBPTree, 74-77. *)
Definition wb_branch_size (k p n : nat) : nat :=
  let h := (n + 1 + 7) / 8 * 8 + (n + 63) / 64 * 8 in
  (h + 63) / 64 * 64 + n * (k + p) + p.
Definition wb_branch_keys (k p T : nat) : res nat :=
  do a <- csub T 64; do a <- csub a p; do n <- cdiv a (k + p); shrink (wb_branch_size k p) T n.

(** getLeafKeyswBPTree, 79-94. *)
Definition wb_leaf_size (k v n : nat) : nat :=
  let h := (n + 1 + 7) / 8 * 8 + (n + 63) / 64 * 8 + 32 in
  (h + 63) / 64 * 64 + n * (k + v).
Definition wb_leaf_keys (k v T : nat) : res nat :=
  do a <- csub T 64; do n <- cdiv a (k + v); shrink (wb_leaf_size k v) T n.

(** getLeafKeysFPTree, 110-124. *)
Definition fp_leaf_size (k v n : nat) : nat :=
  let h := (n + 7) / 8 * 8 + (n + 63) / 64 * 8 + 32 in
  (h + 63) / 64 * 64 + n * (k + v).
Definition fp_leaf_keys (k v T : nat) : res nat :=
  do a <- csub T 64; do n <- cdiv a (k + v); shrink (fp_leaf_size k v) T n.

(** getLeafKeysBitPBPTree, 145-159. *)
Definition bit_leaf_size (k v n : nat) : nat :=
  let h := (n + 63) / 64 * 8 + 32 in
  (h + 63) / 64 * 64 + n * (k + v).
Definition bit_leaf_keys (k v T : nat) : res nat :=
  do a <- csub T 64; do n <- cdiv a (k + v); shrink (bit_leaf_size k v) T n.

(** getBranchKeysBitPBPTree, 127-143.  If KEYS do not fit it goes on with getBranchKeyswBPTree<KEYS - 1>. *)
Definition bit_branch_size (k p n : nat) : nat := (n + 63) / 64 * 8 + n * (k + p) + p.
Definition bit_branch_keys (k p T : nat) : res nat :=
  do a <- csub T 8; do a <- csub a p; do n <- cdiv a (k + p);
  if bit_branch_size k p n <=? T then Ok n else do m <- csub n 1; shrink (wb_branch_size k p) T m.

(** getBranchKeysPBPTree, 97-99, and getBranchKeysFPTree, 106-108; getLeafKeysPBPTree, 101-103. *)
Definition pb_branch_keys (k p T : nat) : res nat := do a <- csub T 28; cdiv a (k + p).
Definition pb_leaf_keys (k v T : nat) : res nat := do a <- csub T 64; cdiv a (k + v).

(** getNodeKeys, pskiplists/common.hpp:46-62: bitmap, forward pointers, two keys and a counter before the entries. *)
Definition wo_node_size (k v p lev n : nat) : nat :=
  ((n + 63) / 64 * 8 + lev * p + 2 * k + 8 + 63) / 64 * 64 + n * (k + v).
Definition wo_node_keys (k v p lev T : nat) : res nat :=
  do a <- csub T 64; do n <- cdiv a (k + v); shrink (wo_node_size k v p lev) T n.

(** ipow, trees/common.hpp:161-164, on uint64_t. *)
Open Scope Z_scope.
Definition w64 (x : Z) : Z := x mod 2 ^ 64.
Fixpoint ipow_ (fuel : nat) (base e result : Z) : res Z :=
  match fuel with
  | O => NoFuel
  | S f => if e <? 1 then Ok result
           else ipow_ f (w64 (base * base)) (Z.quot e 2) (if Z.rem e 2 =? 0 then result else w64 (result * base))
  end.
Definition ipow (base e : Z) : res Z := ipow_ (S (Z.to_nat e)) base e 1.

(** hibit_pos, ptable/common.hpp:109-116; >> of a negative number rounds down. *)
Fixpoint hibit_ (fuel : nat) (n c : Z) : res Z :=
  match fuel with
  | O => NoFuel
  | S f => if n / 2 =? 0 then Ok c else hibit_ f (n / 2) (c + 1)
  end.
Close Scope Z_scope.

(** createPointVector, ptable/common.hpp:118-125: the rows that are appended to the vector. *)
Fixpoint points (fuel size : nat) : res (list (nat * nat)) :=
  match fuel with
  | 0 => NoFuel
  | S f => if 100 <=? size then do r <- points f (size / 10); Ok (r ++ [(size, size / 2)]) else Ok []
  end.

(** ** The order of the inserts, insert, trees/common.hpp:247-307.  [L] is LEAFKEYS, [B] is BRANCHKEYS, [td] is
    target_depth = TARGET_DEPTH.  The result lists the keys in the order in which they are inserted. *)
Section Fill.
Variables (L B td : nat).
Definition range (d : nat) : nat := L * (B + 1) ^ d.
Definition elements : nat := range td.

(** insertLoopLeaf, 251-265. *)
Definition loop_leaf (start : nat) (other : bool) : list nat :=
  let stop := start + (L + 1) / 2 - (if (L mod 2 =? 1) && other then 1 else 0) in
  map S (seq start (Nat.min stop elements - start)).

(** for (i = start; i <= last; i += step). *)
Fixpoint rounds (fuel i last step : nat) : res (list nat) :=
  match fuel with
  | 0 => NoFuel
  | S f => if i <=? last then do r <- rounds f (i + step) last step; Ok (i :: r) else Ok []
  end.
Fixpoint each (f : nat -> res (list nat)) (is : list nat) : res (list nat) :=
  match is with
  | [] => Ok []
  | i :: is => do a <- f i; do b <- each f is; Ok (a ++ b)
  end.

(** insertLoopBranch, 266-280. *)
Fixpoint loop_branch (d start : nat) (other : bool) : res (list nat) :=
  match d with
  | 0 => UB
  | S d' =>
    let middle := (range d + 1) / 2 in
    let first := start + middle in
    let helper := start + range d - middle in
    let second := if B mod 2 =? 0 then helper else helper - range d' in
    let last := if other then second else first in
    do is <- rounds (S (S last)) start last (range d');
    each (fun i => match d' with 0 => Ok (loop_leaf i false) | S _ => loop_branch d' i false end) is
  end.

(** insertLoopOtherHalf, 282-298. *)
Fixpoint loop_other (d : nat) : res (list nat) :=
  match d with
  | 0 => Ok (flat_map (fun i => loop_leaf ((L + 1) / 2 + i * L) true) (seq 0 ((B + 1) ^ td)))
  | S d' =>
    let middle := (range d + 1) / 2 in
    let seen := middle + range d' in
    let half := if B mod 2 =? 0 then seen - (range d' + 1) / 2 else seen in
    do a <- each (fun i => loop_branch d (half + i * range d) true) (seq 0 ((B + 1) ^ (td - d)));
    do b <- loop_other d';
    Ok (a ++ b)
  end.

(** The body, 300-307. *)
Definition bench_insert : res (list nat) :=
  if td =? 0 then Ok (loop_leaf 0 false ++ loop_leaf (if L mod 2 =? 0 then (L + 1) / 2 else (L - 1) / 2) false)
  else do a <- loop_branch td 0 false; do b <- loop_other td; Ok (a ++ b).
End Fill.
