(** What the computations of the benchmarks are for: the memory layouts of the nodes, said without the formulas of the code. *)
From Verif Require Import Base.
Open Scope nat_scope.

(** [y] is [x] padded to a multiple of [a]. *)
Definition padded (a x y : nat) : Prop := y mod a = 0 /\ x <= y /\ y < x + a.
(** A bitmap with a bit for each of [n] places, in words of 64 bits, takes [b] bytes. *)
Definition bitmap_bytes (n b : nat) : Prop := padded 64 n (8 * b).
(** [n] is the largest number with [fits]. *)
Definition largest (fits : nat -> Prop) (n : nat) : Prop := fits n /\ forall m, fits m -> m <= n.

(** wBPTree, inner node: a slot array of n + 1 bytes and a bitmap in whole cache lines, then n keys and n + 1 children. *)
Definition wb_branch_fits (k p T n : nat) : Prop :=
  exists slots bits head, padded 8 (n + 1) slots /\ bitmap_bytes n bits /\ padded 64 (slots + bits) head /\
  head + n * k + (n + 1) * p <= T.
(** wBPTree, leaf: also two pointers of 16 bytes in the head. *)
Definition wb_leaf_fits (k v T n : nat) : Prop :=
  exists slots bits head, padded 8 (n + 1) slots /\ bitmap_bytes n bits /\ padded 64 (slots + bits + 2 * 16) head /\
  head + n * k + n * v <= T.
(** FPTree, leaf: n fingerprints of a byte instead of the slot array. *)
Definition fp_leaf_fits (k v T n : nat) : Prop :=
  exists prints bits head, padded 8 n prints /\ bitmap_bytes n bits /\ padded 64 (prints + bits + 2 * 16) head /\
  head + n * k + n * v <= T.
(** BitPBPTree, leaf and inner node. *)
Definition bit_leaf_fits (k v T n : nat) : Prop :=
  exists bits head, bitmap_bytes n bits /\ padded 64 (bits + 2 * 16) head /\ head + n * k + n * v <= T.
Definition bit_branch_fits (k p T n : nat) : Prop :=
  exists bits, bitmap_bytes n bits /\ bits + n * k + (n + 1) * p <= T.
(** PBPTree and the inner nodes of FPTree: a counter of 4 bytes, n keys, n + 1 children of 24 bytes; the leaf has one
    cache line before the entries. *)
Definition pb_branch_fits (k T n : nat) : Prop := 4 + n * k + (n + 1) * 24 <= T.
Definition pb_leaf_fits (k v T n : nat) : Prop := 64 + n * k + n * v <= T.
(** woPSkiplist: bitmap, [lev] forward pointers, smallest and largest key and a counter of 8 bytes in whole cache lines. *)
Definition wo_node_fits (k v p lev T n : nat) : Prop :=
  exists bits head, bitmap_bytes n bits /\ padded 64 (bits + lev * p + k + k + 8) head /\ head + n * k + n * v <= T.

(** The answer of a search for the largest number that fits: the number, or undefined if none fits. *)
Definition sized (fits : nat -> Prop) (r : res nat) : Prop :=
  (exists n, r = Ok n /\ largest fits n) \/ (r = UB /\ forall n, ~ fits n).
