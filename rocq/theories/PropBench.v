(** C95-C98: the computations of the benchmarks. *)
From Coq Require Import Sorted.
From Verif Require Import Base BenchModel BenchSpec BenchProofs.
Open Scope nat_scope.

(** C95: each of these computations answers with the largest number of keys whose node fits into the target size, and the
    recursion over the template argument runs below zero exactly if no node fits. *)
Theorem C95_wbptree_sizes : forall k p v T, 0 < k ->
  sized (wb_branch_fits k p T) (wb_branch_keys k p T) /\ sized (wb_leaf_fits k v T) (wb_leaf_keys k v T).
Proof. intros k p v T K. split; [exact (wb_branch_sized p T K)|exact (wb_leaf_sized v T K)]. Qed.
Print Assumptions C95_wbptree_sizes.

Theorem C95_fptree_sizes : forall k v T, 0 < k ->
  sized (pb_branch_fits k T) (pb_branch_keys k 24 T) /\ sized (fp_leaf_fits k v T) (fp_leaf_keys k v T).
Proof. intros k v T K. split; [exact (proj1 (pb_sized v T K))|exact (fp_leaf_sized v T K)]. Qed.
Print Assumptions C95_fptree_sizes.

Theorem C95_pbptree_sizes : forall k v T, 0 < k ->
  sized (pb_branch_fits k T) (pb_branch_keys k 24 T) /\ sized (pb_leaf_fits k v T) (pb_leaf_keys k v T).
Proof. exact pb_sized. Qed.
Print Assumptions C95_pbptree_sizes.

Theorem C95_bitpbptree_leaf_size : forall k v T, 0 < k -> sized (bit_leaf_fits k v T) (bit_leaf_keys k v T).
Proof. exact bit_leaf_sized. Qed.
Print Assumptions C95_bitpbptree_leaf_size.

Theorem C95_woPSkiplist_size : forall k v p lev T, 0 < k ->
  sized (wo_node_fits k v p lev T) (wo_node_keys k v p lev T).
Proof. exact wo_node_sized. Qed.
Print Assumptions C95_woPSkiplist_size.

(** The sizes of the benchmarks: keys of 8 bytes, tuples of 16, targets of 512 bytes and 4 KiB; the leaf of the wBPTree
    starts with 18 keys and stays there, with 4096 bytes it has to step down. *)
Example C95_wb_ex : wb_branch_keys 8 24 512 = Ok 13 /\ wb_leaf_keys 8 16 512 = Ok 18 /\
  wb_leaf_keys 8 16 4096 = Ok 160 /\ (4096 - 64) / (8 + 16) = 168 /\ wb_branch_keys 8 24 80 = UB.
Proof. vm_compute. repeat split. Qed.
Example C95_wb_fits_ex : wb_leaf_fits 8 16 4096 160 /\ ~ wb_leaf_fits 8 16 4096 161.
Proof.
  destruct (proj2 (@C95_wbptree_sizes 8 24 16 4096 ltac:(lia))) as [(n & E & F & M)|(E & _)]; vm_compute in E;
    [injection E as <-|discriminate].
  split; [exact F|]. intros H. apply M in H. lia.
Qed.
Example C95_others_ex : fp_leaf_keys 8 16 512 = Ok 18 /\ pb_branch_keys 8 24 512 = Ok 15 /\ pb_leaf_keys 8 16 512 = Ok 18 /\
  bit_leaf_keys 8 16 512 = Ok 18 /\ bit_leaf_keys 8 16 4000 = Ok 164 /\ wo_node_keys 8 16 16 5 4096 = Ok 165.
Proof. vm_compute. repeat split. Qed.

(** C96: the inner nodes of the BitPBPTree.  The answer always fits, but it need not be the largest that does: if the
    first candidate does not fit, the search goes on with the layout of the wBPTree. *)
Theorem C96_bitpbptree_branch_fits : forall k p T n, bit_branch_keys k p T = Ok n -> bit_branch_fits k p T n.
Proof. exact bit_branch_below. Qed.
Print Assumptions C96_bitpbptree_branch_fits.

Theorem C96_bitpbptree_branch_largest : forall k p T, 0 < k -> 8 + p <= T -> (T - 8 - p) / (k + p) <= 64 ->
  exists n, bit_branch_keys k p T = Ok n /\ largest (bit_branch_fits k p T) n.
Proof. exact bit_branch_small. Qed.
Print Assumptions C96_bitpbptree_branch_largest.

Example C96_ex : (512 - 8 - 24) / (8 + 24) = 15 /\ bit_branch_keys 8 24 512 = Ok 15.
Proof. vm_compute. split; reflexivity. Qed.

Theorem C96_bitpbptree_branch_largest_refuted : exists k p T n,
  0 < k /\ bit_branch_keys k p T = Ok n /\ exists m, n < m /\ bit_branch_fits k p T m.
Proof.
  exists 8, 24, 2112, 61. split; [lia|]. split; [vm_compute; reflexivity|]. exists 64. split; [lia|].
  exists 8. split; [|lia]. unfold bitmap_bytes, padded. split; [reflexivity|]. lia.
Qed.
Print Assumptions C96_bitpbptree_branch_largest_refuted.

(** C97: the keys that the benchmark of the trees inserts.  For any numbers of keys and any depth the loops end and every
    key up to ELEMENTS is inserted, and no other; with depth 1, and with depth 0 and an even number, exactly once. *)
Theorem C97_bench_insert_all : forall L B td, 1 <= L ->
  exists l, bench_insert L B td = Ok l /\ forall x, In x l <-> 1 <= x <= L * (B + 1) ^ td.
Proof. exact fill_total_cover. Qed.
Print Assumptions C97_bench_insert_all.

Theorem C97_bench_insert_once : forall L B, 2 <= L -> exists l, bench_insert L B 1 = Ok l /\ NoDup l /\
  forall x, In x l <-> 1 <= x <= L * (B + 1).
Proof. exact fill_once. Qed.
Print Assumptions C97_bench_insert_once.

Theorem C97_bench_insert_leaf_once : forall L B, 2 <= L -> L mod 2 = 0 -> exists l, bench_insert L B 0 = Ok l /\ NoDup l /\
  forall x, In x l <-> 1 <= x <= L.
Proof. exact fill_once0. Qed.
Print Assumptions C97_bench_insert_leaf_once.

(** In general keys are inserted more than once. *)
Theorem C97_bench_insert_once_refuted : exists L B td l, 2 <= L /\ B mod 2 = 0 /\
  bench_insert L B td = Ok l /\ ~ NoDup l.
Proof.
  exists 4, 2, 2, (keys_of (bench_insert 4 2 2)). split; [lia|]. split; [reflexivity|]. split; [vm_compute; reflexivity|].
  assert (H : keys_of (bench_insert 4 2 2) =
    [1; 2; 5; 6] ++ 13 :: [14; 17; 18; 25; 26; 29; 30; 9; 10] ++ 13 ::
      [14; 21; 22; 25; 26; 33; 34; 3; 4; 7; 8; 11; 12; 15; 16; 19; 20; 23; 24; 27; 28; 31; 32; 35; 36])
    by (vm_compute; reflexivity).
  rewrite H. intros N. apply NoDup_remove_2 in N. apply N. apply in_or_app. right. apply in_or_app. right. left. reflexivity.
Qed.
Print Assumptions C97_bench_insert_once_refuted.

(** Exactly when no key is inserted twice: never from depth 2 on. *)
Theorem C97_bench_insert_once_iff : forall L B td l, 1 <= L -> 1 <= B -> bench_insert L B td = Ok l ->
  (NoDup l <-> (td = 0 /\ L mod 2 = 0) \/ (td = 1 /\ (2 <= L \/ B mod 2 = 1))).
Proof. exact fill_once_iff. Qed.
Print Assumptions C97_bench_insert_once_iff.

(** A leaf with one key: all keys once with an odd number of keys in the branch nodes, not with an even one. *)
Example C97_iff_ex : bench_insert 1 3 1 = Ok [1; 2; 3; 4] /\ bench_insert 1 4 1 = Ok [1; 2; 3; 4; 4; 5] /\
  bench_insert 1 1 2 = Ok [1; 2; 3; 4; 3].
Proof. vm_compute. repeat split. Qed.

Example C97_ex : bench_insert 5 4 1 =
  Ok [1; 2; 3; 6; 7; 8; 11; 12; 13; 16; 17; 18; 21; 22; 23; 4; 5; 9; 10; 14; 15; 19; 20; 24; 25].
Proof. vm_compute. reflexivity. Qed.
Example C97_leaf_ex : bench_insert 6 4 0 = Ok [1; 2; 3; 4; 5; 6] /\ bench_insert 5 4 0 = Ok [1; 2; 3; 3; 4; 5].
Proof. vm_compute. split; reflexivity. Qed.

(** C98: ipow, hibit_pos and createPointVector. *)
Theorem C98_ipow : forall b e,
  ((0 <= e -> ipow b e = Ok (b ^ e mod 2 ^ 64)) /\ (e < 0 -> ipow b e = Ok 1))%Z.
Proof. intros b e. split; [exact (@ipow_ok b e)|exact (@ipow_neg b e)]. Qed.
Print Assumptions C98_ipow.

Example C98_ipow_ex : ipow 15 3 = Ok 3375%Z /\ ipow 3 41 = Ok (3 ^ 41 - 1 * 2 ^ 64)%Z /\ (3 ^ 41 < 2 * 2 ^ 64)%Z.
Proof. vm_compute. repeat split. Qed.

(** The position of the highest bit for positive numbers, 0 for 0; for negative numbers the loop never ends. *)
Theorem C98_hibit_pos : (forall n, 1 <= n -> exists fuel h, forall f, (fuel <= f)%nat ->
    hibit_ f n 0 = Ok h /\ 0 <= h /\ 2 ^ h <= n < 2 ^ (h + 1))%Z
  /\ (forall f, hibit_ (S f) 0 0 = Ok 0%Z) /\ forall f n, (n < 0)%Z -> hibit_ f n 0 = NoFuel.
Proof. split; [exact hibit_ok|]. split; [reflexivity|]. intros f n N. exact (hibit_neg f 0 N). Qed.
Print Assumptions C98_hibit_pos.

Example C98_hibit_ex : hibit_ 40 1000 0 = Ok 9%Z /\ hibit_ 40 1024 0 = Ok 10%Z /\ hibit_ 1000 (-1) 0 = NoFuel.
Proof. vm_compute. repeat split. Qed.

(** The rows for SIZE, SIZE / 10, ... as long as there are 100, from the smallest to the largest. *)
Theorem C98_points : forall size, exists l, points (S size) size = Ok l /\
  StronglySorted (fun x y => fst x < fst y) l /\
  forall a b, In (a, b) l <-> exists k, a = size / 10 ^ k /\ 100 <= a /\ b = a / 2.
Proof. intros size. apply points_sorted. lia. Qed.
Print Assumptions C98_points.

Example C98_points_ex : points 2501 2500 = Ok [(250, 125); (2500, 1250)].
Proof. vm_compute. reflexivity. Qed.
