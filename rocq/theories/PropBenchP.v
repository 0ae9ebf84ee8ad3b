(** C110-C112: the computations in the table benchmarks. *)
From Coq Require Import Permutation.
From Verif Require Import Base MapSpec BdccModel BenchPModel BenchPSpec BenchPProofs.
Open Scope Z_scope.

(** C110: whatever numbers rand() returns, the insert phase of performance_test inserts every key from 1 to TEST_SIZE once, every lookup
    finds its key, the delete phase deletes TEST_SIZE - 1 different keys, each of them present, and one row is left. *)
Theorem C110_perf_run : forall V (f : Z -> V) T rs rs', (1 <= T)%nat -> length rs = T -> length rs' = (T - 1)%nat ->
  exists ks ds, pt_choose (pt_keys T) T rs = Ok ks /\ pt_choose (pt_keys T) T rs' = Ok ds /\ NoDup ks /\ NoDup ds /\
  (forall k, m_run (map (fun x => OpInsert x (f x)) ks) k = if (1 <=? k) && (k <=? Z.of_nat T) then Some (f k) else None) /\
  hist_ok (m_run (map (fun x => OpInsert x (f x)) ks)) (map (@OpErase V) ds) /\
  exists k0, 1 <= k0 <= Z.of_nat T /\
    forall k, m_run (map (fun x => OpInsert x (f x)) ks ++ map (@OpErase V) ds) k = if k =? k0 then Some (f k) else None.
Proof. exact run_ok. Qed.
Print Assumptions C110_perf_run.
(** A choice of more keys than there are divides by zero. *)
Theorem C110_perf_bound : forall T rs, (T < length rs)%nat -> forall out, pt_choose (pt_keys T) T rs <> Ok out.
Proof. intros T rs. exact (@choose_more rs (pt_keys T) T). Qed.
Print Assumptions C110_perf_bound.

Example C110_ex : pt_choose (pt_keys 5) 5 [7; 3; 11; 1; 0]%nat = Ok [3; 4; 5; 2; 1] /\ pt_choose (pt_keys 5) 5 [0; 0; 0; 0]%nat = Ok [1; 5; 4; 3].
Proof. vm_compute. split; reflexivity. Qed.

(** C111: hibit_pos is the position of the highest bit; for negative numbers it does not end. *)
Theorem C111_hibit : forall n, 1 <= n < 2 ^ 31 -> exists c, hibit_pos 31 n 0 = Ok c /\ 0 <= c /\ 2 ^ c <= n < 2 ^ (c + 1).
Proof.
  intros n N. exists (Z.log2 n). rewrite hibit_ok by (cbn; lia). split; [reflexivity|]. split; [apply Z.log2_nonneg|]. apply Z.log2_spec. lia.
Qed.
Print Assumptions C111_hibit.
Theorem C111_hibit_negative : forall fuel n, n < 0 -> hibit_pos fuel n 0 = NoFuel.
Proof. intros fuel n. apply hibit_loops. Qed.
Print Assumptions C111_hibit_negative.
(** With ALIGNMENT = hibit_pos(NUM_TUPLES) + 1 the 10 bits of the clustering value of every key are its 10 highest, none is cut
    off: the value that dim_value (PTable.hpp:1089-1105) takes apart is the key divided by a power of two, and below 2^10. *)
Theorem C111_alignment : forall n c k, 512 <= n < 2 ^ 30 -> hibit_pos 31 n 0 = Ok c -> 0 <= k <= n ->
  let a := c + 1 - 10 in 0 <= a /\ shr None (Z.land k (wrap32 (Z.shiftl (2 ^ 10 - 1) a))) a = Ok (k / 2 ^ a) /\ 0 <= k / 2 ^ a < 2 ^ 10.
Proof.
  intros n c k N H K a. rewrite hibit_ok in H by (cbn; lia). injection H as <-.
  pose proof (Z.log2_spec n ltac:(lia)) as LS. assert (C9 : 9 <= Z.log2 n) by (apply Z.log2_le_pow2; lia).
  assert (C29 : Z.log2 n < 30) by (apply Z.log2_lt_pow2; lia).
  assert (A : 0 <= a <= 20) by (unfold a; lia). split; [lia|].
  assert (KA : 0 <= k < 2 ^ (a + 10)).
  { split; [lia|]. replace (a + 10) with (Z.succ (Z.log2 n)) by (unfold a; lia). lia. }
  destruct (@land_field k a 10 ltac:(lia) ltac:(lia) KA) as (E & B).
  assert (W : wrap32 (Z.shiftl (2 ^ 10 - 1) a) = Z.shiftl (2 ^ 10 - 1) a).
  { rewrite Z.shiftl_mul_pow2 by lia. assert (P : 1 <= 2 ^ a <= 2 ^ 20) by (split; [apply Z.lt_pred_le, Z.pow_pos_nonneg; lia|apply Z.pow_le_mono_r; lia]).
    change (2 ^ 20) with 1048576 in P. change (2 ^ 10 - 1) with 1023. unfold wrap32. rewrite Z.mod_small by lia.
    destruct (Z.ltb_spec (1023 * 2 ^ a) 2147483648); [reflexivity|lia]. }
  split.
  - rewrite W. unfold shr. destruct (Z.leb_spec 0 a); [|lia]. destruct (Z.ltb_spec a 32); [|lia]. cbn [andb]. rewrite E. reflexivity.
  - split; [apply Z.div_pos; [lia|apply Z.pow_pos_nonneg; lia]|exact B].
Qed.
Print Assumptions C111_alignment.
(** The sizes of the point queries are NUM_TUPLES and its tenths, hundredths, ... down to 100, so that the progress test of insert
    never divides by zero; below 100 it does. *)
Theorem C111_points : forall fuel n, n < 10 ^ Z.of_nat fuel -> (0 < fuel)%nat -> exists r, points fuel n = Ok r /\
  (forall a b, In (a, b) r <-> b = a / 2 /\ 100 <= a /\ exists j, 0 <= j /\ a = n / 10 ^ j) /\
  forall a b i, In (a, b) r -> exists x, progress a i = Ok x.
Proof.
  intros fuel n N F. destruct (points_ok N F) as (r & E & I). exists r. split; [exact E|]. split; [exact I|].
  intros a b i H. apply I in H. apply progress_ok. lia.
Qed.
Print Assumptions C111_points.
Theorem C111_progress_below : forall entries i, 1 <= entries < 100 -> progress entries i = UB.
Proof. intros e i E. unfold progress. destruct (Z.eqb_spec (e / 100) 0); [reflexivity|lia]. Qed.
Print Assumptions C111_progress_below.

(** From 100 on a line is written for the multiples of a hundredth of the entries. *)
Theorem C111_progress_lines : forall entries i, 100 <= entries ->
  exists b, progress entries i = Ok b /\ (b = true <-> exists k, i = k * (entries / 100)).
Proof.
  intros e i E. unfold progress. destruct (Z.eqb_spec (e / 100) 0); [lia|]. eexists. split; [reflexivity|]. rewrite Z.eqb_eq. split.
  - intros M. exists (i / (e / 100)). rewrite (Z.div_mod i (e / 100)) at 1 by assumption. rewrite M. ring.
  - intros (k & ->). apply Z.mod_mul. assumption.
Qed.
Print Assumptions C111_progress_lines.

Example C111_ex : hibit_pos 31 10000 0 = Ok 13 /\ points 10 10000 = Ok [(100, 50); (1000, 500); (10000, 5000)] /\
  shr None (Z.land 10000 (wrap32 (Z.shiftl (2 ^ 10 - 1) 4))) 4 = Ok 625.
Proof. vm_compute. repeat split; reflexivity. Qed.

(** C112: the key range scans select exactly the number of rows that the argument says. *)
Theorem C112_key_scan : forall n s w m, 1 <= n -> In (w, m) (key_ranges n) -> 1 <= s <= m ->
  map fst (filter (key_scan s w) (rows n)) = window s w.
Proof. exact key_sel. Qed.
Print Assumptions C112_key_scan.
(** The arguments stand for 0.1, 0.2, 0.5, 1, 2, 5, 10, 20 and 100 percent of the rows, rounded down. *)
Theorem C112_selectivity : forall n, 0 <= n ->
  Forall2 (fun p w => w * 1000 <= p * n < (w + 1) * 1000) [1; 2; 5; 10; 20; 50; 100; 200; 1000] (map fst (key_ranges n)) /\
  Forall2 (fun p w => w * 1000 <= p * n < (w + 1) * 1000) [1; 2; 5; 10; 20; 50; 100; 200; 1000] (map fst (non_key_ranges n)).
Proof. intros n N. unfold key_ranges, non_key_ranges, non_key_parts. cbn [app map fst]. split; repeat constructor; lia. Qed.
Print Assumptions C112_selectivity.
(** The scan with a condition on a second column selects one row more, except that with the last argument it selects all. *)
Theorem C112_non_key_scan : forall n s w m, 1 <= n -> In (w, m) (non_key_parts n) -> 1 <= w -> 1 <= s <= m ->
  map fst (filter (non_key_scan s w) (rows n)) = window s (w + 1).
Proof. exact non_key_sel. Qed.
Print Assumptions C112_non_key_scan.
Theorem C112_non_key_scan_all : forall n, 1 <= n -> map fst (filter (non_key_scan 1 n) (rows n)) = window 1 n.
Proof. exact non_key_all. Qed.
Print Assumptions C112_non_key_scan_all.
(** The scan with the PTuple iterator, run with the same arguments, selects half of the rows. *)
Theorem C112_tree_scan : forall n s w m, 2 <= n -> In (w, m) (non_key_ranges n) -> 1 <= w -> 1 <= s <= m ->
  map fst (filter (tree_scan s w) (rows n)) = window s (w / 2 + 1).
Proof. exact tree_sel. Qed.
Print Assumptions C112_tree_scan.
(** So the number of rows is not the one in the comment beside the argument: 0.1% of 10000, and all. *)
Theorem C112_non_key_count_refuted : exists n s w m, In (w, m) (non_key_ranges n) /\ 1 <= s <= m /\ w = n / 1000 /\
  length (filter (non_key_scan s w) (rows n)) <> Z.to_nat w.
Proof. exists 10000, 1, 10, 9980. split; [left; reflexivity|]. split; [lia|]. split; [reflexivity|]. vm_compute. discriminate. Qed.
Print Assumptions C112_non_key_count_refuted.
Theorem C112_tree_count_refuted : exists n s w m, In (w, m) (non_key_ranges n) /\ 1 <= s <= m /\ w = n /\
  2 * Z.of_nat (length (filter (tree_scan s w) (rows n))) = w + 2 /\ 1000 < w.
Proof.
  exists 10000, 1, 10000, 1. split; [cbn; tauto|]. split; [lia|]. split; [reflexivity|]. split; [vm_compute; reflexivity|lia].
Qed.
Print Assumptions C112_tree_count_refuted.

Example C112_ex : map fst (filter (key_scan 7 2) (rows 20)) = [7; 8] /\ map fst (filter (non_key_scan 7 2) (rows 20)) = [7; 8; 9] /\
  map fst (filter (tree_scan 7 4) (rows 20)) = [7; 8; 9] /\ In (2, 18) (key_ranges 20) /\ In (4, 12) (non_key_parts 20).
Proof. vm_compute. repeat split; tauto. Qed.
