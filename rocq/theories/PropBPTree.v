(** C08-C10: BPTree (pbptrees/BPTree.hpp) and HPBPTree (pbptrees/HPBPTree.hpp). *)
From Verif Require Import Base MapSpec BTreeModel BTreeSpec SLeafModel SLeafProofs SIterModel BTreeMain PropPBPTree.
Open Scope nat_scope.

(** * C08 *)
Theorem C08_bptree_map : forall V N M (os : list (mop V)),
  2 <= M -> 6 <= N -> Nat.even N = true -> hist_ok m_empty os ->
  exists t, t_run N M (bp_ops V M) (t_new (bp_ops V M)) (map bop_of os) = Ok t /\
    forall k, t_lookup (bp_ops V M) t k = Ok (m_run os k).
Proof.
  intros V N M os HM HN HE. exact (all_lookup (bp_laws V HM) (bp_erase_laws V HM) HM HN HE (os := os)).
Qed.
Print Assumptions C08_bptree_map.

Theorem C08_bptree_erase : forall V N M (os : list (mop V)) k,
  2 <= M -> 6 <= N -> Nat.even N = true -> hist_ok m_empty os -> m_run os k <> None ->
  exists t t', t_run N M (bp_ops V M) (t_new (bp_ops V M)) (map bop_of os) = Ok t /\
    t_erase N M (bp_ops V M) t k = Ok (t', true) /\
    forall x, t_lookup (bp_ops V M) t' x = Ok (m_del (m_run os) k x).
Proof.
  intros V N M os k HM HN HE. exact (all_erase (bp_laws V HM) (bp_erase_laws V HM) HM HN HE (os := os) (k := k)).
Qed.
Print Assumptions C08_bptree_erase.

Theorem C08_bptree_scan : forall V N M (os : list (mop V)),
  2 <= M -> 6 <= N -> Nat.even N = true -> hist_ok m_empty os ->
  exists t out, t_run N M (bp_ops V M) (t_new (bp_ops V M)) (map bop_of os) = Ok t /\
    t_scan (bp_ops V M) t = Ok out /\ lists (m_run os) out.
Proof.
  intros V N M os HM HN HE.
  exact (all_scan (bp_laws V HM) (bp_scan_laws V HM) (bp_erase_laws V HM) HM HN HE (os := os)).
Qed.
Print Assumptions C08_bptree_scan.

Theorem C08_bptree_range : forall V N M (os : list (mop V)) lo hi,
  2 <= M -> 6 <= N -> Nat.even N = true -> hist_ok m_empty os ->
  exists t out, t_run N M (bp_ops V M) (t_new (bp_ops V M)) (map bop_of os) = Ok t /\
    t_range (bp_ops V M) t lo hi = Ok out /\ lists_range (m_run os) lo hi out.
Proof.
  intros V N M os lo hi HM HN HE.
  exact (all_range (bp_laws V HM) (bp_scan_laws V HM) (bp_erase_laws V HM) HM HN HE lo hi (os := os)).
Qed.
Print Assumptions C08_bptree_range.

Example C08_ex : hist_ok m_empty ex_hist /\
  (do t <- t_run 6 3 (bp_ops nat 3) (t_new (bp_ops nat 3)) (map bop_of ex_hist);
   do o <- t_range (bp_ops nat 3) t 11%Z 245%Z; do a <- t_lookup (bp_ops nat 3) t 15%Z;
   do s <- t_scan (bp_ops nat 3) t; Ok (map fst o, a, length s)) =
  Ok ([15; 30; 40; 50; 60; 70; 80; 90; 100; 230; 240]%Z, Some 8, 28).
Proof. split; [vm_compute; repeat split; discriminate|vm_compute; reflexivity]. Qed.

Theorem C08_bptree_shape : forall V N M (os : list (mop V)),
  2 <= M -> 6 <= N -> Nat.even N = true -> hist_ok m_empty os ->
  exists t out, t_run N M (bp_ops V M) (t_new (bp_ops V M)) (map bop_of os) = Ok t /\
    lists (m_run os) out /\
    shape N M (M / 2) (N / 2 - 1) (bp_ops V M) (th t) (tdepth t) true (troot t) (length out) /\
    forall d, tdepth t = S d -> 2 * ((N / 2) ^ d * (M / 2)) <= length out.
Proof.
  intros V N M os HM HN HE. exact (all_shape (bp_laws V HM) (bp_erase_laws V HM) HM HN HE (os := os)).
Qed.
Print Assumptions C08_bptree_shape.

Theorem C08_bptree_iterator : forall V N M (os : list (mop V)) k,
  2 <= M -> 6 <= N -> Nat.even N = true -> hist_ok m_empty os -> m_run os k <> None ->
  exists t out, t_run N M (bp_ops V M) (t_new (bp_ops V M)) (map bop_of os) = Ok t /\
    lists (m_run os) out /\ forall fuel, length out <= fuel -> it_all fuel t = Ok out.
Proof.
  intros V N M os k HM HN HE. exact (all_iter (bp_laws V HM) (bp_erase_laws V HM) HM HN HE (os := os) (k := k)).
Qed.
Print Assumptions C08_bptree_iterator.

(** * C09: with odd N a merge of branch nodes writes past the node arrays. *)
Theorem C09_bptree_odd_refuted : exists N M (os : list (mop nat)) k,
  2 < N /\ Nat.even N = false /\ 2 <= M /\ hist_ok m_empty (os ++ [OpErase _ k]) /\
  (exists r, (do t <- t_run N M (bp_ops nat M) (t_new (bp_ops nat M)) (map bop_of os); Ok (tdepth t)) = Ok r) /\
  t_run N M (bp_ops nat M) (t_new (bp_ops nat M)) (map bop_of (os ++ [OpErase _ k])) = UB.
Proof.
  exists 5, 2, (up 1 9), 10%Z. splits; try lia; try (vm_compute; repeat split; try discriminate; reflexivity).
  eexists. vm_compute. reflexivity.
Qed.
Print Assumptions C09_bptree_odd_refuted.

(** Without erase every N >= 2 is fine. *)
Theorem C09_bptree_insert_only_partial : forall V N M (os : list (mop V)) lo hi,
  2 <= M -> 2 <= N -> Forall is_insert os ->
  (exists t, t_run N M (bp_ops V M) (t_new (bp_ops V M)) (map bop_of os) = Ok t /\
     forall k, t_lookup (bp_ops V M) t k = Ok (m_run os k)) /\
  (exists t out rng, t_run N M (bp_ops V M) (t_new (bp_ops V M)) (map bop_of os) = Ok t /\
     t_scan (bp_ops V M) t = Ok out /\ lists (m_run os) out /\
     t_range (bp_ops V M) t lo hi = Ok rng /\ lists_range (m_run os) lo hi rng).
Proof.
  intros V N M os lo hi HM HN F.
  exact (conj (io_lookup (bp_laws V HM) HN F) (io_scan_range (bp_laws V HM) HN (bp_scan_laws V HM) lo hi F)).
Qed.
Print Assumptions C09_bptree_insert_only_partial.

Example C09_ex : Forall is_insert (up 1 30) /\
  (do t <- t_run 5 2 (bp_ops nat 2) (t_new (bp_ops nat 2)) (map bop_of (up 1 30));
   do v <- t_lookup (bp_ops nat 2) t 170%Z; Ok (tdepth t, v)) = Ok (3, Some 17).
Proof. split; [repeat constructor|vm_compute; reflexivity]. Qed.

(** * C10 *)
Theorem C10_hpbptree_map : forall V N M (os : list (mop V)),
  2 <= M -> 6 <= N -> Nat.even N = true -> hist_ok m_empty os ->
  exists t, t_run N M (hpbp_ops V M) (t_new (hpbp_ops V M)) (map bop_of os) = Ok t /\
    forall k, t_lookup (hpbp_ops V M) t k = Ok (m_run os k).
Proof.
  intros V N M os HM HN HE. exact (all_lookup (hpbp_laws V HM) (hpbp_erase_laws V HM) HM HN HE (os := os)).
Qed.
Print Assumptions C10_hpbptree_map.

Theorem C10_hpbptree_erase : forall V N M (os : list (mop V)) k,
  2 <= M -> 6 <= N -> Nat.even N = true -> hist_ok m_empty os -> m_run os k <> None ->
  exists t t', t_run N M (hpbp_ops V M) (t_new (hpbp_ops V M)) (map bop_of os) = Ok t /\
    t_erase N M (hpbp_ops V M) t k = Ok (t', true) /\
    forall x, t_lookup (hpbp_ops V M) t' x = Ok (m_del (m_run os) k x).
Proof.
  intros V N M os k HM HN HE. exact (all_erase (hpbp_laws V HM) (hpbp_erase_laws V HM) HM HN HE (os := os) (k := k)).
Qed.
Print Assumptions C10_hpbptree_erase.

Theorem C10_hpbptree_scan : forall V N M (os : list (mop V)),
  2 <= M -> 6 <= N -> Nat.even N = true -> hist_ok m_empty os ->
  exists t out, t_run N M (hpbp_ops V M) (t_new (hpbp_ops V M)) (map bop_of os) = Ok t /\
    t_scan (hpbp_ops V M) t = Ok out /\ lists (m_run os) out.
Proof.
  intros V N M os HM HN HE.
  exact (all_scan (hpbp_laws V HM) (hpbp_scan_laws V HM) (hpbp_erase_laws V HM) HM HN HE (os := os)).
Qed.
Print Assumptions C10_hpbptree_scan.

Theorem C10_hpbptree_range : forall V N M (os : list (mop V)) lo hi,
  2 <= M -> 6 <= N -> Nat.even N = true -> hist_ok m_empty os ->
  exists t out, t_run N M (hpbp_ops V M) (t_new (hpbp_ops V M)) (map bop_of os) = Ok t /\
    t_range (hpbp_ops V M) t lo hi = Ok out /\ lists_range (m_run os) lo hi out.
Proof.
  intros V N M os lo hi HM HN HE.
  exact (all_range (hpbp_laws V HM) (hpbp_scan_laws V HM) (hpbp_erase_laws V HM) HM HN HE lo hi (os := os)).
Qed.
Print Assumptions C10_hpbptree_range.

Theorem C10_hpbptree_iterator : forall V N M (os : list (mop V)) k,
  2 <= M -> 6 <= N -> Nat.even N = true -> hist_ok m_empty os -> m_run os k <> None ->
  exists t out, t_run N M (hpbp_ops V M) (t_new (hpbp_ops V M)) (map bop_of os) = Ok t /\
    lists (m_run os) out /\ forall fuel, length out <= fuel -> it_all fuel t = Ok out.
Proof.
  intros V N M os k HM HN HE. exact (all_iter (hpbp_laws V HM) (hpbp_erase_laws V HM) HM HN HE (os := os) (k := k)).
Qed.
Print Assumptions C10_hpbptree_iterator.

Example C10_ex : hist_ok m_empty ex_hist /\
  (do t <- t_run 6 3 (hpbp_ops nat 3) (t_new (hpbp_ops nat 3)) (map bop_of ex_hist);
   do o <- t_range (hpbp_ops nat 3) t 11%Z 245%Z; do a <- t_lookup (hpbp_ops nat 3) t 15%Z;
   do s <- t_scan (hpbp_ops nat 3) t; Ok (map fst o, a, length s)) =
  Ok ([15; 30; 40; 50; 60; 70; 80; 90; 100; 230; 240]%Z, Some 8, 28).
Proof. split; [vm_compute; repeat split; discriminate|vm_compute; reflexivity]. Qed.
