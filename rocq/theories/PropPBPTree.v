(** C01-C07: PBPTree (pbptrees/PBPTree.hpp). *)
From Verif Require Import Base MapSpec BTreeModel BTreeSpec SLeafModel SLeafProofs SIterModel BTreeMain.
Open Scope nat_scope.

(** A history on small nodes with splits on two levels, rebalancing and merging. *)
Definition up (a n : nat) : list (mop nat) := map (fun i => OpInsert (Z.of_nat (10 * i)) i) (seq a n).
Definition dn (a n : nat) : list (mop nat) := map (fun i => OpErase _ (Z.of_nat (10 * i))) (seq a n).
Definition ex_hist : list (mop nat) :=
  up 1 40 ++ dn 3 20 ++ up 1 10 ++ [OpInsert 15%Z 7; OpInsert 15%Z 8; OpErase _ 20%Z].

(** * C01 *)
Theorem C01_pbptree_map : forall V N M (os : list (mop V)),
  2 <= M -> 6 <= N -> Nat.even N = true -> hist_ok m_empty os ->
  exists t, t_run N M (pbp_ops V M) (t_new (pbp_ops V M)) (map bop_of os) = Ok t /\
    forall k, t_lookup (pbp_ops V M) t k = Ok (m_run os k).
Proof.
  intros V N M os HM HN HE. exact (all_lookup (pbp_laws V HM) (pbp_erase_laws V HM) HM HN HE (os := os)).
Qed.
Print Assumptions C01_pbptree_map.

Theorem C01_pbptree_erase : forall V N M (os : list (mop V)) k,
  2 <= M -> 6 <= N -> Nat.even N = true -> hist_ok m_empty os -> m_run os k <> None ->
  exists t t', t_run N M (pbp_ops V M) (t_new (pbp_ops V M)) (map bop_of os) = Ok t /\
    t_erase N M (pbp_ops V M) t k = Ok (t', true) /\
    forall x, t_lookup (pbp_ops V M) t' x = Ok (m_del (m_run os) k x).
Proof.
  intros V N M os k HM HN HE. exact (all_erase (pbp_laws V HM) (pbp_erase_laws V HM) HM HN HE (os := os) (k := k)).
Qed.
Print Assumptions C01_pbptree_erase.

Example C01_ex : hist_ok m_empty ex_hist /\
  (do t <- t_run 6 2 (pbp_ops nat 2) (t_new (pbp_ops nat 2)) (map bop_of ex_hist);
   do a <- t_lookup (pbp_ops nat 2) t 15%Z; do b <- t_lookup (pbp_ops nat 2) t 400%Z;
   do c <- t_lookup (pbp_ops nat 2) t 20%Z; Ok (tdepth t, a, b, c)) = Ok (2, Some 8, Some 40, None).
Proof. split; [vm_compute; repeat split; discriminate|vm_compute; reflexivity]. Qed.

(** * C02 *)
Theorem C02_pbptree_scan : forall V N M (os : list (mop V)),
  2 <= M -> 6 <= N -> Nat.even N = true -> hist_ok m_empty os ->
  exists t out, t_run N M (pbp_ops V M) (t_new (pbp_ops V M)) (map bop_of os) = Ok t /\
    t_scan (pbp_ops V M) t = Ok out /\ lists (m_run os) out.
Proof.
  intros V N M os HM HN HE.
  exact (all_scan (pbp_laws V HM) (pbp_scan_laws V HM) (pbp_erase_laws V HM) HM HN HE (os := os)).
Qed.
Print Assumptions C02_pbptree_scan.

Example C02_ex : hist_ok m_empty ex_hist /\
  (do t <- t_run 6 3 (pbp_ops nat 3) (t_new (pbp_ops nat 3)) (map bop_of ex_hist);
   do o <- t_scan (pbp_ops nat 3) t; Ok (length o, firstn 3 o)) =
  Ok (28, [(10%Z, 1); (15%Z, 8); (30%Z, 3)]).
Proof. split; [vm_compute; repeat split; discriminate|vm_compute; reflexivity]. Qed.

(** * C03 *)
Theorem C03_pbptree_range : forall V N M (os : list (mop V)) lo hi,
  2 <= M -> 6 <= N -> Nat.even N = true -> hist_ok m_empty os ->
  exists t out, t_run N M (pbp_ops V M) (t_new (pbp_ops V M)) (map bop_of os) = Ok t /\
    t_range (pbp_ops V M) t lo hi = Ok out /\ lists_range (m_run os) lo hi out.
Proof.
  intros V N M os lo hi HM HN HE.
  exact (all_range (pbp_laws V HM) (pbp_scan_laws V HM) (pbp_erase_laws V HM) HM HN HE lo hi (os := os)).
Qed.
Print Assumptions C03_pbptree_range.

Example C03_ex : hist_ok m_empty ex_hist /\
  (do t <- t_run 6 3 (pbp_ops nat 3) (t_new (pbp_ops nat 3)) (map bop_of ex_hist);
   do o <- t_range (pbp_ops nat 3) t 11%Z 245%Z; do e <- t_range (pbp_ops nat 3) t 99%Z 98%Z;
   Ok (map fst o, e)) =
  Ok ([15; 30; 40; 50; 60; 70; 80; 90; 100; 230; 240]%Z, []).
Proof. split; [vm_compute; repeat split; discriminate|vm_compute; reflexivity]. Qed.

(** * C04: erase of an absent key may remove another entry and report success. *)
Theorem C04_pbptree_erase_absent_refuted : exists N M (os : list (mop nat)) k x,
  2 <= M /\ 6 <= N /\ Nat.even N = true /\ hist_ok m_empty os /\
  m_run os k = None /\ m_run os x = Some 2 /\
  (do t <- t_run N M (pbp_ops nat M) (t_new (pbp_ops nat M)) (map bop_of os);
   do r <- t_erase N M (pbp_ops nat M) t k;
   do v <- t_lookup (pbp_ops nat M) (fst r) x; Ok (snd r, v)) = Ok (true, None).
Proof.
  exists 6, 4, [OpInsert 10%Z 1; OpInsert 20%Z 2; OpInsert 30%Z 3; OpErase _ 30%Z], 30%Z, 20%Z.
  splits; try (vm_compute; repeat split; try discriminate; reflexivity); lia.
Qed.
Print Assumptions C04_pbptree_erase_absent_refuted.

(** On a new tree it reads a key that was never written. *)
Theorem C04_pbptree_erase_empty_refuted : exists N M, 2 <= M /\ 6 <= N /\ Nat.even N = true /\
  t_erase N M (pbp_ops nat M) (t_new (pbp_ops nat M)) 5%Z = UB.
Proof. exists 6, 4. splits; try lia; vm_compute; reflexivity. Qed.
Print Assumptions C04_pbptree_erase_empty_refuted.

(** What holds: the leaf that [k] belongs to is not empty, and the slot compared with [k] is live or holds another key.
    The tree may be rearranged, but keeps its contents and stays usable. *)
Theorem C04_pbptree_erase_absent_partial : forall V N M (os : list (mop V)) k t,
  2 <= M -> 6 <= N -> Nat.even N = true -> hist_ok m_empty os ->
  t_run N M (pbp_ops V M) (t_new (pbp_ops V M)) (map bop_of os) = Ok t -> m_run os k = None ->
  (forall j l, find_leaf (pbp_ops V M) (th t) (tdepth t) (troot t) k = Ok j -> hl (th t) j = Some l ->
    sn l <> 0 /\ ((exists i x, i < sn l /\ aget (sk l) i = Ok x /\ (k < x)%Z) \/ (exists x, aget (sk l) (sn l) = Ok x /\ x <> k))) ->
  exists t', t_erase N M (pbp_ops V M) t k = Ok (t', false) /\ (forall x, t_lookup (pbp_ops V M) t' x = Ok (m_run os x)) /\
    (exists out, t_scan (pbp_ops V M) t' = Ok out /\ lists (m_run os) out) /\
    forall os2, hist_ok (m_run os) os2 -> exists t2, t_run N M (pbp_ops V M) t' (map bop_of os2) = Ok t2 /\
      forall x, t_lookup (pbp_ops V M) t2 x = Ok (m_run (os ++ os2) x).
Proof.
  intros V N M os k t HM HN HE.
  exact (sorted_absent (pbp_laws V HM) (pbp_scan_laws V HM) (pbp_erase_laws V HM) (pbp_absent (V := V) HM) HM HN HE (os := os) (k := k) (t := t)).
Qed.
Print Assumptions C04_pbptree_erase_absent_partial.

(** With M = 5 a split leaves two entries in the right leaf, which counts as too few, so erasing an absent key moves an entry there. *)
Example C04_ex : let os := up 1 5 ++ [OpInsert 5%Z 0] in
  (do t <- t_run 6 5 (pbp_ops nat 5) (t_new (pbp_ops nat 5)) (map bop_of os);
   do j <- find_leaf (pbp_ops nat 5) (th t) (tdepth t) (troot t) 45%Z; do l <- of_opt (hl (th t) j);
   do r <- t_erase 6 5 (pbp_ops nat 5) t 45%Z; do o <- t_scan (pbp_ops nat 5) (fst r); do l' <- of_opt (hl (th (fst r)) j);
   Ok (sn l, aget (sk l) 1, snd r, sn l', o)) = Ok (2, Ok 50%Z, false, 3, [(5%Z, 0); (10%Z, 1); (20%Z, 2); (30%Z, 3); (40%Z, 4); (50%Z, 5)]).
Proof. vm_compute. reflexivity. Qed.

(** * C05: with N = 4 erasing one key makes a leaf the root of a tree of depth 1, so that the next
    lookup uses a leaf node as a branch node. *)
Theorem C05_pbptree_n4_refuted : exists M (os : list (mop nat)),
  2 <= M /\ hist_ok m_empty os /\ m_run os 60%Z = Some 6 /\
  (do t <- t_run 4 M (pbp_ops nat M) (t_new (pbp_ops nat M)) (map bop_of os);
   t_lookup (pbp_ops nat M) t 60%Z) = UB /\
  (do t <- t_run 4 M (pbp_ops nat M) (t_new (pbp_ops nat M)) (map bop_of os);
   Ok (tdepth t, hb (th t) (troot t))) = Ok (1, None).
Proof.
  exists 2, (up 1 6 ++ [OpInsert 31%Z 0; OpInsert 32%Z 0; OpErase _ 10%Z]).
  splits; try (vm_compute; repeat split; try discriminate; reflexivity); lia.
Qed.
Print Assumptions C05_pbptree_n4_refuted.

(** What holds for every admitted N (indeed every N >= 2): histories without erase. *)
Theorem C05_pbptree_insert_only_partial : forall V N M (os : list (mop V)) lo hi,
  2 <= M -> 2 <= N -> Forall is_insert os ->
  (exists t, t_run N M (pbp_ops V M) (t_new (pbp_ops V M)) (map bop_of os) = Ok t /\
     forall k, t_lookup (pbp_ops V M) t k = Ok (m_run os k)) /\
  (exists t out rng, t_run N M (pbp_ops V M) (t_new (pbp_ops V M)) (map bop_of os) = Ok t /\
     t_scan (pbp_ops V M) t = Ok out /\ lists (m_run os) out /\
     t_range (pbp_ops V M) t lo hi = Ok rng /\ lists_range (m_run os) lo hi rng).
Proof.
  intros V N M os lo hi HM HN F.
  exact (conj (io_lookup (pbp_laws V HM) HN F) (io_scan_range (pbp_laws V HM) HN (pbp_scan_laws V HM) lo hi F)).
Qed.
Print Assumptions C05_pbptree_insert_only_partial.

Example C05_ex : Forall is_insert (up 1 30) /\
  (do t <- t_run 4 2 (pbp_ops nat 2) (t_new (pbp_ops nat 2)) (map bop_of (up 1 30));
   do v <- t_lookup (pbp_ops nat 2) t 170%Z; Ok (tdepth t, v)) = Ok (3, Some 17).
Proof. split; [repeat constructor|vm_compute; reflexivity]. Qed.

(** * C06 *)
Theorem C06_pbptree_shape : forall V N M (os : list (mop V)),
  2 <= M -> 6 <= N -> Nat.even N = true -> hist_ok m_empty os ->
  exists t out, t_run N M (pbp_ops V M) (t_new (pbp_ops V M)) (map bop_of os) = Ok t /\
    lists (m_run os) out /\
    shape N M (M / 2) (N / 2 - 1) (pbp_ops V M) (th t) (tdepth t) true (troot t) (length out) /\
    forall d, tdepth t = S d -> 2 * ((N / 2) ^ d * (M / 2)) <= length out.
Proof.
  intros V N M os HM HN HE. exact (all_shape (pbp_laws V HM) (pbp_erase_laws V HM) HM HN HE (os := os)).
Qed.
Print Assumptions C06_pbptree_shape.

Example C06_ex : hist_ok m_empty ex_hist /\
  (do t <- t_run 6 2 (pbp_ops nat 2) (t_new (pbp_ops nat 2)) (map bop_of ex_hist); Ok (tdepth t)) = Ok 2 /\
  2 * ((6 / 2) ^ 1 * (2 / 2)) = 6.
Proof. splits; [vm_compute; repeat split; discriminate|vm_compute; reflexivity|reflexivity]. Qed.

(** * C07 *)
Theorem C07_pbptree_iterator_partial : forall V N M (os : list (mop V)) k,
  2 <= M -> 6 <= N -> Nat.even N = true -> hist_ok m_empty os -> m_run os k <> None ->
  exists t out, t_run N M (pbp_ops V M) (t_new (pbp_ops V M)) (map bop_of os) = Ok t /\
    lists (m_run os) out /\ forall fuel, length out <= fuel -> it_all fuel t = Ok out.
Proof.
  intros V N M os k HM HN HE. exact (all_iter (pbp_laws V HM) (pbp_erase_laws V HM) HM HN HE (os := os) (k := k)).
Qed.
Print Assumptions C07_pbptree_iterator_partial.

Example C07_ex : hist_ok m_empty ex_hist /\ m_run ex_hist 15%Z <> None /\
  (do t <- t_run 6 3 (pbp_ops nat 3) (t_new (pbp_ops nat 3)) (map bop_of ex_hist);
   do o <- it_all 28 t; Ok (length o)) = Ok 28.
Proof. splits; [vm_compute; repeat split; discriminate|discriminate|vm_compute; reflexivity]. Qed.

(** On an empty tree [begin() != end()], and dereferencing [begin()] is undefined. *)
Theorem C07_pbptree_iterator_empty_refuted : exists M it,
  2 <= M /\ it_begin (t_new (pbp_ops nat M)) = Ok it /\ it_eqb it it_end = false /\
  it_deref (t_new (pbp_ops nat M)) it = UB.
Proof. exists 4. eexists. splits; [lia|vm_compute; reflexivity..]. Qed.
Print Assumptions C07_pbptree_iterator_empty_refuted.
