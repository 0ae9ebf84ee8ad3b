(** C88: an insert into a persistent tree that is interrupted between two levels; C89: recovery of the hybrid
    trees after it; C90: the same for erase. *)
From Verif Require Import Base MapSpec SortedList RankModel BitmapModel BTreeModel BTreeSpec BTreeLaws BTreeHist BTreeInsert SLeafModel SLeafProofs ULeafModel ULeafProofs
  BTreeMain FLeafModel FLeafProofs RecoverModel RecoverProofs PropUnsorted CutModel CutSpec CutProofs CutEProofs.
Open Scope nat_scope.

(** * C88 *)

(** Four entries fill the only leaf; the fifth insert splits it, and power fails before the new root is
    stored.  The old entries 3 and 4 are then not found, although the scan still lists them. *)
Theorem C88_refuted : exists (os : list (mop Z)) c k v x,
  let O := pbp_ops Z 4 in
  m_run os x = Some 4%Z /\
  (do t <- t_run 6 4 O (t_new O) (map bop_of os); t_lookup O t x) = Ok (Some 4%Z) /\
  (do t <- t_run 6 4 O (t_new O) (map bop_of os); do t1 <- t_insert_cut 6 O c t k v; t_lookup O t1 x) = Ok None /\
  (do t <- t_run 6 4 O (t_new O) (map bop_of os); do t1 <- t_insert_cut 6 O c t k v; do s <- t_scan O t1; Ok (map fst s)) = Ok [1; 2; 3; 4; 5]%Z.
Proof. exists (ins_of [1; 2; 3; 4]%Z), 0, 5%Z, 6%Z, 3%Z. cbv zeta. repeat split; vm_compute; reflexivity. Qed.
Print Assumptions C88_refuted.

(** The same one level up: the leaf and the branch node that was split are written, the root is not. *)
Theorem C88_branch_refuted : exists (os : list (mop Z)) c k v x,
  let O := pbp_ops Z 2 in
  1 <= c /\ m_run os x = Some (x + 1)%Z /\
  (do t <- t_run 2 2 O (t_new O) (map bop_of os); t_lookup O t x) = Ok (Some (x + 1)%Z) /\
  (do t <- t_run 2 2 O (t_new O) (map bop_of os); do t1 <- t_insert_cut 2 O c t k v; t_lookup O t1 x) = Ok None.
Proof. exists (ins_of [1; 2; 3; 4]%Z), 1, 5%Z, 6%Z, 4%Z. cbv zeta. repeat split; vm_compute; reflexivity. Qed.
Print Assumptions C88_branch_refuted.

(** Inserting a key that became invisible stores it a second time. *)
Theorem C88_duplicate_refuted : exists (os : list (mop Z)) c k v x,
  let O := pbp_ops Z 4 in
  (do t <- t_run 6 4 O (t_new O) (map bop_of os); do t1 <- t_insert_cut 6 O c t k v; do t2 <- t_insert 6 O t1 x 0%Z;
   do s <- t_scan O t2; Ok (count_occ Z.eq_dec (map fst s) x)) = Ok 2.
Proof. exists (ins_of [1; 2; 3; 4]%Z), 0, 5%Z, 6%Z, 3%Z. vm_compute. reflexivity. Qed.
Print Assumptions C88_duplicate_refuted.

(** rootNode stored, depth not yet: the branch node is read as a leaf. *)
Theorem C88_root_refuted : exists (os : list (mop Z)) k v x,
  let O := pbp_ops Z 4 in
  m_run os x = Some 4%Z /\
  (do t <- t_run 6 4 O (t_new O) (map bop_of os); do t' <- t_insert 6 O t k v; t_lookup O t' x) = Ok (Some 4%Z) /\
  (do t <- t_run 6 4 O (t_new O) (map bop_of os); do t1 <- t_insert_torn 6 O t k v; t_lookup O t1 x) = UB.
Proof. exists (ins_of [1; 2; 3; 4]%Z), 5%Z, 6%Z, 3%Z. cbv zeta. repeat split; vm_compute; reflexivity. Qed.
Print Assumptions C88_root_refuted.

(** What holds: no lookup goes wrong otherwise, at most the entries of one split-off subtree are hidden, and the
    full scan always reports everything, the new entry included. *)
Theorem C88_pbptree_partial : forall V N M (os : list (mop V)) c k v,
  2 <= M -> 6 <= N -> Nat.even N = true -> hist_ok m_empty os ->
  exists t t1 out, t_run N M (pbp_ops V M) (t_new (pbp_ops V M)) (map bop_of os) = Ok t /\
    t_insert_cut N (pbp_ops V M) c t k v = Ok t1 /\
    gap_only (M * (N + 1) ^ c) (m_put (m_run os) k v) (t_lookup (pbp_ops V M) t1) /\
    t_scan (pbp_ops V M) t1 = Ok out /\ enumerates (m_put (m_run os) k v) out.
Proof.
  intros V N M os c k v HM HN HE F. destruct (all_hist (pbp_laws V HM) (pbp_erase_laws V HM) HM HN HE F) as (t & es & E & I & G).
  destruct (@cut_after _ V N M _ _ (M / 2) (N / 2 - 1) _ (pbp_laws V HM) ltac:(lia) c t es _ k v I G Logic.I) as (t1 & out & H).
  exists t, t1, out. auto.
Qed.
Print Assumptions C88_pbptree_partial.

Theorem C88_unsorted_partial : forall V kt N M (os : list (mop V)) c k v,
  2 <= M -> 2 <= N -> (1 <= kt_bits kt <= 64)%Z -> Forall (ins_ok (kt_in kt)) os -> kt_in kt k ->
  exists t t1 out, t_run N M (un_ops V kt M) (t_new (un_ops V kt M)) (map bop_of os) = Ok t /\
    t_insert_cut N (un_ops V kt M) c t k v = Ok t1 /\
    gap_only (M * (N + 1) ^ c) (m_put (m_run os) k v) (t_lookup (un_ops V kt M) t1) /\
    t_scan (un_ops V kt M) t1 = Ok out /\ enumerates (m_put (m_run os) k v) out.
Proof.
  intros V kt N M os c k v HM HN Ht F Kk. destruct (io_hist (ul_laws V HM Ht) HN F) as (t & es & E & I & G).
  destruct (@cut_after _ V N M _ _ _ _ _ (ul_laws V HM Ht) HN c t es _ k v I G Kk) as (t1 & out & H).
  exists t, t1, out. auto.
Qed.
Print Assumptions C88_unsorted_partial.

Definition lk {L} (O : leafops L Z) (t : tree L) (xs : list Z) : list (res (option Z)) := map (t_lookup O t) xs.
Definition dels_of (ks : list Z) : list (mop Z) := map (fun k => OpErase Z k) ks.

Definition tens (n : nat) : list Z := map (fun i => 10 * Z.of_nat i)%Z (seq 1 n).

(** Keys 10, 20, ..., 160 without 10; the insert of 161 splits a leaf, its branch node and changes the root. *)
Example C88_ex : let O := pbp_ops Z 2 in
  let os := ins_of (tens 16) ++ dels_of [10]%Z in
  hist_ok m_empty os /\
  (do t <- t_run 6 2 O (t_new O) (map bop_of os);
   do t0 <- t_insert_cut 6 O 0 t 161%Z 1%Z; do t1 <- t_insert_cut 6 O 1 t 161%Z 1%Z; do t2 <- t_insert_cut 6 O 5 t 161%Z 1%Z;
   do s <- t_scan O t1; Ok (tdepth t, lk O t0 [120; 130; 150; 160; 161]%Z, lk O t1 [120; 130; 150; 160; 161]%Z,
     lk O t2 [120; 130; 150; 160; 161]%Z, length s)) =
  Ok (2%nat, [Ok (Some 121); Ok (Some 131); Ok (Some 151); Ok None; Ok None], [Ok (Some 121); Ok None; Ok None; Ok None; Ok None],
    [Ok (Some 121); Ok (Some 131); Ok (Some 151); Ok (Some 161); Ok (Some 1)], 16%nat)%Z.
Proof. cbv zeta. split; [vm_compute; repeat split; discriminate|vm_compute; reflexivity]. Qed.

(** * C89 *)

(** FPTree: inserts, restarts, and inserts interrupted anywhere between two levels followed by a restart, in any
    order, behave like the inserts alone, the interrupted ones included. *)
Theorem C89_fptree_lookup : forall V t fp junk N M (os : list (fop V)),
  2 <= M -> (N.of_nat M < W)%N -> 2 <= N -> (1 <= kt_bits t <= 64)%Z -> Forall (fkeys_ok (kt_in t)) os ->
  exists tr, f_run N (fp_ops V t fp junk M) false (t_new (fp_ops V t fp junk M)) os = Ok tr /\
    forall k, t_lookup (fp_ops V t fp junk M) tr k = Ok (m_run (fops os) k).
Proof.
  intros V t fp junk N M os HM HW HN Ht. exact (f_lookup (flz_laws V fp junk HM HW Ht) HN (@fl_minkey_ok V t fp M) (div2_pos HM) (os := os)).
Qed.
Print Assumptions C89_fptree_lookup.

Theorem C89_fptree_scan : forall V t fp junk N M (os : list (fop V)),
  2 <= M -> (N.of_nat M < W)%N -> 2 <= N -> (1 <= kt_bits t <= 64)%Z -> Forall (fkeys_ok (kt_in t)) os ->
  exists tr out, f_run N (fp_ops V t fp junk M) false (t_new (fp_ops V t fp junk M)) os = Ok tr /\
    t_scan (fp_ops V t fp junk M) tr = Ok out /\ enumerates (m_run (fops os)) out.
Proof.
  intros V t fp junk N M os HM HW HN Ht. exact (f_scan (flz_laws V fp junk HM HW Ht) HN (@fl_minkey_ok V t fp M) (div2_pos HM) (os := os)).
Qed.
Print Assumptions C89_fptree_scan.

(** HPBPTree: one interrupted insert after any history; recover() itself is the one of C11. *)
Theorem C89_hpbptree : forall V N M (os : list (mop V)) c k v,
  2 <= M -> 6 <= N -> Nat.even N = true -> hist_ok m_empty os ->
  exists t t1 t2 out, t_run N M (pbp_ops V M) (t_new (pbp_ops V M)) (map bop_of os) = Ok t /\
    t_insert_cut N (pbp_ops V M) c t k v = Ok t1 /\
    recover N (pbp_ops V M) true (th t1) 0 = Ok t2 /\
    (forall x, t_lookup (pbp_ops V M) t2 x = Ok (m_put (m_run os) k v x)) /\
    t_scan (pbp_ops V M) t2 = Ok out /\ lists (m_put (m_run os) k v) out.
Proof.
  intros V N M os c k v HM HN HE. exact (hyb_insert_cut (pbp_laws V HM) (pbp_scan_laws V HM) (pbp_erase_laws V HM) HM HN HE c k v (os := os)).
Qed.
Print Assumptions C89_hpbptree.

(** C11 with erase in the history. *)
Theorem C11_recover_erase_partial : forall V N M (os : list (mop V)),
  2 <= M -> 6 <= N -> Nat.even N = true -> hist_ok m_empty os ->
  exists t t' out, t_run N M (pbp_ops V M) (t_new (pbp_ops V M)) (map bop_of os) = Ok t /\
    recover N (pbp_ops V M) true (th t) 0 = Ok t' /\
    (forall k, t_lookup (pbp_ops V M) t' k = Ok (m_run os k)) /\
    t_scan (pbp_ops V M) t' = Ok out /\ lists (m_run os) out.
Proof.
  intros V N M os HM HN HE. exact (hyb_all (pbp_laws V HM) (pbp_scan_laws V HM) (pbp_erase_laws V HM) HM HN HE (os := os)).
Qed.
Print Assumptions C11_recover_erase_partial.

Definition fins (ks : list Z) : list (fop Z) := map (fun k => FIns k (k + 1)%Z) ks.
Example C89_fp_ex : let O := fp_ops Z i32 fpHash (fun _ => 0%Z) 3 in
  let os := fins (scrambled 12) ++ FCut 0 1%Z 2%Z :: fins [3; 2; -7]%Z ++ FRestart :: FCut 1 60%Z 61%Z :: fins (map (Z.add 1000) (scrambled 20)) ++ [FCut 5 77 78]%Z in
  Forall (fkeys_ok (kt_in i32)) os /\
  (do tr <- f_run 4 O false (t_new O) os; do s <- t_scan O tr; Ok (tdepth tr, lk O tr [1; -7; 60; 77; 5000]%Z, length s)) =
  Ok (2%nat, [Ok (Some 2); Ok (Some (-6)); Ok (Some 61); Ok (Some 78); Ok None], 38%nat)%Z.
Proof.
  cbv zeta. split; [|vm_compute; reflexivity]. repeat constructor; vm_compute; intuition discriminate.
Qed.
Example C89_hp_ex : let O := pbp_ops Z 2 in
  let os := ins_of (tens 16) ++ dels_of [10]%Z in
  hist_ok m_empty os /\
  (do t <- t_run 6 2 O (t_new O) (map bop_of os); do t0 <- t_insert_cut 6 O 1 t 161%Z 1%Z; do t1 <- recover 6 O true (th t0) 0;
   do t2 <- recover 6 O true (th t) 0;
   do s <- t_scan O t1; Ok (tdepth t, lk O t0 [10; 130; 161]%Z, lk O t1 [10; 130; 161]%Z, lk O t2 [10; 130; 161]%Z, length s)) =
  Ok (2%nat, [Ok None; Ok None; Ok None], [Ok None; Ok (Some 131); Ok (Some 1)], [Ok None; Ok (Some 131); Ok None], 16%nat)%Z.
Proof. cbv zeta. split; [vm_compute; repeat split; discriminate|vm_compute; reflexivity]. Qed.

(** * C90 *)

(** A leaf has been merged into its neighbour and freed; power fails before the parent forgets it.  Looking up
    an entry that was not erased then reads freed memory. *)
Theorem C90_refuted : exists (os : list (mop Z)) c k x,
  let O := pbp_ops Z 4 in
  hist_ok m_empty (os ++ [OpErase _ k]) /\ m_run (os ++ [OpErase _ k]) x = Some 4%Z /\
  (do t <- t_run 6 4 O (t_new O) (map bop_of os); t_lookup O t x) = Ok (Some 4%Z) /\
  (do t <- t_run 6 4 O (t_new O) (map bop_of os); do t1 <- t_erase_cut 6 4 O c t k; t_lookup O t1 x) = UB.
Proof.
  exists (ins_of (map Z.of_nat (seq 1 12))), 0, 1%Z, 3%Z. cbv zeta.
  split; [vm_compute; repeat split; discriminate|]. repeat split; vm_compute; reflexivity.
Qed.
Print Assumptions C90_refuted.

(** Entries have been moved from the right neighbour; power fails before the parent gets the new separator.  The
    moved entries are not found. *)
Theorem C90_balance_refuted : exists (os : list (mop Z)) c k x,
  let O := pbp_ops Z 4 in
  hist_ok m_empty (os ++ [OpErase _ k]) /\ m_run (os ++ [OpErase _ k]) x = Some 6%Z /\
  (do t <- t_run 6 4 O (t_new O) (map bop_of os); t_lookup O t x) = Ok (Some 6%Z) /\
  (do t <- t_run 6 4 O (t_new O) (map bop_of os); do t1 <- t_erase_cut 6 4 O c t k; t_lookup O t1 x) = Ok None.
Proof.
  exists (ins_of [1; 2; 5; 6; 7; 8]%Z), 0, 1%Z, 5%Z. cbv zeta.
  split; [vm_compute; repeat split; discriminate|]. repeat split; vm_compute; reflexivity.
Qed.
Print Assumptions C90_balance_refuted.

(** The last two leaves have been merged and only rootNode and depth are still to be stored: the old root leads to the
    freed leaf, while the keys before the old separator are found. *)
Theorem C90_root_refuted : exists (os : list (mop Z)) c k x y,
  let O := pbp_ops Z 4 in
  hist_ok m_empty (os ++ [OpErase _ k]) /\ m_run (os ++ [OpErase _ k]) x = Some 4%Z /\ m_run (os ++ [OpErase _ k]) y = Some 3%Z /\
  (do t <- t_run 6 4 O (t_new O) (map bop_of os); do r <- t_erase 6 4 O t k; Ok (tdepth t, tdepth (fst r))) = Ok (1, 0) /\
  (do t <- t_run 6 4 O (t_new O) (map bop_of os); do t1 <- t_erase_cut 6 4 O c t k; t_lookup O t1 x) = UB /\
  (do t <- t_run 6 4 O (t_new O) (map bop_of os); do t1 <- t_erase_cut 6 4 O c t k; t_lookup O t1 y) = Ok (Some 3%Z).
Proof.
  exists (ins_of (map Z.of_nat (seq 1 5)) ++ [OpErase _ 5%Z]), 1, 1%Z, 3%Z, 2%Z. cbv zeta.
  split; [vm_compute; repeat split; discriminate|]. repeat split; vm_compute; reflexivity.
Qed.
Print Assumptions C90_root_refuted.

(** Until the underflow is handled nothing is wrong: all lookups, and all later inserts. *)
Theorem C90_first_partial : forall V N M (os : list (mop V)) k os2,
  2 <= M -> 6 <= N -> Nat.even N = true -> hist_ok m_empty os -> m_run os k <> None -> Forall (ins_ok (fun _ => True)) os2 ->
  exists t t1 t2 out, t_run N M (pbp_ops V M) (t_new (pbp_ops V M)) (map bop_of os) = Ok t /\ t_erase_first (pbp_ops V M) t k = Ok t1 /\
    (forall x, t_lookup (pbp_ops V M) t1 x = Ok (m_del (m_run os) k x)) /\
    t_run N M (pbp_ops V M) t1 (map bop_of os2) = Ok t2 /\
    (forall x, t_lookup (pbp_ops V M) t2 x = Ok (fold_left (@m_step V) os2 (m_del (m_run os) k) x)) /\
    t_scan (pbp_ops V M) t2 = Ok out /\ lists (fold_left (@m_step V) os2 (m_del (m_run os) k)) out.
Proof.
  intros V N M os k os2 HM HN HE. exact (erase_first_hist (pbp_laws V HM) (pbp_scan_laws V HM) (pbp_erase_laws V HM) HM HN HE (k := k) (os := os) (os2 := os2)).
Qed.
Print Assumptions C90_first_partial.

(** HPBPTree: the restart after an erase interrupted anywhere between two levels gives the tree without the
    erased entry. *)
Theorem C90_hpbptree : forall V N M (os : list (mop V)) c k,
  2 <= M -> 6 <= N -> Nat.even N = true -> hist_ok m_empty os -> m_run os k <> None ->
  exists t t1 t2 out, t_run N M (pbp_ops V M) (t_new (pbp_ops V M)) (map bop_of os) = Ok t /\ t_erase_cut N M (pbp_ops V M) c t k = Ok t1 /\
    recover N (pbp_ops V M) true (th t1) 0 = Ok t2 /\
    (forall x, t_lookup (pbp_ops V M) t2 x = Ok (m_del (m_run os) k x)) /\
    t_scan (pbp_ops V M) t2 = Ok out /\ lists (m_del (m_run os) k) out.
Proof.
  intros V N M os c k HM HN HE. exact (hyb_erase_cut (pbp_laws V HM) (pbp_scan_laws V HM) (pbp_erase_laws V HM) HM HN HE c (k := k) (os := os)).
Qed.
Print Assumptions C90_hpbptree.

Theorem C90_hpbptree_first : forall V N M (os : list (mop V)) k,
  4 <= M -> 6 <= N -> Nat.even N = true -> hist_ok m_empty os -> m_run os k <> None ->
  exists t t1 t2 out, t_run N M (pbp_ops V M) (t_new (pbp_ops V M)) (map bop_of os) = Ok t /\ t_erase_first (pbp_ops V M) t k = Ok t1 /\
    recover N (pbp_ops V M) true (th t1) 0 = Ok t2 /\
    (forall x, t_lookup (pbp_ops V M) t2 x = Ok (m_del (m_run os) k x)) /\
    t_scan (pbp_ops V M) t2 = Ok out /\ lists (m_del (m_run os) k) out.
Proof.
  intros V N M os k H4 HN HE. assert (HM : 2 <= M) by lia.
  exact (hyb_erase_first (pbp_laws V HM) (pbp_scan_laws V HM) (pbp_erase_laws V HM) HM HN HE (k := k) H4 (os := os)).
Qed.
Print Assumptions C90_hpbptree_first.

Example C90_ex : let O := pbp_ops Z 4 in
  let os := ins_of (map Z.of_nat (seq 1 12)) in
  hist_ok m_empty os /\ m_run os 1%Z <> None /\
  (do t <- t_run 6 4 O (t_new O) (map bop_of os); do t0 <- t_erase_cut 6 4 O 0 t 1%Z; do t1 <- recover 6 O true (th t0) 0;
   do t2 <- t_erase_first O t 1%Z; do t3 <- recover 6 O true (th t2) 0; do t4 <- t_insert 6 O t2 1%Z 9%Z;
   do s <- t_scan O t1; Ok (lk O t0 [1; 2; 3]%Z, lk O t1 [1; 2; 3]%Z, lk O t2 [1; 2; 3]%Z, lk O t3 [1; 2; 3]%Z, lk O t4 [1; 2; 3]%Z, length s)) =
  Ok ([Ok None; Ok (Some 3); UB], [Ok None; Ok (Some 3); Ok (Some 4)], [Ok None; Ok (Some 3); Ok (Some 4)],
      [Ok None; Ok (Some 3); Ok (Some 4)], [Ok (Some 9); Ok (Some 3); Ok (Some 4)], 11%nat)%Z.
Proof. cbv zeta. split; [vm_compute; repeat split; discriminate|]. split; [vm_compute; discriminate|vm_compute; reflexivity]. Qed.
