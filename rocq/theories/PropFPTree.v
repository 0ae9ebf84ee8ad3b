(** C14, C15: FPTree (pbptrees/FPTree.hpp).  [t] is the integral KeyType, [fp] the fingerprint
    function, [junk] the uninitialised fingerprints of a new leaf. *)
From Verif Require Import Base MapSpec SortedList RankModel BitmapModel BTreeModel BTreeSpec BTreeLaws SLeafModel ULeafModel UTreeProofs BTreeMain
  FLeafModel FLeafProofs FTreeProofs EraseSpec EraseG PropUnsorted.
Open Scope nat_scope.

(** * C14 *)
Theorem C14_fptree_map : forall V t fp junk N M (os : list (mop V)),
  2 <= M -> (N.of_nat M < W)%N -> 2 <= N -> (1 <= kt_bits t <= 64)%Z -> Forall (ins_ok (kt_in t)) os ->
  exists tr, t_run N M (fp_ops V t fp junk M) (t_new (fp_ops V t fp junk M)) (map bop_of os) = Ok tr /\
    forall k, t_lookup (fp_ops V t fp junk M) tr k = Ok (m_run os k).
Proof. intros V t fp junk N M os HM HW HN Ht. exact (io_lookup (flz_laws V fp junk HM HW Ht) HN (os := os)). Qed.
Print Assumptions C14_fptree_map.

Theorem C14_fptree_scan : forall V t fp junk N M (os : list (mop V)),
  2 <= M -> (N.of_nat M < W)%N -> 2 <= N -> (1 <= kt_bits t <= 64)%Z -> Forall (ins_ok (kt_in t)) os ->
  exists tr out, t_run N M (fp_ops V t fp junk M) (t_new (fp_ops V t fp junk M)) (map bop_of os) = Ok tr /\
    t_scan (fp_ops V t fp junk M) tr = Ok out /\ enumerates (m_run os) out /\ in_runs M out.
Proof. intros V t fp junk N M os HM HW HN Ht. exact (io_scan_enum (flz_laws V fp junk HM HW Ht) HN (os := os)). Qed.
Print Assumptions C14_fptree_scan.

Theorem C14_fptree_range : forall V t fp junk N M (os : list (mop V)) lo hi,
  2 <= M -> (N.of_nat M < W)%N -> 2 <= N -> (1 <= kt_bits t <= 64)%Z -> Forall (ins_ok (kt_in t)) os ->
  exists tr out, t_run N M (fp_ops V t fp junk M) (t_new (fp_ops V t fp junk M)) (map bop_of os) = Ok tr /\
    t_range (fp_ops V t fp junk M) tr lo hi = Ok out /\ enumerates_range (m_run os) lo hi out.
Proof.
  intros V t fp junk N M os lo hi HM HW HN Ht.
  exact (io_range_enum (flz_laws V fp junk HM HW Ht) HN (@fl_range_law V t fp junk M) lo hi (os := os)).
Qed.
Print Assumptions C14_fptree_range.

Theorem C14_fptree_shape : forall V t fp junk N M (os : list (mop V)),
  2 <= M -> (N.of_nat M < W)%N -> 2 <= N -> (1 <= kt_bits t <= 64)%Z -> Forall (ins_ok (kt_in t)) os ->
  exists tr n, t_run N M (fp_ops V t fp junk M) (t_new (fp_ops V t fp junk M)) (map bop_of os) = Ok tr /\
    shape N M (M / 2) ((N + 1) / 2 - 1) (fp_ops V t fp junk M) (th tr) (tdepth tr) true (troot tr) n.
Proof. intros V t fp junk N M os HM HW HN Ht. exact (io_shape (flz_laws V fp junk HM HW Ht) HN (os := os)). Qed.
Print Assumptions C14_fptree_shape.

(** All keys collide ([fp] constant), junk equals that constant. *)
Example C14_ex : let O := fp_ops Z i32 (fun _ => 7%Z) (fun _ => 7%Z) 3 in
  Forall (ins_ok (kt_in i32)) (ins_of (scrambled 60)) /\
  (do tr <- t_run 4 3 O (t_new O) (map bop_of (ins_of (scrambled 60)));
   do a <- t_lookup O tr (-13)%Z; do b <- t_lookup O tr 100%Z;
   do o <- t_scan O tr; do r <- t_range O tr (-12)%Z (-9)%Z;
   Ok (tdepth tr, a, b, length o, firstn 6 (map fst o), map fst r)) =
  Ok (3, Some (-12)%Z, None, 60, [-47; -48; -44; -45; -40; -41]%Z, [-11; -10]%Z).
Proof.
  cbv zeta. split; [apply ins_of_ok; vm_compute; reflexivity|vm_compute; reflexivity].
Qed.

(** * C15 *)

(** Key 40 went into slot 0 of the first leaf and was moved to its sibling by a split, but slot 0
    still holds 40.  When the first leaf underflows, the direction test of balanceLeafNodes compares
    that stale 40 and moves the largest instead of the smallest key: 50 becomes unreachable. *)
Theorem C15_refuted : exists (os : list (mop Z)) k x,
  let O := fp_ops Z i32 fpHash (fun _ => 0%Z) 4 in
  hist_ok m_empty (os ++ [OpErase _ k]) /\ m_run (os ++ [OpErase _ k]) x = Some 51%Z /\
  (do tr <- t_run 4 4 O (t_new O) (map bop_of os); t_lookup O tr x) = Ok (Some 51%Z) /\
  (do tr <- t_run 4 4 O (t_new O) (map bop_of os); do r <- t_erase 4 4 O tr k; Ok (snd r)) = Ok true /\
  (do tr <- t_run 4 4 O (t_new O) (map bop_of os); do r <- t_erase 4 4 O tr k; t_lookup O (fst r) x) = Ok None /\
  (do tr <- t_run 4 4 O (t_new O) (map bop_of os); do r <- t_erase 4 4 O tr k; do s <- t_scan O (fst r); Ok (map fst s))
    = Ok [50; 20; 35; 30]%Z.
Proof.
  exists (ins_of [40; 30; 20; 10; 50]%Z ++ [OpErase _ 40%Z] ++ ins_of [35]%Z), 10%Z, 50%Z. cbv zeta.
  split; [vm_compute; repeat split; discriminate|].
  split; [vm_compute; reflexivity|].
  split; [vm_compute; reflexivity|].
  split; [vm_compute; reflexivity|].
  split; vm_compute; reflexivity.
Qed.
Print Assumptions C15_refuted.

(** What does hold: histories that never store more than [M] entries. *)
Theorem C15_erase_partial : forall V t fp junk N M (os : list (mop V)),
  2 <= M -> (N.of_nat M < W)%N -> (1 <= kt_bits t <= 64)%Z -> small_hist t M m_empty os ->
  exists tr, t_run N M (fp_ops V t fp junk M) (t_new (fp_ops V t fp junk M)) (map bop_of os) = Ok tr /\
    forall k, t_lookup (fp_ops V t fp junk M) tr k = Ok (m_run os k).
Proof. intros V t fp junk N M os HM HW Ht. exact (small_ok_f fp junk N HM HW Ht (os := os)). Qed.
Print Assumptions C15_erase_partial.

(** Removal from a leaf and merging two leaves are right in trees of any size; rebalancing is right
    if the raw contents [d0], [r0] of the two slots 0 are ordered like the leaves. *)
Theorem C15_leaf_erase_partial : forall V t fp M (l : fleaf V) es k,
  fl_rep t fp M l es -> get k es <> None ->
  exists l', fl_erase fp M l k = Ok (true, l') /\ fl_rep t fp M l' (del k es).
Proof. exact fl_erase_ok. Qed.
Print Assumptions C15_leaf_erase_partial.

Theorem C15_leaf_merge_partial : forall V t fp M (l1 l2 : fleaf V) e1 e2,
  fl_rep t fp M l1 e1 -> fl_rep t fp M l2 e2 -> sorted (e1 ++ e2) -> length e1 + length e2 <= M ->
  exists l, fl_merge M l1 l2 = Ok l /\ fl_rep t fp M l (e1 ++ e2).
Proof. exact fl_merge_ok. Qed.
Print Assumptions C15_leaf_merge_partial.

Theorem C15_leaf_balance_partial : forall V t fp M (dl rl : fleaf V) ed er d0 r0, (N.of_nat M < W)%N ->
  fl_rep t fp M dl ed -> fl_rep t fp M rl er -> aget (fk dl) 0 = Ok d0 -> aget (fk rl) 0 = Ok r0 ->
  length er < length ed -> 1 < length ed ->
  ((d0 < r0)%Z -> sorted (ed ++ er) -> exists d' r' e1 e2, fl_balance t fp M dl rl = Ok (d', r') /\ ed = e1 ++ e2 /\
     length e1 = (length ed + length er) / 2 /\ fl_rep t fp M d' e1 /\ fl_rep t fp M r' (e2 ++ er)) /\
  ((r0 <= d0)%Z -> sorted (er ++ ed) -> exists d' r' e1 e2, fl_balance t fp M dl rl = Ok (d', r') /\ ed = e1 ++ e2 /\
     length e2 = (length ed + length er) / 2 /\ fl_rep t fp M d' e2 /\ fl_rep t fp M r' (er ++ e1)).
Proof.
  intros V t fp M dl rl ed er d0 r0 HW Hd Hr Ed Er HL H1. split; intros Lt HS.
  - exact (fl_balance_left_ok HW Hd Hr Ed Er Lt HS HL H1).
  - exact (fl_balance_right_ok HW Hd Hr Ed Er Lt HS HL H1).
Qed.
Print Assumptions C15_leaf_balance_partial.

(** Trees of any size, erase of absent keys included: an erase is right if it does not rebalance leaves or if
    the raw contents of the two slots 0 are ordered like the leaves ([slots_ok], decided before the erase).
    Missing: the other erases ([C15_refuted]); the largest key of the type; odd [N] and [N] = 4. *)
Theorem C15_guarded_partial : forall V t fp junk N M (os : list (mop V)) (O := fp_ops V t fp junk M),
  2 <= M -> (N.of_nat M < W)%N -> (1 <= kt_bits t <= 64)%Z -> 6 <= N -> Nat.even N = true ->
  Forall (op_in (fun k => kt_in t k /\ (k < kt_max t)%Z)) os -> fine N M O (slots_ok M) (t_new O) (map bop_of os) = true ->
  exists tr out, t_run N M O (t_new O) (map bop_of os) = Ok tr /\
    (forall k, t_lookup O tr k = Ok (m_run os k)) /\
    t_scan O tr = Ok out /\ enumerates (m_run os) out /\ in_runs M out /\
    (forall lo hi, exists rng, t_range O tr lo hi = Ok rng /\ enumerates_range (m_run os) lo hi rng) /\
    shape N M (M / 2) (N / 2 - 1) O (th tr) (tdepth tr) true (troot tr) (length out) /\
    (forall k, leaf_guard M O (slots_ok M) (th tr) (tdepth tr) (troot tr) k = Ok true ->
      exists tr' b, t_erase N M O tr k = Ok (tr', b) /\ (b = true <-> m_run os k <> None) /\
        forall x, t_lookup O tr' x = Ok (m_del (m_run os) k x)).
Proof. intros V t fp junk N M os O HM HW Ht HN HE. exact (@fp_guarded V t fp junk N M HM HW Ht HN HE os). Qed.
Print Assumptions C15_guarded_partial.

Example C15_ex :
  let O := fp_ops Z i32 fpHash (fun _ => 0%Z) 4 in
  let os := ins_of [9; 7; 5]%Z ++ [OpErase _ 7%Z; OpInsert 11%Z 1%Z; OpInsert 3%Z 2%Z] in
  small_hist i32 4 m_empty os /\
  (do tr <- t_run 4 4 O (t_new O) (map bop_of os); do a <- t_lookup O tr 7%Z; do b <- t_lookup O tr 11%Z;
   do s <- t_scan O tr; Ok (a, b, map fst s)) = Ok (None, Some 1%Z, [9; 11; 5; 3]%Z).
Proof. cbv zeta. split; [apply (@small_chk_ok _ i32 4 _ []); [constructor|reflexivity|vm_compute; reflexivity]|vm_compute; reflexivity]. Qed.

(** Rising keys, all but the last erased in the order of insertion; then an absent key. *)
Example C15_guarded_ex : let O := fp_ops Z i32 fpHash (fun _ => 0%Z) 4 in
  let os := ins_of (rising 60) ++ er_of (firstn 40 (rising 60)) ++ er_of [5]%Z in
  Forall (op_in (fun k => kt_in i32 k /\ (k < kt_max i32)%Z)) os /\ fine 6 4 O (slots_ok 4) (t_new O) (map bop_of os) = true /\
  (do tr <- t_run 6 4 O (t_new O) (map bop_of (ins_of (rising 60))); Ok (tdepth tr)) = Ok 2 /\
  (do tr <- t_run 6 4 O (t_new O) (map bop_of os); do a <- t_lookup O tr 400%Z; do b <- t_lookup O tr 410%Z;
   do o <- t_scan O tr; do r <- t_range O tr 430 450; Ok (tdepth tr, a, b, length o, map fst r)) =
  Ok (2, None, Some 411%Z, 20, [430; 440; 450]%Z) /\
  fine 6 4 O (slots_ok 4) (t_new O) (map bop_of (ins_of [40; 30; 20; 10; 50]%Z ++ er_of [40]%Z ++ ins_of [35]%Z ++ er_of [10]%Z)) = false.
Proof.
  cbv zeta. split; [|repeat split; vm_compute; reflexivity].
  apply Forall_forall. intros o Ho.
  assert (H : forallb (fun o => match o with OpInsert k _ | OpErase _ k => (0 <=? k) && (k <=? 1000) end)%Z
    (ins_of (rising 60) ++ er_of (firstn 40 (rising 60)) ++ er_of [5]%Z) = true) by (vm_compute; reflexivity).
  rewrite forallb_forall in H. specialize (H o Ho).
  destruct o as [k v|k]; cbv beta iota in H; apply andb_true_iff in H as [H1 H2]; apply Z.leb_le in H1, H2; unfold op_in, kt_in, kt_max; cbn; lia.
Qed.
