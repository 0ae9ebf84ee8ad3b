(** C113, C114: what print and printLeafList show. *)
From Verif Require Import Base MapSpec SearchModel RankModel BTreeModel BTreeSpec SLeafModel SLeafProofs ULeafModel ULeafProofs BitmapModel BitmapProofs FLeafModel FLeafProofs
  PrintModel PrintSpec PrintProofs.
Open Scope nat_scope.

(** C113: print draws the tree - the root first and not indented, every node once, each below its parent in the order of the child
    pointers and indented by its depth, as many lines below a branch line as it has keys and one more - and the keys shown in the
    leaves, from top to bottom, are those reported by scan. *)
Theorem C113_pbptree_print : forall V N M (os : list (mop V)),
  2 <= M -> 6 <= N -> Nat.even N = true -> hist_ok m_empty os ->
  exists t out o, t_run N M (pbp_ops V M) (t_new (pbp_ops V M)) (map bop_of os) = Ok t /\
    t_print (@sl_print V) t = Ok out /\ drawing (th t) (tdepth t) (troot t) out /\
    t_scan (pbp_ops V M) t = Ok o /\ lists (m_run os) o /\ shown_keys out = map fst o.
Proof.
  intros V N M os HM HN HE F. pose proof (all_print (@sl_PL V M HM (pbp_ops V M) (fun _ => eq_refl)) HM (pbp_laws V HM) (pbp_scan_laws V HM) (pbp_erase_laws V HM) HN HE F) as H.
  destruct H as (t & o & E & (out & f & ls & A1 & A2 & A3 & A4 & _) & EN). exists t, out, o. splits; assumption.
Qed.
Print Assumptions C113_pbptree_print.
Theorem C113_bptree_print : forall V N M (os : list (mop V)),
  2 <= M -> 6 <= N -> Nat.even N = true -> hist_ok m_empty os ->
  exists t out o, t_run N M (bp_ops V M) (t_new (bp_ops V M)) (map bop_of os) = Ok t /\
    t_print (@sl_print V) t = Ok out /\ drawing (th t) (tdepth t) (troot t) out /\
    t_scan (bp_ops V M) t = Ok o /\ lists (m_run os) o /\ shown_keys out = map fst o.
Proof.
  intros V N M os HM HN HE F. pose proof (all_print (@sl_PL V M HM (bp_ops V M) (fun _ => eq_refl)) HM (bp_laws V HM) (bp_scan_laws V HM) (bp_erase_laws V HM) HN HE F) as H.
  destruct H as (t & o & E & (out & f & ls & A1 & A2 & A3 & A4 & _) & EN). exists t, out, o. splits; assumption.
Qed.
Print Assumptions C113_bptree_print.
Theorem C113_hpbptree_print : forall V N M (os : list (mop V)),
  2 <= M -> 6 <= N -> Nat.even N = true -> hist_ok m_empty os ->
  exists t out o, t_run N M (hpbp_ops V M) (t_new (hpbp_ops V M)) (map bop_of os) = Ok t /\
    t_print (@sl_print V) t = Ok out /\ drawing (th t) (tdepth t) (troot t) out /\
    t_scan (hpbp_ops V M) t = Ok o /\ lists (m_run os) o /\ shown_keys out = map fst o.
Proof.
  intros V N M os HM HN HE F. pose proof (all_print (@sl_PL V M HM (hpbp_ops V M) (fun _ => eq_refl)) HM (hpbp_laws V HM) (hpbp_scan_laws V HM) (hpbp_erase_laws V HM) HN HE F) as H.
  destruct H as (t & o & E & (out & f & ls & A1 & A2 & A3 & A4 & _) & EN). exists t, out, o. splits; assumption.
Qed.
Print Assumptions C113_hpbptree_print.

(** Without erase, for every N >= 2: the classes with unsorted leaves *)
Theorem C113_unsorted_print : forall V t N M (os : list (mop V)),
  2 <= M -> 2 <= N -> (1 <= kt_bits t <= 64)%Z -> Forall (ins_ok (kt_in t)) os ->
  exists tr out o, t_run N M (un_ops V t M) (t_new (un_ops V t M)) (map bop_of os) = Ok tr /\
    t_print (@sl_print V) tr = Ok out /\ drawing (th tr) (tdepth tr) (troot tr) out /\
    t_scan (un_ops V t M) tr = Ok o /\ enumerates (m_run os) o /\ shown_keys out = map fst o.
Proof.
  intros V t N M os HM HN Ht F. pose proof (io_print (@ul_PL V t M HM Ht) (ul_laws V HM Ht) HN F) as H.
  destruct H as (tr & o & E & (out & f & ls & A1 & A2 & A3 & A4 & _) & EN). exists tr, out, o. splits; assumption.
Qed.
Print Assumptions C113_unsorted_print.
Theorem C113_fptree_print : forall V t fp junk N M (os : list (mop V)),
  2 <= M -> (N.of_nat M < W)%N -> 2 <= N -> (1 <= kt_bits t <= 64)%Z -> Forall (ins_ok (kt_in t)) os ->
  exists tr out o, t_run N M (fp_ops V t fp junk M) (t_new (fp_ops V t fp junk M)) (map bop_of os) = Ok tr /\
    t_print (fl_print M) tr = Ok out /\ drawing (th tr) (tdepth tr) (troot tr) out /\
    t_scan (fp_ops V t fp junk M) tr = Ok o /\ enumerates (m_run os) o /\ shown_keys out = map fst o.
Proof.
  intros V t fp junk N M os HM HW HN Ht F. pose proof (io_print (@fl_PL V t fp junk M) (flz_laws V fp junk HM HW Ht) HN F) as H.
  destruct H as (tr & o & E & (out & f & ls & A1 & A2 & A3 & A4 & _) & EN). exists tr, out, o. splits; assumption.
Qed.
Print Assumptions C113_fptree_print.

(** C114: printLeafList, from the first leaf on, shows every leaf once, not indented, with the keys that scan reports. *)
Theorem C114_hpbptree_leaf_list : forall V N M (os : list (mop V)),
  2 <= M -> 6 <= N -> Nat.even N = true -> hist_ok m_empty os ->
  exists t out f ls o, t_run N M (hpbp_ops V M) (t_new (hpbp_ops V M)) (map bop_of os) = Ok t /\
    t_print (@sl_print V) t = Ok out /\
    leftmost (th t) (tdepth t) (troot t) = Ok f /\ pr_list (@sl_print V) (S (hfresh (th t))) (th t) (Some f) = Ok ls /\
    Forall (fun x => ldepth x = 0) ls /\ branch_nodes ls = [] /\ NoDup (leaf_nodes ls) /\ leaf_nodes ls = leaf_nodes out /\
    t_scan (hpbp_ops V M) t = Ok o /\ lists (m_run os) o /\ shown_keys ls = map fst o.
Proof.
  intros V N M os HM HN HE F. pose proof (all_print (@sl_PL V M HM (hpbp_ops V M) (fun _ => eq_refl)) HM (hpbp_laws V HM) (hpbp_scan_laws V HM) (hpbp_erase_laws V HM) HN HE F) as H.
  destruct H as (t & o & E & (out & f & ls & A1 & A2 & A3 & A4 & A5 & A6 & A7 & A8 & A9 & A10) & EN). exists t, out, f, ls, o.
  splits; try assumption. rewrite A8. exact (proj1 (dr_once A2)).
Qed.
Print Assumptions C114_hpbptree_leaf_list.
Theorem C114_fptree_leaf_list : forall V t fp junk N M (os : list (mop V)),
  2 <= M -> (N.of_nat M < W)%N -> 2 <= N -> (1 <= kt_bits t <= 64)%Z -> Forall (ins_ok (kt_in t)) os ->
  exists tr out f ls o, t_run N M (fp_ops V t fp junk M) (t_new (fp_ops V t fp junk M)) (map bop_of os) = Ok tr /\
    t_print (fl_print M) tr = Ok out /\
    leftmost (th tr) (tdepth tr) (troot tr) = Ok f /\ pr_list (fl_print M) (S (hfresh (th tr))) (th tr) (Some f) = Ok ls /\
    Forall (fun x => ldepth x = 0) ls /\ branch_nodes ls = [] /\ NoDup (leaf_nodes ls) /\ leaf_nodes ls = leaf_nodes out /\
    t_scan (fp_ops V t fp junk M) tr = Ok o /\ enumerates (m_run os) o /\ shown_keys ls = map fst o.
Proof.
  intros V t fp junk N M os HM HW HN Ht F. pose proof (io_print (@fl_PL V t fp junk M) (flz_laws V fp junk HM HW Ht) HN F) as H.
  destruct H as (tr & o & E & (out & f & ls & A1 & A2 & A3 & A4 & A5 & A6 & A7 & A8 & A9 & A10) & EN). exists tr, out, f, ls, o.
  splits; try assumption. rewrite A8. exact (proj1 (dr_once A2)).
Qed.
Print Assumptions C114_fptree_leaf_list.

(** PBPTree, leaves of 2 and branch nodes of 6 keys, two levels and an erase *)
Example C113_ex : let O := pbp_ops nat 2 in
  (do t <- t_run 6 2 O (t_new O) (map bop_of (map (fun k => OpInsert (Z.of_nat k) k) [10; 20; 30; 40; 50; 60; 70; 80; 90; 100; 110; 120] ++ [OpErase _ 40%Z]));
   t_print (@sl_print nat) t) =
  Ok [LBranch 0 10 [70%Z];
        LBranch 1 2 [20%Z; 30%Z; 50%Z; 60%Z];
          LLeaf 2 0 [(true, Some 10%Z)]; LLeaf 2 1 [(true, Some 20%Z)]; LLeaf 2 3 [(true, Some 30%Z)]; LLeaf 2 5 [(true, Some 50%Z)];
          LLeaf 2 6 [(true, Some 60%Z)];
        LBranch 1 9 [80%Z; 90%Z; 100%Z; 110%Z];
          LLeaf 2 7 [(true, Some 70%Z)]; LLeaf 2 8 [(true, Some 80%Z)]; LLeaf 2 11 [(true, Some 90%Z)]; LLeaf 2 12 [(true, Some 100%Z)];
          LLeaf 2 13 [(true, Some 110%Z); (true, Some 120%Z)]].
Proof. vm_compute. reflexivity. Qed.
(** FPTree after a split: slots whose bit was cleared are printed with the key they held, a slot never used with no key *)
Example C114_ex : let O := fp_ops nat {| kt_signed := true; kt_bits := 32 |} fpHash (fun _ => 0%Z) 4 in
  (do t <- t_run 6 4 O (t_new O) (map bop_of [OpInsert 10%Z 1; OpInsert 30%Z 2; OpInsert 20%Z 3; OpInsert 40%Z 4; OpInsert 50%Z 5]);
   do a <- t_print (fl_print 4) t; do b <- pr_list (fl_print 4) 9 (th t) (Some 0); Ok (a, b)) =
  let l0 := [(true, Some 10%Z); (false, Some 30%Z); (true, Some 20%Z); (false, Some 40%Z)] in
  let l1 := [(true, Some 30%Z); (true, Some 40%Z); (true, Some 50%Z); (false, None)] in
  Ok ([LBranch 0 2 [30%Z]; LLeaf 1 0 l0; LLeaf 1 1 l1], [LLeaf 0 0 l0; LLeaf 0 1 l1]).
Proof. vm_compute. reflexivity. Qed.
