(** C118 and C119: print of a BitPBPTree or BitHPBPTree shows every node once below its parent, and with bit 1 the stored keys. *)
From Coq Require Import Permutation.
From Verif Require Import Base MapSpec RankModel BitmapModel BTreeModel BTreeSpec FLeafModel BitTreeModel InsSpec BitProofs
  RecoverModel RecoverProofs RecSpec BitHModel BitHProofs BitHRec PrintModel PrintSpec BPrintModel BPrintSpec BhPrint
  BitEModel BitESpec BitEProofs BePrint PropUnsorted PropBit PropBitH PropBitE.
Open Scope Z_scope.

Lemma not_shown k l : existsb (Z.eqb k) l = false -> ~ In k l.
Proof. intros E H. assert (existsb (Z.eqb k) l = true) by (apply existsb_exists; exists k; split; [exact H|apply Z.eqb_refl]). congruence. Qed.

(** * C118 *)
(** Missing: negative keys, the largest key and multiples of 64 for N, as in C52. *)
Theorem C118_print_partial : forall V t (N M : nat) (os : list (Z * V)),
  1 <= kt_bits t <= 64 -> (2 <= N)%nat -> (N mod 64 <> 0)%nat -> (2 <= M)%nat -> (N.of_nat M < W)%N ->
  Forall (fun k => 0 <= k < kt_max t) (map fst os) ->
  exists tr out o, bt_run t N M (bt_new V t M) os = Ok tr /\ bg_print N M tr = Ok out /\ bdrawing N tr out /\
    lists (m_run (inserts os)) o /\ Permutation (shown_keys out) (map fst o).
Proof.
  intros V t N M os Ht HN H64 HM HW HF. apply bt_print_ok; auto. eapply Forall_impl; [|exact HF]. intros k Hk. now apply bkok_of.
Qed.
Print Assumptions C118_print_partial.
(** N = 64: the split loses the separators of the right half (C52), and their leaves are not shown. *)
Theorem C118_refuted : exists (os : list (Z * Z)) k v out, Forall (fun k => 0 <= k < kt_max i32) (map fst os) /\
  m_run (inserts os) k = Some v /\ (do tr <- bt_run i32 64 2 (bt_new Z i32 2) os; bg_print 64 2 tr) = Ok out /\ ~ In k (shown_keys out).
Proof.
  exists (asc_bit 70), 280, 40. eexists. split; [apply keys_b; vm_compute; reflexivity|]. split; [vm_compute; reflexivity|].
  split; [vm_compute; reflexivity|]. apply not_shown. vm_compute. reflexivity.
Qed.
Print Assumptions C118_refuted.
(** The leaves are shown by position, not in key order. *)
Example C118_ex : Forall (fun k => 0 <= k < kt_max i32) (map fst (scr_bit 14)) /\
  (do t <- bt_run i32 3 4 (bt_new Z i32 4) (scr_bit 14); bg_print 3 4 t) =
  Ok [LBranch 0 2 [47; 74; 30];
      LLeaf 1 4 [(true, Some 37); (true, Some 30); (true, Some 40); (false, None)];
      LLeaf 1 1 [(true, Some 67); (true, Some 47); (false, Some 84); (true, Some 57)];
      LLeaf 1 0 [(true, Some 3); (true, Some 20); (true, Some 10); (true, Some 13)];
      LLeaf 1 3 [(true, Some 74); (true, Some 84); (true, Some 94); (true, Some 77)]].
Proof. split; [apply keys_b|]; vm_compute; reflexivity. Qed.

(** * C119 *)
(** Missing: negative keys, the largest key, multiples of 64 for N and M, restarts with a number of leaves that recover gets wrong. *)
Theorem C119_print_partial : forall V t (N M : nat) (os : list (rop V)),
  1 <= kt_bits t <= 64 -> (2 <= N)%nat -> (N mod 64 <> 0)%nat -> (2 <= M)%nat -> (M mod 64 <> 0)%nat -> (N.of_nat M < W)%N ->
  r_in t os ->
  (forall p q tr, os = p ++ RRestart :: q -> bh_hist t N M (bh_new V t M) p = Ok tr -> rec_fits N (leaf_count tr)) ->
  exists tr out o, bh_hist t N M (bh_new V t M) os = Ok tr /\ bg_print N M tr = Ok out /\ bdrawing N tr out /\
    lists (m_run (rops os)) o /\ Permutation (shown_keys out) (map fst o).
Proof. intros V t N M os Ht HN H64 HM HM64 HW HF HR. apply bh_print_ok; auto. now apply r_in_ops. Qed.
Print Assumptions C119_print_partial.
(** M = 64: the split loses entries (C68). *)
Theorem C119_refuted : exists (os : list (Z * Z)) k v out, Forall (fun k => 0 <= k < kt_max i32) (map fst os) /\
  m_run (inserts os) k = Some v /\ (do tr <- bh_run i32 4 64 (bh_new Z i32 64) os; bg_print 4 64 tr) = Ok out /\ ~ In k (shown_keys out).
Proof.
  exists (asc_bit 70), 280, 40. eexists. split; [apply keys_b; vm_compute; reflexivity|]. split; [vm_compute; reflexivity|].
  split; [vm_compute; reflexivity|]. apply not_shown. vm_compute. reflexivity.
Qed.
Print Assumptions C119_refuted.
(** After a restart with five leaves print reads a child pointer that was never written. *)
Theorem C119_restart_refuted : exists os : list (Z * Z), Forall (fun k => 0 <= k < kt_max i32) (map fst os) /\
  exists tr, bh_hist i32 3 2 (bh_new Z i32 2) (r_ins os ++ [RRestart]) = Ok tr /\ bg_print 3 2 tr = UB.
Proof. exists (asc_bit 6). split; [apply keys_b; vm_compute; reflexivity|]. eexists. split; vm_compute; reflexivity. Qed.
Print Assumptions C119_restart_refuted.

Example C119_ex : r_in i32 c69_os /\
  (forall p q tr, c69_os = p ++ RRestart :: q -> bh_hist i32 3 2 (bh_new Z i32 2) p = Ok tr -> rec_fits 3 (leaf_count tr)) /\
  (do tr <- bh_hist i32 3 2 (bh_new Z i32 2) c69_os; do o <- bg_print 3 2 tr; Ok (leaf_count tr, bdepth tr, length (leaf_nodes o), length (branch_nodes o))) = Ok (17, 3, 17, 8)%nat.
Proof. split; [apply r_in_b; vm_compute; reflexivity|]. split; [apply fits_b_ok; vm_compute; reflexivity|]. vm_compute. reflexivity. Qed.

(** * Inserts and erases, with the guard of C70 *)
Theorem C118_print_erase_partial : forall V t (N M : nat) (os : list (mop V)),
  1 <= kt_bits t <= 64 -> (2 <= N)%nat -> (N mod 64 <> 0)%nat -> (2 <= M)%nat -> (N.of_nat M < W)%N ->
  Forall (fun o => match o with OpInsert k _ => 0 <= k < kt_max t | OpErase _ _ => True end) os ->
  ck_fine t N M (bit_ops V t M) (bt_new V t M) (map bop_of os) = true ->
  exists tr out o, bt_hist t N M (map bop_of os) = Ok tr /\ bg_print N M tr = Ok out /\ bdrawing N tr out /\
    lists (m_run os) o /\ Permutation (shown_keys out) (map fst o).
Proof.
  intros V t N M os Ht HN H64 HM HW HF CK. apply bit_print_erase; auto.
  apply Forall_map. eapply Forall_impl; [|exact HF]. intros [k v|k] Hk; cbn [bop_of ins_in]; auto. now apply bkok_of.
Qed.
Print Assumptions C118_print_erase_partial.
Theorem C119_print_erase_partial : forall V t (N M : nat) (os : list (mop V)),
  1 <= kt_bits t <= 64 -> (2 <= N)%nat -> (N mod 64 <> 0)%nat -> (2 <= M)%nat -> (M mod 64 <> 0)%nat -> (N.of_nat M < W)%N ->
  Forall (fun o => match o with OpInsert k _ => 0 <= k < kt_max t | OpErase _ _ => True end) os ->
  ck_fine t N M (bh_ops V t M) (bh_new V t M) (map bop_of os) = true ->
  exists tr out o, be_run t N M (bh_ops V t M) (bh_new V t M) (map bop_of os) = Ok tr /\ bg_print N M tr = Ok out /\ bdrawing N tr out /\
    lists (m_run os) o /\ Permutation (shown_keys out) (map fst o).
Proof.
  intros V t N M os Ht HN H64 HM HM64 HW HF CK. apply bh_print_erase; auto.
  apply Forall_map. eapply Forall_impl; [|exact HF]. intros [k v|k] Hk; cbn [bop_of ins_in]; auto. now apply bkok_of.
Qed.
Print Assumptions C119_print_erase_partial.
(** The leaf that held 20 took 30 from its neighbour. *)
Example C118_erase_ex : let os := up_b 8 ++ [OpInsert 45 7] ++ del_b [20] in
  Forall (fun o => match o with OpInsert k _ => 0 <= k < kt_max i32 | OpErase _ _ => True end) os /\
  ck_fine i32 8 4 (bit_ops Z i32 4) (bt_new Z i32 4) (map bop_of os) = true /\
  (do tr <- bt_hist i32 8 4 (map bop_of os); bg_print 8 4 tr) =
  Ok [LBranch 0 2 [40; 50];
      LLeaf 1 0 [(true, Some 10); (true, Some 30); (false, Some 30); (false, Some 40)];
      LLeaf 1 1 [(false, Some 30); (true, Some 40); (true, Some 45); (false, Some 60)];
      LLeaf 1 3 [(true, Some 50); (true, Some 60); (true, Some 70); (true, Some 80)]].
Proof. split; [apply ops_b|split]; vm_compute; reflexivity. Qed.
Example C119_erase_ex : let os := down_b 30 ++ del_b [10; 30; 90; 80] in
  Forall (fun o => match o with OpInsert k _ => 0 <= k < kt_max i32 | OpErase _ _ => True end) os /\
  ck_fine i32 5 4 (bh_ops Z i32 4) (bh_new Z i32 4) (map bop_of os) = true /\
  (do tr <- bith_hist 5 4 os; do o <- bg_print 5 4 tr; Ok (bdepth tr, length (leaf_nodes o), length (branch_nodes o), length (shown_keys o))) = Ok (2, 13, 6, 26)%nat.
Proof. split; [apply ops_b|split]; vm_compute; reflexivity. Qed.
