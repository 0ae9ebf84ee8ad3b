(** C116 and C117: print of a wBPTree or wHBPTree shows every node once below its parent and the stored keys in ascending order. *)
From Verif Require Import Base MapSpec SortedList BitmapModel BTreeModel BitTreeModel BTreeSpec InsSpec RecoverModel RecoverProofs RecSpec WbModel WbEModel WbESpec WhModel WhTree WhESpec WhHist
  PrintModel PrintSpec WPrintModel WPrintSpec WPrintProofs WhPrint PropWb PropWbE PropBitH PropWh.
Open Scope nat_scope.

(** New keys above or below all stored ones *)
Theorem C116_print_partial : forall (V : Type) (N M : nat) (os : list (Z * V)), 2 <= N -> 3 <= M -> outward m_empty os ->
  exists t out o, wt_run N M (wt_new V M) os = Ok t /\ wt_print N M t = Ok out /\ wdrawing N t out /\ all_set out /\
    lists (m_run (inserts os)) o /\ shown_keys out = map fst o.
Proof. intros V N M os HN HM HO. assert (HM2 : 2 <= M) by lia. exact (print_out HN HM2 HM HO). Qed.
Print Assumptions C116_print_partial.

(** Ascending keys: the outline then agrees with the scan. *)
Theorem C116_print_ascending_partial : forall (V : Type) (N M : nat) (os : list (Z * V)), 2 <= N -> 2 <= M -> ascending os ->
  exists t out o, wt_run N M (wt_new V M) os = Ok t /\ wt_print N M t = Ok out /\ wdrawing N t out /\ all_set out /\
    wt_scan M t = Ok o /\ lists (m_run (inserts os)) o /\ shown_keys out = map fst o.
Proof. intros V N M os HN HM HA. exact (print_asc HN HM HA). Qed.
Print Assumptions C116_print_ascending_partial.

(** In other histories the keys need not be in order. *)
Theorem C116_refuted : exists (os : list (Z * Z)) t out, NoDup (map fst os) /\ wt_run 4 4 (wt_new Z 4) os = Ok t /\ wt_print 4 4 t = Ok out /\
  ~ exists o, lists (m_run (inserts os)) o /\ shown_keys out = map fst o.
Proof.
  exists [(10, 1); (20, 2); (30, 3); (40, 4); (15, 5); (50, 6); (60, 7)]%Z. eexists. eexists. splits.
  - repeat constructor; cbn; intuition congruence.
  - vm_compute; reflexivity.
  - vm_compute; reflexivity.
  - intros (o & [S _] & E). cbn in E.
    destruct o as [|[k1 v1] [|[k2 v2] [|[k3 v3] o]]]; try discriminate. rewrite <- E in S.
    apply Sorted.StronglySorted_inv in S. destruct S as [S _]. apply Sorted.StronglySorted_inv in S. destruct S as [_ S].
    apply Forall_inv in S. lia.
Qed.
Print Assumptions C116_refuted.

(** The printed tree shows keys on the left that the scan does not reach. *)
Definition c116_os : list (Z * Z) :=
  [(10, 1); (20, 2); (30, 3); (40, 4); (50, 5); (5, 5); (1, 1); (60, 6); (70, 7); (80, 8); (90, 1); (0, 0); (-1, 1); (-2, 2); (-3, 3); (-4, 4)]%Z.
Example C116_ex : outward m_empty c116_os /\
  (do t <- wt_run 3 4 (wt_new Z 4) c116_os; do o <- wt_print 3 4 t; do s <- wt_scan 4 t; Ok (wdepth t, shown_keys o, map fst s)) =
  Ok (2%nat, [-4; -3; -2; -1; 0; 1; 5; 10; 20; 30; 40; 50; 60; 70; 80; 90], [10; 20; 30; 40; 50; 60; 70; 80; 90])%Z.
Proof.
  split; [|vm_compute; reflexivity].
  apply (@outward_b_ok _ []); [|vm_compute; reflexivity]. intros k. cbn. unfold m_empty. split; [congruence|tauto].
Qed.
Example C116_ascending_ex : ascending [(1, 5); (3, 6); (4, 7); (8, 8); (9, 9)]%Z /\
  (do t <- wt_run 2 2 (wt_new Z 2) [(1, 5); (3, 6); (4, 7); (8, 8); (9, 9)]%Z; wt_print 2 2 t) =
  Ok [LBranch 0 6 [4%Z]; LBranch 1 2 [3%Z]; LLeaf 2 0 [(true, Some 1%Z)]; LLeaf 2 1 [(true, Some 3%Z)]; LBranch 1 5 [8%Z];
      LLeaf 2 3 [(true, Some 4%Z)]; LLeaf 2 4 [(true, Some 8%Z); (true, Some 9%Z)]].
Proof. split; [|vm_compute; reflexivity]. unfold ascending. repeat constructor; cbn; lia. Qed.

(** Inserts and erases, with the guard of C72 *)
Theorem C116_print_erase_partial : forall (V : Type) (N M : nat) (os : list (mop V)), 2 < N -> Nat.Even N -> 3 <= M -> wk_fine N M (wt_new V M) os = true ->
  exists t out o, we_run N M (wt_new V M) os = Ok t /\ wt_print N M t = Ok out /\ wdrawing N t out /\ all_set out /\
    lists (m_run os) o /\ shown_keys out = map fst o.
Proof. intros V N M os HN [q ->] HM CK. apply print_erase; [lia|lia|exact HM|exact CK]. Qed.
Print Assumptions C116_print_erase_partial.
Example C116_erase_ex : let os := put_w (tens 10 7 ++ [35%Z]) ++ del_w [70; 60; 20]%Z in
  wk_fine 4 4 (wt_new Z 4) os = true /\
  (do t <- hist_w os; wt_print 4 4 t) =
  Ok [LBranch 0 2 [40%Z]; LLeaf 1 0 [(true, Some 10%Z); (true, Some 30%Z); (true, Some 35%Z)]; LLeaf 1 3 [(true, Some 40%Z); (true, Some 50%Z)]].
Proof. split; vm_compute; reflexivity. Qed.

(** * C117: wHBPTree *)
(** Restarts with a number of leaves that recover gets right, new keys above or below all stored ones *)
Theorem C117_print_partial : forall (V : Type) (N M : nat) (os : list (rop V)), 2 <= N -> 3 <= M -> outward m_empty (r_pairs os) ->
  (forall p q t, os = p ++ RRestart :: q -> wh_hist N M (wt_new V M) p = Ok t -> rec_fits N (wh_leaves t)) ->
  exists t out o, wh_hist N M (wt_new V M) os = Ok t /\ wt_print N M t = Ok out /\ wdrawing N t out /\ all_set out /\
    lists (m_run (rops os)) o /\ shown_keys out = map fst o.
Proof. intros V N M os HN HM HO HF. exact (print_restart HN HM HO HF). Qed.
Print Assumptions C117_print_partial.
(** Inserts and erases, with the guard of C75 *)
Theorem C117_print_erase_partial : forall (V : Type) (N M : nat) (os : list (mop V)), 2 < N -> Nat.Even N -> 3 <= M -> wkh_fine N M (wt_new V M) os = true ->
  exists t out o, wh_run N M (wt_new V M) os = Ok t /\ wt_print N M t = Ok out /\ wdrawing N t out /\ all_set out /\
    lists (m_run os) o /\ shown_keys out = map fst o.
Proof. intros V N M os HN [q ->] HM CK. apply print_herase; [lia|lia|exact HM|exact CK]. Qed.
Print Assumptions C117_print_erase_partial.
(** After a restart with five leaves a branch node without keys has its child at position 0, but print reads position N. *)
Theorem C117_refuted : exists os : list (rop Z), outward m_empty (r_pairs os) /\
  exists t, wh_hist 3 3 (wt_new Z 3) os = Ok t /\ wt_print 3 3 t = UB.
Proof.
  exists (wh_ins (tens 100 5) ++ wh_ins (rev (tens 60 4)) ++ [RRestart]). split; [apply outward_ex; vm_compute; reflexivity|].
  eexists. split; vm_compute; reflexivity.
Qed.
Print Assumptions C117_refuted.

Example C117_ex : outward m_empty (r_pairs c74_os) /\
  (forall p q t, c74_os = p ++ RRestart :: q -> wh_hist 3 3 (wt_new Z 3) p = Ok t -> rec_fits 3 (wh_leaves t)) /\
  (do t <- wh_run_r 3 3 c74_os; do o <- wt_print 3 3 t; Ok (wdepth t, shown_keys o)) =
    Ok (3, [10; 20; 30; 40; 50; 60; 70; 80; 90; 100; 110; 120; 130; 140; 150; 160; 170]%Z).
Proof.
  split; [apply outward_ex; vm_compute; reflexivity|]. split; [apply wh_fits_b_ok; [lia|vm_compute; reflexivity]|]. vm_compute. reflexivity.
Qed.
Example C117_erase_ex : let os := put_w (tens 10 7 ++ [35%Z]) ++ del_w [70; 50; 20]%Z in
  wkh_fine 4 4 (wt_new Z 4) os = true /\
  (do t <- hist_h os; wt_print 4 4 t) =
  Ok [LBranch 0 2 [40%Z]; LLeaf 1 0 [(true, Some 10%Z); (true, Some 30%Z); (true, Some 35%Z)]; LLeaf 1 3 [(true, Some 40%Z); (true, Some 60%Z)]].
Proof. split; vm_compute; reflexivity. Qed.
