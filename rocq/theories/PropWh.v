(** C73-C75: wHBPTree (pbptrees/wHBPTree.hpp). *)
From Verif Require Import Base MapSpec SortedList BitmapModel BTreeModel BTreeSpec InsSpec RecoverModel RecoverProofs RecSpec
  WbModel WbEModel WbESpec WhModel WhTree WhESpec WhErase WhHist PropBit PropWb PropWbE PropBitH.
Open Scope Z_scope.

Definition wh_ins (ks : list Z) : list (rop Z) := map (fun k => RIns k (k + 1)) ks.
Definition wh_run_r (N M : nat) (os : list (rop Z)) : res (wtree Z) := wh_hist N M (wt_new Z M) os.

(** * C73: scans *)
(** A leaf is split to the left: position 0 of the root is the second leaf, and the scan starts there. *)
Theorem C73_refuted : exists (os : list (rop Z)) k v, m_run (rops os) k = Some v /\
  exists out, (do t <- wh_run_r 4 4 os; wh_scan 4 t) = Ok out /\ ~ In (k, v) out.
Proof.
  exists (wh_ins [50; 40; 30; 20; 10; 5; 3]), 10, 11. split; [reflexivity|].
  exists [(20, 21); (30, 31); (40, 41); (50, 51)]. split; [vm_compute; reflexivity|]. cbn. intuition congruence.
Qed.
Print Assumptions C73_refuted.
(** The range scan finds its leaf with findLeafNode, which takes the keys of a branch node in the order of
    their positions. *)
Theorem C73_range_refuted : exists (os : list (rop Z)) lo hi k v, m_run (rops os) k = Some v /\ lo <= k <= hi /\
  exists out, (do t <- wh_run_r 4 4 os; wh_range 4 t lo hi) = Ok out /\ ~ In (k, v) out.
Proof.
  exists (wh_ins (tens 10 4 ++ [15; 50; 60])), 20, 100, 20, 21. split; [reflexivity|]. split; [lia|].
  exists [(30, 31); (40, 41); (50, 51); (60, 61)]. split; [vm_compute; reflexivity|]. cbn. intuition congruence.
Qed.
Print Assumptions C73_range_refuted.
(** Above the last separator it follows a slot that was never written. *)
Theorem C73_ub_refuted : exists (os : list (rop Z)) k v, m_run (rops os) k = Some v /\
  exists t, wh_run_r 4 4 os = Ok t /\ wt_lookup t k = UB /\ wh_range 4 t k k = UB.
Proof. exists (wh_ins (tens 10 7)), 50, 51. split; [reflexivity|]. eexists. split; [|split]; vm_compute; reflexivity. Qed.
Print Assumptions C73_ub_refuted.

(** Missing: keys below stored ones, restarts with a number of leaves that recover gets wrong. *)
Theorem C73_ascending_partial : forall V (N M : nat) (os : list (rop V)), (2 <= N)%nat -> (2 <= M)%nat ->
  ascending (r_pairs os) ->
  (forall p q t, os = p ++ RRestart :: q -> wh_hist N M (wt_new V M) p = Ok t -> rec_fits N (wh_leaves t)) ->
  exists t out, wh_hist N M (wt_new V M) os = Ok t /\ wh_scan M t = Ok out /\ enumerates (m_run (rops os)) out /\ in_runs M out.
Proof. intros V N M os HN HM HA HF. exact (hist_scan HN HM HA HF). Qed.
Print Assumptions C73_ascending_partial.

(** * C74: recovery *)
(** Five leaves, N = 3: the last branch node that recover makes has one child, at position 0; insert and
    erase take the last child from position N. *)
Theorem C74_refuted : exists (os : list (rop Z)) k v, m_run (rops os) k = Some v /\
  (do t <- wh_run_r 3 3 os; we_at 3 t k) = Ok (Some v) /\
  exists t, wh_run_r 3 3 (os ++ [RRestart]) = Ok t /\ we_at 3 t k = UB /\ wt_insert 3 3 t k 0 = UB /\ wh_erase 3 3 t k = UB.
Proof.
  exists (wh_ins (tens 10 10)), 100, 101. split; [reflexivity|]. split; [vm_compute; reflexivity|].
  eexists. split; [|split; [|split]]; vm_compute; reflexivity.
Qed.
Print Assumptions C74_refuted.

(** Missing: a new key between stored ones, restarts with a number of leaves that recover gets wrong (C74_reads says
    what is wrong then), lookup as the tree does it instead of at the place where insert and erase look. *)
Theorem C74_recover_partial : forall V (N M : nat) (os : list (rop V)), (2 <= N)%nat -> (3 <= M)%nat ->
  outward m_empty (r_pairs os) ->
  (forall p q t, os = p ++ RRestart :: q -> wh_hist N M (wt_new V M) p = Ok t -> rec_fits N (wh_leaves t)) ->
  exists t, wh_hist N M (wt_new V M) os = Ok t /\ forall k, we_at N t k = Ok (m_run (rops os) k).
Proof. intros V N M os HN HM HO HF. exact (hist_at HN HM HO HF). Qed.
Print Assumptions C74_recover_partial.

(** What the functions do right after a restart, whatever the number of leaves: scan is right; lookup and range scan
    are right where they are defined, and with more than one leaf they are not defined for the largest keys;
    with a number of leaves that recover gets wrong, insert of a largest key is undefined. *)
Theorem C74_reads : forall V (N M : nat) (os : list (rop V)), (2 <= N)%nat -> (3 <= M)%nat ->
  outward m_empty (r_pairs os) ->
  (forall p q t, os = p ++ RRestart :: q -> wh_hist N M (wt_new V M) p = Ok t -> rec_fits N (wh_leaves t)) ->
  exists t t', wh_hist N M (wt_new V M) os = Ok t /\ wh_hist N M (wt_new V M) (os ++ [RRestart]) = Ok t' /\
  (exists out, wh_scan M t' = Ok out /\ enumerates (m_run (rops os)) out /\ in_runs M out) /\
  (forall k, wt_lookup t' k = UB \/ wt_lookup t' k = Ok (m_run (rops os) k)) /\
  (forall lo hi, wh_range M t' lo hi = UB \/ exists out, wh_range M t' lo hi = Ok out /\ enumerates_range (m_run (rops os)) lo hi out) /\
  ((2 <= wh_leaves t)%nat -> forall k, (forall x, m_run (rops os) x <> None -> x <= k) -> wt_lookup t' k = UB /\ forall hi, wh_range M t' k hi = UB) /\
  (~ rec_fits N (wh_leaves t) -> forall k v, (forall x, m_run (rops os) x <> None -> x <= k) -> wt_insert N M t' k v = UB).
Proof. intros V N M os HN HM HO HF. exact (hist_reads HN HM HO HF). Qed.
Print Assumptions C74_reads.

(** [rec_fits] at each restart, decided. *)
Fixpoint wh_fits_b (N M : nat) (t : wtree Z) (os : list (rop Z)) : bool :=
  match os with
  | [] => true
  | RIns k v :: r => match wt_insert N M t k v with Ok t' => wh_fits_b N M t' r | _ => true end
  | RRestart :: r => digits_b (wh_leaves t) N (wh_leaves t - 1) &&
      match wh_recover N (wth t) 0 with Ok t' => wh_fits_b N M t' r | _ => true end
  end.
Lemma wh_fits_b_ok N M os : (1 <= N)%nat -> forall t, wh_fits_b N M t os = true -> forall p q t', os = p ++ RRestart :: q -> wh_hist N M t p = Ok t' -> rec_fits N (wh_leaves t').
Proof.
  intros HN. induction os as [|o os IH]; intros t H p q t' E Ep; [destruct p; discriminate|]. destruct p as [|o' p].
  - injection E as -> ->. injection Ep as <-. cbn [wh_fits_b] in H. apply andb_prop in H as [H _]. apply rec_fits_b; [lia|exact H].
  - injection E as <- E. destruct o as [k v|]; cbn [wh_fits_b wh_hist] in *.
    + destruct (wt_insert N M t k v) as [t1| |]; try discriminate Ep. cbn [bind] in Ep. eapply IH; eauto.
    + apply andb_prop in H as [_ H]. destruct (wh_recover N (wth t) 0) as [t1| |]; try discriminate Ep. cbn [bind] in Ep. eapply IH; eauto.
Qed.
Lemma outward_ex os : outward_b [] os = true -> outward (m_empty (V := Z)) os.
Proof. apply outward_b_ok. intros k. unfold m_empty. split; [congruence|intros []]. Qed.

(** Twelve ascending keys, restart with 6 leaves (5 is 11 in base 4), nine more, restart with 10 leaves (9 is 21), two more. *)
Definition c73_os : list (rop Z) := wh_ins (tens 10 12) ++ RRestart :: wh_ins (tens 130 9) ++ RRestart :: wh_ins [220; 225].
Example C73_ex : ascending (r_pairs c73_os) /\
  (forall p q t, c73_os = p ++ RRestart :: q -> wh_hist 3 3 (wt_new Z 3) p = Ok t -> rec_fits 3 (wh_leaves t)) /\
  (do t <- wh_run_r 3 3 c73_os; do o <- wh_scan 3 t; Ok (wh_leaves t, wdepth t, length o, skipn 19 (map fst o))) =
    Ok (11%nat, 2%nat, 23%nat, [200; 210; 220; 225]).
Proof.
  split; [apply asc_b_ok; vm_compute; reflexivity|]. split; [apply wh_fits_b_ok; [lia|vm_compute; reflexivity]|]. vm_compute. reflexivity.
Qed.
(** Keys on both sides, restart with 8 leaves (7 is 13 in base 4), more on both sides, an overwritten value. *)
Definition c74_os : list (rop Z) :=
  wh_ins (tens 100 6) ++ wh_ins (rev (tens 40 6)) ++ RRestart :: wh_ins [160; 30; 170; 20; 10; 100] ++ [RIns 70 7].
Example C74_ex : outward m_empty (r_pairs c74_os) /\
  (forall p q t, c74_os = p ++ RRestart :: q -> wh_hist 3 3 (wt_new Z 3) p = Ok t -> rec_fits 3 (wh_leaves t)) /\
  (do t <- wh_run_r 3 3 c74_os; Ok (wh_leaves t, wdepth t, map (we_at 3 t) [10; 70; 90; 95; 150; 170])) =
    Ok (12%nat, 3%nat, [Ok (Some 11); Ok (Some 7); Ok (Some 91); Ok None; Ok (Some 151); Ok (Some 171)]).
Proof.
  split; [apply outward_ex; vm_compute; reflexivity|]. split; [apply wh_fits_b_ok; [lia|vm_compute; reflexivity]|]. vm_compute. reflexivity.
Qed.
(** Nine keys in five leaves: everything but the largest keys can be read. *)
Example C74_reads_ex : let os := wh_ins (tens 100 5) ++ wh_ins (rev (tens 60 4)) in
  outward m_empty (r_pairs os) /\ ~ rec_fits 3 5 /\
  (do t <- wh_run_r 3 3 os; do o <- wh_scan 3 t; Ok (wh_leaves t, length o)) = Ok (5%nat, 9%nat) /\
  (do t <- wh_run_r 3 3 (os ++ [RRestart]); do o <- wh_scan 3 t; do r <- wh_range 3 t 65 95;
   Ok (length o, map fst r, map (wt_lookup t) [60; 70; 110; 140], wt_insert 3 3 t 150 0)) =
     Ok (9%nat, [70; 80; 90], [Ok (Some 61); Ok (Some 71); UB; UB], UB).
Proof.
  split; [apply outward_ex; vm_compute; reflexivity|]. split; [rewrite <- rec_fits_b by lia; vm_compute; discriminate|]. split; vm_compute; reflexivity.
Qed.

(** * C75: erase *)
Definition hist_h (os : list (mop Z)) : res (wtree Z) := wh_run 4 4 (wt_new Z 4) os.
(** The last leaf takes an entry from its left neighbour: the separator is read from the wrong position of
    the leaf (903, 909).  wBPTree gets this one right. *)
Theorem C75_separator_refuted : exists (os : list (mop Z)) k v, m_run os k = Some v /\
  (do t <- hist_w os; we_at 4 t k) = Ok (Some v) /\ (do t <- hist_h os; we_at 4 t k) = Ok None.
Proof. exists (put_w (tens 10 7 ++ [35]) ++ del_w [70; 60]), 40, 41. vm_compute. auto. Qed.
Print Assumptions C75_separator_refuted.
(** The other defects of wBPTree: a key of a full leaf, merged branch nodes, a node that loses its only key. *)
Theorem C75_refuted : exists (os : list (mop Z)) k v, m_run os k = Some v /\
  exists t, hist_h os = Ok t /\ we_at 4 t k = Ok (Some v) /\ wh_erase 4 4 t k = UB.
Proof. exists (put_w (tens 10 20)), 200, 201. split; [vm_compute; auto|]. eexists. split; [|split]; vm_compute; reflexivity. Qed.
Print Assumptions C75_refuted.
Theorem C75_merge_refuted : exists (os : list (mop Z)) k v, m_run os k = Some v /\
  (do t <- hist_h os; we_at 4 t k) = Ok None.
Proof. exists (put_w (tens 10 20) ++ del_w [10]), 70, 71. vm_compute. auto. Qed.
Print Assumptions C75_merge_refuted.
Theorem C75_root_refuted : exists (os : list (mop Z)) k v, m_run os k = Some v /\
  exists t, hist_h os = Ok t /\ we_at 4 t k = UB.
Proof.
  exists (put_w (tens 10 11) ++ del_w [110] ++ put_w [62; 64; 66] ++ del_w [70]), 10, 11. split; [vm_compute; auto|]. eexists. split; vm_compute; reflexivity.
Qed.
Print Assumptions C75_root_refuted.

(** Missing: the repairs not let through by WbESpec and WhESpec, restarts, lookup as the tree does it. *)
Theorem C75_erase_partial : forall V (N M : nat) (os : list (mop V)),
  (2 < N)%nat -> Nat.Even N -> (3 <= M)%nat -> wkh_fine N M (wt_new V M) os = true ->
  exists t, wh_run N M (wt_new V M) os = Ok t /\ (forall k, we_at N t k = Ok (m_run os k)) /\
  (forall k v, wkh_ok N M t (OpInsert k v) = true -> exists t',
     wt_insert N M t k v = Ok t' /\ forall x, we_at N t' x = Ok (m_put (m_run os) k v x)) /\
  (forall k, wkh_ok N M t (OpErase V k) = true -> exists t' b,
     wh_erase N M t k = Ok (t', b) /\ (b = true <-> m_run os k <> None) /\
     forall x, we_at N t' x = Ok (m_del (m_run os) k x)).
Proof.
  intros V N M os HN [q ->] HM CK. apply wkh_hist; auto; try lia.
Qed.
Print Assumptions C75_erase_partial.

(** The last leaf takes 40 from its left neighbour, at the position of 50 which was erased before; two leaves are merged. *)
Example C75_ex : let os := put_w (tens 10 7 ++ [35]) ++ del_w [70; 50; 20] in
  wkh_fine 4 4 (wt_new Z 4) os = true /\
  (do t <- hist_h (put_w (tens 10 7 ++ [35]) ++ del_w [70; 50]); do o <- wh_scan 4 t; Ok (map fst o)) = Ok [10; 20; 30; 35; 40; 60] /\
  (do t <- hist_h os; do r <- wh_erase 4 4 t 10; do s <- wh_erase 4 4 t 32;
   Ok (wdepth t, map (we_at 4 t) [10; 20; 30; 35; 40; 50; 60], wkh_ok 4 4 t (OpErase Z 10), snd r, wkh_ok 4 4 t (OpErase Z 32), snd s))
  = Ok (1%nat, [Ok (Some 11); Ok None; Ok (Some 31); Ok (Some 36); Ok (Some 41); Ok None; Ok (Some 61)], true, true, true, false).
Proof. vm_compute. auto. Qed.
Example C75_root_ex : let os := put_w (tens 10 13) ++ del_w [70] in
  wkh_fine 4 4 (wt_new Z 4) os = true /\
  (do t <- hist_h os; Ok (wdepth t, map (we_at 4 t) [10; 60; 70; 80; 130])) =
    Ok (1%nat, [Ok (Some 11); Ok (Some 61); Ok None; Ok (Some 81); Ok (Some 131)]).
Proof. vm_compute. auto. Qed.
