(** C72: erase of wBPTree. *)
From Verif Require Import Base MapSpec SortedList BitmapModel BTreeModel BitTreeModel InsSpec WbModel WbEModel WbESpec WbBranch WbEBranch WbEBalance WbEProofs PropBit.
Open Scope Z_scope.

Definition put_w (ks : list Z) : list (mop Z) := map (fun k => OpInsert k (k + 1)) ks.
Definition del_w (ks : list Z) : list (mop Z) := map (fun k => OpErase Z k) ks.
(** [a], [a + 10], ..., [n] keys *)
Definition tens (a : Z) (n : nat) : list Z := map (fun i => a + 10 * Z.of_nat i) (seq 0 n).
Definition hist_w (os : list (mop Z)) : res (wtree Z) := we_run 4 4 (wt_new Z 4) os.

(** A leaf that is not the last one below its node takes entries from its left neighbour: the new
    smallest key is written over the separator right of the leaf (917-918). *)
Theorem C72_left_refuted : exists (os : list (mop Z)) k v, m_run os k = Some v /\
  (do t <- hist_w os; we_at 4 t k) = Ok None.
Proof. exists (put_w (tens 10 7 ++ [15]) ++ del_w [30]), 40, 41. vm_compute. auto. Qed.
Print Assumptions C72_left_refuted.
(** A leaf that takes entries from its right neighbour: the same one position further (923). *)
Theorem C72_right_refuted : exists (os : list (mop Z)) k v, m_run os k = Some v /\
  (do t <- hist_w os; we_at 4 t k) = Ok None.
Proof. exists (put_w (tens 10 7 ++ [35]) ++ del_w [10]), 40, 41. vm_compute. auto. Qed.
Print Assumptions C72_right_refuted.
(** Branch nodes are merged: the parent drops the child of the separator, not the one that was merged (1022-1027). *)
Theorem C72_merge_refuted : exists (os : list (mop Z)) k v, m_run os k = Some v /\
  (do t <- hist_w os; we_at 4 t k) = Ok None.
Proof. exists (put_w (tens 10 20) ++ del_w [10]), 70, 71. vm_compute. auto. Qed.
Print Assumptions C72_merge_refuted.
(** The merged node itself is freed when its right neighbour is the last child: the reference [rSibling]
    has been overwritten (1014-1018). *)
Theorem C72_freed_refuted : exists (os : list (mop Z)) k v, m_run os k = Some v /\
  exists t, hist_w os = Ok t /\ we_at 4 t k = UB.
Proof. exists (put_w (tens 10 14) ++ del_w [10]), 20, 21. split; [vm_compute; auto|]. eexists. split; vm_compute; reflexivity. Qed.
Print Assumptions C72_freed_refuted.
(** A node above the leafs that loses its only key is made the root of the whole tree (952-956). *)
Theorem C72_root_refuted : exists (os : list (mop Z)) k v, m_run os k = Some v /\
  exists t, hist_w os = Ok t /\ we_at 4 t k = UB.
Proof.
  exists (put_w (tens 10 11) ++ del_w [110] ++ put_w [62; 64; 66] ++ del_w [70]), 10, 11. split; [vm_compute; auto|]. eexists. split; vm_compute; reflexivity.
Qed.
Print Assumptions C72_root_refuted.
(** A slot of a branch node that gave entries away stays marked as used; three inserts later there is no
    free slot for a new key.  Without the erase the same inserts go through. *)
Theorem C72_leak_refuted : exists (a b : list (mop Z)) k v,
  (exists t, hist_w (a ++ del_w [k] ++ b) = Ok t) /\ hist_w (a ++ del_w [k] ++ b ++ [v]) = UB /\
  (exists t, hist_w (a ++ b ++ [v]) = Ok t).
Proof.
  exists (put_w (tens 10 22)), (put_w [230; 240]), 70, (OpInsert 250 251).
  split; [|split]; [eexists| |eexists]; vm_compute; reflexivity.
Qed.
Print Assumptions C72_leak_refuted.
(** A key of a full leaf: the slots behind it are shifted from beyond the array (838-839). *)
Theorem C72_refuted : exists (os : list (mop Z)) k v, m_run os k = Some v /\
  exists t, hist_w os = Ok t /\ we_at 4 t k = Ok (Some v) /\ we_erase 4 4 t k = UB.
Proof. exists (put_w (tens 10 20)), 200, 201. split; [vm_compute; auto|]. eexists. split; [|split]; vm_compute; reflexivity. Qed.
Print Assumptions C72_refuted.

(** Histories all of whose repairs are of the kinds let through by WbESpec.  Missing: the others (refuted
    above), lookup as the tree does it (C47) instead of at the place where insert and erase look. *)
Theorem C72_erase_partial : forall V (N M : nat) (os : list (mop V)),
  (2 < N)%nat -> Nat.Even N -> (3 <= M)%nat -> wk_fine N M (wt_new V M) os = true ->
  exists t, we_run N M (wt_new V M) os = Ok t /\ (forall k, we_at N t k = Ok (m_run os k)) /\
  (forall k v, wk_ok N M t (OpInsert k v) = true -> exists t',
     wt_insert N M t k v = Ok t' /\ forall x, we_at N t' x = Ok (m_put (m_run os) k v x)) /\
  (forall k, wk_ok N M t (OpErase V k) = true -> exists t' b,
     we_erase N M t k = Ok (t', b) /\ (b = true <-> m_run os k <> None) /\
     forall x, we_at N t' x = Ok (m_del (m_run os) k x)).
Proof.
  intros V N M os HN [q ->] HM CK. apply wk_hist; auto; lia.
Qed.
Print Assumptions C72_erase_partial.

(** A root with two children is merged away. *)
Example C72_root_ex : let os := put_w (tens 10 13) ++ del_w [70] in
  wk_fine 4 4 (wt_new Z 4) os = true /\
  (do t <- hist_w (put_w (tens 10 13)); Ok (wdepth t)) = Ok 2%nat /\
  (do t <- hist_w os; Ok (wdepth t, map (we_at 4 t) [10; 60; 70; 80; 130; 131])) =
    Ok (1%nat, [Ok (Some 11); Ok (Some 61); Ok None; Ok (Some 81); Ok (Some 131); Ok None]).
Proof. vm_compute. auto. Qed.
(** The last leaf takes 40 from its left neighbour (erase 60), two leafs are merged (erase 20), an absent
    key is not erased. *)
Example C72_leafs_ex : let os := put_w (tens 10 7 ++ [35]) ++ del_w [70; 60; 20] in
  wk_fine 4 4 (wt_new Z 4) os = true /\
  (do t <- hist_w os; do r <- we_erase 4 4 t 10; do s <- we_erase 4 4 t 32;
   Ok (wdepth t, map (we_at 4 t) [10; 20; 30; 35; 40; 50; 60], wk_ok 4 4 t (OpErase Z 10), snd r, wk_ok 4 4 t (OpErase Z 32), snd s,
       map (we_at 4 (fst r)) [10; 30]))
  = Ok (1%nat, [Ok (Some 11); Ok None; Ok (Some 31); Ok (Some 36); Ok (Some 41); Ok (Some 51); Ok None], true, true, true, false,
        [Ok None; Ok (Some 31)]).
Proof. vm_compute. auto. Qed.
Example C72_insert_ex : let os := put_w (tens 10 13) ++ del_w [70] in
  (do t <- hist_w os; do t' <- wt_insert 4 4 t 95 7; Ok (wk_ok 4 4 t (OpInsert 95 7), map (we_at 4 t') [90; 95; 100])) =
  Ok (true, [Ok (Some 91); Ok (Some 7); Ok (Some 101)]).
Proof. vm_compute. auto. Qed.

(** The repairs of branch nodes themselves, for any number of keys (the defects are in what is done around
    them).  balanceBranchNodes: both nodes and the parent hold the right keys and children, but one
    position of the donor stays marked as used. *)
Theorem C72_balance_left : forall (N : nat) d r p ka x kb ca cx cb kr cr pa y pb pc, (2 <= N)%nat ->
  branch_holds N d (ka ++ x :: kb) (ca ++ cx :: cb) [] -> length ca = length ka ->
  branch_holds N r kr cr [] -> branch_holds N p (pa ++ y :: pb) pc [] ->
  kr <> [] -> (length kr < length (ka ++ x :: kb))%nat ->
  length ka = ((length (ka ++ x :: kb) + length kr) / 2)%nat ->
  StronglySorted Z.lt ((ka ++ x :: kb) ++ y :: kr) ->
  StronglySorted Z.lt (pa ++ y :: pb) -> StronglySorted Z.lt (pa ++ x :: pb) ->
  exists d' r' p' q, wb_balance N d r p (S (length pa)) = Ok (d', r', p') /\
    branch_holds N d' ka (ca ++ [cx]) [q] /\ branch_holds N r' (kb ++ y :: kr) (cb ++ cr) [] /\
    branch_holds N p' (pa ++ x :: pb) pc [].
Proof.
  intros N d r p ka x kb ca cx cb kr cr pa y pb pc HN Hd LA Hr Hp NE HL HB HO HP HP'.
  destruct (proj1 (ssorted_app _ _) HO) as (O1 & O2 & _). apply ssorted_cons in O2 as [O2 _].
  apply holds_rep in Hd; auto. apply holds_rep in Hr; auto. apply holds_rep in Hp; auto.
  destruct (wb_balance_left HN Hd LA Hr Hp NE HL HB HO HP') as (d' & r' & p' & q & E & G1 & G2 & G3).
  exists d', r', p', q. split; auto. apply wbrep_x in G2, G3. split; [|split]; now apply wbx_holds.
Qed.
Print Assumptions C72_balance_left.
Theorem C72_balance_right : forall (N : nat) d r p ka x kb ca cx cb kr cr pa y pb pc, (2 <= N)%nat ->
  branch_holds N d (ka ++ x :: kb) (ca ++ cx :: cb) [] -> length ca = length ka ->
  branch_holds N r kr cr [] -> branch_holds N p (pa ++ y :: pb) pc [] ->
  kr <> [] -> (length kr < length (ka ++ x :: kb))%nat ->
  length kb = ((length (ka ++ x :: kb) + length kr) / 2)%nat ->
  StronglySorted Z.lt (kr ++ y :: ka ++ x :: kb) ->
  StronglySorted Z.lt (pa ++ y :: pb) -> StronglySorted Z.lt (pa ++ x :: pb) ->
  exists d' r' p' q, wb_balance N d r p (S (length pa)) = Ok (d', r', p') /\
    branch_holds N d' kb cb [q] /\ branch_holds N r' (kr ++ y :: ka) (cr ++ ca ++ [cx]) [] /\
    branch_holds N p' (pa ++ x :: pb) pc [].
Proof.
  intros N d r p ka x kb ca cx cb kr cr pa y pb pc HN Hd LA Hr Hp NE HL HB HO HP HP'.
  destruct (proj1 (ssorted_app _ _) HO) as (O1 & O2 & _). apply ssorted_cons in O2 as [O2 _].
  apply holds_rep in Hd; auto. apply holds_rep in Hr; auto. apply holds_rep in Hp; auto.
  destruct (wb_balance_right HN Hd LA Hr Hp NE HL HB HO HP') as (d' & r' & p' & q & E & G1 & G2 & G3).
  exists d', r', p', q. split; auto. apply wbrep_x in G2, G3. split; [|split]; now apply wbx_holds.
Qed.
Print Assumptions C72_balance_right.
(** mergeBranchNodes. *)
Theorem C72_merge : forall (N : nat) b1 b2 k1 c1 k2 c2 x, (2 <= N)%nat ->
  branch_holds N b1 k1 c1 [] -> branch_holds N b2 k2 c2 [] -> (length k1 + 1 + length k2 <= N)%nat ->
  StronglySorted Z.lt (k1 ++ x :: k2) ->
  exists b, wb_merge N b1 x b2 = Ok b /\ branch_holds N b (k1 ++ x :: k2) (c1 ++ c2) [].
Proof.
  intros N b1 b2 k1 c1 k2 c2 x HN H1 H2 HL HO.
  destruct (proj1 (ssorted_app _ _) HO) as (O1 & O2 & _). apply ssorted_cons in O2 as [O2 _].
  apply holds_rep in H1; auto. apply holds_rep in H2; auto.
  destruct (wb_merge_ok HN H1 H2 HL HO) as (b & E & G). exists b. split; auto. apply wbrep_x in G. now apply wbx_holds.
Qed.
Print Assumptions C72_merge.

(** A node of four positions with two, three or four keys, made as insert makes it. *)
Definition node_w (a b : Z) (r : list (Z * nat)) (c0 c1 c2 : nat) : res wbranch :=
  do n <- wb_root 4 (Split a c0 c1);
  do n <- wb_add 4 n 2 (Split b c1 c2);
  match r with
  | [] => Ok n
  | (k, c) :: r' =>
    do n <- wb_add 4 n 3 (Split k c2 c);
    match r' with [] => Ok n | (k', c') :: _ => wb_add 4 n 4 (Split k' c c') end
  end.
Ltac sorted_w := repeat constructor; lia.
Example C72_nodes_ex : exists d r p d' r',
  node_w 10 20 [(30, 4%nat); (40, 5%nat)] 1 2 3 = Ok d /\ branch_holds 4 d [10; 20; 30; 40] [1; 2; 3; 4; 5]%nat [] /\
  wb_root 4 (Split 60 6%nat 7%nat) = Ok r /\ branch_holds 4 r [60] [6; 7]%nat [] /\
  node_w 5 50 [] 20 21 22 = Ok p /\ branch_holds 4 p [5; 50] [20; 21; 22]%nat [] /\
  (do x <- wb_balance 4 d r p 2; let '(a, b, c) := x in Ok (a, b, bs a, bb a, bs b, bb b, wb_key c 2)) =
    Ok (d', r', [Some 2; Some 0; Some 1; Some 2; Some 3]%nat, [7%N], [Some 3; Some 2; Some 1; Some 0; None]%nat, [7%N], Ok 30) /\
  branch_holds 4 d' [10; 20] [1; 2; 3]%nat [2%nat] /\ branch_holds 4 r' [40; 50; 60] [4; 5; 6; 7]%nat [] /\
  (do s <- node_w 80 90 [] 8 9 10; do m <- wb_merge 4 r 70 s;
   Ok (bs m, bb m, map (fun i => wb_key m i) [1; 2; 3; 4]%nat, map (fun i => wb_child 4 m i) [1; 2; 3; 4; 5]%nat)) =
    Ok ([Some 4; Some 0; Some 1; Some 2; Some 3]%nat, [15%N], [Ok 60; Ok 70; Ok 80; Ok 90], [Ok 6; Ok 7; Ok 8; Ok 9; Ok 10]%nat).
Proof.
  assert (HN : (2 <= 4)%nat) by lia.
  destruct (wb_root_ok HN 10 1 2) as (d1 & E1 & R1 & _).
  destruct (@wb_add_ok 4 HN d1 [10] [] [1%nat] 2%nat [] 20 2 3 R1 eq_refl eq_refl ltac:(cbn; lia) ltac:(sorted_w)) as (d2 & E2 & R2 & _).
  destruct (@wb_add_ok 4 HN d2 [10; 20] [] [1; 2]%nat 3%nat [] 30 3 4 R2 eq_refl eq_refl ltac:(cbn; lia) ltac:(sorted_w)) as (d3 & E3 & R3 & _).
  destruct (@wb_add_ok 4 HN d3 [10; 20; 30] [] [1; 2; 3]%nat 4%nat [] 40 4 5 R3 eq_refl eq_refl ltac:(cbn; lia) ltac:(sorted_w)) as (d & E4 & R4 & _).
  destruct (wb_root_ok HN 60 6 7) as (r & E5 & R5 & _).
  destruct (wb_root_ok HN 5 20 21) as (p1 & E6 & R6 & _).
  destruct (@wb_add_ok 4 HN p1 [5] [] [20%nat] 21%nat [] 50 21 22 R6 eq_refl eq_refl ltac:(cbn; lia) ltac:(sorted_w)) as (p & E7 & R7 & _).
  cbn [app length] in *.
  apply wbrep_x, (wbx_holds HN) in R4. apply wbrep_x, (wbx_holds HN) in R5. apply wbrep_x, (wbx_holds HN) in R7.
  destruct (@C72_balance_left 4 d r p [10; 20] 30 [40] [1; 2]%nat 3%nat [4; 5]%nat [60] [6; 7]%nat [5] 50 [] [20; 21; 22]%nat)
    as (d' & r' & p' & q & E8 & G1 & G2 & G3); auto; try discriminate; try (cbn; lia); try sorted_w.
  exists d, r, p, d', r'. cbn [app length] in *.
  vm_compute in E1. injection E1 as <-. vm_compute in E2. injection E2 as <-. vm_compute in E3. injection E3 as <-.
  vm_compute in E4. injection E4 as <-. vm_compute in E5. injection E5 as <-. vm_compute in E6. injection E6 as <-.
  vm_compute in E7. injection E7 as <-. vm_compute in E8. injection E8 as <- <- <-.
  assert (q = 2%nat) as ->.
  { destruct G1 as (_ & _ & _ & _ & _ & _ & _ & _ & _ & G). destruct (proj1 (G 2%nat ltac:(lia)) eq_refl) as [[<-|[]]|(i & Hi & Ei)]; auto.
    cbn [length] in Hi. destruct i as [|[|i]]; [discriminate|discriminate|lia]. }
  repeat match goal with |- _ /\ _ => split end; auto; vm_compute; reflexivity.
Qed.
