(** Model of pbptrees/wHBPTree.hpp: the nodes of wBPTree, with the branch nodes in volatile memory; after a
    restart they are rebuilt from the linked list of leaves.

    The following functions have the statements of their counterparts in wBPTree.hpp, so that their
    models in WbModel and WbEModel are used as they are (the lines are those of wHBPTree.hpp):
      LeafNode, BranchNode 127-165: [wleaf], [wbranch]; constructor 292-298: [wt_new];
      insert 314-340: [wt_insert]; insertInLeafNode 506-539: [w_insert]; splitLeafNode 548-611: [w_split];
      insertInLeafNodeAtPosition 624-643: [w_insert_at] (the count and the bit are written in the other order);
      insertInBranchNode 656-706: [wt_insert_branch]; splitBranchNode 716-745: [wb_split];
      findLeafNode 755-763: [wt_find]; lookup 351-363: [wt_lookup];
      lookupPositionIn... 772-796: [w_pos], [wb_pos]; eraseFromLeafNode 805-833: [w_erase];
      underflowAtBranchLevel 959-1011: [we_underflow_branch]; balanceLeafNodes 1022-1071: [w_balance];
      balanceBranchNodes 1084-1151: [wb_balance]; mergeLeafNodes 1161-1187: [w_merge];
      mergeBranchNodes 1198-1226: [wb_merge].

    Simplifications: those of WbModel and WbEModel.  leafList (292-298) is the first leaf: leaves are only
    added to the right of another one and a merge keeps the left one, so it is the leaf with id 0.  The
    assertion on the number of leaves in recover (402-403) is compiled out, as are the others.  The tag
    of a Node is not modelled. *)
From Verif Require Import Base MapSpec BitmapModel SearchModel BTreeModel BitTreeModel RecoverModel WbModel WbEModel.
Open Scope nat_scope.

Section Wh.
Variables (V : Type) (N M : nat).
Notation leaf := (wleaf V).
Notation bmap := (nat -> option wbranch).

(** The loop over one leaf in scan(func), 450-455: in the order of the positions, not of the slots. *)
Definition wh_scan_leaf (l : leaf) : res (list (Z * V)) :=
  for_up 0 M
    (fun i s => do used <- bm_test M (wb l) i;
                if used : bool then do k <- aget (wk l) i; do v <- aget (wv l) i; Ok (s ++ [(k, v)]) else Ok s) [].

(** The loop over one leaf in scan(minKey, maxKey, func), 479-486: the entries and whether a key above
    [hi] was met. *)
Definition wh_range_leaf (l : leaf) (lo hi : Z) : res (list (Z * V) * bool) :=
  for_up 0 M
    (fun i s => do used <- bm_test M (wb l) i;
                if used : bool then
                  do k <- aget (wk l) i;
                  if (k <? lo)%Z then Ok s
                  else if (hi <? k)%Z then Ok (fst s, true)
                  else do v <- aget (wv l) i; Ok (fst s ++ [(k, v)], snd s)
                else Ok s) ([], false).

(** 1281, 1287: the key in the first slot. *)
Definition wh_minkey (l : leaf) : res Z := do s <- aget (ws l) 1; aget (wk l) s.

(** Only the fields used by [insert_leaf], [scan_chain], [range_chain] and the recovery are meaningful. *)
Definition wh_ops : leafops leaf V :=
  LeafOps (w_new V M) (fun _ => 0) (@w_lookup V) (w_insert M) (w_erase M) (w_merge M) (w_balance M) wh_minkey wh_scan_leaf
          wh_range_leaf (fun _ _ _ => UB) false.
Notation O := wh_ops.

(** scan(func), 438-459. *)
Definition wh_scan (t : wtree V) : res (list (Z * V)) :=
  do i <- wt_first (wtb t) (wdepth t) (wroot t);
  scan_chain O (S (hfresh (wth t))) (wth t) (Some i).

(** scan(minKey, maxKey, func), 469-490. *)
Definition wh_range (t : wtree V) (lo hi : Z) : res (list (Z * V)) :=
  do i <- wt_find (wtb t) (wdepth t) (wroot t) lo;
  range_chain O (S (hfresh (wth t))) (wth t) (Some i) lo hi.

(** ** Recovery *)
(** newBranchNode() and [children[0] = c], 412-414. *)
Definition wh_root (h : heap leaf) (B : bmap) (c : nat) : res (nat * heap leaf * bmap) :=
  let '(i, h1) := fresh h in
  do cs <- aset (wbc (wb_new N)) 0 c;
  Ok (i, h1, upd B i (Some (WBranch (bs (wb_new N)) (bb (wb_new N)) (wbk (wb_new N)) cs))).

(** newBranchNode(), [slot[1] = 0] and [children[0] = c], 1277-1279, 1301-1303. *)
Definition wh_node (h : heap leaf) (B : bmap) (c : nat) : res (nat * heap leaf * bmap) :=
  let '(i, h1) := fresh h in
  do s <- aset (bs (wb_new N)) 1 0;
  do cs <- aset (wbc (wb_new N)) 0 c;
  Ok (i, h1, upd B i (Some (WBranch s (bb (wb_new N)) (wbk (wb_new N)) cs))).

(** 1286-1292 and 1310-1316. *)
Definition wh_append (b : wbranch) (key : Z) (c : nat) : res wbranch :=
  do n <- aget (bs b) 0;
  do b1 <- bm_set N (bb b) n true;
  do ks <- aset (wbk b) n key;
  do cs <- (if 0 <? n then do l <- cget (wbc b) N; cset (wbc b) n l else Ok (wbc b));
  do cs' <- aset cs N c;
  do s1 <- aset (bs b) (n + 1) n;
  do s2 <- aset s1 0 (S n);
  Ok (WBranch s2 b1 ks cs').

(** recoveryInsertInBranchNode, 1265-1321. *)
Fixpoint wh_rec_branch (h : heap leaf) (B : bmap) (d id lf : nat) : res (heap leaf * bmap * option split) :=
  match d with
  | 0 => UB
  | S d' =>
    do b <- getwb B id;
    do n <- aget (bs b) 0;
    match d' with
    | 0 =>
      do l <- getl h lf;
      do key <- wh_minkey l;
      if n =? N then
        do x <- wh_node h B lf;
        let '(i, h1, B1) := x in Ok (h1, B1, Some (Split key id i))
      else
        do b' <- wh_append b key lf; Ok (h, upd B id (Some b'), None)
    | S _ =>
      do c <- aget (wbc b) (if n =? 0 then 0 else N);
      do r <- wh_rec_branch h B d' c lf;
      match r with
      | (h1, B1, None) => Ok (h1, B1, None)
      | (h1, B1, Some si) =>
        do b1 <- getwb B1 id;
        do n1 <- aget (bs b1) 0;
        if n1 =? N then
          do x <- wh_node h1 B1 (sright si);
          let '(i, h2, B2) := x in Ok (h2, B2, Some (Split (skey si) id i))
        else
          do b' <- wh_append b1 (skey si) (sright si); Ok (h1, upd B1 id (Some b'), None)
      end
    end
  end.

(** recoveryInsert, 1232-1253. *)
Definition wh_rec_insert (t : wtree V) (lf : nat) : res (wtree V) :=
  do r <- wh_rec_branch (wth t) (wtb t) (wdepth t) (wroot t) lf;
  match r with
  | (h1, B1, None) => Ok (WTree h1 B1 (wroot t) (wdepth t))
  | (h1, B1, Some si) =>
    let '(i, h2) := fresh h1 in
    do ks <- aset (wbk (wb_new N)) 0 (skey si);
    do cs <- aset (wbc (wb_new N)) 0 (sleft si);
    do cs' <- aset cs N (sright si);
    do b1 <- bm_set N (bb (wb_new N)) 0 true;
    do s1 <- aset (bs (wb_new N)) 0 1;
    do s2 <- aset s1 1 0;
    Ok (WTree h2 (upd B1 i (Some (WBranch s2 b1 ks cs'))) i (S (wdepth t)))
  end.

Fixpoint wh_rec_chain (fuel : nat) (t : wtree V) (cur : option nat) : res (wtree V) :=
  match cur with
  | None => Ok t
  | Some i =>
    match fuel with
    | 0 => NoFuel
    | S f => do t' <- wh_rec_insert t i; wh_rec_chain f t' (hnx (wth t') i)
    end
  end.

(** recover, 389-422, from the persistent heap and leafList; the branch nodes are lost. *)
Definition wh_recover (h : heap leaf) (first : nat) : res (wtree V) :=
  match hnx h first with
  | None => Ok (WTree h (fun _ => None) first 0)
  | Some nx =>
    do x <- wh_root h (fun _ => None) first;
    let '(i, h1, B1) := x in
    wh_rec_chain (S (hfresh h)) (WTree h1 B1 i 1) (Some nx)
  end.

(** Histories of inserts and restarts. *)
Fixpoint wh_hist (t : wtree V) (os : list (rop V)) : res (wtree V) :=
  match os with
  | [] => Ok t
  | RIns k v :: r => do t' <- wt_insert N M t k v; wh_hist t' r
  | RRestart :: r => do t' <- wh_recover (wth t) 0; wh_hist t' r
  end.

(** ** Erase *)
(** The separator after balancing two leaves is read from the position in the leaf's key array that the
    first slot of the branch node says, 903, 908-909. *)
Definition wh_sepkey (b : wbranch) (l : leaf) : res Z := do s <- aget (bs b) 1; aget (wk l) s.

(** underflowAtLeafLevel, 890-944. *)
Definition wh_underflow_leaf (t : wtree V) (id pos lf : nat) : res (wtree V) :=
  let h := wth t in
  let B := wtb t in
  let middle := (M + 1) / 2 in
  do b <- getwb B id;
  do n <- aget (bs b) 0;
  do prevNum <- (if 1 <? pos then do p <- of_opt (hpv h lf); do pl <- getl h p; w_count pl else Ok 0);
  if (1 <? pos) && (middle <? prevNum) then
    do p <- of_opt (hpv h lf);
    do h1 <- balance_leaf O h p lf;
    do l <- getl h1 lf;
    do newKey <- wh_sepkey b l;
    do b' <- wb_setkey b (if pos =? n + 1 then n else pos) newKey;
    Ok (WTree h1 (upd B id (Some b')) (wroot t) (wdepth t))
  else
  do nextNum <- (if pos <=? n then do x <- of_opt (hnx h lf); do nl <- getl h x; w_count nl else Ok 0);
  if (pos <=? n) && (middle <? nextNum) then
    do x <- of_opt (hnx h lf);
    do h1 <- balance_leaf O h x lf;
    do nl <- getl h1 x;
    do newKey <- wh_sepkey b nl;
    do b' <- wb_setkey b (pos + 1) newKey;
    Ok (WTree h1 (upd B id (Some b')) (wroot t) (wdepth t))
  else
  do r <- (if (1 <? pos) && (prevNum <=? middle) then
             do p <- of_opt (hpv h lf);
             do h1 <- merge_leaf O h p lf;
             do h2 <- free_leaf h1 (Some lf);
             Ok (h2, p, pos - 1)
           else if (pos <=? n) && (nextNum <=? middle) then
             do x <- of_opt (hnx h lf);
             do h1 <- merge_leaf O h lf x;
             do h2 <- free_leaf h1 (Some x);
             Ok (h2, lf, pos)
           else UB);
  let '(h2, survivor, pos') := r in
  if 1 <? n then
    do b' <- wb_drop N b pos' survivor;
    Ok (WTree h2 (upd B id (Some b')) (wroot t) (wdepth t))
  else Ok (WTree h2 B survivor (wdepth t - 1)).

(** eraseFromBranchNode, 844-877. *)
Fixpoint wh_erase_branch (t : wtree V) (d id : nat) (key : Z) : res (wtree V * bool) :=
  match d with
  | 0 => UB
  | S d' =>
    do b <- getwb (wtb t) id;
    do pos <- wb_pos b key;
    do c <- wb_child N b pos;
    match d' with
    | 0 =>
      do r <- erase_leaf O (wth t) c key;
      let '(deleted, h1) := r in
      let t1 := WTree h1 (wtb t) (wroot t) (wdepth t) in
      do l <- getl h1 c;
      do m <- w_count l;
      if m <? (M + 1) / 2 then
        do t2 <- wh_underflow_leaf t1 id pos c;
        Ok (t2, deleted)
      else Ok (t1, deleted)
    | S _ =>
      do r <- wh_erase_branch t d' c key;
      let '(t1, deleted) := r in
      do b1 <- getwb (wtb t1) id;
      do pos1 <- wb_pos b1 key;
      do cb <- getwb (wtb t1) c;
      do m <- aget (bs cb) 0;
      if m <? (N + 1) / 2 then
        do r2 <- we_underflow_branch N (wtb t1) id pos1 c;
        let '(B2, c') := r2 in
        do b2 <- getwb B2 id;
        do n <- aget (bs b2) 0;
        if (d =? wdepth t1) && (n =? 0) then Ok (WTree (wth t1) B2 c' (wdepth t1 - 1), deleted)
        else Ok (WTree (wth t1) B2 (wroot t1) (wdepth t1), deleted)
      else Ok (t1, deleted)
    end
  end.

(** erase, 371-385. *)
Definition wh_erase (t : wtree V) (key : Z) : res (wtree V * bool) :=
  match wdepth t with
  | 0 => do r <- erase_leaf O (wth t) (wroot t) key;
         Ok (WTree (snd r) (wtb t) (wroot t) (wdepth t), fst r)
  | S _ => wh_erase_branch t (wdepth t) (wroot t) key
  end.

Definition wh_step (t : wtree V) (o : mop V) : res (wtree V) :=
  match o with
  | OpInsert k v => wt_insert N M t k v
  | OpErase _ k => do r <- wh_erase t k; Ok (fst r)
  end.
Fixpoint wh_run (t : wtree V) (os : list (mop V)) : res (wtree V) :=
  match os with [] => Ok t | o :: r => do t' <- wh_step t o; wh_run t' r end.
End Wh.
