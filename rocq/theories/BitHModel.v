(** Heap-level model of pbptrees/BitHPBPTree.hpp: leaves in persistent memory, bitmap branch nodes in
    volatile memory that are rebuilt from the leaf list.

    The functions over branch nodes and the descents are the statements of BitPBPTree.hpp:
    insert 320-341, lookup 350-362, splitBranchNode 1035-1056, insertInBranchNode 1071-1110,
    findLeafNode 1125-1135, lookupPositionInBranchNode 1150-1152, lookupPositionInLeafNode
    1162-1171.  They are the functions of BitTreeModel over the leaf functions below.  Different are
    the leaf split, which copies the node, and recover().  Erase is not modelled here. *)
From Verif Require Import Base RankModel BitmapModel BTreeModel ULeafModel FLeafModel BitTreeModel RecoverModel.
Open Scope nat_scope.

Section BitH.
Variables (V : Type) (t : ktype) (N M : nat).
Notation leaf := (fleaf V).
Notation nofp := (fun _ : Z => 0%Z).

(** The bitmap filled by findSplitKey (utils/SearchFunctions.hpp:82-97): bit i is set iff [m]
    has true at i. *)
Fixpoint bm_of_list (m : list bool) (i : nat) (ws : list BinNums.N) : res (list BinNums.N) :=
  match m with
  | [] => Ok ws
  | b :: r => do ws' <- bm_set M ws i b; bm_of_list r (S i) ws'
  end.

(** splitLeafNode, array part, 950-966: the sibling is a copy with the complement of the marks. *)
Definition bh_split (l : leaf) : res (leaf * leaf * Z) :=
  do data <- read_all M 0 (fk l);
  do r <- findSplitKey t data;
  do splitKey <- aget (fk l) (snd r);
  do b <- bm_of_list (fst r) 0 (bm_new M);
  do nb <- bm_flip M b;
  Ok (FLeaf b (ff l) (fk l) (fv l), FLeaf nb (ff l) (fk l) (fv l), splitKey).

(** insertInLeafNode, 907-939. *)
Definition bh_insert_leaf (l : leaf) (key : Z) (val : V) : res (lins leaf) :=
  do pos <- fl_pos nofp M l key;
  if pos <? M then
    do vs <- aset (fv l) pos val;
    Ok (LDone (FLeaf (fb l) (ff l) (fk l) vs))
  else
  do u <- getFreeZero (fb l);
  if u =? M then
    do r <- bh_split l;
    let '(node, sib, splitKey) := r in
    if (key >? splitKey)%Z then do b <- fl_add nofp M sib key val; Ok (LSplit node b splitKey)
    else
      do p <- fl_maxpos t M node;
      do mx <- aget (fk node) p;
      if (key >? mx)%Z then do b <- fl_add nofp M sib key val; Ok (LSplit node b key)
      else do a <- fl_add nofp M node key val; Ok (LSplit a sib splitKey)
  else
    do l' <- fl_insert_at nofp M l u key val;
    Ok (LDone l').

Definition bh_ops : leafops leaf V :=
  let O := bit_ops V t M in
  LeafOps (lo_new O) (lo_count O) (lo_lookup O) bh_insert_leaf (lo_erase O) (lo_merge O) (lo_balance O) (lo_minkey O)
          (lo_scan O) (lo_range O) (lo_bpos O) false.

(** The constructor, 301-307, makes the first leaf both the root and [leafList]; leafs are only added
    to its right, so leafList is the leaf with id 0 throughout. *)
Definition bh_new : btree V := bg_new bh_ops.
Definition bh_insert : btree V -> Z -> V -> res (btree V) := bg_insert t N bh_ops.
Definition bh_lookup : btree V -> Z -> res (option V) := bg_lookup t N bh_ops.
Definition bh_run : btree V -> list (Z * V) -> res (btree V) := bg_run t N bh_ops.
(** scan(minKey, maxKey, func), 462-488. *)
Definition bh_range : btree V -> Z -> Z -> res (list (Z * V)) := bg_range t N bh_ops.

(** ** Recovery *)
Notation bmap := (nat -> option bbranch).
Variable O : leafops leaf V.

(** newBranchNode() followed by [children[0] = c], 1203-1204, 1232-1233, 405. *)
Definition bh_node (h : heap leaf) (B : bmap) (c : nat) : res (nat * heap leaf * bmap) :=
  let '(i, h1) := fresh h in
  do cs <- aset (anew (S N)) 0 c;
  Ok (i, h1, upd B i (Some (BBranch (repeat false N) (anew N) cs))).

(** 1213-1218 and 1239-1243. *)
Definition bh_append (b : bbranch) (key : Z) (c : nat) : res bbranch :=
  let n := count_bits (bbits b) in
  do bs <- of_opt (lset (bbits b) n true);
  do ks <- aset (bbk b) n key;
  do cs <- (if 0 <? n then do l <- aget (bbc b) N; aset (bbc b) n l else Ok (bbc b));
  do cs' <- aset cs N c;
  Ok (BBranch bs ks cs').

(** recoveryInsertInBranchNode, 1198-1250.  The number of keys is read before the recursive call;
    the node itself is not changed by that. *)
Fixpoint bh_rec_branch (h : heap leaf) (B : bmap) (d id lf : nat) : res (heap leaf * bmap * option split) :=
  match d with
  | 0 => UB
  | S d' =>
    do b <- getbb B id;
    let n := count_bits (bbits b) in
    match d' with
    | 0 =>
      do l <- getl h lf;
      do key <- lo_minkey O l;
      if n =? N then
        do x <- bh_node h B lf;
        let '(i, h1, B1) := x in Ok (h1, B1, Some (Split key id i))
      else
        do b' <- bh_append b key lf; Ok (h, upd B id (Some b'), None)
    | S _ =>
      do c <- aget (bbc b) (if n =? 0 then 0 else N);
      do r <- bh_rec_branch h B d' c lf;
      match r with
      | (h1, B1, None) => Ok (h1, B1, None)
      | (h1, B1, Some si) =>
        do b1 <- getbb B1 id;
        if n =? N then
          do x <- bh_node h1 B1 (sright si);
          let '(i, h2, B2) := x in Ok (h2, B2, Some (Split (skey si) id i))
        else
          do b' <- bh_append b1 (skey si) (sright si); Ok (h1, upd B1 id (Some b'), None)
      end
    end
  end.

(** recoveryInsert, 1174-1192. *)
Definition bh_rec_insert (tr : btree V) (lf : nat) : res (btree V) :=
  do r <- bh_rec_branch (bth tr) (btb tr) (bdepth tr) (broot tr) lf;
  match r with
  | (h1, B1, None) => Ok (BTree h1 B1 (broot tr) (bdepth tr))
  | (h1, B1, Some si) =>
    let '(i, h2) := fresh h1 in
    do ks <- aset (anew N) 0 (skey si);
    do cs <- aset (anew (S N)) 0 (sleft si);
    do cs' <- aset cs N (sright si);
    do bs <- of_opt (lset (repeat false N) 0 true);
    Ok (BTree h2 (upd B1 i (Some (BBranch bs ks cs'))) i (S (bdepth tr)))
  end.

Fixpoint bh_rec_chain (fuel : nat) (tr : btree V) (cur : option nat) : res (btree V) :=
  match cur with
  | None => Ok tr
  | Some i =>
    match fuel with
    | 0 => NoFuel
    | S f => do tr' <- bh_rec_insert tr i; bh_rec_chain f tr' (hnx (bth tr') i)
    end
  end.

(** recover, 391-412, from the persistent heap and leafList; the branch nodes are lost. *)
Definition bh_recover (h : heap leaf) (first : nat) : res (btree V) :=
  match hnx h first with
  | None => Ok (BTree h (fun _ => None) first 0)
  | Some nx =>
    do x <- bh_node h (fun _ => None) first;
    let '(i, h1, B1) := x in
    bh_rec_chain (S (hfresh h)) (BTree h1 B1 i 1) (Some nx)
  end.
End BitH.

(** Histories of inserts and restarts. *)
Fixpoint bh_hist {V} (t : ktype) (N M : nat) (tr : btree V) (os : list (rop V)) : res (btree V) :=
  match os with
  | [] => Ok tr
  | RIns k v :: r => do tr' <- bh_insert t N M tr k v; bh_hist t N M tr' r
  | RRestart :: r => do tr' <- bh_recover N (bh_ops V t M) (bth tr) 0; bh_hist t N M tr' r
  end.
