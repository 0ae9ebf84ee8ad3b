(** Model of the benchmarks of single leaves: bench/trees/tree_split.cpp, tree_merge.cpp, tree_balance.cpp, tree_erase.cpp
    and tree_insert.cpp.

    [M] is LEAFKEYS, [f j] is MyTuple(j, j * 100, j * 1.0).  The leaves are those of the PBPTree, the TreeType of
    bench/trees/common.hpp:172.  insert on a tree that consists of a leaf is insertInLeafNode (PBPTree.hpp:214-217); a split
    while preparing would leave a tree without a root leaf and is [UB] here.  Timing, counters and output are left out; the
    copies in the arrays of leaves are equal to the prepared leaf. *)
From Verif Require Import Base SearchModel BTreeModel SLeafModel.
Open Scope nat_scope.

Section BenchL.
Variables (V : Type) (M : nat) (f : nat -> V).

(** The loops of the prepare functions: the keys [js] one after the other. *)
Fixpoint bl_fill (l : sleaf V) (js : list nat) : res (sleaf V) :=
  match js with
  | [] => Ok l
  | j :: js =>
    do r <- sl_insert M (bsearch_pos false) l (Z.of_nat j) (f j);
    match r with LDone l' => bl_fill l' js | LSplit _ _ _ => UB end
  end.
(** for (j = a; j < b; ++j). *)
Definition bl_loop (a b : nat) : list nat := seq a (b - a).
Definition bl_prepare (a b : nat) : res (sleaf V) := bl_fill (sl_new V M) (bl_loop a b).

(** tree_merge.cpp:215-227: the leaf of the tree (source) and leaf2 (target); 110: mergeLeafNodes(targetNode, sourceNode). *)
Definition bm_prepare : res (sleaf V * sleaf V) :=
  do s <- bl_prepare 1 ((M + 3) / 2);
  do t <- bl_prepare ((M + 3) / 2) M;
  Ok (s, t).
Definition bm_round (st : sleaf V * sleaf V) : res (sleaf V) := sl_merge (snd st) (fst st).

(** tree_balance.cpp:229-253: the leaf of the tree (donor) and leaf2 (receiver), for both values of MOVE_TO_RIGHT; 108:
    balanceLeafNodes(donorNode, receiverNode). *)
Definition bb_prepare (right : bool) : res (sleaf V * sleaf V) :=
  if right then
    do d <- bl_prepare 1 (M + 1);
    do r <- bl_prepare (M + 1) ((3 * M + 1) / 2);
    Ok (d, r)
  else
    do r <- bl_prepare 1 ((M + 1) / 2);
    do d <- bl_prepare ((M + 1) / 2) ((3 * M + 1) / 2);
    Ok (d, r).
Definition bb_round (dr : sleaf V * sleaf V) : res (sleaf V * sleaf V) := sl_balance (fst dr) (snd dr).
(** Balanced and SortedMoves, tree_balance.cpp:111-112. *)
Definition bb_balanced : nat := ((M - 1) / 2 + M) / 2.
Definition bb_moves : nat := (M - 1) / 2 + M - bb_balanced.

(** tree_erase.cpp:183-189, 88 and 102: the position is that of the key [k] (KEYPOS) in a full leaf. *)
Definition be_prepare : res (sleaf V) := bl_prepare 1 (M + 1).
Definition be_round (k : Z) (l : sleaf V) : res (bool * sleaf V) := sl_erase (bsearch_pos false) l k.

(** tree_insert.cpp:186-206, for KEYPOS = [k] and ELEMENTS = [E]; 93 and 107: insertInLeafNodeAtPosition at the position of
    the key.  Any other KEYPOS prepares nothing. *)
Definition bi_keys (E k : nat) : list nat :=
  if k =? 1 then bl_loop 2 (M + 1)
  else if k =? E then bl_loop 1 (M - 1 + 1)
  else if k =? (E + 1) / 2 then bl_loop 1 (k - 1 + 1) ++ bl_loop (k + 1) (M + 1)
  else [].
Definition bi_prepare (E k : nat) : res (sleaf V) := bl_fill (sl_new V M) (bi_keys E k).
Definition bi_pos (k : nat) (l : sleaf V) : res nat := bsearch_pos false (sk l) (sn l) (Z.of_nat k).
Definition bi_round (k : nat) (l : sleaf V) : res (sleaf V) :=
  do pos <- bi_pos k l; sl_insert_at l pos (Z.of_nat k) (f k).

(** ** tree_split.cpp, with the leaves in memory: contents and nextLeaf. *)
Record lmem := LMem { lcell : nat -> option (sleaf V * option nat); lfresh : nat }.
Definition lput (m : nat -> option (sleaf V * option nat)) i x := fun j => if j =? i then x else m j.

(** prepare, 198-223: leaf 0 is the leaf of the tree, leaves 1 to [n] are the array. *)
Definition bs_prepare (n : nat) : res lmem :=
  do l <- bl_prepare 1 (M + 1);
  Ok (LMem (fun i => if i <=? n then Some (l, None) else None) (S n)).

(** One round, 103 (splitLeafNode, PBPTree.hpp:939-971) and 144-150, 166-172 (the reset): splitLeafNode,
    then *leafNode = *leaf (all members, also nextLeaf), then deleteLeafNode(leafRef.nextLeaf), which does nothing for null
    (PBPTree.hpp:1190-1198). *)
Definition bs_round (m : lmem) (node : nat) : res lmem :=
  do c <- of_opt (lcell m node);
  do lr <- sl_split M (fst c);
  do k <- aget (sk (snd lr)) 0;
  let sib := lfresh m in
  let m1 := lput (lput (lcell m) sib (Some (snd lr, snd c))) node (Some (fst lr, Some sib)) in
  do l0 <- of_opt (m1 0);
  let m2 := lput m1 node (Some l0) in
  match snd l0 with
  | None => Ok (LMem m2 (S sib))
  | Some j => Ok (LMem (lput (lput m2 j None) node (Some (fst l0, None))) (S sib))
  end.
Fixpoint bs_rounds (m : lmem) (nodes : list nat) : res lmem :=
  match nodes with
  | [] => Ok m
  | i :: is => do m' <- bs_round m i; bs_rounds m' is
  end.
End BenchL.
