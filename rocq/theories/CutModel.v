(** Power failures at the tree level, between the updates of two nodes.

    insert and erase of the tree classes are not transactions (only the allocation, copying and deletion of a
    node is, e.g. PBPTree.hpp:1172-1224): insertInBranchNode stores the changes of a level after the call for
    the level below has returned (PBPTree.hpp:1071-1105; UnsortedPBPTree.hpp:1078-1112, FPTree.hpp:645-678,
    HPBPTree.hpp likewise), and insert stores a new root last (PBPTree.hpp:225-233).  A failure between two
    of these calls leaves the levels below in their new state and the levels above in their old one.
    Failures inside the update of one node are the subject of the Crash*Model files; here the update of a
    node, with the splitting of it, is one step. *)
From Verif Require Import Base BTreeModel RecoverModel.
Open Scope nat_scope.

Section Cut.
Variables (L V : Type) (N M : nat) (O : leafops L V).
Notation hp := (heap L).

(** insertInBranchNode, PBPTree.hpp:1063-1108, up to the moment when the leaf and the lowest [c] branch
    levels have been written. *)
Fixpoint insert_cut (c : nat) (h : hp) (d id : nat) (key : Z) (val : V) : res hp :=
  if d <=? c then
    do r <- match d with 0 => insert_leaf O h id key val | S _ => insert_branch N O h d id key val end;
    Ok (fst r)
  else
  match d with
  | 0 => UB
  | S d' =>
    do b <- getb h id;
    do pos <- lo_bpos O (bk b) (bn b) key;
    do ch <- aget (bc b) pos;
    insert_cut c h d' ch key val
  end.

(** What insert (PBPTree.hpp:210-235) has left behind then: rootNode and depth are the old ones.  With
    [c >= tdepth t] every old node has been written and only the new root is missing. *)
Definition t_insert_cut (c : nat) (t : tree L) (key : Z) (val : V) : res (tree L) :=
  do h <- insert_cut c (th t) (tdepth t) (troot t) key val;
  Ok (Tree h (troot t) (tdepth t)).

(** The failure falls between [rootNode.branch = root] and [++depth], PBPTree.hpp:232-233. *)
Definition t_insert_torn (t : tree L) (key : Z) (val : V) : res (tree L) :=
  do t' <- t_insert N O t key val;
  Ok (Tree (th t') (troot t') (tdepth t)).

(** erase, interrupted after the entry has left its leaf and before any underflow is handled,
    PBPTree.hpp:610-613. *)
Definition t_erase_first (t : tree L) (key : Z) : res (tree L) :=
  do i <- find_leaf O (th t) (tdepth t) (troot t) key;
  do r <- erase_leaf O (th t) i key;
  Ok (Tree (snd r) (troot t) (tdepth t)).

(** eraseFromBranchNode, PBPTree.hpp:598-631, up to the moment when the leaves (entries moved or merged, the
    merged leaf unlinked and freed, 437-466) and the lowest [c] branch levels have been written; rootNode
    and depth are stored last (480-481, 626-627). *)
Fixpoint erase_cut (c : nat) (t : tree L) (d id : nat) (key : Z) : res (tree L) :=
  if d <=? c then
    do r <- erase_branch N M O t d id key;
    Ok (Tree (th (fst r)) (troot t) (tdepth t))
  else
  match d with
  | 0 => UB
  | S d' =>
    match d' with
    | 0 =>
      do r <- erase_branch N M O t 1 id key;
      let h1 := th (fst r) in
      Ok (Tree (Heap (hl h1) (hb (th t)) (hnx h1) (hpv h1) (hfresh h1)) (troot t) (tdepth t))
    | S _ =>
      do b <- getb (th t) id;
      do pos <- lo_bpos O (bk b) (bn b) key;
      do ch <- aget (bc b) pos;
      erase_cut c t d' ch key
    end
  end.
Definition t_erase_cut (c : nat) (t : tree L) (key : Z) : res (tree L) :=
  match tdepth t with
  | 0 => do r <- t_erase N M O t key; Ok (fst r)
  | S _ => erase_cut c t (tdepth t) (troot t) key
  end.

(** Histories of inserts, restarts, and inserts interrupted after [c] branch levels followed by a restart;
    the restart runs recover(), FPTree.hpp:373-407, with [leafList] the leaf of the constructor. *)
Inductive fop := FIns (k : Z) (v : V) | FRestart | FCut (c : nat) (k : Z) (v : V).
Definition f_step (hyb : bool) (t : tree L) (o : fop) : res (tree L) :=
  match o with
  | FIns k v => t_insert N O t k v
  | FRestart => recover N O hyb (th t) 0
  | FCut c k v => do t' <- t_insert_cut c t k v; recover N O hyb (th t') 0
  end.
Fixpoint f_run (hyb : bool) (t : tree L) (os : list fop) : res (tree L) :=
  match os with
  | [] => Ok t
  | o :: r => do t1 <- f_step hyb t o; f_run hyb t1 r
  end.
End Cut.
Arguments FRestart {V}.
