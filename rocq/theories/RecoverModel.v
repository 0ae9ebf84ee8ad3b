(** recover() of FPTree and HPBPTree: the volatile branch nodes are rebuilt from the persistent
    leaf list.  A restart loses all branch nodes and keeps the leaves with their links; [leafList]
    is the first leaf of the tree, set by the constructor (FPTree.hpp:287, HPBPTree.hpp:248). *)
From Verif Require Import Base BTreeModel.
Open Scope nat_scope.

Section Recover.
Variables (L V : Type) (N : nat) (O : leafops L V).
Notation hp := (heap L).

(** What survives a restart. *)
Definition crash (h : hp) : hp := Heap (hl h) (fun _ => None) (hnx h) (hpv h) (hfresh h).

(** [keys[numKeys] = key; ++numKeys; children[numKeys] = child], FPTree.hpp:1229-1232, 1251-1253. *)
Definition rec_append (h : hp) (id : nat) (key : Z) (child : nat) : res hp :=
  do b <- getb h id;
  do ks <- aset (bk b) (bn b) key;
  do cs <- aset (bc b) (S (bn b)) child;
  Ok (set_branch h id (Branch (S (bn b)) ks cs)).

(** newBranchNode() with [children[0] = child] and no keys. *)
Definition rec_node (h : hp) (child : nat) : res (nat * hp) :=
  let '(i, h1) := new_branch N h in
  do cs <- aset (bc (empty_branch N)) 0 child;
  Ok (i, set_branch h1 i (Branch 0 (bk (empty_branch N)) cs)).

(** recoveryInsertInBranchNode.  [hyb = false]: FPTree.hpp:1215-1261; [hyb = true]: HPBPTree.hpp:1119-1170,
    where a full inner node is split and the new child appended to the right half. *)
Fixpoint rec_branch (hyb : bool) (h : hp) (d id leaf : nat) : res (hp * option split) :=
  match d with
  | 0 => UB
  | S d' =>
    do b <- getb h id;
    match d' with
    | 0 =>
      do l <- getl h leaf;
      do k <- lo_minkey O l;
      if bn b =? N then
        do r <- rec_node h leaf;
        Ok (snd r, Some (Split k id (fst r)))
      else
        do h1 <- rec_append h id k leaf;
        Ok (h1, None)
    | S _ =>
      do c <- aget (bc b) (bn b);
      do r <- rec_branch hyb h d' c leaf;
      match r with
      | (h1, None) => Ok (h1, None)
      | (h1, Some si) =>
        do b1 <- getb h1 id;
        if bn b1 =? N then
          if hyb then
            do r2 <- split_branch N h1 id (skey si);
            let '(h2, sp) := r2 in
            do bh <- getb h2 (sright sp);
            do ks <- aset (bk bh) (bn bh) (skey si);
            do cs <- aset (bc bh) (bn bh) (sleft si);
            do cs' <- aset cs (S (bn bh)) (sright si);
            Ok (set_branch h2 (sright sp) (Branch (S (bn bh)) ks cs'), Some sp)
          else
            do r2 <- rec_node h1 (sright si);
            Ok (snd r2, Some (Split (skey si) id (fst r2)))
        else
          do h2 <- rec_append h1 id (skey si) (sright si);
          Ok (h2, None)
      end
    end
  end.

(** recoveryInsert, FPTree.hpp:1184-1203, HPBPTree.hpp:1092-1110. *)
Definition rec_insert (hyb : bool) (t : tree L) (leaf : nat) : res (tree L) :=
  do r <- rec_branch hyb (th t) (tdepth t) (troot t) leaf;
  match r with
  | (h1, None) => Ok (Tree h1 (troot t) (tdepth t))
  | (h1, Some si) =>
    let '(i, h2) := new_branch N h1 in
    do ks <- aset (bk (empty_branch N)) 0 (skey si);
    do cs <- aset (bc (empty_branch N)) 0 (sleft si);
    do cs' <- aset cs 1 (sright si);
    Ok (Tree (set_branch h2 i (Branch 1 ks cs')) i (S (tdepth t)))
  end.

(** while (currentLeaf != nullptr) ...; the chain is no longer than the number of nodes allocated. *)
Fixpoint rec_chain (hyb : bool) (fuel : nat) (t : tree L) (cur : option nat) : res (tree L) :=
  match cur with
  | None => Ok t
  | Some i =>
    match fuel with
    | 0 => NoFuel
    | S f => do t1 <- rec_insert hyb t i; rec_chain hyb f t1 (hnx (th t1) i)
    end
  end.

(** recover, FPTree.hpp:373-407; HPBPTree.hpp:339-359, whose loop starts at the first leaf again. *)
Definition recover (hyb : bool) (h0 : hp) (first : nat) : res (tree L) :=
  let h := crash h0 in
  do _ <- getl h first;
  match hnx h first with
  | None => Ok (Tree h first 0)
  | Some n =>
    do r <- rec_node h first;
    rec_chain hyb (S (hfresh h)) (Tree (snd r) (fst r) 1) (if hyb then Some first else Some n)
  end.

End Recover.

(** Histories of inserts and restarts; [leafList] is the leaf allocated by the constructor. *)
Section Restarts.
Variables (L V : Type) (N : nat) (O : leafops L V).
Inductive rop := RIns (k : Z) (v : V) | RRestart.

Definition r_step (hyb : bool) (t : tree L) (o : rop) : res (tree L) :=
  match o with
  | RIns k v => t_insert N O t k v
  | RRestart => recover N O hyb (th t) 0
  end.
Fixpoint r_run (hyb : bool) (t : tree L) (os : list rop) : res (tree L) :=
  match os with
  | [] => Ok t
  | o :: r => do t1 <- r_step hyb t o; r_run hyb t1 r
  end.
End Restarts.
Arguments RRestart {V}.
