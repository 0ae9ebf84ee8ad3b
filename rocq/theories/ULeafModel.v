(** Unsorted leaf nodes: LeafNode of pbptrees/UnsortedPBPTree.hpp.  The record is the one of the
    sorted leaves (UnsortedPBPTree.hpp LeafNode: numKeys, keys, values).  [t] describes KeyType,
    an integral type (findSplitKey converts keys to std::size_t).

    The range scan of this class (336-358) assigns to [const auto leaf] and does not compile when
    instantiated; it is not modelled. *)
From Verif Require Import Base SearchModel RankModel BTreeModel SLeafModel.
Open Scope nat_scope.

Section ULeaf.
Variables (V : Type) (t : ktype) (M : nat).
Notation leaf := (sleaf V).

(** lookupPositionInLeafNode, 1169-1176. *)
Fixpoint ul_find (rounds : nat) (keys : arr Z) (pos : nat) (key : Z) : res nat :=
  match rounds with
  | 0 => Ok pos
  | S n => do k <- aget keys pos; if (k =? key)%Z then Ok pos else ul_find n keys (S pos) key
  end.
Definition ul_pos (keys : arr Z) (num : nat) (key : Z) : res nat := ul_find num keys 0 key.

(** The leaf part of lookup, 253-266, is the text of PBPTree.hpp:248-255: [sl_lookup]. *)

(** insertInLeafNodeAtLastPosition, 997-1007. *)
Definition ul_append (l : leaf) (key : Z) (val : V) : res leaf :=
  do ks <- aset (sk l) (sn l) key;
  do vs <- aset (sv l) (sn l) val;
  Ok (SLeaf (S (sn l)) ks vs).

(** Reading the whole key array, the argument of findSplitKey<KeyType, M>. *)
Fixpoint read_all (n i : nat) (a : arr Z) : res (list Z) :=
  match n with
  | 0 => Ok []
  | S n' => do x <- aget a i; do r <- read_all n' (S i) a; Ok (x :: r)
  end.

(** Loop of splitLeafNode, 961-971; both leaves carry their running counters. *)
Definition ul_split_step (splitKey : Z) (i : nat) (ns : leaf * leaf) : res (leaf * leaf) :=
  let '(node, sib) := ns in
  do k <- aget (sk node) i;
  do v <- aget (sv node) i;
  if (k >=? splitKey)%Z then do sib' <- ul_append sib k v; Ok (node, sib')
  else do node' <- ul_append node k v; Ok (node', sib).

(** splitLeafNode, array part, 944-973. *)
Definition ul_split (l : leaf) : res (leaf * leaf * Z) :=
  do data <- read_all M 0 (sk l);
  do r <- findSplitKey t data;
  do splitKey <- aget (sk l) (snd r);
  do ns <- for_up 0 M (ul_split_step splitKey) (SLeaf 0 (sk l) (sv l), sl_new V M);
  Ok (fst ns, snd ns, splitKey).

(** insertInLeafNode, 897-935. *)
Definition ul_insert (l : leaf) (key : Z) (val : V) : res (lins leaf) :=
  do pos <- ul_pos (sk l) (sn l) key;
  do dup <- (if pos <? sn l then do k <- aget (sk l) pos; Ok (k =? key)%Z else Ok false);
  if (dup : bool) then
    do vs <- aset (sv l) pos val;
    Ok (LDone (SLeaf (sn l) (sk l) vs))
  else if sn l =? M then
    do lr <- ul_split l;
    let '(node, sib, splitKey) := lr in
    do lr' <- (if (key >? splitKey)%Z then do b <- ul_append sib key val; Ok (node, b)
               else
                 do p <- findMaxKeyPos (sk node) (sn node);
                 do mx <- aget (sk node) p;
                 if (key >? mx)%Z then do b <- ul_append sib key val; Ok (node, b)
                 else do a <- ul_append node key val; Ok (a, sib));
    let '(node', sib') := lr' in
    do p <- findMinKeyPos (sk sib') (sn sib');
    do k <- aget (sk sib') p;
    Ok (LSplit node' sib' k)
  else
    do l' <- ul_append l key val;
    Ok (LDone l').

(** eraseFromLeafNode and eraseFromLeafNodeAtPosition, 371-406: no check [pos < numKeys];
    with numKeys = 0 the decrement wraps and the element access is out of bounds: [UB]. *)
Definition ul_erase (l : leaf) (key : Z) : res (bool * leaf) :=
  do pos <- ul_pos (sk l) (sn l) key;
  do k <- aget (sk l) pos;
  if (k =? key)%Z then
    if sn l =? 0 then UB else
    let n := sn l - 1 in
    if pos =? n then Ok (true, SLeaf n (sk l) (sv l)) else
    do k' <- aget (sk l) n;
    do v' <- aget (sv l) n;
    do ks <- aset (sk l) pos k';
    do vs <- aset (sv l) pos v';
    Ok (true, SLeaf n ks vs)
  else Ok (false, l).

(** One round of the loops of balanceLeafNodes, 534-546 and 550-562: the donor's extreme entry
    moves to the receiver, the donor's last entry fills the hole. *)
Definition ul_move (find : arr Z -> nat -> res nat) (dr : leaf * leaf) : res (leaf * leaf) :=
  let '(d, r) := dr in
  do p <- find (sk d) (sn d);
  do k <- aget (sk d) p;
  do v <- aget (sv d) p;
  do r' <- ul_append r k v;
  if sn d =? 0 then UB else
  let n := sn d - 1 in
  do k' <- aget (sk d) n;
  do v' <- aget (sv d) n;
  do ks <- aset (sk d) p k';
  do vs <- aset (sv d) p v';
  Ok (SLeaf n ks vs, r').

(** balanceLeafNodes, 516-565. *)
Definition ul_balance (donor recv : leaf) : res (leaf * leaf) :=
  let dn := sn donor in let rn := sn recv in
  let balancedNum := (dn + rn) / 2 in
  if dn <? balancedNum then UB else
  let toMove := dn - balancedNum in
  if toMove =? 0 then Ok (donor, recv) else
  do d0 <- aget (sk donor) 0;
  do r0 <- aget (sk recv) 0;
  let find := if (d0 <? r0)%Z then findMaxKeyPos else findMinKeyPos in
  for_up 0 toMove (fun _ => ul_move find) (donor, recv).

(** Separator after balancing, 434, 438. *)
Definition ul_minkey (l : leaf) : res Z := do p <- findMinKeyPos (sk l) (sn l); aget (sk l) p.

End ULeaf.

(** mergeLeafNodes, 477-506, and the inner loop of scan, 312-320, are the text of PBPTree.hpp. *)
Definition un_ops (V : Type) (t : ktype) (M : nat) : leafops (sleaf V) V :=
  LeafOps (sl_new V M) (@sn V) (sl_lookup ul_pos) (ul_insert t M)
          (@ul_erase V) (@sl_merge V) (@ul_balance V) (@ul_minkey V)
          (@sl_scan V) (fun _ _ _ => UB) (lsearch_pos true) true.
