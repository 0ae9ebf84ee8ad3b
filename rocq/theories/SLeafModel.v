(** Sorted leaf nodes: LeafNode of pbptrees/PBPTree.hpp, BPTree.hpp and HPBPTree.hpp. *)
From Verif Require Import Base SearchModel BTreeModel.
Open Scope nat_scope.

Section SLeaf.
Variables (V : Type) (M : nat).
(** lookupPositionInLeafNode: binary (PBPTree.hpp:1160-1165) or linear (BPTree.hpp:1008-1017). *)
Variable lpos : arr Z -> nat -> Z -> res nat.

(** struct LeafNode, PBPTree.hpp:1231-1244 (BPTree.hpp:1064-1079); links are in the heap model. *)
Record sleaf := SLeaf { sn : nat; sk : arr Z; sv : arr V }.

Definition sl_new : sleaf := SLeaf 0 (anew M) (anew M).

(** Leaf part of lookup, PBPTree.hpp:248-255 (BPTree 227-233). *)
Definition sl_lookup (l : sleaf) (key : Z) : res (option V) :=
  do pos <- lpos (sk l) (sn l) key;
  if pos <? sn l then
    do k <- aget (sk l) pos;
    if (k =? key)%Z then do v <- aget (sv l) pos; Ok (Some v) else Ok None
  else Ok None.

(** insertInLeafNodeAtPosition, PBPTree.hpp:988-1010 (BPTree 847-861). *)
Definition sl_insert_at (l : sleaf) (pos : nat) (key : Z) (val : V) : res sleaf :=
  do kv <- for_down (sn l) (sn l - pos)
             (fun i kv => do ks <- (do x <- aget (fst kv) (i - 1); aset (fst kv) i x);
                          do vs <- (do x <- aget (snd kv) (i - 1); aset (snd kv) i x);
                          Ok (ks, vs))
             (sk l, sv l);
  do ks <- aset (fst kv) pos key;
  do vs <- aset (snd kv) pos val;
  Ok (SLeaf (S (sn l)) ks vs).

(** splitLeafNode, array part, PBPTree.hpp:939-958 (BPTree 799-806). *)
Definition sl_split (l : sleaf) : res (sleaf * sleaf) :=
  let middle := (M + 1) / 2 in
  if sn l <? middle then UB else
  let snum := sn l - middle in
  do kv <- for_up 0 snum
             (fun i kv => do ks <- (do x <- aget (sk l) (i + middle); aset (fst kv) i x);
                          do vs <- (do x <- aget (sv l) (i + middle); aset (snd kv) i x);
                          Ok (ks, vs))
             (anew M, anew M);
  Ok (SLeaf middle (sk l) (sv l), SLeaf snum (fst kv) (snd kv)).

(** insertInLeafNode, PBPTree.hpp:899-930 (BPTree 787-833). *)
Definition sl_insert (l : sleaf) (key : Z) (val : V) : res (lins sleaf) :=
  do pos <- lpos (sk l) (sn l) key;
  do dup <- (if pos <? sn l then do k <- aget (sk l) pos; Ok (k =? key)%Z else Ok false);
  if (dup : bool) then
    do vs <- aset (sv l) pos val;
    Ok (LDone (SLeaf (sn l) (sk l) vs))
  else if sn l =? M then
    do lr <- sl_split l;
    let middle := (M + 1) / 2 in
    do lr' <- (if pos <? middle then
                 do a <- sl_insert_at (fst lr) pos key val; Ok (a, snd lr)
               else
                 do b <- sl_insert_at (snd lr) (pos - middle) key val; Ok (fst lr, b));
    do k <- aget (sk (snd lr')) 0;
    Ok (LSplit (fst lr') (snd lr') k)
  else
    do l' <- sl_insert_at l pos key val;
    Ok (LDone l').

(** eraseFromLeafNode and eraseFromLeafNodeAtPosition, PBPTree.hpp:385-419 (BPTree 336-347).
    There is no check [pos < numKeys]; with numKeys = 0 the bound [numKeys - 1] wraps and the
    loop runs off the array: [UB]. *)
Definition sl_erase (l : sleaf) (key : Z) : res (bool * sleaf) :=
  do pos <- lpos (sk l) (sn l) key;
  do k <- aget (sk l) pos;
  if (k =? key)%Z then
    if sn l =? 0 then UB else
    do kv <- for_up pos (sn l - 1 - pos)
               (fun i kv => do ks <- (do x <- aget (fst kv) (i + 1); aset (fst kv) i x);
                            do vs <- (do x <- aget (snd kv) (i + 1); aset (snd kv) i x);
                            Ok (ks, vs))
               (sk l, sv l);
    Ok (true, SLeaf (sn l - 1) (fst kv) (snd kv))
  else Ok (false, l).

(** mergeLeafNodes, array part, PBPTree.hpp:500-509 (BPTree 423-428). *)
Definition sl_merge (l1 l2 : sleaf) : res sleaf :=
  do kv <- for_up 0 (sn l2)
             (fun i kv => do ks <- (do x <- aget (sk l2) i; aset (fst kv) (sn l1 + i) x);
                          do vs <- (do x <- aget (sv l2) i; aset (snd kv) (sn l1 + i) x);
                          Ok (ks, vs))
             (sk l1, sv l1);
  Ok (SLeaf (sn l1 + sn l2) (fst kv) (snd kv)).

(** balanceLeafNodes, PBPTree.hpp:532-584 (BPTree 444-481). *)
Definition sl_balance (donor recv : sleaf) : res (sleaf * sleaf) :=
  let dn := sn donor in let rn := sn recv in
  let balancedNum := (dn + rn) / 2 in
  if dn <? balancedNum then UB else
  let toMove := dn - balancedNum in
  if toMove =? 0 then Ok (donor, recv) else
  do d0 <- aget (sk donor) 0;
  do r0 <- aget (sk recv) 0;
  if (d0 <? r0)%Z then
    do kv <- for_down rn rn
               (fun i kv => do ks <- (do x <- aget (fst kv) (i - 1); aset (fst kv) (i + toMove - 1) x);
                            do vs <- (do x <- aget (snd kv) (i - 1); aset (snd kv) (i + toMove - 1) x);
                            Ok (ks, vs))
               (sk recv, sv recv);
    do kv' <- for_up 0 toMove
               (fun j kv => do ks <- (do x <- aget (sk donor) (balancedNum + j); aset (fst kv) j x);
                            do vs <- (do x <- aget (sv donor) (balancedNum + j); aset (snd kv) j x);
                            Ok (ks, vs))
               kv;
    Ok (SLeaf (dn - toMove) (sk donor) (sv donor), SLeaf (rn + toMove) (fst kv') (snd kv'))
  else
    do kv <- for_up 0 toMove
               (fun i kv => do ks <- (do x <- aget (sk donor) i; aset (fst kv) (rn + i) x);
                            do vs <- (do x <- aget (sv donor) i; aset (snd kv) (rn + i) x);
                            Ok (ks, vs))
               (sk recv, sv recv);
    do dkv <- for_up 0 balancedNum
               (fun i kv => do ks <- (do x <- aget (fst kv) (toMove + i); aset (fst kv) i x);
                            do vs <- (do x <- aget (snd kv) (toMove + i); aset (snd kv) i x);
                            Ok (ks, vs))
               (sk donor, sv donor);
    Ok (SLeaf (dn - toMove) (fst dkv) (snd dkv), SLeaf (rn + toMove) (fst kv) (snd kv)).

(** Separator after balancing: [keys[0]], PBPTree.hpp:443, 447. *)
Definition sl_minkey (l : sleaf) : res Z := aget (sk l) 0.

(** Inner loop of scan, PBPTree.hpp:332-336 (BPTree 286-290). *)
Fixpoint sl_scan_from (n i : nat) (l : sleaf) : res (list (Z * V)) :=
  match n with
  | 0 => Ok []
  | S n' => do k <- aget (sk l) i; do v <- aget (sv l) i;
            do r <- sl_scan_from n' (S i) l; Ok ((k, v) :: r)
  end.
Definition sl_scan (l : sleaf) : res (list (Z * V)) := sl_scan_from (sn l) 0 l.

(** Inner loop of the range scan. [maxFirst = false]: PBPTree.hpp:359-365 tests the lower bound
    first; [maxFirst = true]: BPTree.hpp:309-316 tests the upper bound first. *)
Fixpoint sl_range_from (maxFirst : bool) (n i : nat) (l : sleaf) (lo hi : Z)
  : res (list (Z * V) * bool) :=
  match n with
  | 0 => Ok ([], false)
  | S n' =>
    do k <- aget (sk l) i;
    let too_small := (k <? lo)%Z in let too_big := (k >? hi)%Z in
    if (if maxFirst then too_big else negb too_small && too_big) then Ok ([], true)
    else if too_small then sl_range_from maxFirst n' (S i) l lo hi
    else do v <- aget (sv l) i;
         do r <- sl_range_from maxFirst n' (S i) l lo hi;
         Ok ((k, v) :: fst r, snd r)
  end.
Definition sl_range (maxFirst : bool) (l : sleaf) (lo hi : Z) := sl_range_from maxFirst (sn l) 0 l lo hi.

(** Inner loop of HPBPTree's range scan, HPBPTree.hpp:414-425: a key beyond the upper bound sets
    [higherThanMax] and the loop goes on. *)
Fixpoint sl_range_flag_from (n i : nat) (l : sleaf) (lo hi : Z) : res (list (Z * V) * bool) :=
  match n with
  | 0 => Ok ([], false)
  | S n' =>
    do k <- aget (sk l) i;
    if (k <? lo)%Z then sl_range_flag_from n' (S i) l lo hi
    else if (k >? hi)%Z then
      do r <- sl_range_flag_from n' (S i) l lo hi; Ok (fst r, true)
    else do v <- aget (sv l) i;
         do r <- sl_range_flag_from n' (S i) l lo hi;
         Ok ((k, v) :: fst r, snd r)
  end.
Definition sl_range_flag (l : sleaf) (lo hi : Z) := sl_range_flag_from (sn l) 0 l lo hi.

End SLeaf.
Arguments sleaf V : clear implicits.

(** The three classes with sorted leaves.  HPBPTree.hpp uses the leaf code of PBPTree.hpp
    (lines 446-556, 671-727, 876-919, 982-1006) except for the range scan; its branch nodes are
    volatile, which the model does not distinguish. *)
Definition pbp_ops (V : Type) (M : nat) : leafops (sleaf V) V :=
  LeafOps (sl_new V M) (@sn V) (sl_lookup (bsearch_pos false)) (sl_insert M (bsearch_pos false))
          (sl_erase (bsearch_pos false)) (@sl_merge V) (@sl_balance V) (@sl_minkey V)
          (@sl_scan V) (@sl_range V false) (bsearch_pos true) false.

Definition bp_ops (V : Type) (M : nat) : leafops (sleaf V) V :=
  LeafOps (sl_new V M) (@sn V) (sl_lookup (lsearch_pos false)) (sl_insert M (lsearch_pos false))
          (sl_erase (lsearch_pos false)) (@sl_merge V) (@sl_balance V) (@sl_minkey V)
          (@sl_scan V) (@sl_range V true) (lsearch_pos true) false.

Definition hpbp_ops (V : Type) (M : nat) : leafops (sleaf V) V :=
  LeafOps (sl_new V M) (@sn V) (sl_lookup (bsearch_pos false)) (sl_insert M (bsearch_pos false))
          (sl_erase (bsearch_pos false)) (@sl_merge V) (@sl_balance V) (@sl_minkey V)
          (@sl_scan V) (@sl_range_flag V) (bsearch_pos true) false.
