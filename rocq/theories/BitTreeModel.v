(** Heap-level model of pbptrees/BitPBPTree.hpp: unsorted branch nodes with a bitmap, whose rightmost
    child is at position N.  Erase is not modelled here.

    The leaf functions of BitPBPTree (lookupPositionInLeafNode 1131-1140, insertInLeafNode 872-910,
    splitLeafNode 919-974, insertInLeafNodeAtPosition 983-994, scan 375-387) are the statements of
    FPTree.hpp without the fingerprint array.  They are represented by the FPTree leaf model with a
    constant fingerprint, for which the fingerprint comparison is always true ([bl_find_fl] in
    CrashProofs); only the range scan differs.

    Simplification: the bitmap of a branch node is a list of N booleans; [flip_bits] is Bitmap::flip
    with its defect for multiples of 64 ([flip_bits_words] in BitProofs relates it to the words). *)
From Verif Require Import Base RankModel BitmapModel BTreeModel ULeafModel FLeafModel.
Open Scope nat_scope.

(** struct BranchNode, 149-161. *)
Record bbranch := BBranch { bbits : list bool; bbk : arr Z; bbc : arr nat }.

Fixpoint first_free (bs : list bool) : nat :=      (* getFreeZero *)
  match bs with [] => 0 | true :: r => S (first_free r) | false :: _ => 0 end.
Definition count_bits (bs : list bool) : nat := length (filter id bs).
(** Bitmap.hpp:186-190: sanitize() clears the whole last word if the size is a multiple of 64. *)
Definition flip_bits (bs : list bool) : list bool :=
  let n := length bs in
  if n mod 64 =? 0 then map negb (firstn (n - 64) bs) ++ repeat false 64 else map negb bs.

Section BitGen.
Variables (V : Type) (t : ktype) (N : nat).
Notation leaf := (fleaf V).
Variable O : leafops leaf V.

(** The functions over nodes are parametrised by the leaf functions: BitHPBPTree.hpp has the same ones
    over another leaf split (BitHModel).  [bth]'s branch map is unused; branch nodes are in [btb]. Node ids come from one allocator. *)
Record btree := BTree { bth : heap leaf; btb : nat -> option bbranch; broot : nat; bdepth : nat }.
Definition bg_new : btree := let '(i, h) := new_leaf (empty_heap leaf) (lo_new O) in BTree h (fun _ => None) i 0.

Definition getbb (B : nat -> option bbranch) (i : nat) : res bbranch := of_opt (B i).

(** lookupPositionInBranchNode, 1117-1120. *)
Definition bb_pos (b : bbranch) (key : Z) : res nat := findMinKeyPosGreaterThan t (bbk b) (bbits b) N key.

(** findLeafNode, 1094-1103. *)
Fixpoint bt_find (B : nat -> option bbranch) (d id : nat) (key : Z) : res nat :=
  match d with
  | 0 => Ok id
  | S d' =>
    do b <- getbb B id;
    do pos <- bb_pos b key;
    do c <- aget (bbc b) pos;
    bt_find B d' c key
  end.

(** lookup, 309-321. *)
Definition bg_lookup (tr : btree) (key : Z) : res (option V) :=
  do i <- bt_find (btb tr) (bdepth tr) (broot tr) key;
  do l <- getl (bth tr) i;
  lo_lookup O l key.

Definition fresh {L} (h : heap L) : nat * heap L := (hfresh h, Heap (hl h) (hb h) (hnx h) (hpv h) (S (hfresh h))).

(** splitBranchNode, 1004-1030. *)
Definition bb_split (b : bbranch) : res (bbranch * bbranch * Z) :=
  do data <- read_all N 0 (bbk b);
  do r <- findSplitKey t data;
  let '(m, sp) := r in
  do key <- aget (bbk b) sp;
  do mb <- of_opt (lset m sp false);
  do sb <- of_opt (lset (flip_bits mb) sp false);
  do last <- aget (bbc b) N;
  do cs <- aset (bbc b) N last;
  do mid <- aget (bbc b) sp;
  do cn <- aset (bbc b) N mid;
  Ok (BBranch mb (bbk b) cn, BBranch sb (bbk b) cs, key).

(** Adding the new child, 1069-1081. *)
Definition bb_add (b : bbranch) (si : split) : res bbranch :=
  let u := first_free (bbits b) in
  do next <- findMinKeyPosGreaterThan t (bbk b) (bbits b) N (skey si);
  do ks <- aset (bbk b) u (skey si);
  do cs <- aset (bbc b) u (sleft si);
  do cs' <- aset cs next (sright si);
  do bs <- of_opt (lset (bbits b) u true);
  Ok (BBranch bs ks cs').

(** insertInBranchNode, 1043-1084. *)
Fixpoint bg_insert_branch (h : heap leaf) (B : nat -> option bbranch) (d id : nat) (key : Z) (val : V)
  : res (heap leaf * (nat -> option bbranch) * option split) :=
  match d with
  | 0 => UB
  | S d' =>
    do b <- getbb B id;
    do pos <- bb_pos b key;
    do c <- aget (bbc b) pos;
    do r <- match d' with
            | 0 => do x <- insert_leaf O h c key val; Ok (fst x, B, snd x)
            | S _ => bg_insert_branch h B d' c key val
            end;
    match r with
    | (h1, B1, None) => Ok (h1, B1, None)
    | (h1, B1, Some si) =>
      do b1 <- getbb B1 id;
      if count_bits (bbits b1) =? N then
        do x <- bb_split b1;
        let '(bl, br, sk) := x in
        let '(s, h2) := fresh h1 in
        if (key <? sk)%Z then
          do bl' <- bb_add bl si;
          Ok (h2, upd (upd B1 s (Some br)) id (Some bl'), Some (Split sk id s))
        else
          do br' <- bb_add br si;
          Ok (h2, upd (upd B1 s (Some br')) id (Some bl), Some (Split sk id s))
      else
        do b2 <- bb_add b1 si;
        Ok (h1, upd B1 id (Some b2), None)
    end
  end.

(** insert, 269-297. *)
Definition bg_insert (tr : btree) (key : Z) (val : V) : res btree :=
  do r <- match bdepth tr with
          | 0 => do x <- insert_leaf O (bth tr) (broot tr) key val; Ok (fst x, btb tr, snd x)
          | S _ => bg_insert_branch (bth tr) (btb tr) (bdepth tr) (broot tr) key val
          end;
  match r with
  | (h1, B1, None) => Ok (BTree h1 B1 (broot tr) (bdepth tr))
  | (h1, B1, Some si) =>
    let '(i, h2) := fresh h1 in
    do ks <- aset (anew N) 0 (skey si);
    do cs <- aset (anew (S N)) 0 (sleft si);
    do cs' <- aset cs N (sright si);
    do bs <- of_opt (lset (repeat false N) 0 true);
    Ok (BTree h2 (upd B1 i (Some (BBranch bs ks cs'))) i (S (bdepth tr)))
  end.

(** scan(func), 364-392: the descent follows children[0]. *)
Fixpoint bt_first (B : nat -> option bbranch) (d id : nat) : res nat :=
  match d with
  | 0 => Ok id
  | S d' => do b <- getbb B id; do c <- aget (bbc b) 0; bt_first B d' c
  end.
Definition bg_scan (tr : btree) : res (list (Z * V)) :=
  do i <- bt_first (btb tr) (bdepth tr) (broot tr);
  scan_chain O (S (hfresh (bth tr))) (bth tr) (Some i).

(** scan(minKey, maxKey, func), 396-423. *)
Definition bg_range (tr : btree) (lo hi : Z) : res (list (Z * V)) :=
  do i <- bt_find (btb tr) (bdepth tr) (broot tr) lo;
  range_chain O (S (hfresh (bth tr))) (bth tr) (Some i) lo hi.

Fixpoint bg_run (tr : btree) (os : list (Z * V)) : res btree :=
  match os with [] => Ok tr | (k, v) :: r => do tr' <- bg_insert tr k v; bg_run tr' r end.
End BitGen.

Section BitTree.
Variables (V : Type) (t : ktype) (N M : nat).
Notation leaf := (fleaf V).

(** Leaf part of scan(minKey, maxKey, func), 404-416: the bit test is the wrong way round. *)
Definition bit_range (l : leaf) (lo hi : Z) : res (list (Z * V) * bool) :=
  for_up 0 M
    (fun i (s : list (Z * V) * bool) =>
       do b <- bm_test M (fb l) i;
       if (b : bool) then Ok s else
       do k <- aget (fk l) i;
       if (k <? lo)%Z then Ok s else
       if (k >? hi)%Z then Ok (fst s, true) else
       do v <- aget (fv l) i; Ok (fst s ++ [(k, v)], snd s))
    ([], false).

Definition bit_ops : leafops leaf V :=
  let O := fp_ops V t (fun _ => 0%Z) (fun _ => 0%Z) M in
  LeafOps (lo_new O) (lo_count O) (lo_lookup O) (lo_insert O) (lo_erase O) (lo_merge O) (lo_balance O) (lo_minkey O)
          (lo_scan O) bit_range (lo_bpos O) false.

Definition bt_new : btree V := bg_new bit_ops.
Definition bt_lookup : btree V -> Z -> res (option V) := bg_lookup t N bit_ops.
Definition bt_insert : btree V -> Z -> V -> res (btree V) := bg_insert t N bit_ops.
Definition bt_scan : btree V -> res (list (Z * V)) := bg_scan bit_ops.
Definition bt_range : btree V -> Z -> Z -> res (list (Z * V)) := bg_range t N bit_ops.
Definition bt_run : btree V -> list (Z * V) -> res (btree V) := bg_run t N bit_ops.
End BitTree.
