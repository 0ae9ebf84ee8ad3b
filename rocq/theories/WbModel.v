(** Model of pbptrees/wBPTree.hpp: leaf and branch nodes hold their keys unsorted, a bitmap marks the
    used positions and a slot array lists them in key order ([slot[0]] is the number of keys, the
    slots proper start at index 1).

    Simplifications:
    - slot entries are natural numbers; the code stores them in uint8_t, so the model is meant for
      M, N <= 255 (larger values do not fit the slot array of the code);
    - nodes, links and heaps as in BTreeModel (ids, partial maps); branch nodes are in a map of their
      own; the byte counters of PersistEmulation and transactions are left out;
    - copying a slot that was never written copies its indeterminate value (the slots are unsigned
      chars, for which C++ allows this); using such a slot as an index is [UB];
    - scan(minKey, maxKey, func), 453-479, names a member that does not exist and is not modelled. *)
From Verif Require Import Base MapSpec BitmapModel SearchModel BTreeModel BitTreeModel.
Open Scope nat_scope.

(** [a[i] = b[j]] for unsigned chars: out of range is UB, an unwritten cell is copied as such. *)
Definition cget {A} (a : arr A) (j : nat) : res (option A) := of_opt (nth_error a j).
Definition cset {A} (a : arr A) (i : nat) (x : option A) : res (arr A) := of_opt (lset a i x).

(** struct LeafNode, 119-136. *)
Record wleaf (V : Type) := WLeaf { ws : arr nat; wb : list N; wk : arr Z; wv : arr V }.
Arguments WLeaf {V} ws wb wk wv.

Section WLeaf.
Variables (V : Type) (M : nat).
Notation leaf := (wleaf V).

(** LeafNode(), 123. *)
Definition w_new : leaf := WLeaf (Some 0 :: anew M) (bm_new M) (anew M) (anew M).

(** slot[0] *)
Definition w_count (l : leaf) : res nat := aget (ws l) 0.

(** lookupPositionInLeafNode, 779-784. *)
Definition w_pos (l : leaf) (key : Z) : res nat := sbsearch_pos false (wk l) (ws l) key.

(** Leaf part of lookup, 364-372. *)
Definition w_lookup (l : leaf) (key : Z) : res (option V) :=
  do pos <- w_pos l key;
  do n <- aget (ws l) 0;
  if pos <=? n then
    do s <- aget (ws l) pos;
    do k <- aget (wk l) s;
    if (k =? key)%Z then do v <- aget (wv l) s; Ok (Some v) else Ok None
  else Ok None.

(** insertInLeafNodeAtPosition, 614-635. *)
Definition w_insert_at (l : leaf) (pos : nat) (key : Z) (val : V) : res leaf :=
  do u <- getFreeZero (wb l);
  do ks <- aset (wk l) u key;
  do vs <- aset (wv l) u val;
  do n <- aget (ws l) 0;
  do s1 <- for_down n (n + 1 - pos) (fun j s => do x <- cget s j; cset s (j + 1) x) (ws l);
  do s2 <- aset s1 pos u;
  do b <- bm_set M (wb l) u true;
  do c <- aget s2 0;
  do s3 <- aset s2 0 (S c);
  Ok (WLeaf s3 b ks vs).

(** splitLeafNode, 536-559, 598-601; the linking is in [insert_leaf].  Line 601 reads the key in the
    sibling's first slot. *)
Definition w_split (l : leaf) : res (leaf * leaf) :=
  let middle := (M + 1) / 2 in
  do n <- aget (ws l) 0;
  if n <? middle then UB else
  do ss0 <- aset (ws w_new) 0 (n - middle);
  do ns <- aset (ws l) 0 middle;
  do sib <- for_up 1 (n - middle)
              (fun i (s : leaf) =>
                 do s1 <- aset (ws s) i (i - 1);
                 do b <- bm_set M (wb s) (i - 1) true;
                 do p <- aget ns (i + middle);
                 do k <- aget (wk l) p;
                 do ks <- aset (wk s) (i - 1) k;
                 do v <- aget (wv l) p;
                 do vs <- aset (wv s) (i - 1) v;
                 Ok (WLeaf s1 b ks vs))
              (WLeaf ss0 (wb w_new) (wk w_new) (wv w_new));
  do b <- for_up middle (M - middle) (fun i b => do p <- aget ns (i + 1); bm_reset M b p) (wb l);
  do p <- aget (ws sib) 1;
  do _ <- aget (wk sib) p;
  Ok (WLeaf ns b (wk l) (wv l), sib).

(** insertInLeafNode, 493-527. *)
Definition w_insert (l : leaf) (key : Z) (val : V) : res (lins leaf) :=
  do pos <- w_pos l key;
  do n <- aget (ws l) 0;
  do hit <- (if pos <=? n then
               do s <- aget (ws l) pos;
               do k <- aget (wk l) s;
               Ok (if (k =? key)%Z then Some s else None)
             else Ok None);
  match hit with
  | Some s => do vs <- aset (wv l) s val; Ok (LDone (WLeaf (ws l) (wb l) (wk l) vs))
  | None =>
    if n =? M then
      do lr <- w_split l;
      do lr' <- (if pos <? (M + 1) / 2 then do l' <- w_insert_at (fst lr) pos key val; Ok (l', snd lr)
                 else do p <- w_pos (snd lr) key; do r' <- w_insert_at (snd lr) p key val; Ok (fst lr, r'));
      do p <- aget (ws (snd lr')) 1;
      do sk <- aget (wk (snd lr')) p;
      Ok (LSplit (fst lr') (snd lr') sk)
    else
      do l' <- w_insert_at l pos key val; Ok (LDone l')
  end.

(** eraseFromLeafNodeAtPosition, 831-848. *)
Definition w_erase_at (l : leaf) (pos : nat) : res leaf :=
  do p <- aget (ws l) pos;
  do b <- bm_reset M (wb l) p;
  do n <- aget (ws l) 0;
  do s1 <- for_up pos (n + 1 - pos) (fun i s => do x <- cget s (i + 1); cset s i x) (ws l);
  do s2 <- aset s1 0 (n - 1);
  Ok (WLeaf s2 b (wk l) (wv l)).

(** eraseFromLeafNode, 811-821. *)
Definition w_erase (l : leaf) (key : Z) : res (bool * leaf) :=
  do pos <- w_pos l key;
  do s <- aget (ws l) pos;
  do k <- aget (wk l) s;
  if (k =? key)%Z then do l' <- w_erase_at l pos; Ok (true, l') else Ok (false, l).

(** One entry moved into a free position of [r], its slot entry written at [d]: 1062-1069, 1079-1086,
    1219-1225.  The bits of the giving node are cleared separately. *)
Definition w_take (r : leaf) (d : nat) (k : Z) (v : V) : res leaf :=
  do u <- getFreeZero (wb r);
  do ks <- aset (wk r) u k;
  do vs <- aset (wv r) u v;
  do s <- aset (ws r) d u;
  do b <- bm_set M (wb r) u true;
  Ok (WLeaf s b ks vs).
Definition w_entry (l : leaf) (i : nat) : res (nat * Z * V) :=
  do p <- aget (ws l) i;
  do k <- aget (wk l) p;
  do v <- aget (wv l) p;
  Ok (p, k, v).

(** mergeLeafNodes, 1199-1235, array part. *)
Definition w_merge (l1 l2 : leaf) : res leaf :=
  do n1 <- aget (ws l1) 0;
  do n2 <- aget (ws l2) 0;
  do r <- for_up 1 n2
            (fun i s => do e <- w_entry l2 i; w_take s (n1 + i) (snd (fst e)) (snd e)) l1;
  do s <- aset (ws r) 0 (n1 + n2);
  Ok (WLeaf s (wb r) (wk r) (wv r)).

(** balanceLeafNodes, 1040-1101: result (donor, receiver). *)
Definition w_balance (d r : leaf) : res (leaf * leaf) :=
  do nd <- aget (ws d) 0;
  do nr <- aget (ws r) 0;
  let bal := (nd + nr) / 2 in
  if nd <? bal then UB else
  let mv := nd - bal in
  if mv =? 0 then Ok (d, r) else
  do de <- w_entry d 1;
  do p <- aget (ws r) 1;
  do rk <- aget (wk r) p;
  do x <- (if (snd (fst de) <? rk)%Z then
             do s0 <- for_down nr nr (fun i s => do x <- cget s i; cset s (i + mv) x) (ws r);
             do y <- for_up 0 mv
                       (fun j (st : leaf * list N) =>
                          do e <- w_entry d (bal + 1 + j);
                          do r' <- w_take (fst st) (1 + j) (snd (fst e)) (snd e);
                          do b <- bm_reset M (snd st) (fst (fst e));
                          Ok (r', b))
                       (WLeaf s0 (wb r) (wk r) (wv r), wb d);
             Ok (ws d, y)
           else
             do y <- for_up 1 mv
                       (fun i (st : leaf * list N) =>
                          do e <- w_entry d i;
                          do r' <- w_take (fst st) (nr + i) (snd (fst e)) (snd e);
                          do b <- bm_reset M (snd st) (fst (fst e));
                          Ok (r', b))
                       (r, wb d);
             do ds <- for_up 1 bal (fun i s => do x <- cget s (mv + i); cset s i x) (ws d);
             Ok (ds, y));
  let '(ds, (r', db)) := x in
  do ds' <- aset ds 0 (nd - mv);
  do rs' <- aset (ws r') 0 (nr + mv);
  Ok (WLeaf ds' db (wk d) (wv d), WLeaf rs' (wb r') (wk r') (wv r')).

(** Leaf part of scan, 431-436. *)
Definition w_scan (l : leaf) : res (list (Z * V)) :=
  do n <- aget (ws l) 0;
  for_up 1 n (fun i s => do e <- w_entry l i; Ok (s ++ [(snd (fst e), snd e)])) [].

(** Only the fields used by [insert_leaf] and [scan_chain] are meaningful. *)
Definition w_ops : leafops leaf V :=
  LeafOps w_new (fun _ => 0) w_lookup w_insert w_erase w_merge w_balance (fun _ => UB) w_scan
          (fun _ _ _ => UB) (fun _ _ _ => UB) false.
End WLeaf.

(** struct BranchNode, 142-157. *)
Record wbranch := WBranch { bs : arr nat; bb : list N; wbk : arr Z; wbc : arr nat }.

Section WTree.
Variables (V : Type) (N M : nat).
Notation leaf := (wleaf V).
Notation O := (w_ops V M).

Definition wb_new : wbranch := WBranch (Some 0 :: anew N) (bm_new N) (anew N) (anew (S N)).

Record wtree := WTree { wth : heap leaf; wtb : nat -> option wbranch; wroot : nat; wdepth : nat }.
(** Constructor, 299-305. *)
Definition wt_new : wtree := let '(i, h) := new_leaf (empty_heap leaf) (w_new V M) in WTree h (fun _ => None) i 0.

Definition getwb (B : nat -> option wbranch) (i : nat) : res wbranch := of_opt (B i).

(** lookupPositionInBranchNode, 797-802. *)
Definition wb_pos (b : wbranch) (key : Z) : res nat := sbsearch_pos true (wbk b) (bs b) key.

(** findLeafNode, 762-771: the child is taken through the slot array for every position. *)
Fixpoint wt_find (B : nat -> option wbranch) (d id : nat) (key : Z) : res nat :=
  match d with
  | 0 => Ok id
  | S d' =>
    do b <- getwb B id;
    do pos <- wb_pos b key;
    do s <- aget (bs b) pos;
    do c <- aget (wbc b) s;
    wt_find B d' c key
  end.

(** lookup, 362-374. *)
Definition wt_lookup (t : wtree) (key : Z) : res (option V) :=
  do i <- wt_find (wtb t) (wdepth t) (wroot t) key;
  do l <- getl (wth t) i;
  w_lookup l key.

(** The child below position [pos] as the insert and the erase take it, 660, 665, 869, 877. *)
Definition wb_child (b : wbranch) (pos : nat) : res nat :=
  do n <- aget (bs b) 0;
  if pos =? n + 1 then aget (wbc b) N else do s <- aget (bs b) pos; aget (wbc b) s.

(** The way insertInBranchNode takes down the tree, 657-667. *)
Fixpoint wt_route (B : nat -> option wbranch) (d id : nat) (key : Z) : res nat :=
  match d with
  | 0 => Ok id
  | S d' =>
    do b <- getwb B id;
    do pos <- wb_pos b key;
    do c <- wb_child b pos;
    wt_route B d' c key
  end.

(** splitBranchNode, 713-752. *)
Definition wb_split (b : wbranch) (splitKey : Z) : res (wbranch * wbranch * Z) :=
  let m0 := (N + 1) / 2 in
  do sm <- aget (bs b) m0;
  do km <- aget (wbk b) sm;
  let middle := if (splitKey >? km)%Z then S m0 else m0 in
  do n <- aget (bs b) 0;
  if n <? middle then UB else
  do ss0 <- aset (bs wb_new) 0 (n - middle);
  do sib <- for_up 0 (n - middle)
              (fun i (s : wbranch) =>
                 do s1 <- aset (bs s) (i + 1) i;
                 do b1 <- bm_set N (bb s) i true;
                 do p <- aget (bs b) (middle + i + 1);
                 do k <- aget (wbk b) p;
                 do ks <- aset (wbk s) i k;
                 do c <- aget (wbc b) p;
                 do cs <- aset (wbc s) i c;
                 Ok (WBranch s1 b1 ks cs))
              (WBranch ss0 (bb wb_new) (wbk wb_new) (wbc wb_new));
  do b1 <- for_up middle (N + 1 - middle) (fun i b1 => do p <- aget (bs b) i; bm_reset N b1 p) (bb b);
  do ns <- aset (bs b) 0 (middle - 1);
  do last <- aget (wbc b) N;
  do cs <- aset (wbc sib) N last;
  do p <- aget ns middle;
  do mid <- aget (wbc b) p;
  do cn <- aset (wbc b) N mid;
  do key <- aget (wbk b) p;
  Ok (WBranch ns b1 (wbk b) cn, WBranch (bs sib) (bb sib) (wbk sib) cs, key).

(** Adding the new entry to the host node, 683-700. *)
Definition wb_add (b : wbranch) (pos : nat) (si : split) : res wbranch :=
  do u <- getFreeZero (bb b);
  do ks <- aset (wbk b) u (skey si);
  do cs <- aset (wbc b) u (sleft si);
  do n <- aget (bs b) 0;
  do x <- (if pos <=? n then
             do s1 <- for_down n (n + 1 - pos) (fun j s => do x <- cget s j; cset s (j + 1) x) (bs b);
             do q <- aget s1 (pos + 1);
             do cs' <- aset cs q (sright si);
             Ok (s1, cs')
           else
             do cs' <- aset cs N (sright si);
             Ok (bs b, cs'));
  do s2 <- aset (fst x) pos u;
  do b1 <- bm_set N (bb b) u true;
  do c <- aget s2 0;
  do s3 <- aset s2 0 (S c);
  Ok (WBranch s3 b1 ks (snd x)).

(** insertInBranchNode, 648-704. *)
Fixpoint wt_insert_branch (h : heap leaf) (B : nat -> option wbranch) (d id : nat) (key : Z) (val : V)
  : res (heap leaf * (nat -> option wbranch) * option split) :=
  match d with
  | 0 => UB
  | S d' =>
    do b <- getwb B id;
    do pos <- wb_pos b key;
    do c <- wb_child b pos;
    do r <- match d' with
            | 0 => do x <- insert_leaf O h c key val; Ok (fst x, B, snd x)
            | S _ => wt_insert_branch h B d' c key val
            end;
    match r with
    | (h1, B1, None) => Ok (h1, B1, None)
    | (h1, B1, Some si) =>
      do b1 <- getwb B1 id;
      do n <- aget (bs b1) 0;
      if n =? N then
        do x <- wb_split b1 (skey si);
        let '(bl, br, sk) := x in
        let '(s, h2) := fresh h1 in
        if (key <? sk)%Z then
          do p <- wb_pos bl key;
          do bl' <- wb_add bl p si;
          Ok (h2, upd (upd B1 s (Some br)) id (Some bl'), Some (Split sk id s))
        else
          do p <- wb_pos br key;
          do br' <- wb_add br p si;
          Ok (h2, upd (upd B1 s (Some br')) id (Some bl), Some (Split sk id s))
      else
        do b2 <- wb_add b1 pos si;
        Ok (h1, upd B1 id (Some b2), None)
    end
  end.

(** insert, 326-352. *)
Definition wt_insert (t : wtree) (key : Z) (val : V) : res wtree :=
  do r <- match wdepth t with
          | 0 => do x <- insert_leaf O (wth t) (wroot t) key val; Ok (fst x, wtb t, snd x)
          | S _ => wt_insert_branch (wth t) (wtb t) (wdepth t) (wroot t) key val
          end;
  match r with
  | (h1, B1, None) => Ok (WTree h1 B1 (wroot t) (wdepth t))
  | (h1, B1, Some si) =>
    let '(i, h2) := fresh h1 in
    do ks <- aset (wbk wb_new) 0 (skey si);
    do cs <- aset (wbc wb_new) 0 (sleft si);
    do cs' <- aset cs N (sright si);
    do s1 <- aset (bs wb_new) 1 0;
    do b1 <- bm_set N (bb wb_new) 0 true;
    do s2 <- aset s1 0 1;
    Ok (WTree h2 (upd B1 i (Some (WBranch s2 b1 ks cs'))) i (S (wdepth t)))
  end.

(** erase, 382-395, for a tree that is a single leaf (depth 0). *)
Definition wt_erase0 (t : wtree) (key : Z) : res (bool * wtree) :=
  match wdepth t with
  | 0 => do l <- getl (wth t) (wroot t);
         do r <- w_erase M l key;
         Ok (fst r, WTree (set_leaf (wth t) (wroot t) (snd r)) (wtb t) (wroot t) 0)
  | S _ => UB
  end.

(** scan(func), 413-442: the descent follows children[0]. *)
Fixpoint wt_first (B : nat -> option wbranch) (d id : nat) : res nat :=
  match d with
  | 0 => Ok id
  | S d' => do b <- getwb B id; do c <- aget (wbc b) 0; wt_first B d' c
  end.
Definition wt_scan (t : wtree) : res (list (Z * V)) :=
  do i <- wt_first (wtb t) (wdepth t) (wroot t);
  scan_chain O (S (hfresh (wth t))) (wth t) (Some i).

Fixpoint wt_run (t : wtree) (os : list (Z * V)) : res wtree :=
  match os with [] => Ok t | (k, v) :: r => do t' <- wt_insert t k v; wt_run t' r end.
End WTree.

(** A history of inserts and erases on a tree that stays a single leaf. *)
Fixpoint wt_run0 {V} (N M : nat) (t : wtree V) (os : list (mop V)) : res (wtree V) :=
  match os with
  | [] => Ok t
  | OpInsert k v :: r => do t' <- wt_insert N M t k v; wt_run0 N M t' r
  | OpErase _ k :: r => do x <- wt_erase0 M t k; wt_run0 N M (snd x) r
  end.
