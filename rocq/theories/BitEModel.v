(** Erase of pbptrees/BitPBPTree.hpp (328-342, 427-859) and pbptrees/BitHPBPTree.hpp (373-386, 493-890).

    The two files have the same statements here, over the leaf functions of BitTreeModel and BitHModel.
    BitHPBPTree keeps references into the children array (703, 711) where BitPBPTree copies the
    pointer; what is written through them goes to slots that are overwritten or no longer in use.

    Simplifications: a child pointer set to nullptr is an uninitialised slot (reading either is [UB]);
    [assert] is compiled out, except that the [assert(false)] paths are [UB]. *)
From Verif Require Import Base RankModel BitmapModel BTreeModel ULeafModel FLeafModel BitTreeModel BitHModel.
Open Scope nat_scope.

Fixpoint first_set (bs : list bool) : nat :=      (* getFirstSet *)
  match bs with [] => 0 | false :: r => S (first_set r) | true :: _ => 0 end.

(** [p = nullptr] for an element of an array. *)
Definition anull {A} (a : arr A) (i : nat) : res (arr A) := of_opt (lset a i None).

Section BitErase.
Variables (V : Type) (t : ktype) (N M : nat).
Notation leaf := (fleaf V).
Notation bmap := (nat -> option bbranch).
Variable O : leafops leaf V.

(** findMinKeyPosGreaterThan on the keys of a leaf, 488-489. *)
Definition leaf_next (l : leaf) (key : Z) : res nat :=
  do bs <- bm_list M M (fb l) 0; findMinKeyPosGreaterThan t (fk l) bs M key.

(** ** Leaf level *)

(** 508-513 (merge left): [pos] takes over the child of the next slot to the left. *)
Definition bb_drop_left (b : bbranch) (pos : nat) : res bbranch :=
  do prevPos <- (if pos =? N then findMaxKeyPosB t (bbk b) (bbits b) N
                 else do k <- aget (bbk b) pos; findMaxKeyPosSmallerThan t (bbk b) (bbits b) N k);
  do c <- aget (bbc b) prevPos;
  do cs <- aset (bbc b) pos c;
  do bs <- of_opt (lset (bbits b) prevPos false);
  Ok (BBranch bs (bbk b) cs).
(** 518-521 (merge right) *)
Definition bb_drop_right (b : bbranch) (pos : nat) : res bbranch :=
  do k <- aget (bbk b) pos;
  do nextPos <- findMinKeyPosGreaterThan t (bbk b) (bbits b) N k;
  do c <- aget (bbc b) pos;
  do cs <- aset (bbc b) nextPos c;
  do bs <- of_opt (lset (bbits b) pos false);
  Ok (BBranch bs (bbk b) cs).

(** underflowAtLeafLevel, 472-533 (BitHPBPTree 538-595). *)
Definition be_underflow_leaf (tr : btree V) (id pos lf : nat) : res (btree V) :=
  let h := bth tr in
  let B := btb tr in
  let middle := (M + 1) / 2 in
  do b <- getbb B id;
  do _ <- getl h lf;
  do prevNum <- (if 0 <? pos then
                   do p <- of_opt (hpv h lf); do pl <- getl h p; Ok (lo_count O pl)
                 else Ok 0);
  if (0 <? pos) && (middle <? prevNum) then
    do p <- of_opt (hpv h lf);
    do h1 <- balance_leaf O h p lf;
    do l <- getl h1 lf;
    do newMin <- lo_minkey O l;
    do prevPos <- leaf_next l newMin;
    do ks <- aset (bbk b) prevPos newMin;
    Ok (BTree h1 (upd B id (Some (BBranch (bbits b) ks (bbc b)))) (broot tr) (bdepth tr))
  else
  do nextNum <- (if pos <? N then
                   do n <- of_opt (hnx h lf); do nl <- getl h n; Ok (lo_count O nl)
                 else Ok 0);
  if (pos <? N) && (middle <? nextNum) then
    do n <- of_opt (hnx h lf);
    do h1 <- balance_leaf O h n lf;
    do nl <- getl h1 n;
    do k <- lo_minkey O nl;
    do ks <- aset (bbk b) pos k;
    Ok (BTree h1 (upd B id (Some (BBranch (bbits b) ks (bbc b)))) (broot tr) (bdepth tr))
  else
  do mp <- findMinKeyPosB t (bbk b) (bbits b) N;
  do r <- (if negb (mp =? pos) && (prevNum <=? middle) then
             do p <- of_opt (hpv h lf);
             do h1 <- merge_leaf O h p lf;
             do h2 <- free_leaf h1 (Some lf);
             do b' <- bb_drop_left b pos;
             Ok (h2, b', p)
           else if (pos <? N) && (nextNum <=? middle) then
             do n <- of_opt (hnx h lf);
             do h1 <- merge_leaf O h lf n;
             (* 517: [leafRef.nextLeaf] is by now the leaf after the merged one; it is freed and the
                link is set to nullptr (1220-1224) *)
             do h2 <- free_leaf h1 (hnx h1 lf);
             do b' <- bb_drop_right b pos;
             Ok (set_nx h2 lf None, b', lf)
           else UB);
  let '(h2, b', survivor) := r in
  let B' := upd B id (Some b') in
  if count_bits (bbits b') =? 0 then Ok (BTree h2 B' survivor (bdepth tr - 1))
  else Ok (BTree h2 B' (broot tr) (bdepth tr)).

(** ** Inner level *)

(** Loop body of mergeBranchNodes, 772-777; 767-770. *)
Definition bb_put (s : bbranch) (k : Z) (c : nat) : res bbranch :=
  let u := first_free (bbits s) in
  do ks <- aset (bbk s) u k;
  do cs <- aset (bbc s) u c;
  do bs <- of_opt (lset (bbits s) u true);
  Ok (BBranch bs ks cs).

(** mergeBranchNodes(sibling, key, node), 750-780 (BitHPBPTree 798-821).  The loop runs to M; test(i)
    throws for i >= N. *)
Definition bb_merge (sib : bbranch) (key : Z) (node : bbranch) : res bbranch :=
  do last <- aget (bbc sib) N;
  do s0 <- bb_put sib key last;
  do s <- for_up 0 M (fun i s =>
            do b <- lget (bbits node) i;
            if (b : bool) then do k <- aget (bbk node) i; do c <- aget (bbc node) i; bb_put s k c
            else Ok s) s0;
  do r <- aget (bbc node) N;
  do cs <- aset (bbc s) N r;
  Ok (BBranch (bbits s) (bbk s) cs).

Definition bb_clear (b : bbranch) (i : nat) : res bbranch :=
  do bs <- of_opt (lset (bbits b) i false); Ok (BBranch bs (bbk b) (bbc b)).

(** One round of the loops 820-827 and 842-849. *)
Definition bb_move (find : bbranch -> res nat) (dr : bbranch * bbranch) : res (bbranch * bbranch) :=
  let '(d, r) := dr in
  do m <- find d;
  do k <- aget (bbk d) m;
  do c <- aget (bbc d) m;
  do r' <- bb_put r k c;
  do d' <- bb_clear d m;
  Ok (d', r').

(** balanceBranchNodes(donor, receiver, parent, pos), 792-857 (BitHPBPTree 833-890). *)
Definition bb_balance (d r p : bbranch) (pos : nat) : res (bbranch * bbranch * bbranch) :=
  let dn := count_bits (bbits d) in let rn := count_bits (bbits r) in
  let balancedNum := (dn + rn) / 2 in
  if dn <? balancedNum then UB else
  let toMove := dn - balancedNum in
  if toMove =? 0 then Ok (d, r, p) else
  do dk <- aget (bbk d) (first_set (bbits d));
  do rk <- aget (bbk r) (first_set (bbits r));
  do pk <- aget (bbk p) pos;
  if (dk <? rk)%Z then
    do c <- aget (bbc d) N;
    do r1 <- bb_put r pk c;
    let find := fun d => findMaxKeyPosB t (bbk d) (bbits d) N in
    do dr <- for_up 1 (toMove - 1) (fun _ => bb_move find) (d, r1);
    let '(d2, r2) := dr in
    do dp <- find d2;
    do c2 <- aget (bbc d2) dp;
    do dcs <- aset (bbc d2) N c2;
    do k2 <- aget (bbk d2) dp;
    do pks <- aset (bbk p) pos k2;
    do d3 <- bb_clear (BBranch (bbits d2) (bbk d2) dcs) dp;
    Ok (d3, r2, BBranch (bbits p) pks (bbc p))
  else
    do c <- aget (bbc r) N;
    do r1 <- bb_put r pk c;
    let find := fun d => findMinKeyPosB t (bbk d) (bbits d) N in
    do dr <- for_up 1 (toMove - 1) (fun _ => bb_move find) (d, r1);
    let '(d2, r2) := dr in
    do dp <- find d2;
    do c2 <- aget (bbc d2) dp;
    do rcs <- aset (bbc r2) N c2;
    do k2 <- aget (bbk d2) dp;
    do pks <- aset (bbk p) pos k2;
    do d3 <- bb_clear d2 dp;
    Ok (d3, BBranch (bbits r2) (bbk r2) rcs, BBranch (bbits p) pks (bbc p)).

(** underflowAtBranchLevel, 690-739 (BitHPBPTree 740-787).  [nodeKeys[pos]] is read for every [pos]:
    out of bounds for the rightmost child. *)
Definition be_underflow_branch (B : bmap) (id pos child : nat) : res (bmap * nat) :=
  let middle := (N + 1) / 2 in
  do b <- getbb B id;
  do mp <- findMinKeyPosB t (bbk b) (bbits b) N;
  do k <- aget (bbk b) pos;
  do prevPos <- findMaxKeyPosSmallerThan t (bbk b) (bbits b) N k;
  do pc <- aget (bbc b) prevPos;
  do pb <- getbb B pc;
  let prevNum := count_bits (bbits pb) in
  do nextPos <- findMinKeyPosGreaterThan t (bbk b) (bbits b) N k;
  do nc <- aget (bbc b) nextPos;
  do nb <- getbb B nc;
  let nextNum := count_bits (bbits nb) in
  do cb <- getbb B child;
  if negb (mp =? pos) && (middle <? prevNum) then
    do x <- bb_balance pb cb b pos;
    let '(d, r, p) := x in
    Ok (upd (upd (upd B pc (Some d)) child (Some r)) id (Some p), child)
  else if (pos <? N) && (middle <? nextNum) then
    do x <- bb_balance nb cb b pos;
    let '(d, r, p) := x in
    Ok (upd (upd (upd B nc (Some d)) child (Some r)) id (Some p), child)
  else if negb (mp =? pos) && (prevNum <=? middle) then
    do m <- bb_merge pb k cb;
    do b' <- bb_clear b pos;
    Ok (upd (upd (upd B pc (Some m)) child None) id (Some b'), pc)
  else if (pos <? N) && (nextNum <=? middle) then
    do m <- bb_merge cb k nb;
    do cs <- anull (bbc b) nextPos;
    do b' <- bb_clear (BBranch (bbits b) (bbk b) cs) pos;
    do mx <- findMaxKeyPosB t (bbk b') (bbits b') N;
    do b2 <- (if pos =? mx then do cs' <- aset (bbc b') N child; Ok (BBranch (bbits b') (bbk b') cs') else Ok b');
    Ok (upd (upd (upd B child (Some m)) nc None) id (Some b2), child)
  else UB.

(** eraseFromBranchNode, 644-677 (BitHPBPTree 695-726). *)
Fixpoint be_erase_branch (tr : btree V) (d id : nat) (key : Z) : res (btree V * bool) :=
  match d with
  | 0 => UB
  | S d' =>
    do b <- getbb (btb tr) id;
    do pos <- bb_pos t N b key;
    do c <- aget (bbc b) pos;
    match d' with
    | 0 =>
      do r <- erase_leaf O (bth tr) c key;
      let '(deleted, h1) := r in
      let t1 := BTree h1 (btb tr) (broot tr) (bdepth tr) in
      do l <- getl h1 c;
      if lo_count O l <? (M + 1) / 2 then
        do t2 <- be_underflow_leaf t1 id pos c;
        Ok (t2, deleted)
      else Ok (t1, deleted)
    | S _ =>
      do r <- be_erase_branch tr d' c key;
      let '(t1, deleted) := r in
      do b1 <- getbb (btb t1) id;
      do pos1 <- bb_pos t N b1 key;
      do cb <- getbb (btb t1) c;
      if count_bits (bbits cb) <? (N + 1) / 2 then
        do r2 <- be_underflow_branch (btb t1) id pos1 c;
        let '(B2, c') := r2 in
        do b2 <- getbb B2 id;
        if (d =? bdepth t1) && (count_bits (bbits b2) =? 0) then
          Ok (BTree (bth t1) B2 c' (bdepth t1 - 1), deleted)
        else Ok (BTree (bth t1) B2 (broot t1) (bdepth t1), deleted)
      else Ok (t1, deleted)
    end
  end.

(** erase, 328-341 (BitHPBPTree 373-386). *)
Definition be_erase (tr : btree V) (key : Z) : res (btree V * bool) :=
  match bdepth tr with
  | 0 => do r <- erase_leaf O (bth tr) (broot tr) key;
         Ok (BTree (snd r) (btb tr) (broot tr) (bdepth tr), fst r)
  | S _ => be_erase_branch tr (bdepth tr) (broot tr) key
  end.

Definition be_step (tr : btree V) (o : bop V) : res (btree V) :=
  match o with
  | BInsert k v => bg_insert t N O tr k v
  | BErase _ k => do r <- be_erase tr k; Ok (fst r)
  end.
Fixpoint be_run (tr : btree V) (os : list (bop V)) : res (btree V) :=
  match os with [] => Ok tr | o :: r => do tr' <- be_step tr o; be_run tr' r end.
End BitErase.

Definition bt_hist {V} (t : ktype) (N M : nat) (os : list (bop V)) : res (btree V) :=
  be_run t N M (bit_ops V t M) (bt_new V t M) os.
