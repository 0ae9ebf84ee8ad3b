(** Erase of pbptrees/wBPTree.hpp in trees with branch nodes: 382-395, 857-1101 and 1103-1285.

    Simplifications: those of WbModel; a child pointer set to nullptr is an unwritten cell (using either
    is [UB]); [assert] is compiled out, except that the [assert(false)] paths are [UB]; so is a negative
    number of entries to be moved. *)
From Verif Require Import Base MapSpec BitmapModel SearchModel BTreeModel BitTreeModel WbModel.
Open Scope nat_scope.

Section WErase.
Variables (V : Type) (N M : nat).
Notation leaf := (wleaf V).
Notation bmap := (nat -> option wbranch).
Notation O := (w_ops V M).

(** The key behind slot [i] of a leaf. *)
Definition w_key (l : leaf) (i : nat) : res Z := do s <- aget (ws l) i; aget (wk l) s.
Definition wb_key (b : wbranch) (i : nat) : res Z := do s <- aget (bs b) i; aget (wbk b) s.
(** [nodeKeys[nodeSlots[i]] = key] *)
Definition wb_setkey (b : wbranch) (i : nat) (key : Z) : res wbranch :=
  do s <- aget (bs b) i;
  do ks <- aset (wbk b) s key;
  Ok (WBranch (bs b) (bb b) ks (wbc b)).

(** 939-949: slot [pos] goes away, the child that moves up to it is [survivor]. *)
Definition wb_drop (b : wbranch) (pos survivor : nat) : res wbranch :=
  do n <- aget (bs b) 0;
  do p <- aget (bs b) pos;
  do b1 <- bm_reset N (bb b) p;
  do s1 <- for_up pos (n - pos) (fun i s => do x <- cget s (i + 1); cset s i x) (bs b);
  do surPos <- (if pos =? n then Ok N else aget s1 pos);
  do cs <- aset (wbc b) surPos survivor;
  do s2 <- aset s1 0 (n - 1);
  Ok (WBranch s2 b1 (wbk b) cs).

(** underflowAtLeafLevel, 903-957. *)
Definition we_underflow_leaf (t : wtree V) (id pos lf : nat) : res (wtree V) :=
  let h := wth t in
  let B := wtb t in
  let middle := (M + 1) / 2 in
  do b <- getwb B id;
  do n <- aget (bs b) 0;
  do prevNum <- (if 1 <? pos then do p <- of_opt (hpv h lf); do pl <- getl h p; w_count pl else Ok 0);
  if (1 <? pos) && (middle <? prevNum) then
    do p <- of_opt (hpv h lf);
    do h1 <- balance_leaf O h p lf;
    do l <- getl h1 lf;
    do newKey <- w_key l 1;
    do b' <- wb_setkey b (if pos =? n + 1 then n else pos) newKey;
    Ok (WTree h1 (upd B id (Some b')) (wroot t) (wdepth t))
  else
  do nextNum <- (if pos <=? n then do x <- of_opt (hnx h lf); do nl <- getl h x; w_count nl else Ok 0);
  if (pos <=? n) && (middle <? nextNum) then
    do x <- of_opt (hnx h lf);
    do h1 <- balance_leaf O h x lf;
    do nl <- getl h1 x;
    do newKey <- w_key nl 1;
    do b' <- wb_setkey b (pos + 1) newKey;
    Ok (WTree h1 (upd B id (Some b')) (wroot t) (wdepth t))
  else
  do r <- (if (1 <? pos) && (prevNum <=? middle) then
             do p <- of_opt (hpv h lf);
             do h1 <- merge_leaf O h p lf;
             do h2 <- free_leaf h1 (Some lf);
             Ok (h2, p, pos - 1)
           else if (pos <=? n) && (nextNum <=? middle) then
             do x <- of_opt (hnx h lf);
             do h1 <- merge_leaf O h lf x;
             do h2 <- free_leaf h1 (Some x);
             Ok (h2, lf, pos)
           else UB);
  let '(h2, survivor, pos') := r in
  if 1 <? n then
    do b' <- wb_drop b pos' survivor;
    Ok (WTree h2 (upd B id (Some b')) (wroot t) (wdepth t))
  else Ok (WTree h2 B survivor (wdepth t - 1)).

(** One key and child into a free position, its slot entry written at [d]: 1264-1269, 1273-1277, 1146-1150,
    1153-1159, 1169-1173, 1177-1183. *)
Definition wb_put (s : wbranch) (d : nat) (k : Z) (c : nat) : res wbranch :=
  do u <- getFreeZero (bb s);
  do ks <- aset (wbk s) u k;
  do cs <- aset (wbc s) u c;
  do b <- bm_set N (bb s) u true;
  do sl <- aset (bs s) d u;
  Ok (WBranch sl b ks cs).

(** mergeBranchNodes(sibling, key, node), 1245-1282. *)
Definition wb_merge (sib : wbranch) (key : Z) (node : wbranch) : res wbranch :=
  do n1 <- aget (bs sib) 0;
  do n2 <- aget (bs node) 0;
  do last <- aget (wbc sib) N;
  do s0 <- wb_put sib (n1 + 1) key last;
  do s <- for_up 1 n2
            (fun i s => do p <- aget (bs node) i; do k <- aget (wbk node) p; do c <- aget (wbc node) p;
                        wb_put s (n1 + i + 1) k c) s0;
  do r <- aget (wbc node) N;
  do cs <- aset (wbc s) N r;
  do sl <- aset (bs s) 0 (n1 + n2 + 1);
  Ok (WBranch sl (bb s) (wbk s) cs).

(** balanceBranchNodes(donor, receiver, parent, pos), 1113-1190: result (donor, receiver, parent). *)
Definition wb_balance (d r p : wbranch) (pos : nat) : res (wbranch * wbranch * wbranch) :=
  do nd <- aget (bs d) 0;
  do nr <- aget (bs r) 0;
  let bal := (nd + nr) / 2 in
  if nd <? bal then UB else
  let mv := nd - bal in
  if mv =? 0 then Ok (d, r, p) else
  do dk <- wb_key d 1;
  do rk <- wb_key r 1;
  do pk <- wb_key p pos;
  if (dk <? rk)%Z then
    do s0 <- for_down nr nr (fun i s => do x <- cget s i; cset s (i + mv) x) (bs r);
    do dlast <- aget (wbc d) N;
    do r1 <- wb_put (WBranch s0 (bb r) (wbk r) (wbc r)) mv pk dlast;
    do y <- for_up 2 (mv - 1)
              (fun i (st : wbranch * list BinNums.N) =>
                 do q <- aget (bs d) (bal + i);
                 do k <- aget (wbk d) q;
                 do c <- aget (wbc d) q;
                 do r' <- wb_put (fst st) (i - 1) k c;
                 do b <- bm_reset N (snd st) q;
                 Ok (r', b)) (r1, bb d);
    do q <- aget (bs d) (bal + 1);
    do c <- aget (wbc d) q;
    do dcs <- aset (wbc d) N c;
    do k <- aget (wbk d) q;
    do p' <- wb_setkey p pos k;
    do rs <- aset (bs (fst y)) 0 (nr + mv);
    do ds <- aset (bs d) 0 (nd - mv);
    Ok (WBranch ds (snd y) (wbk d) dcs, WBranch rs (bb (fst y)) (wbk (fst y)) (wbc (fst y)), p')
  else
    do rlast <- aget (wbc r) N;
    do r1 <- wb_put r (nr + 1) pk rlast;
    do y <- for_up 2 (mv - 1)
              (fun i (st : wbranch * list BinNums.N) =>
                 do q <- aget (bs d) (i - 1);
                 do k <- aget (wbk d) q;
                 do c <- aget (wbc d) q;
                 do r' <- wb_put (fst st) (nr + i) k c;
                 do b <- bm_reset N (snd st) q;
                 Ok (r', b)) (r1, bb d);
    do q <- aget (bs d) mv;
    do c <- aget (wbc d) q;
    do rcs <- aset (wbc (fst y)) N c;
    do k <- aget (wbk d) q;
    do p' <- wb_setkey p pos k;
    do ds0 <- for_up 1 (nd - mv) (fun i s => do x <- cget s (mv + i); cset s i x) (bs d);
    do rs <- aset (bs (fst y)) 0 (nr + mv);
    do ds <- aset ds0 0 (nd - mv);
    Ok (WBranch ds (snd y) (wbk d) (wbc d), WBranch rs (bb (fst y)) (wbk (fst y)) rcs, p').

(** 1022-1027: the loop stops one slot early and the bit stays set. *)
Definition wb_shift (b : wbranch) (ppos : nat) : res wbranch :=
  do n <- aget (bs b) 0;
  do s1 <- for_up ppos (n - 1 - ppos) (fun i s => do x <- cget s (i + 1); cset s i x) (bs b);
  do s2 <- aset s1 0 (n - 1);
  Ok (WBranch s2 (bb b) (wbk b) (wbc b)).

(** underflowAtBranchLevel, 971-1030.  [rSibling] (1012) is a reference to the cell of the children array
    that is overwritten in 1014 and freed and cleared in 1015. *)
Definition we_underflow_branch (B : bmap) (id pos child : nat) : res (bmap * nat) :=
  let middle := (N + 1) / 2 in
  do b <- getwb B id;
  do n <- aget (bs b) 0;
  do cb <- getwb B child;
  do prev <- (if 1 <? pos then
                do s <- aget (bs b) (pos - 1); do c <- aget (wbc b) s; do pb <- getwb B c; do m <- aget (bs pb) 0; Ok (m, c)
              else Ok (0, 0));
  if (1 <? pos) && (middle <? fst prev) then
    do pb <- getwb B (snd prev);
    do x <- wb_balance pb cb b (pos - 1);
    let '(d, r, p) := x in
    Ok (upd (upd (upd B (snd prev) (Some d)) child (Some r)) id (Some p), child)
  else
  do rPos <- (if pos <? n then aget (bs b) (pos + 1) else Ok N);
  do next <- (if pos <=? n then do c <- aget (wbc b) rPos; do nb <- getwb B c; do m <- aget (bs nb) 0; Ok (m, c) else Ok (0, 0));
  if (pos <=? n) && (middle <? fst next) then
    do nb <- getwb B (snd next);
    do x <- wb_balance nb cb b pos;
    let '(d, r, p) := x in
    Ok (upd (upd (upd B (snd next) (Some d)) child (Some r)) id (Some p), child)
  else if 0 <? fst prev then
    do pb <- getwb B (snd prev);
    do key <- wb_key b (pos - 1);
    do m <- wb_merge pb key cb;
    do b' <- wb_shift b (pos - 1);
    Ok (upd (upd (upd B (snd prev) (Some m)) child None) id (Some b'), snd prev)
  else if 0 <? fst next then
    do nb <- getwb B (snd next);
    do key <- wb_key b pos;
    do m <- wb_merge cb key nb;
    do cs <- of_opt (lset (wbc b) rPos None);
    do b' <- wb_shift (WBranch (bs b) (bb b) (wbk b) cs) pos;
    let B1 := upd B child (Some m) in
    Ok (upd (if pos =? n then upd B1 child None else upd B1 (snd next) None) id (Some b'), child)
  else UB.

(** eraseFromBranchNode, 857-889. *)
Fixpoint we_erase_branch (t : wtree V) (d id : nat) (key : Z) : res (wtree V * bool) :=
  match d with
  | 0 => UB
  | S d' =>
    do b <- getwb (wtb t) id;
    do pos <- wb_pos b key;
    do c <- wb_child N b pos;
    match d' with
    | 0 =>
      do r <- erase_leaf O (wth t) c key;
      let '(deleted, h1) := r in
      let t1 := WTree h1 (wtb t) (wroot t) (wdepth t) in
      do l <- getl h1 c;
      do m <- w_count l;
      if m <? (M + 1) / 2 then
        do t2 <- we_underflow_leaf t1 id pos c;
        Ok (t2, deleted)
      else Ok (t1, deleted)
    | S _ =>
      do r <- we_erase_branch t d' c key;
      let '(t1, deleted) := r in
      do b1 <- getwb (wtb t1) id;
      do pos1 <- wb_pos b1 key;
      do cb <- getwb (wtb t1) c;
      do m <- aget (bs cb) 0;
      if m <? (N + 1) / 2 then
        do r2 <- we_underflow_branch (wtb t1) id pos1 c;
        let '(B2, c') := r2 in
        do b2 <- getwb B2 id;
        do n <- aget (bs b2) 0;
        if (d =? wdepth t1) && (n =? 0) then Ok (WTree (wth t1) B2 c' (wdepth t1 - 1), deleted)
        else Ok (WTree (wth t1) B2 (wroot t1) (wdepth t1), deleted)
      else Ok (t1, deleted)
    end
  end.

(** erase, 382-395. *)
Definition we_erase (t : wtree V) (key : Z) : res (wtree V * bool) :=
  match wdepth t with
  | 0 => do r <- erase_leaf O (wth t) (wroot t) key;
         Ok (WTree (snd r) (wtb t) (wroot t) (wdepth t), fst r)
  | S _ => we_erase_branch t (wdepth t) (wroot t) key
  end.

Definition we_step (t : wtree V) (o : mop V) : res (wtree V) :=
  match o with
  | OpInsert k v => wt_insert N M t k v
  | OpErase _ k => do r <- we_erase t k; Ok (fst r)
  end.
Fixpoint we_run (t : wtree V) (os : list (mop V)) : res (wtree V) :=
  match os with [] => Ok t | o :: r => do t' <- we_step t o; we_run t' r end.

(** Where insert and erase look for a key (657-667, 865-878), and what is there. *)
Definition we_at (t : wtree V) (key : Z) : res (option V) :=
  do i <- wt_route N (wtb t) (wdepth t) (wroot t) key;
  do l <- getl (wth t) i;
  w_lookup l key.
End WErase.
