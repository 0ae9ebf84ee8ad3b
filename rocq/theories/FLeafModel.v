(** Leaf nodes of pbptrees/FPTree.hpp: bitmap, fingerprints, unsorted slots.

    [t] describes KeyType (an integral type), [fp] is fpHash (1314-1316, there [k & 0xFF]);
    it is a parameter so that results hold whatever keys collide.  The fingerprint array of a new
    leaf has no initial value and is compared before the bit is tested (750): [junk] is its
    arbitrary initial content.  Keys and values of a new leaf are uninitialised. *)
From Verif Require Import Base RankModel BitmapModel BTreeModel SearchModel ULeafModel.
Open Scope nat_scope.

(** struct LeafNode, 117-142 (links are in the heap model). *)
Record fleaf (V : Type) := FLeaf { fb : list N; ff : list Z; fk : arr Z; fv : arr V }.

Section FLeaf.
Variables (V : Type) (t : ktype) (fp : Z -> Z) (junk : nat -> Z) (M : nat).
Notation leaf := (fleaf V).

Definition fl_new : leaf := FLeaf (bm_new M) (map junk (seq 0 M)) (anew M) (anew M).

(** bits.get_ro().count() *)
Definition fl_count (l : leaf) : nat := N.to_nat (bm_count (fb l)).

(** lookupPositionInLeafNode, 741-752. *)
Fixpoint fl_find (rounds : nat) (l : leaf) (pos : nat) (key : Z) : res nat :=
  match rounds with
  | 0 => Ok pos
  | S n =>
    do h <- lget (ff l) pos;
    do hit <- (if (h =? fp key)%Z then
                 do b <- bm_test M (fb l) pos;
                 if (b : bool) then do k <- aget (fk l) pos; Ok (k =? key)%Z else Ok false
               else Ok false);
    if (hit : bool) then Ok pos else fl_find n l (S pos) key
  end.
Definition fl_pos (l : leaf) (key : Z) : res nat := fl_find M l 0 key.

(** Leaf part of lookup, 341-347. *)
Definition fl_lookup (l : leaf) (key : Z) : res (option V) :=
  do pos <- fl_pos l key;
  if pos <? M then do v <- aget (fv l) pos; Ok (Some v) else Ok None.

(** Writing one slot: entry, bit and fingerprint (619-622; 571-574; 1014-1017; 1137-1140). *)
Definition fl_put (l : leaf) (pos : nat) (key : Z) (val : V) (h : Z) : res leaf :=
  do ks <- aset (fk l) pos key;
  do vs <- aset (fv l) pos val;
  do b <- bm_set M (fb l) pos true;
  do f <- of_opt (lset (ff l) pos h);
  Ok (FLeaf b f ks vs).
Definition fl_clear (l : leaf) (pos : nat) : res leaf :=
  do b <- bm_reset M (fb l) pos; Ok (FLeaf b (ff l) (fk l) (fv l)).

(** insertInLeafNodeAtPosition, 611-624 *)
Definition fl_insert_at (l : leaf) (pos : nat) (key : Z) (val : V) : res leaf := fl_put l pos key val (fp key).

(** The bitmap as read by the loops of utils/SearchFunctions.hpp. *)
Fixpoint bm_list (rounds : nat) (ws : list N) (i : nat) : res (list bool) :=
  match rounds with
  | 0 => Ok []
  | S n => do b <- bm_test M ws i; do r <- bm_list n ws (S i); Ok (b :: r)
  end.
Definition fl_maxpos (l : leaf) : res nat := do bs <- bm_list M (fb l) 0; findMaxKeyPosB t (fk l) bs M.
Definition fl_minpos (l : leaf) : res nat := do bs <- bm_list M (fb l) 0; findMinKeyPosB t (fk l) bs M.

(** Loop of splitLeafNode, 568-577; [j] counts the entries moved. *)
Definition fl_split_step (splitKey : Z) (i : nat) (s : leaf * leaf * nat) : res (leaf * leaf * nat) :=
  let '(node, sib, j) := s in
  do k <- aget (fk node) i;
  if (k >=? splitKey)%Z then
    do v <- aget (fv node) i;
    do h <- lget (ff node) i;
    do sib' <- fl_put sib j k v h;
    do node' <- fl_clear node i;
    Ok (node', sib', S j)
  else Ok s.

(** splitLeafNode, array part, 539-579. *)
Definition fl_split (l : leaf) : res (leaf * leaf * Z) :=
  do data <- read_all M 0 (fk l);
  do r <- findSplitKey t data;
  do splitKey <- aget (fk l) (snd r);
  do s <- for_up 0 M (fl_split_step splitKey) (l, fl_new, 0);
  Ok (fst (fst s), snd (fst s), splitKey).

Definition fl_add (l : leaf) (key : Z) (val : V) : res leaf :=
  do p <- getFreeZero (fb l); fl_insert_at l p key val.

(** insertInLeafNode, 492-530. *)
Definition fl_insert (l : leaf) (key : Z) (val : V) : res (lins leaf) :=
  do pos <- fl_pos l key;
  if pos <? M then
    do vs <- aset (fv l) pos val;
    Ok (LDone (FLeaf (fb l) (ff l) (fk l) vs))
  else
  do pos <- getFreeZero (fb l);
  if pos =? M then
    do r <- fl_split l;
    let '(node, sib, splitKey) := r in
    if (key >? splitKey)%Z then do b <- fl_add sib key val; Ok (LSplit node b splitKey)
    else
      do p <- fl_maxpos node;
      do mx <- aget (fk node) p;
      if (key >? mx)%Z then do b <- fl_add sib key val; Ok (LSplit node b key)
      else do a <- fl_add node key val; Ok (LSplit a sib splitKey)
  else
    do l' <- fl_insert_at l pos key val;
    Ok (LDone l').

(** eraseFromLeafNode, 781-802. *)
Definition fl_erase (l : leaf) (key : Z) : res (bool * leaf) :=
  do pos <- fl_pos l key;
  if pos <? M then do l' <- fl_clear l pos; Ok (true, l') else Ok (false, l).

(** mergeLeafNodes, 1128-1142. *)
Definition fl_merge (l1 l2 : leaf) : res leaf :=
  for_up 0 M (fun i l =>
    do b <- bm_test M (fb l2) i;
    if (b : bool) then
      do p <- getFreeZero (fb l);
      do h <- lget (ff l2) i;
      do k <- aget (fk l2) i;
      do v <- aget (fv l2) i;
      fl_put l p k v h
    else Ok l) l1.

(** One round of the loops of balanceLeafNodes, 1010-1018 and 1022-1030. *)
Definition fl_move (find : leaf -> res nat) (dr : leaf * leaf) : res (leaf * leaf) :=
  let '(d, r) := dr in
  do m <- find d;
  do p <- getFreeZero (fb r);
  do k <- aget (fk d) m;
  do v <- aget (fv d) m;
  do r' <- fl_put r p k v (fp k);
  do d' <- fl_clear d m;
  Ok (d', r').

(** balanceLeafNodes, 991-1031: the direction is decided on slot 0, whether in use or not. *)
Definition fl_balance (donor recv : leaf) : res (leaf * leaf) :=
  let dn := fl_count donor in let rn := fl_count recv in
  let balancedNum := (dn + rn) / 2 in
  if dn <? balancedNum then UB else
  let toMove := dn - balancedNum in
  if toMove =? 0 then Ok (donor, recv) else
  do d0 <- aget (fk donor) 0;
  do r0 <- aget (fk recv) 0;
  for_up 0 toMove (fun _ => fl_move (if (d0 <? r0)%Z then fl_maxpos else fl_minpos)) (donor, recv).

(** Separator after balancing, 870, 876; 1223, 1230 in recovery. *)
Definition fl_minkey (l : leaf) : res Z := do p <- fl_minpos l; aget (fk l) p.

(** Inner loop of scan, 433-439. *)
Definition fl_scan (l : leaf) : res (list (Z * V)) :=
  for_up 0 M (fun i out =>
    do b <- bm_test M (fb l) i;
    if (b : bool) then do k <- aget (fk l) i; do v <- aget (fv l) i; Ok (out ++ [(k, v)])
    else Ok out) [].

(** Inner loop of the range scan, 464-472; the flag is [higherThanMax]. *)
Definition fl_range (l : leaf) (lo hi : Z) : res (list (Z * V) * bool) :=
  for_up 0 M (fun i o =>
    do b <- bm_test M (fb l) i;
    if (b : bool) then
      do k <- aget (fk l) i;
      if (k <? lo)%Z then Ok o
      else if (k >? hi)%Z then Ok (fst o, true)
      else do v <- aget (fv l) i; Ok (fst o ++ [(k, v)], snd o)
    else Ok o) ([], false).

End FLeaf.

Definition fp_ops (V : Type) (t : ktype) (fp : Z -> Z) (junk : nat -> Z) (M : nat) : leafops (fleaf V) V :=
  LeafOps (fl_new V junk M) (@fl_count V) (fl_lookup fp M) (fl_insert t fp junk M)
          (fl_erase fp M) (fl_merge M) (fl_balance t fp M) (fl_minkey t M)
          (fl_scan M) (fl_range M) (bsearch_pos true) false.

(** fpHash, 1314-1316 *)
Definition fpHash (k : Z) : Z := Z.land k 255.
