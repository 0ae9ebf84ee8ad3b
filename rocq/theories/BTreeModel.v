(** Heap-level model of the B+-tree classes whose branch nodes are sorted arrays:
    pbptrees/PBPTree.hpp, BPTree.hpp, HPBPTree.hpp, UnsortedPBPTree.hpp, FPTree.hpp.

    The member functions working on branch nodes and on the leaf chain are the same
    statements in the five classes (line numbers below are for PBPTree.hpp, the
    others are listed with them); what differs is the layout of a leaf node and the
    position search.  Those are a parameter, the record [leafops].

    Simplifications:
    - a node pointer is a natural number; leaf and branch nodes live in two partial maps, so
      using a pointer at the wrong kind of node, after free, or when null is [UB];
    - the leaf links are kept in two maps of their own ([hnx], [hpv]) instead of inside the
      leaf record; dereferencing a leaf to reach a link requires the leaf to exist;
    - [p<>]/[get_ro]/[get_rw] wrappers, PMDK transactions, [PersistEmulation] byte counters
      and LOG output are omitted;
    - the [tag] member of the tagged union Node is omitted (depth decides the kind, as in the
      code's own accesses). *)
From Verif Require Import Base.
Open Scope nat_scope.

(** ** Heaps *)

Definition upd {A} (f : nat -> option A) (i : nat) (x : option A) : nat -> option A :=
  fun j => if j =? i then x else f j.

(** struct BranchNode, PBPTree.hpp:1249-1258 (BPTree.hpp:1084-1095, FPTree.hpp BranchNode,
    UnsortedPBPTree.hpp, HPBPTree.hpp BranchNode). *)
Record branch := Branch { bn : nat; bk : arr Z; bc : arr nat }.

Record heap (L : Type) := Heap {
  hl : nat -> option L;          (* leaf nodes *)
  hb : nat -> option branch;     (* branch nodes *)
  hnx : nat -> option nat;       (* LeafNode::nextLeaf *)
  hpv : nat -> option nat;       (* LeafNode::prevLeaf *)
  hfresh : nat                   (* allocator: all ids below were handed out *)
}.

Inductive lins (L : Type) := LDone (l : L) | LSplit (l r : L) (k : Z).
Arguments LDone {L} l. Arguments LSplit {L} l r k.

(** Leaf-level operations of one tree class. *)
Record leafops (L V : Type) := LeafOps {
  lo_new : L;                                        (* LeafNode() *)
  lo_count : L -> nat;                               (* numKeys, or bits.count() *)
  lo_lookup : L -> Z -> res (option V);              (* leaf part of lookup *)
  lo_insert : L -> Z -> V -> res (lins L);           (* insertInLeafNode + splitLeafNode (arrays) *)
  lo_erase : L -> Z -> res (bool * L);               (* eraseFromLeafNode *)
  lo_merge : L -> L -> res L;                        (* mergeLeafNodes node1 node2 (arrays) *)
  lo_balance : L -> L -> res (L * L);                (* balanceLeafNodes donor receiver *)
  lo_minkey : L -> res Z;                            (* separator taken after balancing *)
  lo_scan : L -> res (list (Z * V));                 (* entries reported by scan() *)
  lo_range : L -> Z -> Z -> res (list (Z * V) * bool); (* reported by scan(lo,hi); true = return *)
  lo_bpos : arr Z -> nat -> Z -> res nat;            (* lookupPositionInBranchNode *)
  lo_del_after : bool                                (* right merge frees [leaf->nextLeaf] re-read
                                                        after the merge (UnsortedPBPTree.hpp:441-444) *)
}.

Section BTree.
Variables (L V : Type) (N M : nat) (O : leafops L V).

Definition hp := heap L.

Definition getl (h : hp) (i : nat) : res L := of_opt (hl h i).
Definition getb (h : hp) (i : nat) : res branch := of_opt (hb h i).

Definition set_leaf (h : hp) (i : nat) (l : L) : hp :=
  Heap (upd (hl h) i (Some l)) (hb h) (hnx h) (hpv h) (hfresh h).
Definition del_leaf (h : hp) (i : nat) : hp :=
  Heap (upd (hl h) i None) (hb h) (hnx h) (hpv h) (hfresh h).
Definition set_branch (h : hp) (i : nat) (b : branch) : hp :=
  Heap (hl h) (upd (hb h) i (Some b)) (hnx h) (hpv h) (hfresh h).
Definition del_branch (h : hp) (i : nat) : hp :=
  Heap (hl h) (upd (hb h) i None) (hnx h) (hpv h) (hfresh h).
Definition set_nx (h : hp) (i : nat) (o : option nat) : hp :=
  Heap (hl h) (hb h) (upd (hnx h) i o) (hpv h) (hfresh h).
Definition set_pv (h : hp) (i : nat) (o : option nat) : hp :=
  Heap (hl h) (hb h) (hnx h) (upd (hpv h) i o) (hfresh h).
(** [p->prevLeaf = o] with [p] checked to be a live leaf. *)
Definition set_pv_chk (h : hp) (i : nat) (o : option nat) : res hp :=
  do _ <- getl h i; Ok (set_pv h i o).

(** newLeafNode, PBPTree.hpp:1172-1179; LeafNode() sets both links to nullptr, 1235. *)
Definition new_leaf (h : hp) (l : L) : nat * hp :=
  let i := hfresh h in
  (i, Heap (upd (hl h) i (Some l)) (hb h) (upd (hnx h) i None) (upd (hpv h) i None) (S i)).
(** newBranchNode, PBPTree.hpp:1203-1214; arrays start uninitialised, numKeys = 0, 1253. *)
Definition empty_branch : branch := Branch 0 (anew N) (anew (S N)).
Definition new_branch (h : hp) : nat * hp :=
  let i := hfresh h in
  (i, Heap (hl h) (upd (hb h) i (Some empty_branch)) (hnx h) (hpv h) (S i)).

(** struct SplitInfo, PBPTree.hpp (key, leftChild, rightChild). *)
Record split := Split { skey : Z; sleft : nat; sright : nat }.

(** ** Lookup *)

(** findLeafNode, PBPTree.hpp:1122-1132 (BPTree 964-974, Unsorted 1129-1139, FPTree 723-732). *)
Fixpoint find_leaf (h : hp) (d id : nat) (key : Z) : res nat :=
  match d with
  | 0 => Ok id
  | S d' =>
    do b <- getb h id;
    do pos <- lo_bpos O (bk b) (bn b) key;
    do c <- aget (bc b) pos;
    find_leaf h d' c key
  end.

Record tree := Tree { th : hp; troot : nat; tdepth : nat }.

(** Constructor, PBPTree.hpp:189-194: depth 0, root is a new leaf. *)
Definition empty_heap : hp := Heap (fun _ => None) (fun _ => None) (fun _ => None) (fun _ => None) 0.
Definition t_new : tree := let '(i, h) := new_leaf empty_heap (lo_new O) in Tree h i 0.

(** lookup, PBPTree.hpp:244-256 (BPTree 223-234, Unsorted 253-266, FPTree 338-348). *)
Definition t_lookup (t : tree) (key : Z) : res (option V) :=
  do i <- find_leaf (th t) (tdepth t) (troot t) key;
  do l <- getl (th t) i;
  lo_lookup O l key.

(** ** Insert *)

(** insertInLeafNode 899-930 and splitLeafNode 939-975: the array part is [lo_insert]; here the
    new sibling is allocated and linked behind the node (lines 946, 960-967)
    (BPTree 807-822, Unsorted 944-987, FPTree 539-597, HPBPTree likewise). *)
Definition insert_leaf (h : hp) (id : nat) (key : Z) (val : V) : res (hp * option split) :=
  do l <- getl h id;
  do r <- lo_insert O l key val;
  match r with
  | LDone l' => Ok (set_leaf h id l', None)
  | LSplit l1 l2 sk =>
    let '(s, h1) := new_leaf h l2 in
    let h2 := set_leaf h1 id l1 in
    do h3 <- match hnx h2 id with
             | Some n => set_pv_chk (set_nx h2 s (Some n)) n (Some s)
             | None => Ok h2
             end;
    let h4 := set_pv (set_nx h3 id (Some s)) s (Some id) in
    Ok (h4, Some (Split sk id s))
  end.

(** splitBranchNode, PBPTree.hpp:1020-1050 (BPTree 871-891, Unsorted 1027-1057, FPTree 691-713).
    [nNumKeys - middle] would wrap for [nNumKeys < middle]: [UB]. *)
Definition split_branch (h : hp) (id : nat) (splitKey : Z) : res (hp * split) :=
  do b <- getb h id;
  let m0 := (N + 1) / 2 in
  do km <- aget (bk b) m0;
  let middle := if (splitKey >? km)%Z then S m0 else m0 in
  if bn b <? middle then UB else
  let '(s, h1) := new_branch h in
  let snum := bn b - middle in
  do p <- for_up 0 snum
            (fun i kc => do ks <- (do x <- aget (bk b) (middle + i); aset (fst kc) i x);
                         do cs <- (do x <- aget (bc b) (middle + i); aset (snd kc) i x);
                         Ok (ks, cs))
            (bk empty_branch, bc empty_branch);
  do last <- aget (bc b) (bn b);
  do cs <- aset (snd p) snum last;
  do sk <- aget (bk b) (middle - 1);
  let h2 := set_branch h1 s (Branch snum (fst p) cs) in
  let h3 := set_branch h2 id (Branch (middle - 1) (bk b) (bc b)) in
  Ok (h3, Split sk id s).

(** The part of insertInBranchNode that adds the new child, PBPTree.hpp:1089-1105
    (BPTree 932-946, Unsorted 1096-1112, FPTree 662-678). *)
Definition insert_entry (h : hp) (host pos : nat) (si : split) : res hp :=
  do b <- getb h host;
  let n := bn b in
  do kc <- (if pos <? n then
              do last <- aget (bc b) n;
              do c0 <- aset (bc b) (n + 1) last;
              for_down n (n - pos)
                (fun i kc => do ks <- (do x <- aget (fst kc) (i - 1); aset (fst kc) i x);
                             do cs <- (do x <- aget (snd kc) (i - 1); aset (snd kc) i x);
                             Ok (ks, cs))
                (bk b, c0)
            else Ok (bk b, bc b));
  do ks <- aset (fst kc) pos (skey si);
  do cs <- aset (snd kc) pos (sleft si);
  do cs' <- aset cs (pos + 1) (sright si);
  Ok (set_branch h host (Branch (S n) ks cs')).

(** insertInBranchNode, PBPTree.hpp:1063-1108 (BPTree 904-950, Unsorted 1070-1115, FPTree 637-681). *)
Fixpoint insert_branch (h : hp) (d id : nat) (key : Z) (val : V) : res (hp * option split) :=
  match d with
  | 0 => UB
  | S d' =>
    do b <- getb h id;
    do pos <- lo_bpos O (bk b) (bn b) key;
    do c <- aget (bc b) pos;
    do r <- match d' with
            | 0 => insert_leaf h c key val
            | S _ => insert_branch h d' c key val
            end;
    match r with
    | (h1, None) => Ok (h1, None)
    | (h1, Some si) =>
      do b1 <- getb h1 id;
      if bn b1 =? N then
        do r2 <- split_branch h1 id (skey si);
        let '(h2, sp) := r2 in
        let host := if (key <? skey sp)%Z then sleft sp else sright sp in
        do bh <- getb h2 host;
        do pos' <- lo_bpos O (bk bh) (bn bh) key;
        do h3 <- insert_entry h2 host pos' si;
        Ok (h3, Some sp)
      else
        do h2 <- insert_entry h1 id pos si;
        Ok (h2, None)
    end
  end.

(** insert, PBPTree.hpp:210-235 (BPTree 189-212, Unsorted 219-244, FPTree 305-329). *)
Definition t_insert (t : tree) (key : Z) (val : V) : res tree :=
  do r <- match tdepth t with
          | 0 => insert_leaf (th t) (troot t) key val
          | S _ => insert_branch (th t) (tdepth t) (troot t) key val
          end;
  match r with
  | (h1, None) => Ok (Tree h1 (troot t) (tdepth t))
  | (h1, Some si) =>
    let '(i, h2) := new_branch h1 in
    do ks <- aset (bk empty_branch) 0 (skey si);
    do cs <- aset (bc empty_branch) 0 (sleft si);
    do cs' <- aset cs 1 (sright si);
    Ok (Tree (set_branch h2 i (Branch 1 ks cs')) i (S (tdepth t)))
  end.

(** ** Erase *)

(** eraseFromLeafNode, PBPTree.hpp:385-419 *)
Definition erase_leaf (h : hp) (id : nat) (key : Z) : res (bool * hp) :=
  do l <- getl h id;
  do r <- lo_erase O l key;
  Ok (fst r, set_leaf h id (snd r)).

(** balanceLeafNodes(donor, receiver), PBPTree.hpp:532-584 *)
Definition balance_leaf (h : hp) (donor recv : nat) : res hp :=
  do dl <- getl h donor;
  do rl <- getl h recv;
  do r <- lo_balance O dl rl;
  Ok (set_leaf (set_leaf h donor (fst r)) recv (snd r)).

(** mergeLeafNodes(node1, node2), PBPTree.hpp:491-522: entries, then node1.next = node2.next and
    the back link of the following leaf. *)
Definition merge_leaf (h : hp) (n1 n2 : nat) : res hp :=
  do l1 <- getl h n1;
  do l2 <- getl h n2;
  do l <- lo_merge O l1 l2;
  let h1 := set_nx (set_leaf h n1 l) n1 (hnx h n2) in
  match hnx h n2 with
  | Some n => set_pv_chk h1 n (Some n1)
  | None => Ok h1
  end.

(** deleteLeafNode / deleteBranchNode, PBPTree.hpp:1190-1198, 1216-1224: freeing a pointer that was
    already freed is [UB]; [delete_persistent] and [delete] of a null pointer do nothing. *)
Definition free_leaf (h : hp) (o : option nat) : res hp :=
  match o with None => Ok h | Some i => do _ <- getl h i; Ok (del_leaf h i) end.
Definition free_branch (h : hp) (i : nat) : res hp :=
  do _ <- getb h i; Ok (del_branch h i).

(** Removal of a child from the parent after a leaf merge, PBPTree.hpp:465-474
    (BPTree 391-399, Unsorted 451-460, FPTree 891-901). *)
Definition remove_child (h : hp) (id pos survivor : nat) : res hp :=
  do b <- getb h id;
  let p := if 0 <? pos then pos - 1 else pos in
  do kc <- for_up p (bn b - 1 - p)
             (fun i kc => do ks <- (do x <- aget (fst kc) (i + 1); aset (fst kc) i x);
                          do cs <- (do x <- aget (snd kc) (i + 2); aset (snd kc) (i + 1) x);
                          Ok (ks, cs))
             (bk b, bc b);
  do cs <- aset (snd kc) p survivor;
  Ok (set_branch h id (Branch (bn b - 1) (fst kc) cs)).

(** underflowAtLeafLevel, PBPTree.hpp:431-482 (BPTree 360-408, Unsorted 418-468, FPTree 858-908).
    The two [assert(false)] paths are [UB] (the code would go on with a null survivor). *)
Definition underflow_leaf (t : tree) (id pos leaf : nat) : res tree :=
  let h := th t in
  let middle := (M + 1) / 2 in
  do b <- getb h id;
  do _ <- getl h leaf;
  do prevNum <- (if 0 <? pos then
                   do p <- of_opt (hpv h leaf); do pl <- getl h p; Ok (lo_count O pl)
                 else Ok 0);
  if (0 <? pos) && (middle <? prevNum) then
    do p <- of_opt (hpv h leaf);
    do h1 <- balance_leaf h p leaf;
    do l <- getl h1 leaf;
    do k <- lo_minkey O l;
    do ks <- aset (bk b) (pos - 1) k;
    Ok (Tree (set_branch h1 id (Branch (bn b) ks (bc b))) (troot t) (tdepth t))
  else
  do nextNum <- (if pos <? bn b then
                   do n <- of_opt (hnx h leaf); do nl <- getl h n; Ok (lo_count O nl)
                 else Ok 0);
  if (pos <? bn b) && (middle <? nextNum) then
    do n <- of_opt (hnx h leaf);
    do h1 <- balance_leaf h n leaf;
    do nl <- getl h1 n;
    do k <- lo_minkey O nl;
    do ks <- aset (bk b) pos k;
    Ok (Tree (set_branch h1 id (Branch (bn b) ks (bc b))) (troot t) (tdepth t))
  else
  do r <- (if (0 <? pos) && (prevNum <=? middle) then
             do p <- of_opt (hpv h leaf);
             do h1 <- merge_leaf h p leaf;
             do h2 <- free_leaf h1 (Some leaf);
             Ok (h2, p)
           else if (pos <? bn b) && (nextNum <=? middle) then
             do n <- of_opt (hnx h leaf);
             do h1 <- merge_leaf h leaf n;
             do h2 <- free_leaf h1 (if lo_del_after O then hnx h1 leaf else Some n);
             Ok (h2, leaf)
           else UB);
  let '(h2, survivor) := r in
  if 1 <? bn b then
    do h3 <- remove_child h2 id pos survivor;
    Ok (Tree h3 (troot t) (tdepth t))
  else Ok (Tree h2 survivor (tdepth t - 1)).

(** mergeBranchNodes(sibling, key, node), PBPTree.hpp:641-664 (BPTree 539-553, Unsorted 624-648,
    FPTree 1161-1177). *)
Definition merge_branch (h : hp) (sib : nat) (key : Z) (node : nat) : res hp :=
  do nb <- getb h node;
  do sb <- getb h sib;
  do ks0 <- aset (bk sb) (bn sb) key;
  do c0 <- aget (bc nb) 0;
  do cs0 <- aset (bc sb) (bn sb + 1) c0;
  do kc <- for_up 0 (bn nb)
             (fun i kc => do ks <- (do x <- aget (bk nb) i; aset (fst kc) (bn sb + i + 1) x);
                          do cs <- (do x <- aget (bc nb) (i + 1); aset (snd kc) (bn sb + i + 2) x);
                          Ok (ks, cs))
             (ks0, cs0);
  Ok (set_branch h sib (Branch (bn sb + (bn nb + 1)) (fst kc) (snd kc))).

(** balanceBranchNodes(donor, receiver, parent, pos), PBPTree.hpp:745-811 (BPTree 651-710,
    Unsorted 727-792, FPTree 1049-1104). *)
Definition balance_branch (h : hp) (donor recv parent pos : nat) : res hp :=
  do db <- getb h donor;
  do rb <- getb h recv;
  do pb <- getb h parent;
  let dn := bn db in let rn := bn rb in
  let balancedNum := (dn + rn) / 2 in
  if dn <? balancedNum then UB else
  let toMove := dn - balancedNum in
  if toMove =? 0 then Ok h else
  do d0 <- aget (bk db) 0;
  do r0 <- aget (bk rb) 0;
  if (d0 <? r0)%Z then
    (* donor is on the left *)
    do x <- aget (bc rb) rn;
    do rc0 <- aset (bc rb) (rn + toMove) x;
    do kc <- for_down rn rn
               (fun i kc => do ks <- (do x <- aget (fst kc) (i - 1); aset (fst kc) (i + toMove - 1) x);
                            do cs <- (do x <- aget (snd kc) (i - 1); aset (snd kc) (i + toMove - 1) x);
                            Ok (ks, cs))
               (bk rb, rc0);
    do rc <- for_up 0 toMove
               (fun i c => do x <- aget (bc db) (dn - toMove + 1 + i); aset c i x) (snd kc);
    do rk <- for_up 0 (toMove - 1)
               (fun i c => do x <- aget (bk db) (dn - toMove + 1 + i); aset c i x) (fst kc);
    do pk <- aget (bk pb) pos;
    do rk' <- aset rk (toMove - 1) pk;
    do dk <- aget (bk db) (dn - toMove);
    do pks <- aset (bk pb) pos dk;
    Ok (set_branch (set_branch (set_branch h recv (Branch (rn + toMove) rk' rc))
                               donor (Branch (dn - toMove) (bk db) (bc db)))
                   parent (Branch (bn pb) pks (bc pb)))
  else
    do kc <- for_up 0 toMove
               (fun i kc => do ks <- (do x <- aget (bk db) i; aset (fst kc) (rn + 1 + i) x);
                            do cs <- (do x <- aget (bc db) i; aset (snd kc) (rn + 1 + i) x);
                            Ok (ks, cs))
               (bk rb, bc rb);
    do pk <- aget (bk pb) pos;
    do rk <- aset (fst kc) rn pk;
    do key <- aget (bk db) (toMove - 1);
    do dkc <- for_up 0 (dn - toMove)
               (fun i kc => do ks <- (do x <- aget (fst kc) (toMove + i); aset (fst kc) i x);
                            do cs <- (do x <- aget (snd kc) (toMove + i); aset (snd kc) i x);
                            Ok (ks, cs))
               (bk db, bc db);
    do x <- aget (snd dkc) dn;
    do dc <- aset (snd dkc) (dn - toMove) x;
    do pks <- aset (bk pb) pos key;
    Ok (set_branch (set_branch (set_branch h recv (Branch (rn + toMove) rk (snd kc)))
                               donor (Branch (dn - toMove) (fst dkc) dc))
                   parent (Branch (bn pb) pks (bc pb))).

(** Removal of key [ppos] and child from the parent after a branch merge, PBPTree.hpp:717-727
    (BPTree 622-632, Unsorted 701-711, FPTree 965-977). *)
Definition remove_branch_child (h : hp) (id ppos pos : nat) : res hp :=
  do b <- getb h id;
  do ks <- for_up ppos (bn b - 1 - ppos)
             (fun i k => do x <- aget k (i + 1); aset k i x) (bk b);
  let p := if pos =? 0 then 1 else pos in
  do cs <- for_up p (bn b - p)
             (fun i c => do x <- aget c (i + 1); aset c i x) (bc b);
  Ok (set_branch h id (Branch (bn b - 1) ks cs)).

(** underflowAtBranchLevel, PBPTree.hpp:677-731 (BPTree 568-637, Unsorted 661-715, FPTree 921-981). *)
Definition underflow_branch (h : hp) (id pos child : nat) : res (hp * nat) :=
  let middle := (N + 1) / 2 in
  do b <- getb h id;
  do prevNum <- (if 0 <? pos then
                   do p <- aget (bc b) (pos - 1); do pb <- getb h p; Ok (bn pb)
                 else Ok 0);
  if (0 <? pos) && (middle <? prevNum) then
    do p <- aget (bc b) (pos - 1);
    do h1 <- balance_branch h p child id (pos - 1);
    Ok (h1, child)
  else
  do nextNum <- (if pos <? bn b then
                   do n <- aget (bc b) (pos + 1); do nb <- getb h n; Ok (bn nb)
                 else Ok 0);
  if (pos <? bn b) && (middle <? nextNum) then
    do n <- aget (bc b) (pos + 1);
    do h1 <- balance_branch h n child id pos;
    Ok (h1, child)
  else if 0 <? prevNum then
    do p <- aget (bc b) (pos - 1);
    do k <- aget (bk b) (pos - 1);
    do h1 <- merge_branch h p k child;
    do h2 <- free_branch h1 child;
    do h3 <- remove_branch_child h2 id (pos - 1) pos;
    Ok (h3, p)
  else if 0 <? nextNum then
    do n <- aget (bc b) (pos + 1);
    do k <- aget (bk b) pos;
    do h1 <- merge_branch h child k n;
    do h2 <- free_branch h1 n;
    do h3 <- remove_branch_child h2 id pos pos;
    Ok (h3, child)
  else UB.

(** eraseFromBranchNode, PBPTree.hpp:598-631 (BPTree 495-528, Unsorted 580-614, FPTree 813-846). *)
Fixpoint erase_branch (t : tree) (d id : nat) (key : Z) : res (tree * bool) :=
  match d with
  | 0 => UB
  | S d' =>
    do b <- getb (th t) id;
    do pos <- lo_bpos O (bk b) (bn b) key;
    do c <- aget (bc b) pos;
    match d' with
    | 0 =>
      do r <- erase_leaf (th t) c key;
      let '(deleted, h1) := r in
      let t1 := Tree h1 (troot t) (tdepth t) in
      do l <- getl h1 c;
      if lo_count O l <? (M + 1) / 2 then
        do t2 <- underflow_leaf t1 id pos c;
        Ok (t2, deleted)
      else Ok (t1, deleted)
    | S _ =>
      do r <- erase_branch t d' c key;
      let '(t1, deleted) := r in
      do b1 <- getb (th t1) id;
      do pos1 <- lo_bpos O (bk b1) (bn b1) key;
      do cb <- getb (th t1) c;
      if bn cb <? (N + 1) / 2 then
        do r2 <- underflow_branch (th t1) id pos1 c;
        let '(h2, c') := r2 in
        do b2 <- getb h2 id;
        if (d =? tdepth t1) && (bn b2 =? 0) then
          Ok (Tree h2 c' (tdepth t1 - 1), deleted)
        else Ok (Tree h2 (troot t1) (tdepth t1), deleted)
      else Ok (t1, deleted)
    end
  end.

(** erase, PBPTree.hpp:284-297 (BPTree 242-253, Unsorted 274-287, FPTree 356-369). *)
Definition t_erase (t : tree) (key : Z) : res (tree * bool) :=
  match tdepth t with
  | 0 => do r <- erase_leaf (th t) (troot t) key;
         Ok (Tree (snd r) (troot t) (tdepth t), fst r)
  | S _ => erase_branch t (tdepth t) (troot t) key
  end.

(** ** Scans *)

(** Descent to [children[0]], PBPTree.hpp:321-325. *)
Fixpoint leftmost (h : hp) (d id : nat) : res nat :=
  match d with
  | 0 => Ok id
  | S d' => do b <- getb h id; do c <- aget (bc b) 0; leftmost h d' c
  end.

(** while (leaf != nullptr) ..., PBPTree.hpp:326-339. *)
Fixpoint scan_chain (fuel : nat) (h : hp) (o : option nat) : res (list (Z * V)) :=
  match o with
  | None => Ok []
  | Some i =>
    match fuel with
    | 0 => NoFuel
    | S f =>
      do l <- getl h i;
      do es <- lo_scan O l;
      do r <- scan_chain f h (hnx h i);
      Ok (es ++ r)
    end
  end.

(** scan(func), PBPTree.hpp:319-340 (BPTree 274-294, Unsorted 305-325, FPTree 423-444). The loop
    bound is the number of nodes ever allocated. *)
Definition t_scan (t : tree) : res (list (Z * V)) :=
  do i <- leftmost (th t) (tdepth t) (troot t);
  scan_chain (S (hfresh (th t))) (th t) (Some i).

(** scan(minKey, maxKey, func), PBPTree.hpp:350-369 (BPTree 304-320, FPTree 454-476). *)
Fixpoint range_chain (fuel : nat) (h : hp) (o : option nat) (lo hi : Z) : res (list (Z * V)) :=
  match o with
  | None => Ok []
  | Some i =>
    match fuel with
    | 0 => NoFuel
    | S f =>
      do l <- getl h i;
      do r <- lo_range O l lo hi;
      if snd r then Ok (fst r)
      else do r' <- range_chain f h (hnx h i) lo hi; Ok (fst r ++ r')
    end
  end.

Definition t_range (t : tree) (lo hi : Z) : res (list (Z * V)) :=
  do i <- find_leaf (th t) (tdepth t) (troot t) lo;
  range_chain (S (hfresh (th t))) (th t) (Some i) lo hi.

(** ** Histories *)
Inductive bop := BInsert (k : Z) (v : V) | BErase (k : Z).
Definition t_step (t : tree) (o : bop) : res tree :=
  match o with
  | BInsert k v => t_insert t k v
  | BErase k => do r <- t_erase t k; Ok (fst r)
  end.
Fixpoint t_run (t : tree) (os : list bop) : res tree :=
  match os with [] => Ok t | o :: r => do t' <- t_step t o; t_run t' r end.

End BTree.
