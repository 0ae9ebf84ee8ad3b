(** Stores issued by the leaf splits, in program order (assumptions of CrashModel).

    Two leaves are concerned: the full one and its new sibling, which is allocated in a transaction of its
    own (newLeafNode) before the first store.  The forward list of leaves is followed through the
    [nextLeaf] pointers of both; what was behind the full leaf before is [Rest].  The stores to prevLeaf
    are [XPrev]: they do not change the forward list. *)
From Verif Require Import Base RankModel BitmapModel BTreeModel SearchModel SLeafModel ULeafModel FLeafModel CrashModel.
Open Scope nat_scope.

Inductive ptr := Sib | Rest.
Record sstate (L : Type) := SState { snode : L; ssib : L; nnext : option ptr; snext : option ptr }.

Inductive xstore (V : Type) :=
| XNode (s : store V) | XSib (s : store V)              (* store into the full leaf / into the sibling *)
| XKey (j i : nat) | XVal (j i : nat) | XFp (j i : nat) (* sibling.a[j] = node.a[i] *)
| XSibNext | XNodeNext | XPrev.
Arguments XKey {V}. Arguments XVal {V}. Arguments XFp {V}. Arguments XSibNext {V}. Arguments XNodeNext {V}. Arguments XPrev {V}.

Section Machine.
Variables (V L : Type) (step : L -> store V -> res L).
Variables (kat : L -> nat -> res Z) (vat : L -> nat -> res V) (fat : L -> nat -> res Z).

Definition x_step (st : sstate L) (x : xstore V) : res (sstate L) :=
  let sib s := do b <- step (ssib st) s; Ok (SState (snode st) b (nnext st) (snext st)) in
  match x with
  | XNode s => do a <- step (snode st) s; Ok (SState a (ssib st) (nnext st) (snext st))
  | XSib s => sib s
  | XKey j i => do k <- kat (snode st) i; sib (SKey j k)
  | XVal j i => do v <- vat (snode st) i; sib (SVal j v)
  | XFp j i => do h <- fat (snode st) i; sib (SFp j h)
  | XSibNext => Ok (SState (snode st) (ssib st) (nnext st) (nnext st))
  | XNodeNext => Ok (SState (snode st) (ssib st) (Some Sib) (snext st))
  | XPrev => Ok st
  end.
Fixpoint x_exec (st : sstate L) (p : list (xstore V)) : res (sstate L) :=
  match p with
  | [] => Ok st
  | x :: r => do st' <- x_step st x; x_exec st' r
  end.
End Machine.

(** Before the first store. *)
Definition x_init {L} (l new : L) (hasNext : bool) : sstate L := SState l new (if hasNext then Some Rest else None) None.

(** The linking: PBPTree.hpp:960-967, UnsortedPBPTree.hpp:973-980, BitPBPTree.hpp:958-965, FPTree.hpp:582-589. *)
Definition link_stores {V} (hasNext : bool) : list (xstore V) :=
  (if hasNext then [XSibNext; XPrev] else []) ++ [XNodeNext; XPrev].

Section Programs.
Variables (V : Type) (t : ktype) (M : nat).

(** ** FPTree.hpp:568-577 ([fpt] = true) and BitPBPTree.hpp:945-953 ([fpt] = false) *)
Definition move_stores (fpt : bool) (i j : nat) : list (xstore V) :=
  [XKey j i; XVal j i] ++ (if fpt then [XFp j i] else []) ++ [XSib (SBit j); XNode (SClear i)].
Fixpoint moves (fpt : bool) (keys : list Z) (splitKey : Z) (i j : nat) : list (xstore V) :=
  match keys with
  | [] => []
  | k :: r => if (k >=? splitKey)%Z then move_stores fpt i j ++ moves fpt r splitKey (S i) (S j)
              else moves fpt r splitKey (S i) j
  end.
(** splitLeafNode, FPTree.hpp:539-590, BitPBPTree.hpp:919-966. *)
Definition fl_split_stores (fpt : bool) (l : fleaf V) (hasNext : bool) : res (list (xstore V)) :=
  do data <- read_all M 0 (fk l);
  do r <- findSplitKey t data;
  do splitKey <- aget (fk l) (snd r);
  Ok (moves fpt data splitKey 0 0 ++ link_stores hasNext).
Definition fx_exec (st : sstate (fleaf V)) (p : list (xstore V)) : res (sstate (fleaf V)) :=
  x_exec (@f_step V M) (fun l => aget (fk l)) (fun l => aget (fv l)) (fun l => lget (ff l)) st p.

(** ** PBPTree *)
Fixpoint half_stores (n i middle : nat) : list (xstore V) :=
  match n with
  | 0 => []
  | S n' => XKey i (i + middle) :: XVal i (i + middle) :: half_stores n' (S i) middle
  end.
(** splitLeafNode, PBPTree.hpp:939-967. *)
Definition sl_split_stores (l : sleaf V) (hasNext : bool) : list (xstore V) :=
  let middle := (M + 1) / 2 in
  let s := sn l - middle in
  XSib (SNum s) :: half_stores s 0 middle ++ XNode (SNum middle) :: link_stores hasNext.

(** ** UnsortedPBPTree *)
Fixpoint deal (keys : list Z) (splitKey : Z) (i n s : nat) : list (xstore V) :=
  match keys with
  | [] => [XNode (SNum n); XSib (SNum s)]
  | k :: r => if (k >=? splitKey)%Z then XKey s i :: XVal s i :: deal r splitKey (S i) n (S s)
              else XNode (CopyKey n i) :: XNode (CopyVal n i) :: deal r splitKey (S i) (S n) s
  end.
(** splitLeafNode, UnsortedPBPTree.hpp:944-980. *)
Definition ul_split_stores (l : sleaf V) (hasNext : bool) : res (list (xstore V)) :=
  do data <- read_all M 0 (sk l);
  do r <- findSplitKey t data;
  do splitKey <- aget (sk l) (snd r);
  Ok (deal data splitKey 0 0 0 ++ link_stores hasNext).
Definition sx_exec (st : sstate (sleaf V)) (p : list (xstore V)) : res (sstate (sleaf V)) :=
  x_exec (@s_step V) (fun l => aget (sk l)) (fun l => aget (sv l)) (fun _ _ => UB) st p.
End Programs.

(** What a traversal of the leaf list reports of the two leaves (scan, and the rebuild in recover). *)
Definition list_scan {L V} (scan : L -> res (list (Z * V))) (st : sstate L) : res (list (Z * V)) :=
  do a <- scan (snode st);
  match nnext st with
  | Some Sib => do b <- scan (ssib st); Ok (a ++ b)
  | _ => Ok a
  end.
