(** Stores issued by the merges of leaves, in program order (assumptions of CrashModel).

    The state is that of CrashSModel: [snode] is the surviving leaf, [ssib] the leaf behind it, which is
    emptied into it; [Rest] is what follows.  The second leaf is only read, so the stores carry what is
    read from it.  The deletion of the second leaf is a transaction of its own that comes afterwards. *)
From Verif Require Import Base RankModel BitmapModel BTreeModel SLeafModel FLeafModel CrashModel CrashSModel.
Open Scope nat_scope.

Inductive mstore (V : Type) :=
| MInto (s : store V)          (* store into the surviving leaf *)
| MUnlink | MPrev.             (* node1.nextLeaf = node2.nextLeaf; node2.nextLeaf->prevLeaf = node1 *)
Arguments MInto {V}. Arguments MUnlink {V}. Arguments MPrev {V}.

Section Machine.
Variables (V L : Type) (step : L -> store V -> res L).
Definition m_step (st : sstate L) (x : mstore V) : res (sstate L) :=
  match x with
  | MInto s => do a <- step (snode st) s; Ok (SState a (ssib st) (nnext st) (snext st))
  | MUnlink => Ok (SState (snode st) (ssib st) (snext st) (snext st))
  | MPrev => Ok st
  end.
Fixpoint m_exec (st : sstate L) (p : list (mstore V)) : res (sstate L) :=
  match p with
  | [] => Ok st
  | x :: r => do st' <- m_step st x; m_exec st' r
  end.
End Machine.

Definition m_init {L} (l1 l2 : L) (hasNext : bool) : sstate L := SState l1 l2 (Some Sib) (if hasNext then Some Rest else None).

(** PBPTree.hpp:510-514, UnsortedPBPTree.hpp:496-499, BitPBPTree.hpp:565-568, FPTree.hpp:1141-1144. *)
Definition unlink_stores {V} (hasNext : bool) : list (mstore V) := MUnlink :: (if hasNext then [MPrev] else []).

Section Programs.
Variables (V : Type) (M : nat).

(** mergeLeafNodes, PBPTree.hpp:501-514, UnsortedPBPTree.hpp:486-499. *)
Fixpoint take_stores (l2 : sleaf V) (n i n1 : nat) : res (list (store V)) :=
  match n with
  | 0 => Ok []
  | S n' =>
    do k <- aget (sk l2) i;
    do v <- aget (sv l2) i;
    do r <- take_stores l2 n' (S i) n1;
    Ok (SKey (n1 + i) k :: SVal (n1 + i) v :: r)
  end.
Definition sl_merge_stores (l1 l2 : sleaf V) (hasNext : bool) : res (list (mstore V)) :=
  do c <- take_stores l2 (sn l2) 0 (sn l1);
  Ok (map MInto (c ++ [SNum (sn l1 + sn l2)]) ++ unlink_stores hasNext).

(** mergeLeafNodes, FPTree.hpp:1132-1144 ([fpt] = true: bit, fingerprint, key, value) and
    BitPBPTree.hpp:557-568 (key, value, bit).  [b] is the bitmap of the surviving leaf. *)
Definition put_stores (fpt : bool) (u : nat) (k : Z) (v : V) (h : Z) : list (store V) :=
  if fpt then [SBit u; SFp u h; SKey u k; SVal u v] else [SKey u k; SVal u v; SBit u].
Fixpoint fill_stores (fpt : bool) (l2 : fleaf V) (n i : nat) (b : list N) : res (list (store V)) :=
  match n with
  | 0 => Ok []
  | S n' =>
    do t <- bm_test M (fb l2) i;
    if (t : bool) then
      do u <- getFreeZero b;
      do h <- lget (ff l2) i;
      do k <- aget (fk l2) i;
      do v <- aget (fv l2) i;
      do b' <- bm_set M b u true;
      do r <- fill_stores fpt l2 n' (S i) b';
      Ok (put_stores fpt u k v h ++ r)
    else fill_stores fpt l2 n' (S i) b
  end.
Definition fl_merge_stores (fpt : bool) (l1 l2 : fleaf V) (hasNext : bool) : res (list (mstore V)) :=
  do c <- fill_stores fpt l2 M 0 (fb l1);
  Ok (map MInto c ++ unlink_stores hasNext).
End Programs.
