(** Stores issued by the leaf operations of wBPTree and wHBPTree, in program order (assumptions of
    CrashModel).  [hyb] = false is wBPTree, true is wHBPTree, which differs in the order of two stores. *)
From Verif Require Import Base BitmapModel SearchModel WbModel CrashSModel.
Open Scope nat_scope.

(** One store; [WCopy i j] is [slots[i] = slots[j]]. *)
Inductive wstore (V : Type) :=
| WKey (i : nat) (k : Z) | WVal (i : nat) (v : V)
| WSlot (i x : nat) | WCopy (i j : nat)
| WBit (i : nat) | WClear (i : nat).
Arguments WKey {V}. Arguments WSlot {V}. Arguments WCopy {V}. Arguments WBit {V}. Arguments WClear {V}.

Section Stores.
Variables (V : Type) (M : nat).

Definition w_step (l : wleaf V) (s : wstore V) : res (wleaf V) :=
  match s with
  | WKey i k => do a <- aset (wk l) i k; Ok (WLeaf (ws l) (wb l) a (wv l))
  | WVal i v => do a <- aset (wv l) i v; Ok (WLeaf (ws l) (wb l) (wk l) a)
  | WSlot i x => do a <- aset (ws l) i x; Ok (WLeaf a (wb l) (wk l) (wv l))
  | WCopy i j => do x <- cget (ws l) j; do a <- cset (ws l) i x; Ok (WLeaf a (wb l) (wk l) (wv l))
  | WBit i => do b <- bm_set M (wb l) i true; Ok (WLeaf (ws l) b (wk l) (wv l))
  | WClear i => do b <- bm_reset M (wb l) i; Ok (WLeaf (ws l) b (wk l) (wv l))
  end.
Fixpoint w_exec (l : wleaf V) (p : list (wstore V)) : res (wleaf V) :=
  match p with
  | [] => Ok l
  | s :: r => do l' <- w_step l s; w_exec l' r
  end.

(** insertInLeafNodeAtPosition, wBPTree.hpp:614-635, wHBPTree.hpp:624-643. *)
Fixpoint up_stores (n hi : nat) : list (wstore V) :=
  match n with
  | 0 => []
  | S n' => WCopy (hi + 1) hi :: up_stores n' (pred hi)
  end.
Definition w_insert_stores (hyb : bool) (l : wleaf V) (pos : nat) (key : Z) (val : V) : res (list (wstore V)) :=
  do u <- getFreeZero (wb l);
  do n <- aget (ws l) 0;
  Ok (WKey u key :: WVal u val :: up_stores (n + 1 - pos) n ++
      WSlot pos u :: (if hyb then [WSlot 0 (S n); WBit u] else [WBit u; WSlot 0 (S n)])).

(** eraseFromLeafNodeAtPosition, wBPTree.hpp:831-848, wHBPTree.hpp:818-833. *)
Fixpoint down_stores (n lo : nat) : list (wstore V) :=
  match n with
  | 0 => []
  | S n' => WCopy lo (lo + 1) :: down_stores n' (S lo)
  end.
Definition w_erase_stores (l : wleaf V) (pos : nat) : res (list (wstore V)) :=
  do p <- aget (ws l) pos;
  do n <- aget (ws l) 0;
  Ok (WClear p :: down_stores (n + 1 - pos) pos ++ [WSlot 0 (n - 1)]).

(** splitLeafNode, wBPTree.hpp:536-559, 589-597, wHBPTree.hpp:548-571, 599-607.  The keys and values read
    from the full leaf and its slots behind the first cell do not change during the split, so the stores
    carry them. *)
Inductive wxstore :=
| WNode (s : wstore V) | WSib (s : wstore V) | WSibNext | WNodeNext | WPrev.

Definition wx_step (st : sstate (wleaf V)) (x : wxstore) : res (sstate (wleaf V)) :=
  match x with
  | WNode s => do a <- w_step (snode st) s; Ok (SState a (ssib st) (nnext st) (snext st))
  | WSib s => do b <- w_step (ssib st) s; Ok (SState (snode st) b (nnext st) (snext st))
  | WSibNext => Ok (SState (snode st) (ssib st) (nnext st) (nnext st))
  | WNodeNext => Ok (SState (snode st) (ssib st) (Some Sib) (snext st))
  | WPrev => Ok st
  end.
Fixpoint wx_exec (st : sstate (wleaf V)) (p : list wxstore) : res (sstate (wleaf V)) :=
  match p with
  | [] => Ok st
  | x :: r => do st' <- wx_step st x; wx_exec st' r
  end.

Fixpoint wcopy_stores (l : wleaf V) (n i middle : nat) : res (list wxstore) :=
  match n with
  | 0 => Ok []
  | S n' =>
    do p <- aget (ws l) (i + middle);
    do k <- aget (wk l) p;
    do v <- aget (wv l) p;
    do r <- wcopy_stores l n' (S i) middle;
    Ok (WSib (WSlot i (i - 1)) :: WSib (WBit (i - 1)) :: WSib (WKey (i - 1) k) :: WSib (WVal (i - 1) v) :: r)
  end.
Fixpoint wreset_stores (l : wleaf V) (n i : nat) : res (list wxstore) :=
  match n with
  | 0 => Ok []
  | S n' => do p <- aget (ws l) (i + 1); do r <- wreset_stores l n' (S i); Ok (WNode (WClear p) :: r)
  end.
Definition wlink_stores (hasNext : bool) : list wxstore :=
  (if hasNext then [WSibNext; WPrev] else []) ++ [WNodeNext; WPrev].
Definition w_split_stores (l : wleaf V) (hasNext : bool) : res (list wxstore) :=
  let middle := (M + 1) / 2 in
  do n <- aget (ws l) 0;
  if n <? middle then UB else
  do c <- wcopy_stores l (n - middle) 1 middle;
  do r <- wreset_stores l (M - middle) middle;
  Ok (WSib (WSlot 0 (n - middle)) :: WNode (WSlot 0 middle) :: c ++ r ++ wlink_stores hasNext).
End Stores.
Arguments WNode {V}. Arguments WSib {V}. Arguments WSibNext {V}. Arguments WNodeNext {V}. Arguments WPrev {V}.
