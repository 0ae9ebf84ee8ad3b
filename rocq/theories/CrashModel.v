(** Stores issued by the leaf inserts and erases, in program order, and what a power failure leaves behind.

    Assumption (stated in DESIGN.md): stores become durable in program order and each store below is
    atomic; a failure therefore leaves the effect of a prefix of the stores. *)
From Verif Require Import Base RankModel BitmapModel BTreeModel SearchModel SLeafModel ULeafModel FLeafModel.
Open Scope nat_scope.

(** One store; [Copy..] stores read the source when executed. *)
Inductive store (V : Type) :=
| SKey (i : nat) (k : Z) | SVal (i : nat) (v : V)
| CopyKey (i j : nat) | CopyVal (i j : nat)      (* a[i] = a[j] *)
| SNum (n : nat) | SBit (i : nat) | SFp (i : nat) (h : Z)
| SClear (i : nat).                              (* bits.reset(i) *)
Arguments SKey {V}. Arguments CopyKey {V}. Arguments CopyVal {V}. Arguments SNum {V}. Arguments SBit {V}. Arguments SFp {V}. Arguments SClear {V}.

Fixpoint exec {L V} (step : L -> store V -> res L) (l : L) (p : list (store V)) : res L :=
  match p with
  | [] => Ok l
  | s :: r => do l' <- step l s; exec step l' r
  end.

Section Stores.
Variables (V : Type) (M : nat).

(** ** Leaves with a counter: PBPTree, UnsortedPBPTree *)
Definition s_step (l : sleaf V) (s : store V) : res (sleaf V) :=
  match s with
  | SKey i k => do ks <- aset (sk l) i k; Ok (SLeaf (sn l) ks (sv l))
  | SVal i v => do vs <- aset (sv l) i v; Ok (SLeaf (sn l) (sk l) vs)
  | CopyKey i j => do x <- aget (sk l) j; do ks <- aset (sk l) i x; Ok (SLeaf (sn l) ks (sv l))
  | CopyVal i j => do x <- aget (sv l) j; do vs <- aset (sv l) i x; Ok (SLeaf (sn l) (sk l) vs)
  | SNum n => Ok (SLeaf n (sk l) (sv l))
  | SBit _ | SFp _ _ | SClear _ => UB
  end.

(** insertInLeafNodeAtLastPosition, UnsortedPBPTree.hpp:997-1007. *)
Definition ul_stores (l : sleaf V) (key : Z) (val : V) : list (store V) :=
  [SKey (sn l) key; SVal (sn l) val; SNum (S (sn l))].

(** insertInLeafNodeAtPosition, PBPTree.hpp:988-1010. *)
Fixpoint shift_stores (n hi : nat) : list (store V) :=
  match n with
  | 0 => []
  | S n' => CopyKey hi (hi - 1) :: CopyVal hi (hi - 1) :: shift_stores n' (pred hi)
  end.
Definition sl_stores (l : sleaf V) (pos : nat) (key : Z) (val : V) : list (store V) :=
  shift_stores (sn l - pos) (sn l) ++ [SKey pos key; SVal pos val; SNum (S (sn l))].

(** eraseFromLeafNodeAtPosition, PBPTree.hpp:402-419. *)
Fixpoint unshift_stores (n lo : nat) : list (store V) :=
  match n with
  | 0 => []
  | S n' => CopyKey lo (lo + 1) :: CopyVal lo (lo + 1) :: unshift_stores n' (S lo)
  end.
Definition sl_erase_stores (l : sleaf V) (pos : nat) : list (store V) :=
  unshift_stores (sn l - 1 - pos) pos ++ [SNum (sn l - 1)].

(** eraseFromLeafNodeAtPosition, UnsortedPBPTree.hpp:388-406. *)
Definition ul_erase_stores (l : sleaf V) (pos : nat) : list (store V) :=
  let n := sn l - 1 in
  SNum n :: (if pos =? n then [] else [CopyKey pos n; CopyVal pos n]).

(** ** Leaves with a bitmap: BitPBPTree (LeafNode, BitPBPTree.hpp:124-143) *)
Record bleaf := BLeaf { bb : list N; bkey : arr Z; bval : arr V }.
Definition bl_new : bleaf := BLeaf (bm_new M) (anew M) (anew M).

Definition b_step (l : bleaf) (s : store V) : res bleaf :=
  match s with
  | SKey i k => do ks <- aset (bkey l) i k; Ok (BLeaf (bb l) ks (bval l))
  | SVal i v => do vs <- aset (bval l) i v; Ok (BLeaf (bb l) (bkey l) vs)
  | SBit i => do b <- bm_set M (bb l) i true; Ok (BLeaf b (bkey l) (bval l))
  | SClear i => do b <- bm_reset M (bb l) i; Ok (BLeaf b (bkey l) (bval l))
  | _ => UB
  end.

(** lookupPositionInLeafNode, BitPBPTree.hpp:1131-1140. *)
Fixpoint bl_find (rounds : nat) (l : bleaf) (pos : nat) (key : Z) : res nat :=
  match rounds with
  | 0 => Ok pos
  | S n =>
    do b <- bm_test M (bb l) pos;
    do hit <- (if (b : bool) then do k <- aget (bkey l) pos; Ok (k =? key)%Z else Ok false);
    if (hit : bool) then Ok pos else bl_find n l (S pos) key
  end.
Definition bl_pos (l : bleaf) (key : Z) : res nat := bl_find M l 0 key.

(** Leaf part of lookup, 309-321. *)
Definition bl_lookup (l : bleaf) (key : Z) : res (option V) :=
  do pos <- bl_pos l key;
  if pos <? M then do v <- aget (bval l) pos; Ok (Some v) else Ok None.

(** Leaf part of scan(func), 375-387. *)
Definition bl_scan (l : bleaf) : res (list (Z * V)) :=
  for_up 0 M
    (fun i out => do b <- bm_test M (bb l) i;
                  if (b : bool) then do k <- aget (bkey l) i; do v <- aget (bval l) i; Ok (out ++ [(k, v)])
                  else Ok out)
    [].

(** Leaf part of scan(minKey, maxKey, func), 404-416: the bit test is the wrong way round. *)
Definition bl_range (l : bleaf) (lo hi : Z) : res (list (Z * V) * bool) :=
  for_up 0 M
    (fun i (s : list (Z * V) * bool) =>
       do b <- bm_test M (bb l) i;
       if (b : bool) then Ok s else
       do k <- aget (bkey l) i;
       if (k <? lo)%Z then Ok s else
       if (k >? hi)%Z then Ok (fst s, true) else
       do v <- aget (bval l) i; Ok (fst s ++ [(k, v)], snd s))
    ([], false).

(** insertInLeafNode for a new key and a leaf with a free slot, 872-909 with 983-993. *)
Definition bl_stores (l : bleaf) (key : Z) (val : V) : res (list (store V)) :=
  do u <- getFreeZero (bb l);
  Ok [SKey u key; SVal u val; SBit u].

(** The same for a key that may be present. *)
Definition bl_insert (l : bleaf) (key : Z) (val : V) : res bleaf :=
  do pos <- bl_pos l key;
  if pos <? M then exec b_step l [SVal pos val] else
  do p <- bl_stores l key val; exec b_step l p.

(** eraseFromLeafNode, 438-462. *)
Definition bl_erase (l : bleaf) (key : Z) : res (bool * bleaf) :=
  do pos <- bl_pos l key;
  if pos <? M then do b <- bm_reset M (bb l) pos; Ok (true, BLeaf b (bkey l) (bval l)) else Ok (false, l).

(** eraseFromLeafNodeAtPosition, BitPBPTree.hpp:451-460 and FPTree.hpp:794-802. *)
Definition bl_erase_stores (pos : nat) : list (store V) := [SClear pos].

(** ** FPTree *)
Variables (fp : Z -> Z).
Definition f_step (l : fleaf V) (s : store V) : res (fleaf V) :=
  match s with
  | SKey i k => do ks <- aset (fk l) i k; Ok (FLeaf (fb l) (ff l) ks (fv l))
  | SVal i v => do vs <- aset (fv l) i v; Ok (FLeaf (fb l) (ff l) (fk l) vs)
  | SBit i => do b <- bm_set M (fb l) i true; Ok (FLeaf b (ff l) (fk l) (fv l))
  | SFp i h => do f <- of_opt (lset (ff l) i h); Ok (FLeaf (fb l) f (fk l) (fv l))
  | SClear i => do b <- bm_reset M (fb l) i; Ok (FLeaf b (ff l) (fk l) (fv l))
  | _ => UB
  end.

(** insertInLeafNode for a new key and a leaf with a free slot, FPTree.hpp:493-529 with 611-624. *)
Definition fl_stores (l : fleaf V) (key : Z) (val : V) : res (list (store V)) :=
  do u <- getFreeZero (fb l);
  Ok [SKey u key; SVal u val; SBit u; SFp u (fp key)].
End Stores.
Arguments bb {V}. Arguments bkey {V}. Arguments bval {V}.
