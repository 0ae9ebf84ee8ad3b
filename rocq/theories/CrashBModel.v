(** Stores issued when entries are moved between neighbouring leaves (balanceLeafNodes), in program order
    (assumptions of CrashModel).

    The state is the pair of the donor and the receiver.  Both stay in the list of leaves throughout; no link
    is written.  Where a store reads the other leaf, it carries what is read: the donor's entries that
    are moved are not written before. *)
From Verif Require Import Base RankModel BitmapModel BTreeModel SearchModel SLeafModel ULeafModel FLeafModel CrashModel CrashMModel.
Open Scope nat_scope.

Inductive dstore (V : Type) := DDon (s : store V) | DRec (s : store V).
Arguments DDon {V}. Arguments DRec {V}.

Section Machine.
Variables (V L : Type) (step : L -> store V -> res L).
Definition d_step (st : L * L) (x : dstore V) : res (L * L) :=
  match x with
  | DDon s => do a <- step (fst st) s; Ok (a, snd st)
  | DRec s => do b <- step (snd st) s; Ok (fst st, b)
  end.
Fixpoint d_exec (st : L * L) (p : list (dstore V)) : res (L * L) :=
  match p with
  | [] => Ok st
  | x :: r => do st' <- d_step st x; d_exec st' r
  end.
(** [n] rounds of a loop whose body stores what [round] says in the state it starts from. *)
Fixpoint rounds (round : L * L -> res (list (dstore V))) (n : nat) (st : L * L) : res (list (dstore V)) :=
  match n with
  | 0 => Ok []
  | S n' => do p <- round st; do st' <- d_exec st p; do r <- rounds round n' st'; Ok (p ++ r)
  end.
End Machine.

Section Programs.
Variables (V : Type) (t : ktype) (M : nat) (fp : Z -> Z).

(** ** PBPTree *)
(** PBPTree.hpp:550-554: room at the front of the receiver. *)
Fixpoint gap_stores (n toMove : nat) : list (store V) :=
  match n with
  | 0 => []
  | S n' => CopyKey (n + toMove - 1) (n - 1) :: CopyVal (n + toMove - 1) (n - 1) :: gap_stores n' toMove
  end.
(** 556-560 and 567-571: donor slot [i] to receiver slot [j], with the counter. *)
Fixpoint give_stores (d : sleaf V) (n i j rn : nat) : res (list (store V)) :=
  match n with
  | 0 => Ok []
  | S n' =>
    do k <- aget (sk d) i;
    do v <- aget (sv d) i;
    do r <- give_stores d n' (S i) (S j) (S rn);
    Ok (SKey j k :: SVal j v :: SNum (S rn) :: r)
  end.
(** 575-578: the donor closes its gap. *)
Fixpoint close_stores (n i toMove : nat) : list (store V) :=
  match n with
  | 0 => []
  | S n' => CopyKey i (toMove + i) :: CopyVal i (toMove + i) :: close_stores n' (S i) toMove
  end.
(** balanceLeafNodes, PBPTree.hpp:532-584. *)
Definition sl_balance_stores (d r : sleaf V) : res (list (dstore V)) :=
  let dn := sn d in let rn := sn r in
  let balancedNum := (dn + rn) / 2 in
  if dn <? balancedNum then UB else
  let toMove := dn - balancedNum in
  if toMove =? 0 then Ok [] else
  do d0 <- aget (sk d) 0;
  do r0 <- aget (sk r) 0;
  if (d0 <? r0)%Z then
    do g <- give_stores d toMove balancedNum 0 rn;
    Ok (map DRec (gap_stores rn toMove ++ g) ++ [DDon (SNum (dn - toMove))])
  else
    do g <- give_stores d toMove 0 rn rn;
    Ok (map DRec g ++ map DDon (close_stores balancedNum 0 toMove ++ [SNum (dn - toMove)])).

(** ** UnsortedPBPTree.hpp:534-546 and 550-562 *)
Definition u_round (find : arr Z -> nat -> res nat) (st : sleaf V * sleaf V) : res (list (dstore V)) :=
  let '(d, r) := st in
  do p <- find (sk d) (sn d);
  do k <- aget (sk d) p;
  do v <- aget (sv d) p;
  if sn d =? 0 then UB else
  let n := sn d - 1 in
  Ok [DRec (SKey (sn r) k); DRec (SVal (sn r) v); DRec (SNum (S (sn r)));
      DDon (SNum n); DDon (CopyKey p n); DDon (CopyVal p n)].
(** balanceLeafNodes, UnsortedPBPTree.hpp:516-565. *)
Definition ul_balance_stores (d r : sleaf V) : res (list (dstore V)) :=
  let dn := sn d in let rn := sn r in
  let balancedNum := (dn + rn) / 2 in
  if dn <? balancedNum then UB else
  let toMove := dn - balancedNum in
  if toMove =? 0 then Ok [] else
  do d0 <- aget (sk d) 0;
  do r0 <- aget (sk r) 0;
  rounds (@s_step V) (u_round (if (d0 <? r0)%Z then findMaxKeyPos else findMinKeyPos)) toMove (d, r).

(** ** FPTree.hpp:1010-1030 ([fpt] = true) and BitPBPTree.hpp:606-624 (key, value, bit) *)
Definition f_round (fpt : bool) (find : fleaf V -> res nat) (st : fleaf V * fleaf V) : res (list (dstore V)) :=
  let '(d, r) := st in
  do m <- find d;
  do u <- getFreeZero (fb r);
  do k <- aget (fk d) m;
  do v <- aget (fv d) m;
  Ok (map DRec (put_stores fpt u k v (fp k)) ++ [DDon (SClear m)]).
(** balanceLeafNodes, FPTree.hpp:991-1036, BitPBPTree.hpp:585-630. *)
Definition fl_balance_stores (fpt : bool) (d r : fleaf V) : res (list (dstore V)) :=
  let dn := fl_count d in let rn := fl_count r in
  let balancedNum := (dn + rn) / 2 in
  if dn <? balancedNum then UB else
  let toMove := dn - balancedNum in
  if toMove =? 0 then Ok [] else
  do d0 <- aget (fk d) 0;
  do r0 <- aget (fk r) 0;
  rounds (@f_step V M) (f_round fpt (if (d0 <? r0)%Z then fl_maxpos t M else fl_minpos t M)) toMove (d, r).
End Programs.

(** What a traversal reports of the two leaves, donor first or last. *)
Definition pair_scan {L V} (scan : L -> res (list (Z * V))) (donorFirst : bool) (st : L * L) : res (list (Z * V)) :=
  do a <- scan (fst st);
  do b <- scan (snd st);
  Ok (if donorFirst then a ++ b else b ++ a).
