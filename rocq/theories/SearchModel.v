(** Model of the position searches used inside nodes. *)
From Verif Require Import Base.
Open Scope Z_scope.

(** utils/SearchFunctions.hpp:233-247, binarySearch<isBranch>(keys, l, r, key).
    [l], [r] are C ints (here [Z], so [r = -1] for an empty prefix is representable),
    [pos] is the unsigned result variable.  [fuel] bounds the number of rounds. *)
Fixpoint bsearch (fuel : nat) (isBranch : bool) (keys : arr Z) (l r : Z) (pos : nat) (key : Z) : res nat :=
  if l <=? r then
    match fuel with
    | O => NoFuel
    | S f =>
      let pos := Z.to_nat ((l + r) / 2) in
      do k <- aget keys pos;
      if k =? key then Ok (if isBranch then S pos else pos)
      else if k <? key then bsearch f isBranch keys (Z.of_nat (S pos)) r (S pos) key
      else bsearch f isBranch keys l (Z.of_nat pos - 1) pos key
    end
  else Ok pos.

(** The call [binarySearch<isBranch>(keys, 0, num-1, key)],
    pbptrees/PBPTree.hpp:1145-1165 (lookupPositionInBranchNode / lookupPositionInLeafNode). *)
Definition bsearch_pos (isBranch : bool) (keys : arr Z) (num : nat) (key : Z) : res nat :=
  bsearch (S num) isBranch keys 0 (Z.of_nat num - 1) 0 key.

(** pbptrees/BPTree.hpp:988-997 (branch: [keys[pos] <= key]) and
    1008-1017 (leaf: [keys[pos] < key]): linear search. *)
Fixpoint lsearch (rounds : nat) (isBranch : bool) (keys : arr Z) (pos : nat) (key : Z) : res nat :=
  match rounds with
  | O => Ok pos
  | S n =>
    do k <- aget keys pos;
    if (if isBranch then k <=? key else k <? key) then lsearch n isBranch keys (S pos) key else Ok pos
  end.

Definition lsearch_pos (isBranch : bool) (keys : arr Z) (num : nat) (key : Z) : res nat :=
  lsearch num isBranch keys 0 key.

(** utils/SearchFunctions.hpp:259-274, the variant with a slot array: [slots[1..]] lists the
    positions of the keys in ascending key order.  Slot values are uint8_t. *)
Fixpoint sbsearch (fuel : nat) (isBranch : bool) (keys : arr Z) (slots : arr nat) (l r : Z) (pos : nat) (key : Z) : res nat :=
  if l <=? r then
    match fuel with
    | O => NoFuel
    | S f =>
      let pos := Z.to_nat ((l + r) / 2) in
      do s <- aget slots pos;
      do k <- aget keys s;
      if k =? key then Ok (if isBranch then S pos else pos)
      else if k <? key then sbsearch f isBranch keys slots (Z.of_nat (S pos)) r (S pos) key
      else sbsearch f isBranch keys slots l (Z.of_nat pos - 1) pos key
    end
  else Ok pos.

(** The call [binarySearch<isBranch>(keys, slots, 1, slots[0], key)], pbptrees/wBPTree.hpp:783, 801. *)
Definition sbsearch_pos (isBranch : bool) (keys : arr Z) (slots : arr nat) (key : Z) : res nat :=
  do n <- aget slots 0;
  sbsearch (S n) isBranch keys slots 1 (Z.of_nat n) 1 key.
