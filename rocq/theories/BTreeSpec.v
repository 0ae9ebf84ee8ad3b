(** Vocabulary of the tree properties: histories over the abstract map, and the shape of the
    node heap.  Nothing here refers to the invariants used in the proofs. *)
From Verif Require Import Base MapSpec BTreeModel.
Open Scope nat_scope.

(** The call on the tree that corresponds to an operation on the abstract map. *)
Definition bop_of {V} (o : mop V) : bop V :=
  match o with OpInsert k v => BInsert k v | OpErase _ k => BErase V k end.

(** Histories without erase; [ins_ok kok]: with keys satisfying [kok] only. *)
Definition ins_ok {V} (kok : Z -> Prop) (o : mop V) : Prop :=
  match o with OpInsert k _ => kok k | OpErase _ _ => False end.
Definition is_insert {V} (o : mop V) : Prop := match o with OpInsert _ _ => True | OpErase _ _ => False end.

(** [out] consists of runs of at most [M] entries; keys grow from run to run. *)
Definition in_runs {V} (M : nat) (out : list (Z * V)) : Prop :=
  exists segs, out = concat segs /\ Forall (fun s => length s <= M) segs /\
    ForallOrdPairs (fun a b => forall x y, In x (map fst a) -> In y (map fst b) -> (x < y)%Z) segs.

Section Shape.
Variables (L V : Type) (N M minL minB : nat) (O : leafops L V) (h : heap L).

(** [shape d r i n]: below node [i] every leaf is exactly [d] levels down; leaves hold
    [minL..M] entries and branch nodes [minB..N] keys, except that the root ([r = true])
    may be a leaf with fewer entries or a branch with a single key; there are [n] entries. *)
Inductive shape : nat -> bool -> nat -> nat -> Prop :=
| shape_leaf r i l :
    hl h i = Some l -> lo_count O l <= M -> (r = false -> minL <= lo_count O l) ->
    shape 0 r i (lo_count O l)
| shape_branch d (r : bool) i b ns :
    hb h i = Some b -> bn b <= N -> (if r then 1 else minB) <= bn b ->
    length ns = S (bn b) ->
    (forall j n, nth_error ns j = Some n -> exists c, aget (bc b) j = Ok c /\ shape d false c n) ->
    shape (S d) r i (list_sum ns).
End Shape.
