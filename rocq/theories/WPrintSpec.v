(** What a printed wBPTree shows. *)
From Verif Require Import Base BitmapModel BitmapProofs BTreeModel WbModel PrintModel PrintSpec.
Open Scope nat_scope.

(** [b'] is the branch node [b] with its keys and children put into the order of the slots; the last child is at position [N]. *)
Definition in_order (N : nat) (b : wbranch) (b' : branch) : Prop :=
  aget (bs b) 0 = Ok (bn b') /\
  (forall j, j < bn b' -> exists p k c, aget (bs b) (S j) = Ok p /\ bit (bb b) p = true /\
     aget (wbk b) p = Ok k /\ aget (bk b') j = Ok k /\ aget (wbc b) p = Ok c /\ aget (bc b') j = Ok c) /\
  exists c, aget (wbc b) N = Ok c /\ aget (bc b') (bn b') = Ok c.

(** [out] is an outline of the tree, with the children of a branch node in the order of its slots. *)
Definition wdrawing {V} (N : nat) (t : wtree V) (out : list line) : Prop :=
  exists h : heap (wleaf V), hl h = hl (wth t) /\ drawing h (wdepth t) (wroot t) out /\
    Forall (fun i => exists b b', wtb t i = Some b /\ hb h i = Some b' /\ in_order N b b') (branch_nodes out).

(** All bits printed in the leaves are 1. *)
Definition all_set (out : list line) : Prop :=
  Forall (fun x => match x with LLeaf _ _ ss => Forall (fun s => fst s = true) ss | LBranch _ _ _ => True end) out.
