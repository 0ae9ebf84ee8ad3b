(** What a printed BitPBPTree shows. *)
From Verif Require Import Base BTreeModel FLeafModel BitTreeModel PrintModel PrintSpec.
From Coq Require Import Sorted.
Open Scope nat_scope.

(** [b'] lists the used positions of the branch node [b] from left to right; the last child is at position [N]. *)
Definition by_position (N : nat) (b : bbranch) (b' : branch) : Prop :=
  exists ps, StronglySorted lt ps /\ (forall p, In p ps <-> p < N /\ nth_error (bbits b) p = Some true) /\ bn b' = length ps /\
  (forall j p, nth_error ps j = Some p -> exists k c,
     aget (bbk b) p = Ok k /\ aget (bk b') j = Ok k /\ aget (bbc b) p = Ok c /\ aget (bc b') j = Ok c) /\
  exists c, aget (bbc b) N = Ok c /\ aget (bc b') (bn b') = Ok c.

(** [out] is an outline of the tree, with the children of a branch node in the order of their positions. *)
Definition bdrawing {V} (N : nat) (tr : btree V) (out : list line) : Prop :=
  exists h : heap (fleaf V), hl h = hl (bth tr) /\ drawing h (bdepth tr) (broot tr) out /\
    Forall (fun i => exists b b', btb tr i = Some b /\ hb h i = Some b' /\ by_position N b b') (branch_nodes out).
