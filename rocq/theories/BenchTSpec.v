(** Completely filled trees, as the benchmarks of the trees want them. *)
From Verif Require Import Base BTreeModel.
Open Scope nat_scope.

(** All leaves below node [i] are [d] levels down and hold [M] entries; all branch nodes have [N] keys. *)
Inductive full {L V} (N M : nat) (O : leafops L V) (h : heap L) : nat -> nat -> Prop :=
| full_leaf i l : hl h i = Some l -> lo_count O l = M -> full N M O h 0 i
| full_branch d i b : hb h i = Some b -> bn b = N ->
    (forall j, j <= N -> exists c, aget (bc b) j = Ok c /\ full N M O h d c) -> full N M O h (S d) i.
