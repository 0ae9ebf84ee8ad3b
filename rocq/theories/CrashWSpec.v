(** What the slot array of a wBPTree leaf lists; lookup and scan follow it, inserts take the first
    position whose bit is clear. *)
From Verif Require Import Base WbModel CrashSModel.
Open Scope nat_scope.

Section Spec.
Variables (V : Type).
Definition listed (l : wleaf V) (k : Z) (v : V) : Prop :=
  exists n i p, aget (ws l) 0 = Ok n /\ 1 <= i <= n /\ aget (ws l) i = Ok p /\ aget (wk l) p = Ok k /\ aget (wv l) p = Ok v.
(** Listed in the split leaf or in its sibling, once that is linked. *)
Definition list_reaches (st : sstate (wleaf V)) (k : Z) (v : V) : Prop :=
  listed (snode st) k v \/ (nnext st = Some Sib /\ listed (ssib st) k v).
End Spec.
