(** Small stores. *)
From Verif Require Import Base MapSpec EraseSpec.
Open Scope nat_scope.

(** Fewer than [B] entries, and histories that never store more. *)
Definition few {V} (B : nat) (m : amap V) : Prop := forall ks, NoDup ks -> (forall k, In k ks -> m k <> None) -> length ks < B.
Fixpoint few_hist {V} (B : nat) (m : amap V) (os : list (mop V)) : Prop :=
  few B m /\ match os with [] => True | o :: r => few_hist B (m_step m o) r end.
