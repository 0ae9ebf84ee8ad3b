(** Abstract specification: a finite map from integer keys to values, its histories,
    and what it means for a sequence of reported entries to list the map. *)
From Coq Require Export Sorting.Sorted.
From Verif Require Import Base.
Open Scope Z_scope.

Section MapSpec.
Variable V : Type.

Definition amap := Z -> option V.
Definition m_empty : amap := fun _ => None.
Definition m_put (m : amap) (k : Z) (v : V) : amap := fun x => if x =? k then Some v else m x.
Definition m_del (m : amap) (k : Z) : amap := fun x => if x =? k then None else m x.

(** [out] reports every entry of [m] exactly once, in strictly ascending key order. *)
Definition lists (m : amap) (out : list (Z * V)) : Prop :=
  StronglySorted Z.lt (map fst out) /\ forall k v, In (k, v) out <-> m k = Some v.

(** [out] reports exactly the entries of [m] with [lo <= key <= hi], once each, ascending. *)
Definition lists_range (m : amap) (lo hi : Z) (out : list (Z * V)) : Prop :=
  StronglySorted Z.lt (map fst out) /\
  forall k v, In (k, v) out <-> (m k = Some v /\ lo <= k <= hi).

(** [out] reports every entry exactly once, in any order. *)
Definition enumerates (m : amap) (out : list (Z * V)) : Prop :=
  NoDup (map fst out) /\ forall k v, In (k, v) out <-> m k = Some v.

(** [out] reports exactly the entries with [lo <= key <= hi], once each, in any order. *)
Definition enumerates_range (m : amap) (lo hi : Z) (out : list (Z * V)) : Prop :=
  NoDup (map fst out) /\ forall k v, In (k, v) out <-> (m k = Some v /\ lo <= k <= hi).

(** Updating operations; the map after a history is the fold of [m_step]. *)
Inductive mop := OpInsert (k : Z) (v : V) | OpErase (k : Z).
Definition m_step (m : amap) (o : mop) : amap :=
  match o with OpInsert k v => m_put m k v | OpErase k => m_del m k end.
Definition m_run (os : list mop) : amap := fold_left m_step os m_empty.

(** Histories that erase only keys present at that point. *)
Definition op_ok (m : amap) (o : mop) : Prop :=
  match o with OpInsert _ _ => True | OpErase k => m k <> None end.
Fixpoint hist_ok (m : amap) (os : list mop) : Prop :=
  match os with [] => True | o :: r => op_ok m o /\ hist_ok (m_step m o) r end.

End MapSpec.
Arguments m_empty {V}.
