(** What a history of inserts, some of them cut off by a power failure, may leave in a map. *)
From Verif Require Import Base MapSpec SkipModel.
Open Scope nat_scope.

Section Spec.
Variable V : Type.

(** A completed insert puts its entry; an insert cut off by a power failure puts it or changes nothing. *)
Fixpoint may_leave (m : amap V) (os : list (sop V)) (m' : amap V) : Prop :=
  match os with
  | [] => forall k, m' k = m k
  | SIns k v _ :: r => may_leave (m_put m k v) r m'
  | SCrash k v _ _ :: r => may_leave m r m' \/ may_leave (m_put m k v) r m'
  end.

(** The key of an operation, and the number its random level is drawn from. *)
Definition op_key (o : sop V) : Z := match o with SIns k _ _ => k | SCrash k _ _ _ => k end.
Definition op_rnd (o : sop V) : nat := match o with SIns _ _ r => r | SCrash _ _ r _ => r end.

(** Histories without power failures. *)
Definition put_op (o : Z * V * nat) : sop V := SIns (fst (fst o)) (snd (fst o)) (snd o).
Definition puts (os : list (Z * V * nat)) : amap V :=
  m_run (map (fun o => OpInsert (fst (fst o)) (snd (fst o))) os).
End Spec.
