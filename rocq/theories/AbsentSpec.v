(** Erase of a key that is not stored, in the classes with sorted leaves. *)
From Verif Require Import Base MapSpec BTreeModel EraseSpec SLeafModel.
Open Scope nat_scope.

(** What the leaf that [k] belongs to does when [k] is not in it.  [Some false]: a key of the leaf is larger than [k], or
    the slot behind the last entry holds another key: nothing is erased.  [Some true]: all keys are smaller and the slot
    behind the last entry still holds [k]: one entry too few is left.  [None]: that slot does not exist or was never
    written, or the leaf is empty and its first slot holds [k]. *)
Definition slot_kind {V} (l : sleaf V) (k : Z) : option bool :=
  if existsb (fun i => match aget (sk l) i with Ok x => (k <? x)%Z | _ => false end) (seq 0 (sn l)) then Some false
  else match aget (sk l) (sn l) with
       | Ok x => if (x =? k)%Z then if sn l =? 0 then None else Some true else Some false
       | _ => None
       end.

(** [p] is the largest stored key below [k]. *)
Definition below {V} (m : amap V) (k p : Z) : Prop := m p <> None /\ (p < k)%Z /\ forall q, m q <> None -> (q < k)%Z -> (q <= p)%Z.

(** Maps that may be there after operations on [m]: an erase of a key that is not stored changes nothing or takes the
    largest key below it. *)
Inductive after {V} : amap V -> list (mop V) -> amap V -> Prop :=
| after_nil m m' : (forall x, m' x = m x) -> after m [] m'
| after_ins m k v os m' : after (m_put m k v) os m' -> after m (OpInsert k v :: os) m'
| after_del m k os m' : m k <> None -> after (m_del m k) os m' -> after m (OpErase _ k :: os) m'
| after_keep m k os m' : m k = None -> after m os m' -> after m (OpErase _ k :: os) m'
| after_take m k p os m' : m k = None -> below m k p -> after (m_del m p) os m' -> after m (OpErase _ k :: os) m'.

(** ** UnsortedPBPTree *)
(** The leaf that [k] belongs to does not hold [k].  [Some false]: the slot behind the last entry holds another key.
    [Some true]: that slot still holds [k].  [None]: it does not exist or was never written, or the leaf is empty. *)
Definition uslot_kind {V} (l : sleaf V) (k : Z) : option bool :=
  match aget (sk l) (sn l) with
  | Ok x => if (x =? k)%Z then if sn l =? 0 then None else Some true else Some false
  | _ => None
  end.
(** The key in the last slot in use. *)
Definition ulast {V} (l : sleaf V) : res Z := aget (sk l) (sn l - 1).

(** What an erase of [k] does, with [m] stored, and the map it should leave. *)
Definition ukind {V} (l : sleaf V) (m : amap V) (k : Z) : option bool := if m k then Some true else uslot_kind l k.
Definition takes {V} (l : sleaf V) (m : amap V) (k : Z) (r : bool) (m' : amap V) : Prop :=
  if r then exists p, m p <> None /\ (if m k then p = k else ulast l = Ok p) /\ forall x, m' x = m_del m p x
  else forall x, m' x = m x.

(** Maps that may be there after operations on [m]: an erase of a key that is not stored changes nothing or takes a stored one. *)
Inductive loses {V} : amap V -> list (mop V) -> amap V -> Prop :=
| loses_nil m m' : (forall x, m' x = m x) -> loses m [] m'
| loses_ins m k v os m' : loses (m_put m k v) os m' -> loses m (OpInsert k v :: os) m'
| loses_del m k os m' : m k <> None -> loses (m_del m k) os m' -> loses m (OpErase _ k :: os) m'
| loses_keep m k os m' : m k = None -> loses m os m' -> loses m (OpErase _ k :: os) m'
| loses_take m k p os m' : m k = None -> m p <> None -> loses (m_del m p) os m' -> loses m (OpErase _ k :: os) m'.

(** Histories none of whose erases breaks the condition [rm_ok] (EraseSpec); erases that are undefined are no matter. *)
Fixpoint unspoilt {L V} (N M : nat) (O : leafops L V) (t : tree L) (os : list (bop V)) : bool :=
  match os with
  | [] => true
  | o :: r =>
    match o with
    | BInsert _ _ => true
    | BErase _ k => match leaf_guard M O (rm_ok M O) (th t) (tdepth t) (troot t) k with Ok false => false | _ => true end
    end &&
    match t_step N M O t o with Ok t' => unspoilt N M O t' r | _ => true end
  end.
