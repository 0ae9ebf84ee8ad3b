(** What a leaf holds, read slot by slot, and what failure-atomic means. *)
From Verif Require Import Base BitmapModel BTreeModel SearchModel SLeafModel ULeafModel FLeafModel CrashModel.
Open Scope nat_scope.

Section Spec.
Variable V : Type.

(** Contents of the slots of a leaf. *)
Definition slots := nat -> option (Z * V).
Definition has (s : slots) (k : Z) (v : V) : Prop := exists i, s i = Some (k, v).
Definition absent (s : slots) (k : Z) : Prop := forall v, ~ has s k v.
Definition same (s s' : slots) : Prop := forall k v, has s' k v <-> has s k v.
Definition plus (s : slots) (key : Z) (val : V) (s' : slots) : Prop :=
  forall k v, has s' k v <-> has s k v \/ (k = key /\ v = val).
Definition minus (s : slots) (key : Z) (s' : slots) : Prop :=
  forall k v, has s' k v <-> has s k v /\ k <> key.

(** A lookup result that agrees with the slots. *)
Definition answers (s : slots) (k : Z) (r : option V) : Prop := forall v, r = Some v <-> has s k v.

(** A listing that agrees with the slots. *)
Definition reports (s : slots) (out : list (Z * V)) : Prop :=
  NoDup (map fst out) /\ forall k v, In (k, v) out <-> has s k v.

Definition pair_of (k : res Z) (v : res V) : option (Z * V) :=
  match k, v with Ok k, Ok v => Some (k, v) | _, _ => None end.

(** Counter leaves: slots below numKeys. *)
Definition s_slots (l : sleaf V) : slots :=
  fun i => if i <? sn l then pair_of (aget (sk l) i) (aget (sv l) i) else None.
(** Bitmap leaves: slots whose bit is set. *)
Definition b_slots (M : nat) (l : bleaf V) : slots :=
  fun i => match bm_test M (bb l) i with Ok true => pair_of (aget (bkey l) i) (aget (bval l) i) | _ => None end.
Definition f_slots (M : nat) (l : fleaf V) : slots :=
  fun i => match bm_test M (fb l) i with Ok true => pair_of (aget (fk l) i) (aget (fv l) i) | _ => None end.

(** Leaves reachable from a new one by inserts without split, erases of present keys, and inserts
    of new keys cut short by a failure. *)
Inductive b_reach (M : nat) : bleaf V -> Prop :=
| BR_new : b_reach M (bl_new V M)
| BR_ins l k v l' : b_reach M l -> bl_insert M l k v = Ok l' -> b_reach M l'
| BR_del l k b l' : b_reach M l -> bl_erase M l k = Ok (b, l') -> b_reach M l'
| BR_crash l k v p n l' : b_reach M l -> absent (b_slots M l) k -> bl_stores l k v = Ok p ->
    exec (@b_step V M) l (firstn n p) = Ok l' -> b_reach M l'.

Inductive u_reach (t : RankModel.ktype) (M : nat) : sleaf V -> Prop :=
| UR_new : u_reach t M (sl_new V M)
| UR_ins l k v l' : u_reach t M l -> ul_insert t M l k v = Ok (LDone l') -> u_reach t M l'
| UR_del l k v b l' : u_reach t M l -> has (s_slots l) k v -> ul_erase l k = Ok (b, l') -> u_reach t M l'
| UR_crash l k v n l' : u_reach t M l -> absent (s_slots l) k -> sn l < M ->
    exec (@s_step V) l (firstn n (ul_stores l k v)) = Ok l' -> u_reach t M l'.

(** FPTree: no failures here, see C19_refuted. *)
Inductive f_reach (t : RankModel.ktype) (fp : Z -> Z) (junk : nat -> Z) (M : nat) : fleaf V -> Prop :=
| FR_new : f_reach t fp junk M (fl_new V junk M)
| FR_ins l k v l' : f_reach t fp junk M l -> fl_insert t fp junk M l k v = Ok (LDone l') -> f_reach t fp junk M l'
| FR_del l k b l' : f_reach t fp junk M l -> fl_erase fp M l k = Ok (b, l') -> f_reach t fp junk M l'.
End Spec.

(** Sorted leaves. *)
Definition s_ok {V} (M : nat) (l : sleaf V) : Prop :=
  sn l <= M /\ length (sk l) = M /\ length (sv l) = M /\
  (forall i, i < sn l -> exists k v, aget (sk l) i = Ok k /\ aget (sv l) i = Ok v) /\
  forall i j k k', i < j < sn l -> aget (sk l) i = Ok k -> aget (sk l) j = Ok k' -> (k < k')%Z.
