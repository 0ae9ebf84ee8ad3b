(** What a wBPTree leaf is supposed to look like, stated cell by cell. *)
From Verif Require Import Base MapSpec BitmapModel BitmapProofs WbModel.
Open Scope nat_scope.

Section Spec.
Variables (V : Type) (M : nat).

(** Position [p] is marked in the bitmap. *)
Definition in_use (l : wleaf V) (p : nat) : Prop := p < M /\ bit (wb l) p = true.

(** The arrays have the sizes of the class and the bitmap words are 64-bit words without stray bits. *)
Definition sized (l : wleaf V) : Prop :=
  length (ws l) = S M /\ length (wk l) = M /\ length (wv l) = M /\ bm_ok M (wb l).

(** [slot[1..n]] is a duplicate-free enumeration of exactly the used positions, in ascending key order. *)
Definition slot_order (l : wleaf V) : Prop :=
  exists n, aget (ws l) 0 = Ok n /\ n <= M /\
    (forall i, 1 <= i <= n -> exists p, aget (ws l) i = Ok p /\ in_use l p) /\
    (forall p, in_use l p -> exists i, 1 <= i <= n /\ aget (ws l) i = Ok p) /\
    (forall i j p, 1 <= i <= n -> 1 <= j <= n -> aget (ws l) i = Ok p -> aget (ws l) j = Ok p -> i = j) /\
    (forall i j p q k k', 1 <= i -> i < j -> j <= n -> aget (ws l) i = Ok p -> aget (ws l) j = Ok q ->
       aget (wk l) p = Ok k -> aget (wk l) q = Ok k' -> (k < k')%Z).

(** Every used position holds a key and a value. *)
Definition filled (l : wleaf V) : Prop :=
  forall p, in_use l p -> exists k v, aget (wk l) p = Ok k /\ aget (wv l) p = Ok v.

Definition good_leaf (l : wleaf V) : Prop := sized l /\ slot_order l /\ filled l.

(** The entry [k -> v] is stored at a used position. *)
Definition stored (l : wleaf V) (k : Z) (v : V) : Prop :=
  exists p, in_use l p /\ aget (wk l) p = Ok k /\ aget (wv l) p = Ok v.
End Spec.

(** At most [n] keys have a value. *)
Definition fits {V} (m : amap V) (n : nat) : Prop := exists ks, length ks <= n /\ forall k, m k <> None -> In k ks.

(** Histories that fit into one leaf: never more than [M] keys; what is erased is there, and fewer than
    [M] keys are there when something is erased. *)
Fixpoint one_leaf {V} (M : nat) (m : amap V) (os : list (mop V)) : Prop :=
  match os with
  | [] => True
  | o :: r => fits (m_step m o) M /\ (match o with OpInsert _ _ => True | OpErase _ k => m k <> None /\ fits m (M - 1) end) /\
              one_leaf M (m_step m o) r
  end.

(** Exactly the first [r] slots hold keys below [key]. *)
Definition rank_of {V} (l : wleaf V) (key : Z) (r : nat) : Prop :=
  exists n, aget (ws l) 0 = Ok n /\ r <= n /\
  forall i p k, 1 <= i <= n -> aget (ws l) i = Ok p -> aget (wk l) p = Ok k -> ((k < key)%Z <-> i <= r).
