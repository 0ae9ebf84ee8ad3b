(** Leaves and flushed ranges, for the benchmarks of single leaves. *)
From Verif Require Import Base SLeafModel.
Open Scope nat_scope.

(** The leaf holds exactly these entries, in this order. *)
Definition holds {V} (l : sleaf V) (es : list (Z * V)) : Prop :=
  sn l = length es /\ forall i k v, nth_error es i = Some (k, v) ->
    nth_error (sk l) i = Some (Some k) /\ nth_error (sv l) i = Some (Some v).
(** The keys [js] with their tuples. *)
Definition entries {V} (f : nat -> V) (js : list nat) : list (Z * V) := map (fun j => (Z.of_nat j, f j)) js.
Definition ascending {V} (es : list (Z * V)) : Prop :=
  forall i j a b, i < j -> nth_error es i = Some a -> nth_error es j = Some b -> (fst a < fst b)%Z.

(** Slot [i] of one of the two arrays has got another content. *)
Definition changed {V} (l l' : sleaf V) (i : nat) : Prop :=
  nth_error (sk l) i <> nth_error (sk l') i \/ nth_error (sv l) i <> nth_error (sv l') i.
(** Slot [i] of an array with elements of [w] bytes lies in the [bytes] bytes from slot [first] on. *)
Definition flushed (w first bytes i : nat) : Prop := first <= i /\ w * (i + 1) <= w * first + bytes.
