(** What the leaf list holds while a leaf is being split. *)
From Verif Require Import Base BitmapModel FLeafModel CrashSpec CrashSModel.
Open Scope nat_scope.

Section Spec.
Variables (L V : Type) (sl : L -> slots V).
(** The entries reachable from the split leaf without going through the leaves behind it. *)
Definition reaches (st : sstate L) (k : Z) (v : V) : Prop :=
  has (sl (snode st)) k v \/ (nnext st = Some Sib /\ has (sl (ssib st)) k v).
(** Every entry of [l] is in one of the two leaves, and they hold nothing else. *)
Definition shared (l : slots V) (st : sstate L) : Prop :=
  forall k v, has l k v <-> has (sl (snode st)) k v \/ has (sl (ssib st)) k v.
Definition apart (st : sstate L) : Prop :=
  forall k v w, has (sl (snode st)) k v -> has (sl (ssib st)) k w -> False.
(** The leaves behind the split one are still in the list. *)
Definition rest_listed (st : sstate L) : Prop :=
  nnext st = Some Rest \/ (nnext st = Some Sib /\ snext st = Some Rest).
End Spec.

(** All cells of a leaf with a counter, whether counted or not. *)
Definition cells {V} (l : SLeafModel.sleaf V) : slots V :=
  fun i => pair_of (aget (SLeafModel.sk l) i) (aget (SLeafModel.sv l) i).

(** All slots of a bitmap leaf are in use. *)
Definition full {V} M (l : fleaf V) : Prop := forall i, i < M -> bm_test M (fb l) i = Ok true.
(** Lookup in a leaf and scan of it agree with its slots. *)
Definition f_agrees {V} fp M (l : fleaf V) : Prop := exists out, fl_scan M l = Ok out /\ reports (f_slots M l) out /\
  forall k, exists r, fl_lookup fp M l k = Ok r /\ answers (f_slots M l) k r.
