(** What two neighbouring leaves hold together. *)
From Verif Require Import Base CrashSpec CrashMSpec.
Section Spec.
Variables (L V : Type) (sl : L -> slots V).
Definition listed (st : L * L) (k : Z) (v : V) : Prop := has (sl (fst st)) k v \/ has (sl (snd st)) k v.
(** No key is in both. *)
Definition once (st : L * L) : Prop := no_common (sl (fst st)) (sl (snd st)).
End Spec.
(** Scan and lookup of an unsorted leaf with a counter agree with its slots. *)
From Verif Require Import SLeafModel ULeafModel.
Definition u_agrees {V} (l : sleaf V) : Prop := exists out, sl_scan l = Ok out /\ reports (s_slots l) out /\
  forall k, exists r, sl_lookup ul_pos l k = Ok r /\ answers (s_slots l) k r.
