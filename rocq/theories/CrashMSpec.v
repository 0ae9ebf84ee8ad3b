(** Leaves that share no key. *)
From Verif Require Import Base CrashSpec.
Definition no_common {V} (s s' : slots V) : Prop := forall k v w, has s k v -> has s' k w -> False.
