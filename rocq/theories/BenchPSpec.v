(** What the table benchmarks are meant to select. *)
From Verif Require Import Base.
Open Scope Z_scope.

(** The [c] numbers from [s] on. *)
Definition window (s c : Z) : list Z := map (fun j => s + Z.of_nat j) (seq 0 (Z.to_nat c)).
