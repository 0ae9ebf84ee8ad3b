(** When the recovery of BitHPBPTree gives a searchable tree. *)
From Coq Require Import Arith List.

(** No digit of [leaves - 1] in base N + 1 is zero. *)
Definition rec_fits (N leaves : nat) : Prop :=
  forall j, S N ^ j <= leaves - 1 -> ((leaves - 1) / S N ^ j) mod S N <> 0.

(** Number of leaves linked from [cur] (at most [fuel]). *)
Fixpoint chain_len (fuel : nat) (nx : nat -> option nat) (cur : option nat) : nat :=
  match fuel, cur with
  | S f, Some i => S (chain_len f nx (nx i))
  | _, _ => 0
  end.
