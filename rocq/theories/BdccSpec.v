(** What the masks and the clustering value should be. *)
From Verif Require Import Base.

(** Number of set bits below position [n]. *)
Definition bits_below (n : nat) (m : N) : nat :=
  length (filter (fun j => N.testbit m (N.of_nat j)) (seq 0 n)).

Definition total (ws : list nat) : nat := fold_right Nat.add 0 ws.

(** Pairwise disjoint. *)
Definition disjoint (ms : list N) : Prop :=
  forall i j a b, i <> j -> nth_error ms i = Some a -> nth_error ms j = Some b -> N.land a b = 0%N.

(** Together exactly the low-order [n] bits. *)
Definition covers (n : nat) (ms : list N) : Prop := fold_right N.lor 0%N ms = N.ones (N.of_nat n).

(** Each mask has as many bits as its dimension asks for. *)
Definition widths_ok (ws : list nat) (ms : list N) : Prop := map (bits_below 32) ms = ws.
