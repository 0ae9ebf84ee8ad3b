(** C40, C41 (value): masks and clustering value of the block clustering. *)
From Verif Require Import Base BdccModel BdccSpec BdccProofs.
Open Scope nat_scope.

Theorem C40_masks : forall ds, total (map d_bits ds) <= 32 ->
  exists ms, derive_masks ds = Ok ms /\ length ms = length ds /\
    disjoint ms /\ covers (total (map d_bits ds)) ms /\ widths_ok (map d_bits ds) ms.
Proof. exact derive_masks_spec. Qed.
Print Assumptions C40_masks.

(** Three dimensions of 3, 0 and 2 bits: round robin gives 10101 and 01010. *)
Example C40_ex : derive_masks [(0, 3, 8); (1, 0, 4); (2, 2, 2)] = Ok [21; 0; 10]%N
  /\ total (map d_bits [(0, 3, 8); (1, 0, 4); (2, 2, 2)]) <= 32.
Proof. vm_compute. split; [reflexivity|repeat constructor]. Qed.

(** The value of every tuple is below 2^bins, whatever the undefined shifts yield. *)
Theorem C41_value : forall neg ds tuple y, total (map d_bits ds) <= 32 ->
  bdcc_value neg ds tuple = Ok y -> (y < 2 ^ N.of_nat (num_bins ds))%N.
Proof. exact bdcc_below. Qed.
Print Assumptions C41_value.

Theorem C41_value_exists : forall f ds tuple, total (map d_bits ds) <= 32 -> Forall dim_ok ds ->
  exists y, bdcc_value (Some f) ds tuple = Ok y.
Proof. exact bdcc_exists. Qed.
Print Assumptions C41_value_exists.

(** One dimension: no undefined shift at all. *)
Theorem C41_one_dimension_partial : forall c w a tuple, 1 <= w <= 32 -> w <= a -> a - w < 32 ->
  exists y, bdcc_value None [(c, w, a)] tuple = Ok y /\ (y < 2 ^ N.of_nat w)%N.
Proof. exact bdcc_one_dimension. Qed.
Print Assumptions C41_one_dimension_partial.

(** Two dimensions: the loop shifts by -1 once the bits of the dimension are used up. *)
Theorem C41_shift_refuted : exists ds tuple,
  total (map d_bits ds) <= 32 /\ Forall dim_ok ds /\ bdcc_value None ds tuple = UB.
Proof.
  exists [(0, 2, 4); (1, 2, 4)], [5; 9]%Z. split; [vm_compute; repeat constructor|]. split; [|vm_compute; reflexivity].
  repeat constructor.
Qed.
Print Assumptions C41_shift_refuted.

Example C41_ex : bdcc_value (Some (fun _ _ => 0%Z)) [(0, 2, 4); (1, 2, 4)] [12; 4]%Z = Ok 11%N.
Proof. vm_compute. reflexivity. Qed.
