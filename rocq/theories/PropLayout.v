(** C42 (minipage sizes) and C54 (room for the summary values). *)
From Verif Require Import Base BlockModel BlockSpec LayoutProofs.
Open Scope Z_scope.

(** C42: one size per column, each within the payload, their sum at most the payload; any weightings. *)
Theorem C42_sizes : forall cust cs total sizes,
  (forall i w, cust i = Some w -> 0 <= w < 65536) -> Z.of_nat (length cs) <= 65535 ->
  0 <= total < 65536 -> calc_minipage_sizes cust cs total = Ok sizes ->
  length sizes = length cs /\ pages_fit total sizes.
Proof. exact minipage_sizes_fit. Qed.
Print Assumptions C42_sizes.

(** Without weightings the sizes are always computed. *)
Theorem C42_sizes_exist : forall cs total, Z.of_nat (length cs) <= 65535 -> 0 <= total < 65536 ->
  exists sizes, calc_minipage_sizes no_cust cs total = Ok sizes.
Proof. exact minipage_sizes_default. Qed.
Print Assumptions C42_sizes_exist.

Example C42_ex :
  calc_minipage_sizes no_cust [CInt; CDbl; CStr; CInt] (block_size - 30) = Ok [4092; 8184; 16369; 4092] /\
  calc_minipage_sizes (fun i => if (i =? 2)%nat then Some 10 else None) [CInt; CDbl; CStr; CInt] 1000
  = Ok [71; 142; 714; 71].
Proof. vm_compute. auto. Qed.

(** With weightings the sizes are computed unless all of them are zero. *)
Theorem C42_sizes_weighted_exist : forall cust cs total,
  (forall i w, cust i = Some w -> 0 <= w < 65536) -> Z.of_nat (length cs) <= 65535 ->
  0 <= total <= block_size ->
  0 < zsum (map (fun x => weight cust (fst x) (snd x)) (combine (seq 0 (length cs)) cs)) ->
  exists sizes, calc_minipage_sizes cust cs total = Ok sizes.
Proof. exact minipage_sizes_weighted. Qed.
Print Assumptions C42_sizes_weighted_exist.

(** With all weightings zero the function divides by zero. *)
Theorem C42_weight_refuted : exists cust cs total,
  (forall i w, cust i = Some w -> 0 <= w < 65536) /\ 0 <= total <= block_size /\
  calc_minipage_sizes cust cs total = UB.
Proof.
  exists (fun _ => Some 0), [CInt; CStr], 32000. split; [|split; [unfold block_size; lia|reflexivity]].
  intros i w E. injection E as <-. lia.
Qed.
Print Assumptions C42_weight_refuted.

(** C54: every minipage has room for its two summary values, for up to 800 columns. *)
Theorem C54_room_partial : forall cs total sizes, Z.of_nat (length cs) <= 800 ->
  total = block_size - (header_fixed + Z.of_nat (length cs) * 4) ->
  calc_minipage_sizes no_cust cs total = Ok sizes ->
  Forall2 (fun c s => sma_size c <= s) cs sizes.
Proof. exact summary_fits. Qed.
Print Assumptions C54_room_partial.

Example C54_ex :
  let cs := CInt :: repeat CStr 799 in
  exists sizes, calc_minipage_sizes no_cust cs (block_size - (header_fixed + Z.of_nat (length cs) * 4)) = Ok sizes
  /\ nth_error sizes 0 = Some 9.
Proof. eexists. split; [vm_compute; reflexivity|reflexivity]. Qed.

(** C54 fails for more columns: an int column in front of 1000 string columns gets 7 bytes. *)
Theorem C54_refuted : exists cs sizes,
  calc_minipage_sizes no_cust cs (block_size - (header_fixed + Z.of_nat (length cs) * 4)) = Ok sizes /\
  nth_error cs 0 = Some CInt /\ nth_error sizes 0 = Some 7 /\ sma_size CInt = 8.
Proof.
  exists (CInt :: repeat CStr (Z.to_nat 1000)). eexists. split; [vm_compute; reflexivity|]. auto.
Qed.
Print Assumptions C54_refuted.
