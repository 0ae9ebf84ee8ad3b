(** C41 (ranges), C44, C45, C46, C53, C55, C56: counterexamples for the table, at the real block size.

    The table has an int column, which is the key, and a string column; its clustering uses the two
    low-order bits of the int. *)
From Verif Require Import Base SerModel BdccModel BlockModel PTableModel.
Open Scope Z_scope.

Definition ex_as_int (a : attr) : Z := match a with AInt z => z | _ => 0 end.
Definition ex_P : params :=
  Params [CInt; CStr] [(0, 2, 2)%nat] 0 ex_as_int (fun _ _ => 0) (fun _ _ => false) true.
Definition big (c : Z) : list Z := repeat c (Z.to_nat 10000).
Definition row (k c : Z) : tuple := [AInt k; AStr (big c)].

(** What a row shows: its int and the first character of its string. *)
Definition brief (t : tuple) : option (Z * Z) :=
  match t with [AInt k; AStr (c :: _)] => Some (k, c) | _ => None end.
Definition brief_get (P : params) (t : table) (k : Z) : res (option (option (Z * Z))) :=
  do x <- get_by_key P t k; Ok (option_map brief x).

(** C44: splitBlock reads the key as a uint16_t.  The rows 4464 and 70000 = 4464 + 2^16 are stored;
    inserting row 5 splits the block; then key 4464 gives the row of key 70000. *)
Theorem C44_refuted : exists l k,
  (do t <- t_init ex_P; do t <- t_run ex_P 9 t l; brief_get ex_P t k) = Ok (Some (Some (4464, 97))) /\
  (do t <- t_init ex_P; do t <- t_run ex_P 9 t (l ++ [TInsert 5 (row 5 99)]); brief_get ex_P t k)
  = Ok (Some (Some (70000, 98))).
Proof.
  exists [TInsert 4464 (row 4464 97); TInsert 70000 (row 70000 98)], 4464.
  split; vm_compute; reflexivity.
Qed.
Print Assumptions C44_refuted.

(** C45: inserting the same key twice counts two rows although one is reachable. *)
Theorem C45_refuted : exists l,
  (do t <- t_init ex_P; do t <- t_run ex_P 9 t l; do c <- count t; Ok (c, length (index t))) = Ok (2, 1%nat).
Proof.
  exists [TInsert 1 [AInt 1; AStr [97]]; TInsert 1 [AInt 1; AStr [98]]]. vm_compute. reflexivity.
Qed.
Print Assumptions C45_refuted.

(** C46: the deleted row is still produced. *)
Theorem C46_refuted : exists l k ps,
  (do t <- t_init ex_P; do t <- t_run ex_P 9 t (l ++ [TDelete k]);
   do g <- brief_get ex_P t k; do s <- range_scan ex_P 20 t ps; Ok (g, map brief s))
  = Ok (None, [Some (k, 97)]).
Proof.
  exists [TInsert 1 [AInt 1; AStr [97]]; TInsert 2 [AInt 2; AStr [98]]], 1, [(0%nat, AInt 1, AInt 1)].
  vm_compute. reflexivity.
Qed.
Print Assumptions C46_refuted.

(** C41: after splitting a block whose rows all have the largest value, two ranges contain it. *)
Theorem C41_partition_refuted : exists l,
  (do t <- t_init ex_P; do t <- t_run ex_P 9 t l;
   do a <- node_at t (nth 0 (chain t) 0%nat); do b <- node_at t (nth 1 (chain t) 0%nat);
   do g <- range_of a; do h <- range_of b; Ok (chain t, g, h)) = Ok ([1%nat; 2%nat], (0, 3), (3, 3)).
Proof.
  exists [TInsert 3 (row 3 97); TInsert 7 (row 7 98); TInsert 11 (row 11 99)]. vm_compute. reflexivity.
Qed.
Print Assumptions C41_partition_refuted.

(** C53: rangeScan without predicates misses row 3: it stops at the empty block left by a split. *)
Theorem C53_scan_refuted : exists l,
  (do t <- t_init ex_P; do t <- t_run ex_P 9 t l;
   do g <- brief_get ex_P t 3; do s <- range_scan ex_P 20 t []; Ok (g, map brief s))
  = Ok (Some (Some (3, 98)), [Some (4, 97); Some (12, 100); Some (8, 99)]).
Proof.
  exists [TInsert 4 (row 4 97); TInsert 3 (row 3 98); TInsert 8 (row 8 99); TInsert 12 (row 12 100)].
  vm_compute. reflexivity.
Qed.
Print Assumptions C53_scan_refuted.

(** C53: at the end of the scan operator++ reads behind the vector of candidate blocks. *)
Theorem C53_scan_end_refuted : exists P l ps,
  (do t <- t_init P; do t <- t_run P 9 t l; range_scan P 20 t ps) = UB.
Proof.
  exists (Params [CInt; CStr] [(0, 2, 2)%nat] 0 ex_as_int (fun _ _ => 0) (fun _ _ => false) false),
         [TInsert 1 [AInt 1; AStr [97]]], []. vm_compute. reflexivity.
Qed.
Print Assumptions C53_scan_end_refuted.

(** C55: with a string in column 0 the position noted for a deleted row is computed from the place of
    the string; the next split brings the row back. *)
Definition ex_P2 : params :=
  Params [CStr; CInt] [(1, 2, 2)%nat] 1 ex_as_int (fun _ _ => 0) (fun _ _ => false) true.
Definition row2 (k c : Z) : tuple := [AStr (big c); AInt k].
Theorem C55_refuted : exists l k,
  (do t <- t_init ex_P2; do t <- t_run ex_P2 9 t (l ++ [TDelete k]);
   do g <- get_by_key ex_P2 t k; Ok g) = Ok None /\
  (do t <- t_init ex_P2; do t <- t_run ex_P2 9 t (l ++ [TDelete k; TInsert 3 (row2 3 99)]);
   do g <- get_by_key ex_P2 t k; Ok (option_map (fun t => nth 1 t (AInt 0)) g)) = Ok (Some (AInt k)).
Proof.
  exists [TInsert 1 (row2 1 97); TInsert 2 (row2 2 98)], 1. split; vm_compute; reflexivity.
Qed.
Print Assumptions C55_refuted.

(** C56: a row too large for an empty block makes splitBlock divide by zero. *)
Theorem C56_refuted : exists k t,
  (do x <- t_init ex_P; insert ex_P 9 x k t) = UB.
Proof.
  exists 1, [AInt 1; AStr (repeat 97 (Z.to_nat 27000))]. vm_compute. reflexivity.
Qed.
Print Assumptions C56_refuted.
