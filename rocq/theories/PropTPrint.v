(** C115: PTable::print describes the table: its ranges cover the clustering values, and each block is
    shown with the number of its rows, the least and greatest value of each column and the bytes free. *)
From Coq Require Import Permutation.
From Verif Require Import Base SerModel BdccModel BlockModel PTableModel BlockSpec TableSpec TPrintModel TPrintSpec TPrintProofs PropPTable PropTable.
Open Scope Z_scope.

Theorem C115_print : forall P dv l fuel t, params_ok P dv -> ops_ok P dv [] l -> history P fuel l = Ok t ->
  exists out live dead, t_print P t = Ok out /\
    tiles 0 (2 ^ Z.of_nat (num_bins (dims P)) - 1) (map (fun x => (s_lo x, s_hi x)) out) /\
    texts (lt_attr (dlt P)) (xtr P) (cols P) out live dead /\
    Permutation (map snd (s_run [] l)) (concat live) /\ deleted_rows P t (concat dead).
Proof. intros P dv l fuel t HP H E. exact (print_spec HP H E). Qed.
Print Assumptions C115_print.

(** Two blocks, the first with only a deleted row: it counts no row, but the bytes and the
    summary values are still those of that row. *)
Definition tell (x : shown) :=
  (s_lo x, s_hi x, s_count x, (s_header x, s_body x, s_free x),
   map (fun y => (sc_space y, match sc_min y, sc_max y with AInt a, AInt b => Some (a, b) | _, _ => None end)) (s_cols x)).
Example C115_ex : params_ok ex_P (fun _ => False) /\ ops_ok ex_P (fun _ => False) [] ex_ops3 /\
  (do t <- history ex_P 9 ex_ops3; do out <- t_print ex_P t; do c <- count t; Ok (map tell out, c))
  = Ok ([(0, 1, 0, (22, 32746, 22727), [(6537, Some (4, 4)); (16190, None)]);
         (2, 3, 2, (22, 32746, 12720), [(6533, Some (2, 7)); (6187, None)])], 2).
Proof.
  split; [exact ex_params|]. split; [exact (proj1 C46_ex)|]. vm_compute. reflexivity.
Qed.
