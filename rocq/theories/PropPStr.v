(** C50: PString returns what was assigned last. *)
From Verif Require Import Base PStrModel PStrSpec PStrProofs.
Open Scope Z_scope.

(** Assignments only: every history of strings without NUL, of any lengths. *)
Theorem C50_assign : forall v l, ~ In 0 v -> Forall (fun w => ~ In 0 w) l ->
  exists h s, ps_run ([], pstring_new) (map PSet (v :: l)) = Ok (h, s) /\ ps_read h s = Ok (last l v).
Proof. exact pstring_sets. Qed.
Print Assumptions C50_assign.

(** With resets, as long as none happens while a heap string is stored. *)
Theorem C50_reset_partial : forall v l, ~ In 0 v -> Forall no_nul l -> resets_short v l ->
  exists h s, ps_run ([], pstring_new) (PSet v :: l) = Ok (h, s) /\ ps_read h s = Ok (str_last v l).
Proof. exact pstring_history. Qed.
Print Assumptions C50_reset_partial.

Definition long : list Z := repeat 120 16.
Example C50_ex : exists h s,
  ps_run ([], pstring_new) [PSet [97; 98]; PSet long; PSet (repeat 121 40); PSet (repeat 122 15); PReset; PSet long]
  = Ok (h, s) /\ ps_read h s = Ok long.
Proof.
  apply C50_reset_partial; [vm_compute; intuition discriminate| |cbn; intuition (try discriminate); vm_compute; auto].
  repeat (constructor; [vm_compute; intuition discriminate|]). constructor.
Qed.

(** reset() frees a heap string but keeps the pointer: reading the value, and assigning a new one,
    both use the freed memory. *)
Theorem C50_reset_refuted : exists l,
  Forall no_nul l /\ (exists x, ps_run ([], pstring_new) l = Ok x /\ ps_read (fst x) (snd x) = UB) /\
  ps_run ([], pstring_new) (l ++ [PSet [97]]) = UB.
Proof.
  exists [PSet long; PReset]. split.
  - repeat (constructor; [vm_compute; intuition discriminate|]). constructor.
  - split; [|vm_compute; reflexivity]. eexists. split; vm_compute; reflexivity.
Qed.
Print Assumptions C50_reset_refuted.
