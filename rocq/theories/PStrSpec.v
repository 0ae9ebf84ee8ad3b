(** What a string variable holds after a history of assignments and resets. *)
From Verif Require Import Base PStrModel.
Open Scope Z_scope.

Definition str_step (cur : list Z) (o : pop) : list Z := match o with PSet v => v | PReset => [] end.
Definition str_last (cur : list Z) (l : list pop) : list Z := fold_left str_step l cur.

(** Strings without an embedded NUL. *)
Definition no_nul (o : pop) : Prop := match o with PSet v => ~ In 0 v | PReset => True end.

(** No reset while a string of more than 15 characters is stored. *)
Fixpoint resets_short (cur : list Z) (l : list pop) : Prop :=
  match l with
  | [] => True
  | o :: r => (o = PReset -> (length cur <= 15)%nat) /\ resets_short (str_step cur o) r
  end.
