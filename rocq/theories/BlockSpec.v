(** Specification vocabulary for the blocks of a table. *)
From Verif Require Import Base SerProofs BlockModel.
Open Scope Z_scope.

Definition zsum (l : list Z) : Z := fold_right Z.add 0 l.

(** A list of sizes fits into [total] bytes. *)
Definition pages_fit (total : Z) (sizes : list Z) : Prop :=
  Forall (fun s => 0 <= s <= total) sizes /\ zsum sizes <= total.

(** The place of each minipage: first byte and first byte behind it; the last one extends to the end
    of the block. *)
Fixpoint page_list (sizes : list Z) (cur : Z) : list (Z * Z) :=
  match sizes with
  | [] => []
  | s :: r => match r with [] => [(cur, block_size)] | _ => (cur, cur + s) :: page_list r (cur + s) end
  end.

(** Bytes before the first minipage, and the minipages of a block with columns [cs]: the shares of the
    rest (int 1, double 2, string 4), rounded down. *)
Definition hdr (n : nat) : Z := header_fixed + Z.of_nat n * 4.
Definition sizes_of (cs : list col) : list Z :=
  map (fun c => portion c * (block_size - hdr (length cs)) / zsum (map portion cs)) cs.
Definition pages_of (cs : list col) : list (Z * Z) := page_list (sizes_of cs) (hdr (length cs)).

(** Column types and values; [dv] tells which doubles may occur (all but NaN), strings have no NUL. *)
Definition attr_ok (dv : Z -> Prop) (c : col) (a : attr) : Prop :=
  match c, a with
  | CInt, AInt z => int_ok 4 true z
  | CDbl, ADbl z => int_ok 8 false z /\ dv z
  | CStr, AStr s => Forall (fun x => 0 < x < 256) s
  | _, _ => False
  end.
Definition tuple_ok (dv : Z -> Prop) (cs : list col) (t : tuple) : Prop := Forall2 (attr_ok dv) cs t.

(** The comparison of doubles is a strict weak order on the doubles that may occur. *)
Definition dbl_order (dv : Z -> Prop) (dlt : Z -> Z -> bool) : Prop :=
  (forall x, dv x -> dlt x x = false) /\
  (forall x y z, dv x -> dv y -> dv z -> dlt x y = true -> dlt y z = true -> dlt x z = true) /\
  (forall x y z, dv x -> dv y -> dv z -> dlt x y = true -> dlt x z = true \/ dlt z y = true).

(** Bytes a value takes in the minipage of its column. *)
Definition attr_bytes (a : attr) : Z :=
  match a with AInt _ => 4 | ADbl _ => 8 | AStr s => Z.of_nat (length s) + 1 + 2 end.
Definition column (i : nat) (rows : list tuple) : list attr := map (fun t => nth i t (AInt 0)) rows.
Definition used (vals : list attr) : Z := zsum (map attr_bytes vals).

(** All rows fit into the minipages [pages], next to the two summary values of each column. *)
Definition fits (cs : list col) (pages : list (Z * Z)) (rows : list tuple) : Prop :=
  forall i c p, nth_error cs i = Some c -> nth_error pages i = Some p ->
  fst p + sma_size c + used (column i rows) <= snd p.

(** Row [t] satisfies the predicates: for each, not above the upper and not below the lower bound. *)
Definition lt_attr (dlt : Z -> Z -> bool) (x y : attr) : Prop :=
  match x, y with
  | AInt a, AInt b => a < b
  | ADbl a, ADbl b => dlt a b = true
  | AStr a, AStr b => str_lt a b = true
  | _, _ => False
  end.
Definition satisfies (dlt : Z -> Z -> bool) (t : tuple) (ps : list pred) : Prop :=
  Forall (fun p => let '(i, lo, hi) := p in
    exists v, nth_error t i = Some v /\ ~ lt_attr dlt hi v /\ ~ lt_attr dlt v lo) ps.
(** The bounds have the type of their column. *)
Definition preds_ok (dv : Z -> Prop) (cs : list col) (ps : list pred) : Prop :=
  Forall (fun p => let '(i, lo, hi) := p in
    exists c, nth_error cs i = Some c /\ attr_ok dv c lo /\ attr_ok dv c hi) ps.
