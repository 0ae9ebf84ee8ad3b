(** What a printed tree shows.  Nothing here refers to the printing functions or to the invariants of the proofs. *)
From Verif Require Import Base BTreeModel PrintModel.
Open Scope nat_scope.

Definition ldepth (x : line) : nat := match x with LBranch d _ _ => d | LLeaf d _ _ => d end.
Definition lnode (x : line) : nat := match x with LBranch _ i _ => i | LLeaf _ i _ => i end.
(** The keys of the slots printed with their bit set *)
Definition shown (ss : list (bool * option Z)) : list Z :=
  flat_map (fun s => match s with (true, Some k) => [k] | _ => [] end) ss.
Definition shown_keys (out : list line) : list Z :=
  flat_map (fun x => match x with LLeaf _ _ ss => shown ss | LBranch _ _ _ => [] end) out.
Definition leaf_nodes (out : list line) : list nat :=
  flat_map (fun x => match x with LLeaf _ i _ => [i] | LBranch _ _ _ => [] end) out.
Definition branch_nodes (out : list line) : list nat :=
  flat_map (fun x => match x with LBranch _ i _ => [i] | LLeaf _ _ _ => [] end) out.

(** Number of lines with indentation [d]; number of children that the branch lines with indentation [d] announce *)
Definition at_depth (d : nat) (out : list line) : nat := length (filter (fun x => ldepth x =? d) out).
Definition announced (d : nat) (out : list line) : nat :=
  list_sum (map (fun x => match x with LBranch e _ ks => if e =? d then S (length ks) else 0 | LLeaf _ _ _ => 0 end) out).

Section Shows.
Variables (L : Type) (h : heap L) (depth : nat).

(** A line shows a node of the heap of its kind; a branch line shows the keys in use. *)
Definition true_line (x : line) : Prop :=
  match x with
  | LBranch d i ks => d < depth /\ exists b, hb h i = Some b /\ length ks = bn b /\ forall j k, nth_error ks j = Some k -> aget (bk b) j = Ok k
  | LLeaf d i _ => d = depth /\ exists l, hl h i = Some l
  end.
(** [x], printed after [before], belongs to the last branch line indented one less: with [j] lines indented like [x] in between, it is
    child [j] of that node, and nothing in between is indented less than [x]. *)
Definition below_parent (before : list line) (x : line) : Prop :=
  exists a d i ks c b, before = a ++ LBranch d i ks :: c /\ ldepth x = S d /\ Forall (fun y => S d <= ldepth y) c /\
    hb h i = Some b /\ aget (bc b) (at_depth (S d) c) = Ok (lnode x).

Record drawing (root : nat) (out : list line) : Prop := Drawing {
  dr_root : exists x rest, out = x :: rest /\ ldepth x = 0 /\ lnode x = root;
  dr_lines : Forall true_line out;
  dr_parents : forall a x b, out = a ++ x :: b -> a <> [] -> below_parent a x;
  dr_all : forall d, at_depth (S d) out = announced d out;
  dr_once : NoDup (leaf_nodes out) /\ NoDup (branch_nodes out)
}.
End Shows.
