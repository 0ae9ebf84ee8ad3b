(** The iterators over sorted leaves: PBPTree.hpp:128-178, BPTree.hpp:112-157, HPBPTree.hpp:191-240. *)
From Verif Require Import Base BTreeModel SLeafModel.
Open Scope nat_scope.

Section SIter.
Variable V : Type.

(** [currentNode], [currentPosition]; [None] is nullptr. *)
Record iter := Iter { it_node : option nat; it_pos : nat }.

(** iterator(root, d) / begin(), PBPTree.hpp:135-143, 175. *)
Definition it_begin (t : tree (sleaf V)) : res iter :=
  do i <- leftmost (th t) (tdepth t) (troot t); Ok (Iter (Some i) 0).
(** iterator() / end(), 134, 176. *)
Definition it_end : iter := Iter None 0.
(** operator==, 157-158. *)
Definition it_eqb (a b : iter) : bool :=
  match it_node a, it_node b with
  | None, None => it_pos a =? it_pos b
  | Some x, Some y => (x =? y) && (it_pos a =? it_pos b)
  | _, _ => false
  end.
(** operator++, 145-154: [numKeys - 1] is a size_t, so with [numKeys = 0] the test
    [currentPosition >= numKeys - 1] compares with the largest size_t and is false. *)
Definition it_next (t : tree (sleaf V)) (it : iter) : res iter :=
  do i <- of_opt (it_node it);
  do l <- getl (th t) i;
  if (0 <? sn l) && (sn l - 1 <=? it_pos it) then Ok (Iter (hnx (th t) i) 0)
  else Ok (Iter (Some i) (S (it_pos it))).
(** operator*, 161-165. *)
Definition it_deref (t : tree (sleaf V)) (it : iter) : res (Z * V) :=
  do i <- of_opt (it_node it);
  do l <- getl (th t) i;
  do k <- aget (sk l) (it_pos it);
  do v <- aget (sv l) (it_pos it);
  Ok (k, v).

(** [for (it = begin(); it != end(); ++it) out.push_back( *it );] with at most [fuel] rounds. *)
Fixpoint it_loop (fuel : nat) (t : tree (sleaf V)) (it : iter) : res (list (Z * V)) :=
  if it_eqb it it_end then Ok []
  else match fuel with
       | 0 => NoFuel
       | S f =>
         do e <- it_deref t it;
         do it' <- it_next t it;
         do r <- it_loop f t it';
         Ok (e :: r)
       end.
Definition it_all (fuel : nat) (t : tree (sleaf V)) : res (list (Z * V)) :=
  do it <- it_begin t; it_loop fuel t it.

End SIter.
