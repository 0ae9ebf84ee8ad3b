(** Model of the printing functions of the trees with sorted branch nodes: print, printBranchNode and printLeafNode of
    pbptrees/PBPTree.hpp, BPTree.hpp, HPBPTree.hpp, UnsortedPBPTree.hpp and FPTree.hpp.

    A printed line is kept as what it shows: the indentation (number of double blanks), the node and the keys; the number [d] and
    the words around them are left out, as are the line ends.  The address of the node is printed by some of the classes only; it is
    kept for all of them as the name of the node.  BPTree prints the value with each key of a leaf; values are left out.  The tests of a child for nullptr are left out: a child array slot that was never
    written is [UB] in the model. *)
From Verif Require Import Base BitmapModel BTreeModel SLeafModel FLeafModel.
Open Scope nat_scope.

(** A slot of a leaf as printed: its bit and its key.  The classes without a bitmap print the used slots only.  FPTree prints all
    slots; the key of a slot that was never written is [None]. *)
Inductive line := LBranch (d i : nat) (ks : list Z) | LLeaf (d i : nat) (ss : list (bool * option Z)).

(** The loop over the keys, PBPTree.hpp:831-834 and 878-881 *)
Fixpoint pr_keys (a : arr Z) (k n : nat) : res (list Z) :=
  match n with 0 => Ok [] | S n' => do x <- aget a k; do r <- pr_keys a (S k) n'; Ok (x :: r) end.

Section Print.
Variables (L : Type).
Variable pl : L -> res (list (bool * option Z)).     (* the loop of printLeafNode *)

(** printLeafNode, PBPTree.hpp:871-883 (BPTree.hpp:763-771, HPBPTree.hpp:1206-1216, UnsortedPBPTree.hpp:852-864,
    FPTree.hpp:1295-1304) *)
Definition pr_leaf (h : heap L) (d i : nat) : res (list line) :=
  do l <- getl h i; do ss <- pl l; Ok [LLeaf d i ss].

(** The loop over the children, PBPTree.hpp:836-844: [f] prints a child *)
Fixpoint pr_kids (f : nat -> res (list line)) (cs : arr nat) (k n : nat) : res (list line) :=
  match n with 0 => Ok [] | S n' => do c <- aget cs k; do o <- f c; do r <- pr_kids f cs (S k) n'; Ok (o ++ r) end.

(** printBranchNode, PBPTree.hpp:823-845 (BPTree.hpp:723-740, HPBPTree.hpp:1179-1198, UnsortedPBPTree.hpp:804-826,
    FPTree.hpp:1269-1287) *)
Fixpoint pr_branch (fuel : nat) (h : heap L) (depth d i : nat) : res (list line) :=
  match fuel with
  | 0 => NoFuel
  | S fu =>
    do b <- getb h i;
    do ks <- pr_keys (bk b) 0 (bn b);
    do r <- pr_kids (fun c => if S d <? depth then pr_branch fu h depth (S d) c else pr_leaf h (S d) c) (bc b) 0 (S (bn b));
    Ok (LBranch d i ks :: r)
  end.

(** print, PBPTree.hpp:307-310 (BPTree.hpp:258-266, HPBPTree.hpp:364-369, UnsortedPBPTree.hpp:294-297, FPTree.hpp:412-415) *)
Definition t_print (t : tree L) : res (list line) :=
  if tdepth t =? 0 then pr_leaf (th t) 0 (troot t) else pr_branch (tdepth t) (th t) (tdepth t) 0 (troot t).

(** printLeafList, HPBPTree.hpp:1218-1224 and FPTree.hpp:1306-1312, from the leaf [o] (leafList) on *)
Fixpoint pr_list (fuel : nat) (h : heap L) (o : option nat) : res (list line) :=
  match o with
  | None => Ok []
  | Some i =>
    match fuel with
    | 0 => NoFuel
    | S fu => do a <- pr_leaf h 0 i; do r <- pr_list fu h (hnx h i); Ok (a ++ r)
    end
  end.
End Print.

(** Sorted and unsorted leaves: the keys below numKeys, PBPTree.hpp:878-881, UnsortedPBPTree.hpp:859-862 *)
Definition sl_print {V} (l : sleaf V) : res (list (bool * option Z)) :=
  do ks <- pr_keys (sk l) 0 (sn l); Ok (map (fun k => (true, Some k)) ks).
(** FPTree leaves: all slots, FPTree.hpp:1299-1302 *)
Fixpoint fl_slots {V} (M : nat) (l : fleaf V) (i n : nat) : res (list (bool * option Z)) :=
  match n with
  | 0 => Ok []
  | S n' => do b <- bm_test M (fb l) i; do s <- of_opt (nth_error (fk l) i); do r <- fl_slots M l (S i) n'; Ok ((b, s) :: r)
  end.
Definition fl_print {V} (M : nat) (l : fleaf V) : res (list (bool * option Z)) := fl_slots M l 0 M.
