(** Model of the printing functions of pbptrees/wBPTree.hpp: print 400-405, printLeafNode 1286-1299, printBranchNode 1307-1330.
    pbptrees/wHBPTree.hpp has the same statements in 427-430, 1330-1341 and 1350-1371.
    Lines are kept as in PrintModel; the bits printed with the keys of branch nodes are read but left out of the line.
    A child pointer never written is UB here; the test for nullptr in 1324 makes no difference for the trees of the theorems. *)
From Verif Require Import Base BitmapModel BTreeModel WbModel PrintModel.
Open Scope nat_scope.

(** The loop over the slots of a leaf, 1294-1297, from slot [i] on. *)
Fixpoint wl_slots {V} (M : nat) (l : wleaf V) (i n : nat) : res (list (bool * option Z)) :=
  match n with
  | 0 => Ok []
  | S n' =>
    do s <- aget (ws l) i;
    do b <- bm_test M (wb l) s;
    do k <- aget (wk l) s;
    do r <- wl_slots M l (S i) n';
    Ok ((b, Some k) :: r)
  end.
Definition wl_print {V} (M : nat) (l : wleaf V) : res (list (bool * option Z)) := do n <- aget (ws l) 0; wl_slots M l 1 n.

Section WPrint.
Variables (V : Type) (N M : nat).

(** The loop over the keys, 1315-1318 *)
Fixpoint wp_keys (b : wbranch) (i n : nat) : res (list Z) :=
  match n with
  | 0 => Ok []
  | S n' =>
    do s <- aget (bs b) i;
    do _ <- bm_test N (bb b) s;
    do k <- aget (wbk b) s;
    do r <- wp_keys b (S i) n';
    Ok (k :: r)
  end.
(** The position chosen in 1321 and the child there *)
Definition wp_child (b : wbranch) (n i : nat) : res nat :=
  do pos <- (if i =? S n then Ok N else aget (bs b) i); aget (wbc b) pos.
(** The loop over the children, 1320-1329 *)
Fixpoint wp_kids (f : nat -> res (list line)) (b : wbranch) (n i m : nat) : res (list line) :=
  match m with
  | 0 => Ok []
  | S m' => do c <- wp_child b n i; do o <- f c; do r <- wp_kids f b n (S i) m'; Ok (o ++ r)
  end.
Fixpoint wp_branch (fuel : nat) (h : heap (wleaf V)) (B : nat -> option wbranch) (depth d i : nat) : res (list line) :=
  match fuel with
  | 0 => NoFuel
  | S fu =>
    do b <- getwb B i;
    do n <- aget (bs b) 0;
    do ks <- wp_keys b 1 n;
    do r <- wp_kids (fun c => if S d <? depth then wp_branch fu h B depth (S d) c else pr_leaf (wl_print M) h (S d) c) b n 1 (S n);
    Ok (LBranch d i ks :: r)
  end.
Definition wt_print (t : wtree V) : res (list line) :=
  if wdepth t =? 0 then pr_leaf (wl_print M) (wth t) 0 (wroot t) else wp_branch (wdepth t) (wth t) (wtb t) (wdepth t) 0 (wroot t).
End WPrint.
