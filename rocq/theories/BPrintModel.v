(** Model of the printing functions of pbptrees/BitPBPTree.hpp (print 351-356, printBranchNode 1152-1172, printLeafNode 1180-1190) and
    of pbptrees/BitHPBPTree.hpp (417-422, 1267-1287, 1295-1305), which has the same statements.
    Lines are kept as in PrintModel.  A branch node is printed with all its positions; a [LBranch] line keeps the keys printed
    with bit 1.  Leaves are printed like those of FPTree ([fl_print]).  The test of a child for nullptr is left out as there. *)
From Verif Require Import Base BitmapModel BTreeModel FLeafModel BitTreeModel PrintModel.
Open Scope nat_scope.

Section BPrint.
Variables (V : Type) (N M : nat).

(** The loop over the keys, 1157-1160, from position [k] on *)
Fixpoint bp_keys (b : bbranch) (k n : nat) : res (list Z) :=
  match n with
  | 0 => Ok []
  | S n' =>
    do u <- of_opt (nth_error (bbits b) k);
    if u then do x <- aget (bbk b) k; do r <- bp_keys b (S k) n'; Ok (x :: r) else bp_keys b (S k) n'
  end.
(** The loop over the children, 1162-1171: position N is always printed. *)
Fixpoint bp_kids (f : nat -> res (list line)) (b : bbranch) (k n : nat) : res (list line) :=
  match n with
  | 0 => Ok []
  | S n' =>
    do u <- (if k <? N then of_opt (nth_error (bbits b) k) else Ok true);
    if u then do c <- aget (bbc b) k; do o <- f c; do r <- bp_kids f b (S k) n'; Ok (o ++ r) else bp_kids f b (S k) n'
  end.
Fixpoint bp_branch (fuel : nat) (h : heap (fleaf V)) (B : nat -> option bbranch) (depth d i : nat) : res (list line) :=
  match fuel with
  | 0 => NoFuel
  | S fu =>
    do b <- getbb B i;
    do ks <- bp_keys b 0 N;
    do r <- bp_kids (fun c => if S d <? depth then bp_branch fu h B depth (S d) c else pr_leaf (fl_print M) h (S d) c) b 0 (S N);
    Ok (LBranch d i ks :: r)
  end.
Definition bg_print (tr : btree V) : res (list line) :=
  if bdepth tr =? 0 then pr_leaf (fl_print M) (bth tr) 0 (broot tr) else bp_branch (bdepth tr) (bth tr) (btb tr) (bdepth tr) 0 (broot tr).
End BPrint.
