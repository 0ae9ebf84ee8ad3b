(** Model of the benchmarks bench/trees/tree_get.cpp, tree_scan.cpp and tree_traverse.cpp, for the PBPTree, the TreeType of
    bench/trees/common.hpp:172.  [L] is LEAFKEYS, [N] is BRANCHKEYS, [E] is ELEMENTS, [f j] is MyTuple(j, j * 100, j * 1.0).
    Timing, flushes and output are left out. *)
From Verif Require Import Base SearchModel BTreeModel SLeafModel.
Open Scope nat_scope.

(** insert(tree, 0), trees/common.hpp:251-265 and 300-303; ELEMENTS belongs to TARGET_DEPTH, which need not be 0. *)
Definition bg_leaf (L E start : nat) : list nat := map S (seq start (Nat.min (start + (L + 1) / 2) E - start)).
Definition bg_keys (L E : nat) : list nat :=
  bg_leaf L E 0 ++ bg_leaf L E (if L mod 2 =? 0 then (L + 1) / 2 else (L - 1) / 2).

Section BenchG.
Variables (V : Type) (N L : nat) (f : nat -> V).
Notation O := (pbp_ops V L).

Definition bg_tree (js : list nat) : res (tree (sleaf V)) :=
  t_run N L O (t_new O) (map (fun j => BInsert (Z.of_nat j) (f j)) js).
(** tree_get.cpp:108-112: treeRef.rootNode.leaf, a leaf only for depth 0 *)
Definition bg_root (t : tree (sleaf V)) : res (sleaf V) :=
  match tdepth t with 0 => of_opt (hl (th t) (troot t)) | S _ => UB end.
(** The measured part, tree_get.cpp:150: lookupPositionInLeafNode, PBPTree.hpp:1160-1165, on a copy of the leaf *)
Definition bg_get (l : sleaf V) (k : nat) : res nat := bsearch_pos false (sk l) (sn l) (Z.of_nat k).

(** The measured part, tree_scan.cpp:82: what the callback leaves in key *)
Definition bg_scan (t : tree (sleaf V)) : res (option Z) :=
  do out <- t_scan O t; Ok (fold_left (fun _ kv => Some (fst kv)) out None).

(** ** tree_traverse.cpp *)
(** The inner loop of prepare, 139-143, for one level: [below] is the level below, if any *)
Fixpoint bv_level (h : heap (sleaf V)) (root : nat) (below : option (list nat)) (j n : nat) : res (heap (sleaf V) * list nat) :=
  match n with
  | 0 => Ok (h, [])
  | S n' =>
    let '(i, h1) := new_branch N h in
    do b <- of_opt (hb h1 root);
    do b' <- match below with
             | None => Ok b
             | Some l => do c <- of_opt (nth_error l j); do cs <- aset (bc b) 0 c; Ok (Branch (bn b) (bk b) cs)
             end;
    do r <- bv_level (set_branch h1 i b') root below (S j) n';
    Ok (fst r, i :: snd r)
  end.
(** The outer loop, 136-144: [D] levels of [n] nodes, the lowest first; the result starts with level 0. *)
Fixpoint bv_levels (h : heap (sleaf V)) (root n d : nat) (done : list (list nat)) : res (heap (sleaf V) * list (list nat)) :=
  match d with
  | 0 => Ok (h, done)
  | S d' => do r <- bv_level h root (hd_error done) 0 n; bv_levels (fst r) root n d' (snd r :: done)
  end.
(** The measured part, 96-104: the nodes touched *)
Fixpoint bv_walk (h : heap (sleaf V)) (d cur : nat) : res (list nat) :=
  match d with
  | 0 => Ok [cur]
  | S d' =>
    do b <- of_opt (hb h cur);
    match d' with
    | 0 => Ok [cur]
    | S _ => do c <- aget (bc b) 0; do r <- bv_walk h d' c; Ok (cur :: r)
    end
  end.
End BenchG.
