(** Histories of FPTree and HPBPTree with inserts, erases, restarts, and inserts and erases interrupted between
    two levels and followed by a restart (RecoverModel, CutModel).  insert FPTree.hpp:313-345, erase 356-369,
    recover 373-407; [leafList] is the leaf of the constructor. *)
From Verif Require Import Base BTreeModel RecoverModel CutModel.
Open Scope nat_scope.

Inductive xop (V : Type) := XIns (k : Z) (v : V) | XDel (k : Z) | XRestart | XInsCut (c : nat) (k : Z) (v : V) | XDelCut (c : nat) (k : Z).
Arguments XIns {V}. Arguments XDel {V}. Arguments XRestart {V}. Arguments XInsCut {V}. Arguments XDelCut {V}.

Section RecE.
Variables (L V : Type) (N M : nat) (O : leafops L V) (hyb : bool).

(** What the restart of the operation finds; [Ok None] if there is no restart in it. *)
Definition x_left (t : tree L) (o : xop V) : res (option (tree L)) :=
  match o with
  | XIns _ _ | XDel _ => Ok None
  | XRestart => Ok (Some t)
  | XInsCut c k v => do t' <- t_insert_cut N O c t k v; Ok (Some t')
  | XDelCut c k => do t' <- t_erase_cut N M O c t k; Ok (Some t')
  end.
Definition x_step (t : tree L) (o : xop V) : res (tree L) :=
  do r <- x_left t o;
  match r with
  | Some t' => recover N O hyb (th t') 0
  | None =>
    match o with
    | XIns k v => t_insert N O t k v
    | XDel k => do r <- t_erase N M O t k; Ok (fst r)
    | _ => Ok t
    end
  end.
Fixpoint x_run (t : tree L) (os : list (xop V)) : res (tree L) :=
  match os with
  | [] => Ok t
  | o :: r => do t1 <- x_step t o; x_run t1 r
  end.
End RecE.
