(** Conditions on a single erase of UnsortedPBPTree and FPTree, decided in the tree before the erase, and
    histories all of whose erases meet them. *)
From Verif Require Import Base MapSpec BTreeModel FLeafModel.
Open Scope nat_scope.

Section Guards.
Variables (L V : Type) (N M : nat) (O : leafops L V).
Notation hp := (heap L).

(** [g heap parent pos leaf] is asked of the leaf that loses [key], after the removal, if it then has too
    few entries. *)
Fixpoint leaf_guard (g : hp -> nat -> nat -> nat -> res bool) (h : hp) (d id : nat) (key : Z) : res bool :=
  match d with
  | 0 => Ok true
  | S d' =>
    do b <- getb h id;
    do pos <- lo_bpos O (bk b) (bn b) key;
    do c <- aget (bc b) pos;
    match d' with
    | 0 => do r <- erase_leaf O h c key;
           do l <- getl (snd r) c;
           if lo_count O l <? (M + 1) / 2 then g (snd r) id pos c else Ok true
    | S _ => leaf_guard g h d' c key
    end
  end.

(** The leaf is not merged with its right neighbour, or that one is the last leaf. *)
Definition rm_ok (h : hp) (id pos c : nat) : res bool :=
  if 0 <? pos then Ok true else
  do n <- of_opt (hnx h c);
  do nl <- getl h n;
  Ok (((M + 1) / 2 <? lo_count O nl) || match hnx h n with None => true | Some _ => false end).

(** Histories all of whose erases meet [g]. *)
Fixpoint fine (g : hp -> nat -> nat -> nat -> res bool) (t : tree L) (os : list (bop V)) : bool :=
  match os with
  | [] => true
  | o :: r =>
    match o with
    | BInsert _ _ => true
    | BErase _ k => match leaf_guard g (th t) (tdepth t) (troot t) k with Ok b => b | _ => false end
    end &&
    match t_step N M O t o with Ok t' => fine g t' r | _ => true end
  end.
End Guards.

(** FPTree: if the leaf takes entries from a neighbour, the contents of the two slots 0, in use or not,
    are ordered like the leaves. *)
Definition slots_ok (V : Type) (M : nat) (h : heap (fleaf V)) (id pos c : nat) : res bool :=
  let middle := (M + 1) / 2 in
  do b <- getb h id;
  do l <- getl h c;
  do prev <- (if 0 <? pos then do p <- of_opt (hpv h c); do pl <- getl h p; Ok (Some pl) else Ok None);
  match prev with
  | Some pl =>
    if middle <? fl_count pl then
      do d0 <- aget (fk pl) 0; do r0 <- aget (fk l) 0; Ok (d0 <? r0)%Z
    else
      if pos <? bn b then
        do n <- of_opt (hnx h c); do nl <- getl h n;
        if middle <? fl_count nl then do d0 <- aget (fk nl) 0; do r0 <- aget (fk l) 0; Ok (negb (d0 <? r0)%Z)
        else Ok true
      else Ok true
  | None =>
      if pos <? bn b then
        do n <- of_opt (hnx h c); do nl <- getl h n;
        if middle <? fl_count nl then do d0 <- aget (fk nl) 0; do r0 <- aget (fk l) 0; Ok (negb (d0 <? r0)%Z)
        else Ok true
      else Ok true
  end.

(** Histories that erase only the largest key stored. *)
Fixpoint max_hist {V} (m : amap V) (os : list (mop V)) : Prop :=
  match os with
  | [] => True
  | o :: r => match o with
              | OpInsert _ _ => True
              | OpErase _ k => m k <> None /\ forall x, m x <> None -> (x <= k)%Z
              end /\ max_hist (m_step m o) r
  end.
