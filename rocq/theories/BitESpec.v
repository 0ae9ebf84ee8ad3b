(** What it takes for an erase of BitPBPTree or BitHPBPTree to leave the tree alone, decided before the
    erase.

    The repairs that are let through: a leaf takes entries from its right neighbour and the first slots
    of the two leafs tell the code which one is left; a leaf is merged into its left neighbour below the
    same node and fits; a leaf is merged with its right neighbour, which is the last leaf.  A node keeps
    at least one key, or it is the root directly above the leafs.  Branch nodes are not repaired. *)
From Verif Require Import Base RankModel BTreeModel FLeafModel BitTreeModel BitEModel.
Open Scope nat_scope.

Section Checked.
Variables (V : Type) (t : ktype) (N M : nat).
Notation leaf := (fleaf V).
Variable O : leafops leaf V.

(** Whether the repair of a leaf is let through ([UB]: not), and whether the node above loses a key. *)
Definition ck_leaf (tr : btree V) (id pos lf : nat) : res bool :=
  let h := bth tr in
  let middle := (M + 1) / 2 in
  do b <- getbb (btb tr) id;
  do l <- getl h lf;
  do prevNum <- (if 0 <? pos then do p <- of_opt (hpv h lf); do pl <- getl h p; Ok (lo_count O pl) else Ok 0);
  if (0 <? pos) && (middle <? prevNum) then UB                                     (* from the left neighbour *)
  else
  do nextNum <- (if pos <? N then do n <- of_opt (hnx h lf); do nl <- getl h n; Ok (lo_count O nl) else Ok 0);
  if (pos <? N) && (middle <? nextNum) then
    do n <- of_opt (hnx h lf);
    do nl <- getl h n;
    do dk <- aget (fk nl) 0;
    do rk <- aget (fk l) 0;
    if (dk <? rk)%Z then UB else Ok false
  else
  if negb ((2 <=? count_bits (bbits b)) || ((count_bits (bbits b) =? 1) && (bdepth tr =? 1))) then UB else
  do mp <- findMinKeyPosB t (bbk b) (bbits b) N;
  if negb (mp =? pos) then
    do p <- of_opt (hpv h lf);
    do pl <- getl h p;
    if M <? lo_count O pl + lo_count O l then UB else Ok true
  else
    do n <- of_opt (hnx h lf);
    match hnx h n with None => Ok true | Some _ => UB end.

(** The number of keys of node [id] after the erase, or [UB] if a repair below is not let through. *)
Fixpoint ck_keys (tr : btree V) (d id : nat) (key : Z) : res nat :=
  match d with
  | 0 => UB
  | S d' =>
    do b <- getbb (btb tr) id;
    do pos <- bb_pos t N b key;
    do c <- aget (bbc b) pos;
    match d' with
    | 0 =>
      do r <- erase_leaf O (bth tr) c key;
      do l <- getl (snd r) c;
      if lo_count O l <? (M + 1) / 2 then
        do m <- ck_leaf (BTree (snd r) (btb tr) (broot tr) (bdepth tr)) id pos c;
        Ok (count_bits (bbits b) - if (m : bool) then 1 else 0)
      else Ok (count_bits (bbits b))
    | S _ =>
      do n <- ck_keys tr d' c key;
      if n <? (N + 1) / 2 then UB                                                  (* no branch node is repaired *)
      else Ok (count_bits (bbits b))
    end
  end.

Definition ck_ok (tr : btree V) (key : Z) : bool :=
  match bdepth tr with
  | 0 => true
  | S _ => match ck_keys tr (bdepth tr) (broot tr) key with Ok _ => true | _ => false end
  end.

(** Histories all of whose erases are let through. *)
Fixpoint ck_fine (tr : btree V) (os : list (bop V)) : bool :=
  match os with
  | [] => true
  | o :: r => match o with BInsert _ _ => true | BErase _ k => ck_ok tr k end &&
              match be_step t N M O tr o with Ok tr' => ck_fine tr' r | _ => true end
  end.
End Checked.
