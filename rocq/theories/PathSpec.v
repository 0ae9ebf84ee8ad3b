(** A condition on a single erase that concerns the branch nodes on the way to the key, for any [N].  It is decided
    in the states the erase itself goes through. *)
From Verif Require Import Base MapSpec BTreeModel.
Open Scope nat_scope.

Section Path.
Variables (L V : Type) (N M : nat) (O : leafops L V).
Notation hp := (heap L).

(** A neighbour of leaf [c], child [pos] of node [id], has entries to spare. *)
Definition lend_leaf (h : hp) (id pos c : nat) : res bool :=
  do b <- getb h id;
  do pn <- (if 0 <? pos then do p <- of_opt (hpv h c); do pl <- getl h p; Ok (lo_count O pl) else Ok 0);
  do nn <- (if pos <? bn b then do n <- of_opt (hnx h c); do nl <- getl h n; Ok (lo_count O nl) else Ok 0);
  Ok (((M + 1) / 2 <? pn) || ((M + 1) / 2 <? nn)).

(** A neighbour of node [c], child [pos] of node [id], has keys to spare; or the keys of [c], of the neighbour it is
    merged with and the one between them fit into a node, and [id] keeps a key or is the root. *)
Definition room (h : hp) (id pos c : nat) (root : bool) : res bool :=
  do b <- getb h id;
  do cb <- getb h c;
  do pn <- (if 0 <? pos then do p <- aget (bc b) (pos - 1); do pb <- getb h p; Ok (bn pb) else Ok 0);
  do nn <- (if pos <? bn b then do n <- aget (bc b) (pos + 1); do nb <- getb h n; Ok (bn nb) else Ok 0);
  Ok (((N + 1) / 2 <? pn) || ((N + 1) / 2 <? nn) ||
      (((1 <? bn b) || root) && ((if 0 <? pn then pn else nn) + 1 + bn cb <=? N))).

(** Every node that gets too few keys or entries can be repaired. *)
Fixpoint path_ok (t : tree L) (d id : nat) (key : Z) : res bool :=
  match d with
  | 0 => Ok true
  | S d' =>
    do b <- getb (th t) id;
    do pos <- lo_bpos O (bk b) (bn b) key;
    do c <- aget (bc b) pos;
    match d' with
    | 0 =>
      do r <- erase_leaf O (th t) c key;
      do l <- getl (snd r) c;
      if lo_count O l <? (M + 1) / 2 then
        do x <- lend_leaf (snd r) id pos c;
        Ok (x || (1 <? bn b) || (d =? tdepth t))
      else Ok true
    | S _ =>
      do g <- path_ok t d' c key;
      if g then
        do r <- erase_branch N M O t d' c key;
        do cb <- getb (th (fst r)) c;
        if bn cb <? (N + 1) / 2 then room (th (fst r)) id pos c (d =? tdepth t) else Ok true
      else Ok false
    end
  end.

(** Histories all of whose erases meet it; a tree of one or two levels needs nothing. *)
Fixpoint path_fine (t : tree L) (os : list (bop V)) : bool :=
  match os with
  | [] => true
  | o :: r =>
    match o with
    | BInsert _ _ => true
    | BErase _ k => (tdepth t <=? 1) || match path_ok t (tdepth t) (troot t) k with Ok b => b | _ => false end
    end &&
    match t_step N M O t o with Ok t' => path_fine t' r | _ => true end
  end.
End Path.
