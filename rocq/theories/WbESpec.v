(** What it takes for an insert or erase of wBPTree to leave the tree alone, decided before the operation.

    Erase: the leaf is not full if it holds the key, and if it does not, it holds a larger one.  The
    repairs that are let through: the last leaf below a node takes entries from its left neighbour and is
    not empty; a leaf is merged with a neighbour, and the node above keeps a key or is the root directly
    above the leafs; a root with two children of which the second underflows is merged away.

    Insert: the leaf is not full, or holds the key, or is not split exactly where the key belongs. *)
From Verif Require Import Base MapSpec BitmapModel BitmapProofs BTreeModel WbModel WbEModel.
Open Scope nat_scope.

(** A branch node with the keys [ks] and the children [cs], cell by cell: slot 0 counts the keys, slot
    [i + 1] leads to the position of key [i] and child [i], the last child is at position N, the used
    positions are marked.  The positions [xs] are marked although no slot leads to them. *)
Definition branch_holds (N : nat) (b : wbranch) (ks : list Z) (cs : list nat) (xs : list nat) : Prop :=
  length (bs b) = S N /\ length (wbk b) = N /\ length (wbc b) = S N /\ bm_ok N (bb b) /\
  aget (bs b) 0 = Ok (length ks) /\ length cs = S (length ks) /\
  (forall i k, nth_error ks i = Some k -> exists p c, aget (bs b) (S i) = Ok p /\ p < N /\ bit (bb b) p = true /\ ~ In p xs /\
     aget (wbk b) p = Ok k /\ nth_error cs i = Some c /\ aget (wbc b) p = Ok c) /\
  (forall c, nth_error cs (length ks) = Some c -> aget (wbc b) N = Ok c) /\
  (forall i j p, i < length ks -> j < length ks -> aget (bs b) (S i) = Ok p -> aget (bs b) (S j) = Ok p -> i = j) /\
  (forall p, p < N -> (bit (bb b) p = true <-> In p xs \/ exists i, i < length ks /\ aget (bs b) (S i) = Ok p)).

Section Checked.
Variables (V : Type) (N M : nat).
Notation leaf := (wleaf V).

Definition wk_leaf (l : leaf) (key : Z) : res unit :=
  do n <- w_count l;
  do pos <- w_pos l key;
  if n <? pos then UB else
  do k <- w_key l pos;
  if (k =? key)%Z && (n =? M) then UB else Ok tt.

(** Whether the repair of a leaf is let through ([UB]: not), and whether the node above loses a key. *)
Definition wk_fix (t : wtree V) (id pos lf : nat) : res bool :=
  let h := wth t in
  let middle := (M + 1) / 2 in
  do b <- getwb (wtb t) id;
  do n <- aget (bs b) 0;
  do l <- getl h lf;
  do m <- w_count l;
  do prevNum <- (if 1 <? pos then do p <- of_opt (hpv h lf); do pl <- getl h p; w_count pl else Ok 0);
  if (1 <? pos) && (middle <? prevNum) then
    if (pos =? n + 1) && (0 <? m) then Ok false else UB
  else
  do nextNum <- (if pos <=? n then do x <- of_opt (hnx h lf); do nl <- getl h x; w_count nl else Ok 0);
  if (pos <=? n) && (middle <? nextNum) then UB
  else if (2 <=? n) || ((n =? 1) && (wdepth t =? 1)) then Ok true else UB.

(** The number of keys of node [id] after the erase, or [UB] if something below is not let through. *)
Fixpoint wk_keys (t : wtree V) (d id : nat) (key : Z) : res nat :=
  match d with
  | 0 => UB
  | S d' =>
    do b <- getwb (wtb t) id;
    do n <- aget (bs b) 0;
    do pos <- wb_pos b key;
    do c <- wb_child N b pos;
    match d' with
    | 0 =>
      do l <- getl (wth t) c;
      do _ <- wk_leaf l key;
      do r <- erase_leaf (w_ops V M) (wth t) c key;
      do l' <- getl (snd r) c;
      do m <- w_count l';
      if m <? (M + 1) / 2 then
        do x <- wk_fix (WTree (snd r) (wtb t) (wroot t) (wdepth t)) id pos c;
        Ok (n - if (x : bool) then 1 else 0)
      else Ok n
    | S _ =>
      do m <- wk_keys t d' c key;
      if m <? (N + 1) / 2 then
        if (d =? wdepth t) && (n =? 1) && (pos =? 2) then
          do c1 <- wb_child N b 1;
          do b1 <- getwb (wtb t) c1;
          do p <- aget (bs b1) 0;
          if (0 <? p) && (p <=? (N + 1) / 2) then Ok 0 else UB
        else UB
      else Ok n
    end
  end.

Definition wk_erase (t : wtree V) (key : Z) : res unit :=
  match wdepth t with
  | 0 => do l <- getl (wth t) (wroot t); wk_leaf l key
  | S _ => do _ <- wk_keys t (wdepth t) (wroot t) key; Ok tt
  end.

Definition wk_insert (t : wtree V) (key : Z) : res unit :=
  do i <- wt_route N (wtb t) (wdepth t) (wroot t) key;
  do l <- getl (wth t) i;
  do n <- w_count l;
  if n <? M then Ok tt else
  do o <- w_lookup l key;
  match o with
  | Some _ => Ok tt
  | None => do pos <- w_pos l key; if pos =? (M + 1) / 2 then UB else Ok tt
  end.

Definition wk_ok (t : wtree V) (o : mop V) : bool :=
  match (match o with OpInsert k _ => wk_insert t k | OpErase _ k => wk_erase t k end) with Ok _ => true | _ => false end.

(** Histories all of whose operations are let through. *)
Fixpoint wk_fine (t : wtree V) (os : list (mop V)) : bool :=
  match os with
  | [] => true
  | o :: r => wk_ok t o && match we_step N M t o with Ok t' => wk_fine t' r | _ => true end
  end.
End Checked.
