(** What it takes, in addition to WbESpec, for an erase of wHBPTree to leave the tree alone, decided before
    the operation: when the last leaf below a node takes entries from its left neighbour, the position of
    the new smallest key in the leaf is the one that the first slot of the branch node leads to. *)
From Verif Require Import Base MapSpec BitmapModel BTreeModel WbModel WbEModel WbESpec WhModel.
Open Scope nat_scope.

Section Checked.
Variables (V : Type) (N M : nat).

Definition wh_same_fix (t : wtree V) (id pos lf : nat) : res unit :=
  let h := wth t in
  do prevNum <- (if 1 <? pos then do p <- of_opt (hpv h lf); do pl <- getl h p; w_count pl else Ok 0);
  if (1 <? pos) && ((M + 1) / 2 <? prevNum) then
    do p <- of_opt (hpv h lf);
    do h1 <- balance_leaf (w_ops V M) h p lf;
    do l <- getl h1 lf;
    do b <- getwb (wtb t) id;
    do x <- aget (bs b) 1;
    do y <- aget (ws l) 1;
    if x =? y then Ok tt else UB
  else Ok tt.

Fixpoint wh_same (t : wtree V) (d id : nat) (key : Z) : res unit :=
  match d with
  | 0 => Ok tt
  | S d' =>
    do b <- getwb (wtb t) id;
    do pos <- wb_pos b key;
    do c <- wb_child N b pos;
    match d' with
    | 0 =>
      do r <- erase_leaf (w_ops V M) (wth t) c key;
      do l <- getl (snd r) c;
      do m <- w_count l;
      if m <? (M + 1) / 2 then wh_same_fix (WTree (snd r) (wtb t) (wroot t) (wdepth t)) id pos c else Ok tt
    | S _ => wh_same t d' c key
    end
  end.

Definition wkh_ok (t : wtree V) (o : mop V) : bool :=
  wk_ok N M t o &&
  match o with
  | OpInsert _ _ => true
  | OpErase _ k => match wh_same t (wdepth t) (wroot t) k with Ok _ => true | _ => false end
  end.

(** Histories all of whose operations are let through. *)
Fixpoint wkh_fine (t : wtree V) (os : list (mop V)) : bool :=
  match os with
  | [] => true
  | o :: r => wkh_ok t o && match wh_step N M t o with Ok t' => wkh_fine t' r | _ => true end
  end.
End Checked.
