(** The iterators over leaves with a bitmap: FPTree.hpp:218-272, BitPBPTree.hpp:184-246,
    BitHPBPTree.hpp:233-291, wBPTree.hpp:245-302, wHBPTree.hpp:235-288 (the same statements); and the one of
    UnsortedPBPTree.hpp:133-188, whose statements are those of PBPTree (SIterModel).

    Simplifications: [test(i)] with i beyond the bitmap, which throws, is [UB]; [currentPosition] of FPTree is
    an unsigned int, positions are below M. *)
From Verif Require Import Base BitmapModel BTreeModel SIterModel FLeafModel BitTreeModel WbModel.
Open Scope nat_scope.

Section BIter.
Variables (L V : Type) (M : nat).
Variables (tst : L -> nat -> res bool) (ent : L -> nat -> res (Z * V)).

(** while (!nodeBits.test(currentPosition)) ++currentPosition, FPTree.hpp:232, 241. *)
Fixpoint bi_seek (fuel : nat) (l : L) (pos : nat) : res nat :=
  match fuel with
  | 0 => NoFuel
  | S f => do b <- tst l pos; if (b : bool) then Ok pos else bi_seek f l (S pos)
  end.

(** The first entry of leaf [o]; the end if there is none, 230-232, 237-241. *)
Definition bi_enter (h : heap L) (o : option nat) : res iter :=
  match o with
  | None => Ok it_end
  | Some i => do l <- getl h i; do p <- bi_seek (S M) l 0; Ok (Iter (Some i) p)
  end.

(** operator++, 235-244; it calls itself. *)
Fixpoint bi_next (fuel : nat) (h : heap L) (i pos : nat) : res iter :=
  do l <- getl h i;
  if M - 1 <=? pos then bi_enter h (hnx h i)
  else
    do b <- tst l (S pos);
    if (b : bool) then Ok (Iter (Some i) (S pos))
    else match fuel with 0 => NoFuel | S f => bi_next f h i (S pos) end.

(** operator*, 258-262 *)
Definition bi_deref (h : heap L) (it : iter) : res (Z * V) :=
  do i <- of_opt (it_node it); do l <- getl h i; ent l (it_pos it).

(** [for (it = begin(); it != end(); ++it) out.push_back( *it );] with at most [fuel] rounds. *)
Fixpoint bi_loop (fuel : nat) (h : heap L) (it : iter) : res (list (Z * V)) :=
  if it_eqb it it_end then Ok []
  else match fuel with
       | 0 => NoFuel
       | S f =>
         do e <- bi_deref h it;
         do i <- of_opt (it_node it);
         do it' <- bi_next M h i (it_pos it);
         do r <- bi_loop f h it';
         Ok (e :: r)
       end.

(** begin() is given the leftmost leaf as found by the descent to children[0], 226-229. *)
Definition bi_all (fuel : nat) (h : heap L) (first : res nat) : res (list (Z * V)) :=
  do i <- first; do it <- bi_enter h (Some i); bi_loop fuel h it.
End BIter.

Definition fl_ent {V} (l : fleaf V) (i : nat) : res (Z * V) := do k <- aget (fk l) i; do v <- aget (fv l) i; Ok (k, v).
Definition fl_tst {V} (M : nat) (l : fleaf V) (i : nat) : res bool := bm_test M (fb l) i.
Definition w_ent {V} (l : wleaf V) (i : nat) : res (Z * V) := do k <- aget (wk l) i; do v <- aget (wv l) i; Ok (k, v).
Definition w_tst {V} (M : nat) (l : wleaf V) (i : nat) : res bool := bm_test M (wb l) i.

Definition fp_iter {V} (M fuel : nat) (t : tree (fleaf V)) : res (list (Z * V)) :=
  bi_all M (fl_tst M) fl_ent fuel (th t) (leftmost (th t) (tdepth t) (troot t)).
Definition bit_iter {V} (M fuel : nat) (t : btree V) : res (list (Z * V)) :=
  bi_all M (fl_tst M) fl_ent fuel (bth t) (bt_first (btb t) (bdepth t) (broot t)).
Definition w_iter {V} (M fuel : nat) (t : wtree V) : res (list (Z * V)) :=
  bi_all M (w_tst M) w_ent fuel (wth t) (wt_first (wtb t) (wdepth t) (wroot t)).
