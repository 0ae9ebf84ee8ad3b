(** pskiplists/woPSkiplist.hpp: a skip list whose nodes hold up to N unsorted entries.

    A list is an array of nodes (node 0 is the head; nodes are never freed), the height and the node
    counter.  As in SkipModel the persistent stores are explicit: [w_insert_stores] yields the stores of
    an insert in program order, and a power failure is a prefix of them.

    Simplifications: a new sibling is filled before anything refers to it, so its allocation and
    filling, 269-292, are one store; the key and the value written into an unused slot, 252-253, are one
    store.  The outcome of rnd->Uniform(M) is an argument [r].  initList, 181-191, calls
    newSkipNode(level, min, max) with (min, max, level) and newSkipNode, 157-163, calls
    SkipNode(min, max, level) with (level, min, max); the two permutations cancel. *)
From Verif Require Import Base RankModel BitmapModel ULeafModel.
Open Scope nat_scope.

Section Wo.
Variables (V : Type) (t : ktype) (N M : nat).

(** The part of a node that is read by key searches: bits, keys, values, minKey, maxKey, 78-85 *)
Record wcell := WCell { wb : list BinNums.N; wk : arr Z; wv : arr V; wmin : Z; wmax : Z }.
Record wnode := WNode { wc : wcell; wlev : nat; wfwd : list (option nat) }.
Record wlist := WList { wnodes : list wnode; wheight : nat; wcount : nat }.

Definition wnode_at (ns : list wnode) (p : nat) : res wnode := of_opt (nth_error ns p).
Definition wfwd_at (ns : list wnode) (p i : nat) : res (option nat) :=
  do x <- wnode_at ns p; of_opt (nth_error (wfwd x) i).

(** SkipNode(), 91-92; bits() is zero, keys and values are not initialised *)
Definition w_cell0 (mn mx : Z) : wcell := WCell (bm_new N) (anew N) (anew N) mn mx.
Definition w_empty : wcell := w_cell0 (kt_max t) (kt_min t).

(** getRandomLevel, 316-319 *)
Definition w_level (r : nat) : nat := if r =? 0 then 1 else r.

(** Constructor and initList, 181-191, 331-334 *)
Definition w_new (r : nat) : res wlist :=
  let h := w_level r in
  do f <- for_up 0 h (fun i f => of_opt (lset f i (Some 1))) (repeat None M);
  Ok (WList [WNode (w_cell0 (kt_min t) (kt_min t)) M f; WNode w_empty h (repeat None M)] h 1).

(** The loops 222-228 and 383-388: the first used slot holding [key]. *)
Fixpoint w_find (rounds : nat) (c : wcell) (i : nat) (key : Z) : res (option nat) :=
  match rounds with
  | O => Ok None
  | S n =>
    do b <- bm_test N (wb c) i;
    do hit <- (if (b : bool) then do k <- aget (wk c) i; Ok (k =? key)%Z else Ok false);
    if (hit : bool) then Ok (Some i) else w_find n c (S i) key
  end.

(** searchInNode, 221-229 *)
Definition w_search_in (c : wcell) (key : Z) : res (option V) :=
  do o <- w_find N c 0 key;
  match o with Some i => do v <- aget (wv c) i; Ok (Some v) | None => Ok None end.

(** Inner loop of searchNode, 200-207: [inr] is the node returned, [inl] the predecessor at the end. *)
Fixpoint w_walk (fuel : nat) (ns : list wnode) (i pred : nat) (key : Z) : res (nat + nat) :=
  do next <- wfwd_at ns pred i;
  match next with
  | None => Ok (inl pred)
  | Some n =>
    do x <- wnode_at ns n;
    if (key >? wmax (wc x))%Z then
      match fuel with O => NoFuel | S f => w_walk f ns i n key end
    else if (key <? wmin (wc x))%Z then Ok (inl pred)
    else Ok (inr n)
  end.

(** searchNode, 196-211 *)
Fixpoint w_search_node (i : nat) (ns : list wnode) (pred : nat) (key : Z) : res (option nat) :=
  do r <- w_walk (length ns) ns i pred key;
  match r with
  | inr n => Ok (Some n)
  | inl p => match i with O => Ok None | S j => w_search_node j ns p key end
  end.

(** search, 350-353 *)
Definition w_search (s : wlist) (key : Z) : res (option V) :=
  do o <- w_search_node (wheight s) (wnodes s) 0 key;
  match o with
  | Some n => do x <- wnode_at (wnodes s) n; w_search_in (wc x) key
  | None => Ok None
  end.

(** The descent of insert, 367-376, with the array update. *)
Fixpoint w_pass (fuel : nat) (ns : list wnode) (i node : nat) (key : Z) : res nat :=
  do next <- wfwd_at ns node i;
  match next with
  | None => Ok node
  | Some n =>
    do x <- wnode_at ns n;
    if (wmax (wc x) <? key)%Z then
      match fuel with O => NoFuel | S f => w_pass f ns i n key end
    else Ok node
  end.
Fixpoint w_descend (i : nat) (ns : list wnode) (node : nat) (key : Z) (u : list (option nat))
  : res (nat * list (option nat)) :=
  do n <- w_pass (length ns) ns i node key;
  do u' <- of_opt (lset u i (Some n));
  match i with O => Ok (n, u') | S j => w_descend j ns n key u' end.

Inductive wst :=
| WAlloc (x : wnode)
| WBits (p : nat) (b : list BinNums.N) | WSlot (p i : nat) (k : Z) (v : V) | WVal (p i : nat) (v : V)
| WMin (p : nat) (k : Z) | WMax (p : nat) (k : Z) | WLevel (p l : nat)
| WCopy (dst src i : nat)                        (* dst->forward[i] = src->forward[i] *)
| WFwd (p i n : nat)                             (* p->forward[i] = n *)
| WHeight (h : nat) | WCount.

Definition set_cell (ns : list wnode) (p : nat) (g : wcell -> res wcell) : res (list wnode) :=
  do x <- wnode_at ns p;
  do c <- g (wc x);
  of_opt (lset ns p (WNode c (wlev x) (wfwd x))).
Definition set_wfwd (ns : list wnode) (p i : nat) (o : option nat) : res (list wnode) :=
  do x <- wnode_at ns p;
  do f <- of_opt (lset (wfwd x) i o);
  of_opt (lset ns p (WNode (wc x) (wlev x) f)).
Definition on_nodes (s : wlist) (r : res (list wnode)) : res wlist :=
  do ns <- r; Ok (WList ns (wheight s) (wcount s)).

Definition w_step (s : wlist) (a : wst) : res wlist :=
  let ns := wnodes s in
  match a with
  | WAlloc x => Ok (WList (ns ++ [x]) (wheight s) (wcount s))
  | WBits p b => on_nodes s (set_cell ns p (fun c => Ok (WCell b (wk c) (wv c) (wmin c) (wmax c))))
  | WSlot p i k v => on_nodes s (set_cell ns p (fun c =>
      do ks <- aset (wk c) i k; do vs <- aset (wv c) i v; Ok (WCell (wb c) ks vs (wmin c) (wmax c))))
  | WVal p i v => on_nodes s (set_cell ns p (fun c =>
      do vs <- aset (wv c) i v; Ok (WCell (wb c) (wk c) vs (wmin c) (wmax c))))
  | WMin p k => on_nodes s (set_cell ns p (fun c => Ok (WCell (wb c) (wk c) (wv c) k (wmax c))))
  | WMax p k => on_nodes s (set_cell ns p (fun c => Ok (WCell (wb c) (wk c) (wv c) (wmin c) k)))
  | WLevel p l => on_nodes s (do x <- wnode_at ns p; of_opt (lset ns p (WNode (wc x) l (wfwd x))))
  | WCopy d p i => on_nodes s (do o <- wfwd_at ns p i; set_wfwd ns d i o)
  | WFwd p i n => on_nodes s (set_wfwd ns p i (Some n))
  | WHeight h => Ok (WList ns h (wcount s))
  | WCount => Ok (WList ns (wheight s) (S (wcount s)))
  end.
Fixpoint w_exec (s : wlist) (p : list wst) : res wlist :=
  match p with [] => Ok s | a :: r => do s' <- w_step s a; w_exec s' r end.

(** The loop filling the sibling, 283-292; [j] is sibPos. *)
Definition w_fill_step (c : wcell) (splitKey : Z) (i : nat) (sj : wcell * nat) : res (wcell * nat) :=
  let '(s, j) := sj in
  do b <- bm_test N (wb c) i;
  if (b : bool) then
    do k <- aget (wk c) i;
    if (k >=? splitKey)%Z then
      do v <- aget (wv c) i;
      do ks <- aset (wk s) j k;
      do vs <- aset (wv s) j v;
      let mn := if (k <? wmin s)%Z then k else wmin s in
      let mx := if (k >? wmax s)%Z then k else wmax s in
      do bs <- bm_set N (wb s) j true;
      Ok (WCell bs ks vs mn mx, S j)
    else Ok sj
  else Ok sj.

(** findSplitKey's bitmap, utils/SearchFunctions.hpp 87-95, from the list of marks *)
Fixpoint bm_mark (n : nat) (ws : list BinNums.N) (i : nat) (marks : list bool) : res (list BinNums.N) :=
  match marks with
  | [] => Ok ws
  | m :: r => do ws' <- (if m then bm_set n ws i true else Ok ws); bm_mark n ws' (S i) r
  end.

(** The loop refreshing the bounds, 296-303: (tmpMax, tmpMin) *)
Definition w_bounds (bits : list BinNums.N) (ks : arr Z) : res (Z * Z) :=
  for_up 0 N (fun i m =>
    do b <- bm_test N bits i;
    if (b : bool) then
      do k <- aget ks i;
      Ok (if (k >? fst m)%Z then k else fst m, if (k <? snd m)%Z then k else snd m)
    else Ok m) (kt_min t, kt_max t).

(** splitNode, 267-309, of the node [p] with content [c]; the sibling becomes node [new]. *)
Definition w_split (c : wcell) (p new : nat) : res (Z * list wst) :=
  do data <- read_all N 0 (wk c);
  do r <- findSplitKey t data;
  do splitKey <- aget (wk c) (snd r);
  do sj <- for_up 0 N (w_fill_step c splitKey) (w_empty, 0);
  do b <- bm_mark N (bm_new N) 0 (fst r);
  do m <- w_bounds b (wk c);
  Ok (splitKey, [WAlloc (WNode (fst sj) 0 (repeat None M)); WBits p b; WMax p (fst m); WMin p (snd m);
                 WCopy new p 0; WFwd p 0 new]).

(** The insertion proper, 249-257, into node [p]. *)
Definition w_put (c : wcell) (p : nat) (key : Z) (val : V) : res (list wst) :=
  do slot <- getFreeZero (wb c);
  do b <- bm_set N (wb c) slot true;
  Ok (WSlot p slot key val :: WBits p b ::
      (if (key <? wmin c)%Z then [WMin p key] else []) ++ (if (key >? wmax c)%Z then [WMax p key] else [])).

(** insertInNode, 238-259 *)
Definition w_insert_in (s : wlist) (p : nat) (key : Z) (val : V) : res (bool * list wst) :=
  do x <- wnode_at (wnodes s) p;
  do full <- bm_all N (wb (wc x));
  if (full : bool) then
    do r <- w_split (wc x) p (length (wnodes s));
    do s1 <- w_exec s (snd r);
    do tgt <- (if (key >=? fst r)%Z then do o <- wfwd_at (wnodes s1) p 0; of_opt o else Ok p);
    do y <- wnode_at (wnodes s1) tgt;
    do q <- w_put (wc y) tgt key val;
    Ok (true, snd r ++ q)
  else
    do q <- w_put (wc x) p key val;
    Ok (false, q).

(** The loop linking the sibling on the upper levels, 407-410. *)
Fixpoint w_link (n i next : nat) (u : list (option nat)) : res (list wst) :=
  match n with
  | O => Ok []
  | S n' =>
    do o <- of_opt (nth_error u i);
    do p <- of_opt o;
    do r <- w_link n' (S i) next u;
    Ok (WCopy next p i :: WFwd p i next :: r)
  end.

(** insert, 362-414: the result and the stores. *)
Definition w_insert_stores (s : wlist) (key : Z) (val : V) (r : nat) : res (bool * list wst) :=
  let ns := wnodes s in
  do d <- w_descend (wheight s) ns 0 key (repeat None M);
  let '(n, u) := d in
  do nx <- wfwd_at ns n 0;
  let node := match nx with Some p => p | None => n end in
  do x <- wnode_at ns node;
  do o <- w_find N (wc x) 0 key;
  match o with
  | Some i => Ok (false, [WVal node i val])
  | None =>
    do q <- w_insert_in s node key val;
    if (fst q : bool) then
      do s1 <- w_exec s (snd q);
      let h := w_level r in
      let grow := wheight s <? h in
      do u' <- (if grow then
                  for_up (S (wheight s)) (h - S (wheight s)) (fun i u => of_opt (lset u i (Some 0))) u
                else Ok u);
      do o <- wfwd_at (wnodes s1) node 0;
      do next <- of_opt o;
      do links <- w_link (h - 1) 1 next u';
      Ok (true, snd q ++ WCount :: (if grow then [WHeight h] else []) ++ WLevel next h :: links)
    else Ok (true, snd q)
  end.

Definition w_insert (s : wlist) (key : Z) (val : V) (r : nat) : res (wlist * bool) :=
  do p <- w_insert_stores s key val r;
  do s' <- w_exec s (snd p);
  Ok (s', fst p).

(** A list built by inserts: the random number of the constructor, then (key, value, random number). *)
Fixpoint w_run (s : wlist) (os : list (Z * V * nat)) : res wlist :=
  match os with [] => Ok s | (k, v, r) :: rest => do x <- w_insert s k v r; w_run (fst x) rest end.

(** An insert cut off by a power failure after [n] stores. *)
Definition w_crash (s : wlist) (key : Z) (val : V) (r n : nat) : res wlist :=
  do p <- w_insert_stores s key val r; w_exec s (firstn n (snd p)).

(** printNode, 127-136: bounds, number of entries, keys *)
Definition w_print_node (c : wcell) : res (Z * Z * BinNums.N * list Z) :=
  do ks <- for_up 0 N (fun i out =>
    do b <- bm_test N (wb c) i;
    if (b : bool) then do k <- aget (wk c) i; Ok (out ++ [k]) else Ok out) [];
  Ok (wmin c, wmax c, bm_count (wb c), ks).
(** The inner loop of printList, 432-435, on level [i] from the node [o]. *)
Fixpoint w_print_level (fuel : nat) (ns : list wnode) (i : nat) (o : option nat) : res (list (Z * Z * BinNums.N * list Z)) :=
  match o with
  | None => Ok []
  | Some p =>
    match fuel with
    | O => NoFuel
    | S f =>
      do x <- wnode_at ns p; do e <- w_print_node (wc x);
      do nx <- of_opt (nth_error (wfwd x) i);
      do r <- w_print_level f ns i nx; Ok (e :: r)
    end
  end.
(** printList, 426-439: the row of level [i]; terminal decoration is left out. *)
Definition w_print_row (s : wlist) (i : nat) : res (list (Z * Z * BinNums.N * list Z)) :=
  do h <- wnode_at (wnodes s) 0; do o <- of_opt (nth_error (wfwd h) i);
  w_print_level (length (wnodes s)) (wnodes s) i o.
End Wo.
Arguments WAlloc {V}. Arguments WBits {V}. Arguments WMin {V}. Arguments WMax {V}. Arguments WLevel {V}.
Arguments WCopy {V}. Arguments WFwd {V}. Arguments WHeight {V}. Arguments WCount {V}.
