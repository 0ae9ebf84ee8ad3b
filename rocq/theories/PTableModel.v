(** Model of ptable/PTable.hpp: insert, findInsertNodeOrSplit, splitBlock, deleteByKey, getByKey,
    count, rangeScan and its BlockIterator.  Blocks: BlockModel.v; clustering value: BdccModel.v.

    KeyType is int.  The index is a map from keys to PTuples: PBPTree behaves like one (C01, C02) as
    long as no absent key is erased (C04).  A node is never freed (splitBlock keeps the old one,
    1071); the linked list of nodes is the list of their numbers in order.

    Parameters: [as_int] is the int that applyMask reads from an attribute (for an int its value, for
    a double its conversion, for a string its first four bytes), [neg] the result of a shift by a
    negative amount (see BdccModel), [dlt] the comparison of doubles, [kc] the content of
    PTableInfo::keyColumn, which no constructor initialises, [past] whether the memory behind the
    vector of candidate blocks happens to look like a null pointer (operator++ reads it). *)
From Verif Require Import Base SerModel BdccModel BlockModel.
Open Scope Z_scope.

Record node := Node { blk : block; del : list Z; bsum : Z }.       (* DataNode.hpp 79-99 *)
Record ptuple := PTuple { pnode : nat; poffs : list Z }.            (* PTuple.hpp 375-376 *)
Record table := Table { nodes : list node; chain : list nat; index : list (Z * ptuple) }.

Record params := Params {
  cols : list col;
  dims : list dim;
  kc : nat;
  as_int : attr -> Z;
  neg : Z -> Z -> Z;
  dlt : Z -> Z -> bool;
  past : bool
}.

(** The index. *)
Fixpoint ix_lookup (m : list (Z * ptuple)) (k : Z) : option ptuple :=
  match m with [] => None | (k', p) :: r => if k' =? k then Some p else ix_lookup r k end.
Fixpoint ix_erase (m : list (Z * ptuple)) (k : Z) : list (Z * ptuple) :=
  match m with [] => [] | (k', p) :: r => if k' =? k then ix_erase r k else (k', p) :: ix_erase r k end.
Definition ix_insert (m : list (Z * ptuple)) (k : Z) (p : ptuple) := (k, p) :: ix_erase m k.

Section Table.
Variable P : params.

Definition xtr (t : tuple) : res Z :=
  do v <- bdcc_value (Some (neg P)) (dims P) (map (as_int P) t); Ok (Z.of_N v).

Definition range_of (n : node) : res (Z * Z) :=
  do lo <- u32 (blk n) 0; do hi <- u32 (blk n) 4; Ok (lo, hi).

(** init, 733-740 *)
Definition t_init : res table :=
  do b <- init_block (cols P) 0 (w32 (2 ^ Z.of_nat (num_bins (dims P)) - 1));
  Ok (Table [Node b [] 0] [0%nat] []).

Definition node_at (t : table) (i : nat) : res node := of_opt (nth_error (nodes t) i).
Definition set_node (t : table) (i : nat) (n : node) : res table :=
  do l <- of_opt (lset (nodes t) i n); Ok (Table l (chain t) (index t)).

(** insertTuple, 824-963 *)
Definition insert_tuple (t : table) (key : Z) (tp : tuple) (i : nat) : res table :=
  do n <- node_at t i;
  do x <- block_insert (dlt P) (cols P) (blk n) tp;
  let '(b, offs) := x in
  do v <- xtr tp;
  do t' <- set_node t i (Node b (del n) (bsum n + v));
  Ok (Table (nodes t') (chain t') (ix_insert (index t') key (PTuple i offs))).

(** The loop in insert, 357-367: the first node whose range contains the value; running off the list
    dereferences null. *)
Fixpoint find_node (t : table) (c : list nat) (v : Z) : res (list nat) :=
  match c with
  | [] => UB
  | i :: r => do n <- node_at t i; do g <- range_of n;
              if (fst g <=? v) && (v <=? snd g) then Ok c else find_node t r v
  end.

(** The while loop in findInsertNodeOrSplit, 1252-1257; [c] starts at the current node. *)
Fixpoint skip_full (t : table) (tp : tuple) (c : list nat) (g : Z * Z) (full : bool) : res (nat * (Z * Z) * bool) :=
  match c with
  | [] => UB
  | i :: r =>
    match r with
    | j :: _ =>
      if (fst g =? snd g) && full then
        do n <- node_at t j; do g' <- range_of n;
        do ok <- has_enough_space (cols P) (blk n) tp;
        skip_full t tp r g' (negb ok)
      else Ok (i, g, full)
    | [] => Ok (i, g, full)
    end
  end.

(** findInsertNodeOrSplit, 1244-1268: the node and whether it must be split. *)
Definition find_insert (t : table) (tp : tuple) (c : list nat) : res (nat * bool) :=
  do i <- of_opt (hd_error c);
  do n <- node_at t i;
  do g <- range_of n;
  do ok <- has_enough_space (cols P) (blk n) tp;
  do x <- skip_full t tp c g (negb ok);
  let '(j, g', full) := x in
  do v <- xtr tp;
  if v <? fst g' then Ok (i, true) else Ok (j, full).

(** The loop over the tuples in splitBlock, 993-1056: [pos] .. [pos + n - 1]. *)
Fixpoint move_rows (t : table) (old n1 n2 : nat) (n : nat) (pos cnt split bmax : Z) : res table :=
  match n with
  | O => Ok t
  | S n' =>
    do o <- node_at t old;
    do t' <-
      (if existsb (Z.eqb pos) (del o) then Ok t
       else
         do offs <- row_offsets (blk o) 0 (cols P) pos;
         do kcol <- u16 (blk o) (data_off_pos + Z.of_nat (kc P) * 4);
         do key <- u16 (blk o) (w16 (kcol + pos * 4));
         let t1 := Table (nodes t) (chain t) (ix_erase (index t) key) in
         do tp <- create_tuple (blk o) (cols P) offs;
         if split =? bmax then insert_tuple t1 key tp (if pos <? cnt / 2 then n1 else n2)
         else do v <- xtr tp; insert_tuple t1 key tp (if v <=? split then n1 else n2));
    move_rows t' old n1 n2 n' (pos + 1) cnt split bmax
  end.

Fixpoint replace_in (c : list nat) (old : nat) (news : list nat) : list nat :=
  match c with [] => [] | i :: r => if (i =? old)%nat then news ++ r else i :: replace_in r old news end.

(** splitBlock, 965-1079 *)
Definition split_block (t : table) (old : nat) : res table :=
  do o <- node_at t old;
  do g <- range_of o;
  let '(bmin, bmax) := g in
  do cnt32 <- u32 (blk o) count_pos;
  if cnt32 =? 0 then UB else                       (* calcAverageBDCC divides by the count *)
  let split := w32 (bsum o / cnt32) in
  do b1 <- init_block (cols P) bmin split;
  do b2 <- (if split =? bmax then init_block (cols P) bmax bmax else init_block (cols P) (w32 (split + 1)) bmax);
  let n1 := length (nodes t) in
  let n2 := S n1 in
  let t1 := Table (nodes t ++ [Node b1 [] 0; Node b2 [] 0]) (chain t) (index t) in
  do cnt <- u16 (blk o) count_pos;
  do t2 <- move_rows t1 old n1 n2 (Z.to_nat cnt) 0 cnt split bmax;
  Ok (Table (nodes t2) (replace_in (chain t2) old [n1; n2]) (index t2)).

(** insert, 345-396 *)
Fixpoint insert (fuel : nat) (t : table) (key : Z) (tp : tuple) : res table :=
  match fuel with
  | O => NoFuel
  | S f =>
    do v <- xtr tp;
    do c <- find_node t (chain t) v;
    do x <- find_insert t tp c;
    let '(i, full) := x in
    if full : bool then do t' <- split_block t i; insert f t' key tp
    else insert_tuple t key tp i
  end.

(** getByKey, 495-502, followed by createTuple; [None] is the exception. *)
Definition get_by_key (t : table) (key : Z) : res (option tuple) :=
  match ix_lookup (index t) key with
  | None => Ok None
  | Some p => do n <- node_at t (pnode p); do tp <- create_tuple (blk n) (cols P) (poffs p); Ok (Some tp)
  end.

(** deleteByKey, 450-482; [None] is the exception. *)
Definition delete_by_key (t : table) (key : Z) : res (option table) :=
  match ix_lookup (index t) key with
  | None => Ok None
  | Some p =>
    do n <- node_at t (pnode p);
    do dat <- u16 (blk n) data_off_pos;
    do c <- of_opt (hd_error (cols P));
    do o <- of_opt (hd_error (poffs p));
    let pos := w16 (Z.quot (o - dat) (data_size c)) in
    do t' <- set_node t (pnode p) (Node (blk n) (del n ++ [pos]) (bsum n));
    Ok (Some (Table (nodes t') (chain t') (ix_erase (index t') key)))
  end.

(** count, 528-537 *)
Fixpoint count_from (t : table) (c : list nat) (acc : Z) : res Z :=
  match c with
  | [] => Ok acc
  | i :: r => do n <- node_at t i; do k <- u32 (blk n) count_pos;
              count_from t r (w64 (acc + k - Z.of_nat (length (del n))))
  end.
Definition count (t : table) : res Z := count_from t (chain t) 0.

(** getCandidateBlocks, 1112-1190 *)
Fixpoint candidates (t : table) (c : list nat) (ps : list pred) : res (list nat) :=
  match c with
  | [] => Ok []
  | i :: r => do n <- node_at t i; do k <- candidate (dlt P) (cols P) (blk n) ps;
              do l <- candidates t r ps; Ok (if k : bool then i :: l else l)
  end.

(** BlockIterator: the candidates from the current node on, currentCnt, currentPos. *)
Definition biter := (list nat * Z * Z)%type.
Definition at_end (it : biter) : bool := let '(_, cnt, pos) := it in (pos =? 1) && (cnt =? 0).
Definition it_row (t : table) (it : biter) : res (node * list Z) :=
  let '(c, _, pos) := it in
  do i <- of_opt (hd_error c); do n <- node_at t i;
  do offs <- row_offsets (blk n) 0 (cols P) (pos - 1); Ok (n, offs).

(** operator++, 110-130 *)
Fixpoint it_next (fuel : nat) (t : table) (ps : list pred) (it : biter) : res biter :=
  match fuel with
  | O => NoFuel
  | S f =>
    let '(c, cnt, pos) := it in
    let pos' := w16 (pos + 1) in
    do it' <-
      (if cnt <? pos' then
         match tl c with
         | [] => if past P then Ok ([], 0, 1, true) else UB
         | j :: _ => do n <- node_at t j; do k <- u32 (blk n) count_pos; Ok (tl c, w16 k, 1, false)
         end
       else Ok (c, cnt, pos', false));
    let '(it1, ended) := it' in
    if ended : bool then Ok it1
    else
      do r <- it_row t it1;
      do ok <- in_range (dlt P) (cols P) (blk (fst r)) (snd r) ps;
      if ok : bool then Ok it1 else it_next f t ps it1
  end.

(** rangeScan(ps) consumed by [for (it = begin; it != end; ++it) createTuple of each element]. *)
Definition it_begin (fuel : nat) (t : table) (ps : list pred) : res biter :=
  do c <- candidates t (chain t) ps;
  match c with
  | [] => Ok ([], 0, 1)
  | i :: _ => do n <- node_at t i; do k <- u32 (blk n) count_pos; it_next fuel t ps (c, w16 k, 0)
  end.
Fixpoint it_collect (fuel : nat) (t : table) (ps : list pred) (it : biter) : res (list tuple) :=
  match fuel with
  | O => NoFuel
  | S f =>
    if at_end it then Ok []
    else
      do r <- it_row t it;
      do tp <- create_tuple (blk (fst r)) (cols P) (snd r);
      do it' <- it_next f t ps it;
      do l <- it_collect f t ps it'; Ok (tp :: l)
  end.
Definition range_scan (fuel : nat) (t : table) (ps : list pred) : res (list tuple) :=
  do it <- it_begin fuel t ps; it_collect fuel t ps it.

(** Histories. *)
Inductive top := TInsert (key : Z) (tp : tuple) | TDelete (key : Z).
Definition t_step (fuel : nat) (t : table) (o : top) : res table :=
  match o with
  | TInsert k tp => insert fuel t k tp
  | TDelete k => do x <- delete_by_key t k; Ok (match x with Some t' => t' | None => t end)
  end.
Fixpoint t_run (fuel : nat) (t : table) (l : list top) : res table :=
  match l with [] => Ok t | o :: r => do t' <- t_step fuel t o; t_run fuel t' r end.
End Table.
