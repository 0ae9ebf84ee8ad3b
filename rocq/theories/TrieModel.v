(** ptries/BaseTrie.hpp: the trie with one child pointer per byte.

    Simplifications.
    - A node's 256 child pointers are a function from the byte to the child; the pointers of a trie form a tree,
      since every node is allocated by the insert that links it (lines 84-92), so a node contains its children.
    - Keys are lists of bytes; the parameter [key_size] is the length of the list.
    - [subNodes] adds in unbounded integers instead of [int].
    - A transaction takes effect completely or not at all when power fails. *)
From Verif Require Import Base.
Open Scope Z_scope.

Section Trie.
Variable V : Type.

(** mIsValue, mValue ([None]: never written), mSize, mChildren; lines 66-71 *)
Inductive tnode := TNode (isv : bool) (val : option V) (size : Z) (ch : Z -> option tnode).

Definition t_isv (n : tnode) := let '(TNode i _ _ _) := n in i.
Definition t_size (n : tnode) := let '(TNode _ _ s _) := n in s.

(** A default-initialised node *)
Definition t_node0 : tnode := TNode false None 0 (fun _ => None).

Definition c_upd (ch : Z -> option tnode) (b : Z) (o : option tnode) : Z -> option tnode := fun x => if x =? b then o else ch x.
(** Arithmetic on the uint16_t mSize *)
Definition u16 (z : Z) : Z := z mod 65536.

(** insert, 74-104: the node after the insert and the reported result *)
Fixpoint t_insert (n : tnode) (key : list Z) (v : V) : tnode * bool :=
  let '(TNode i x s ch) := n in
  match key with
  | [] => (TNode true (Some v) s ch, negb i)
  | b :: k =>
    match ch b with
    | Some c => let '(c', r) := t_insert c k v in (TNode i x s (c_upd ch b (Some c')), r)
    | None => let '(c', r) := t_insert t_node0 k v in (TNode i x (u16 (s + 1)) (c_upd ch b (Some c')), r)
    end
  end.

(** The same cut off by a power failure after [m] transactions; 86-89 allocates one node, 97-100 stores the value. *)
Fixpoint t_insert_cut (m : nat) (n : tnode) (key : list Z) (v : V) : tnode :=
  let '(TNode i x s ch) := n in
  match key with
  | [] => match m with O => n | S _ => TNode true (Some v) s ch end
  | b :: k =>
    match ch b with
    | Some c => TNode i x s (c_upd ch b (Some (t_insert_cut m c k v)))
    | None => match m with
              | O => n
              | S m' => TNode i x (u16 (s + 1)) (c_upd ch b (Some (t_insert_cut m' t_node0 k v)))
              end
    end
  end.

(** lookup, 106-127.  [idx] is the uint8_t loop variable. *)
Fixpoint t_lookup_from (key : list Z) (n : tnode) (idx : nat) {struct n} : res (option V) :=
  let '(TNode i x s ch) := n in
  if (idx <? length key)%nat then
    match nth_error key idx with
    | None => UB
    | Some b => match ch b with
                | None => Ok None
                | Some c => t_lookup_from key c ((idx + 1) mod 256)%nat
                end
    end
  else if i then do v <- of_opt x; Ok (Some v) else Ok None.
Definition t_lookup (n : tnode) (key : list Z) : res (option V) := t_lookup_from key n 0.

(** remove, 129-160 *)
Fixpoint t_remove (n : tnode) (key : list Z) : tnode * bool :=
  let '(TNode i x s ch) := n in
  match key with
  | [] => (TNode false x s ch, i)
  | b :: k =>
    match ch b with
    | None => (n, false)
    | Some c =>
      let '(c', r) := t_remove c k in
      if r && (t_size c' =? 0) then (TNode i x (u16 (s - 1)) (c_upd ch b None), r)
      else (TNode i x s (c_upd ch b (Some c')), r)
    end
  end.

(** The same cut off by a power failure after [m] transactions: 138-141 clears the flag, 151-155 deletes one node.
    [Some (r, m')]: it returned [r] with [m'] transactions to go; [None]: it was cut off. *)
Fixpoint t_remove_cut (m : nat) (n : tnode) (key : list Z) : tnode * option (bool * nat) :=
  let '(TNode i x s ch) := n in
  match key with
  | [] => match m with O => (n, None) | S m' => (TNode false x s ch, Some (i, m')) end
  | b :: k =>
    match ch b with
    | None => (n, Some (false, m))
    | Some c =>
      let '(c', o) := t_remove_cut m c k in
      let kept := TNode i x s (c_upd ch b (Some c')) in
      match o with
      | None => (kept, None)
      | Some (r, m1) =>
        if r && (t_size c' =? 0)
        then match m1 with O => (kept, None) | S m2 => (TNode i x (u16 (s - 1)) (c_upd ch b None), Some (r, m2)) end
        else (kept, Some (r, m1))
      end
    end
  end.

(** subNodes, 162-180.  The loop over the children: [f b] is the count of the child for byte [b] if there is one,
    [k] bytes are left, [c] children were found. *)
Fixpoint sub_loop (f : Z -> option Z) (s : Z) (k : nat) (b count c : Z) : Z :=
  match k with
  | O => count
  | S k' => if c =? s then count
            else match f b with Some m => sub_loop f s k' (b + 1) (count + m) (c + 1) | None => sub_loop f s k' (b + 1) count c end
  end.
Fixpoint t_sub_nodes (n : tnode) : Z :=
  let '(TNode i x s ch) := n in
  sub_loop (fun b => match ch b with Some c => Some (t_sub_nodes c) | None => None end) s 256 0 0 0 + 1.

(** Histories *)
Inductive top := TIns (key : list Z) (v : V) | TDel (key : list Z).
Definition t_step (n : tnode) (o : top) : tnode :=
  match o with TIns k v => fst (t_insert n k v) | TDel k => fst (t_remove n k) end.
Definition t_run (os : list top) : tnode := fold_left t_step os t_node0.
(** Histories with power failures: [CInsCut] and [CDelCut] fail after [m] transactions *)
Inductive tcop := CIns (key : list Z) (v : V) | CDel (key : list Z) | CInsCut (key : list Z) (v : V) (m : nat) | CDelCut (key : list Z) (m : nat).
Definition t_cstep (n : tnode) (o : tcop) : tnode :=
  match o with
  | CIns k v => fst (t_insert n k v)
  | CDel k => fst (t_remove n k)
  | CInsCut k v m => t_insert_cut m n k v
  | CDelCut k m => fst (t_remove_cut m n k)
  end.
Definition t_crun (os : list tcop) : tnode := fold_left t_cstep os t_node0.
End Trie.
Arguments t_node0 {V}.
