(** ptries/Patricia.hpp and ptries/PTreeNode.hpp: the binary trie with compressed paths.

    Simplifications.
    - The pointers of the trie form a tree, so a node contains its children; [parent] is the node reached before,
      and an operation on it happens on the way back.
    - Key lengths in bits are natural numbers; the code uses int (keys shorter than 2^28 bytes).
    - The key memory of a node is the list of the bytes copied into it.  [room n] is the number of bytes that may be
      written into an allocation of [n] bytes: [n] in the language, more where the allocator rounds up.
    - A caller passes a memory area [buf] and a length; reading behind the area is undefined.
    - [truthy] is the conversion of T to bool.  The data of a node made by [branchNode] is never written ([None]).
    - The destructor reads [data] of a branch node but its outcome does not matter, since [alloc] is false (100).
    - A failed assertion counts as undefined. *)
From Verif Require Import Base.
Open Scope nat_scope.

(** bitmask, Patricia.hpp 35-36 *)
Definition bitmask : list Z := [0; 128; 192; 224; 240; 248; 252; 254; 255]%Z.

(** CHECK_BIT, Patricia.hpp 72-75 and PTreeNode.hpp 65-68 *)
Definition check_bit (K : list Z) (L : nat) : res bool :=
  do b <- of_opt (nth_error K (L / 8));
  Ok (Z.land (Z.shiftr b (Z.of_nat (7 - L mod 8))) 1 =? 1)%Z.

Fixpoint list_eqb (a b : list Z) : bool :=
  match a, b with
  | [], [] => true
  | x :: a', y :: b' => (x =? y)%Z && list_eqb a' b'
  | _, _ => false
  end.
(** memcmp(K1, K2, n) == 0 *)
Definition mem_eq (K1 K2 : list Z) (n : nat) : res bool :=
  if (n <=? length K1) && (n <=? length K2) then Ok (list_eqb (firstn n K1) (firstn n K2)) else UB.

(** MATCH_KEY, Patricia.hpp 77-86 *)
Definition match_key (K1 K2 : list Z) (L : nat) : res bool :=
  do first <- (if 8 <=? L then mem_eq K1 K2 (L / 8) else Ok true);
  do sec <- (if 0 <? L mod 8 then
               do a <- of_opt (nth_error K1 (L / 8));
               do b <- of_opt (nth_error K2 (L / 8));
               do m <- of_opt (nth_error bitmask (L mod 8));
               Ok (Z.land a m =? Z.land b m)%Z
             else Ok true);
  Ok (first && sec).

Section Patricia.
Variables (V : Type) (truthy : V -> bool) (room : nat -> nat).

(** PTreeNode.hpp 71-79 *)
Inductive pnode := PN (key : list Z) (klen : nat) (data : option V) (alloc : bool) (l0 l1 : option pnode).
Definition pkey (n : pnode) := let '(PN k _ _ _ _ _) := n in k.
Definition pklen (n : pnode) := let '(PN _ l _ _ _ _) := n in l.
Definition set_link (n : pnode) (bit : bool) (o : option pnode) : pnode :=
  let '(PN k l d a l0 l1) := n in if bit then PN k l d a l0 o else PN k l d a o l1.
Definition set_data (n : pnode) (v : V) : pnode := let '(PN k l d a l0 l1) := n in PN k l (Some v) a l0 l1.

(** OCTET_SPACE, PTreeNode.hpp 60-63 *)
Definition octets (bits : nat) : nat := (bits - 1) / 8 + 1.

(** setKey of a new node, PTreeNode.hpp 83-93, 149-174: the loop at 164 copies as many bytes as the key has bits *)
Definition new_node (src : list Z) (klen : nat) : res pnode :=
  if klen =? 0 then Ok (PN [] 0 None false None None)
  else if (klen <=? length src) && (klen <=? room (octets klen)) then Ok (PN (firstn klen src) klen None false None None)
  else UB.

(** setChild, PTreeNode.hpp 176-187 *)
Definition set_child (n c : pnode) : res pnode :=
  do bit <- check_bit (pkey c) (pklen n); Ok (set_link n bit (Some c)).

(** The two loops of branchNode, Patricia.hpp 185-195: equal bytes, then equal bits *)
Fixpoint same_bytes (n i : nat) (A B : list Z) : res nat :=
  match n with
  | O => Ok (8 * i)
  | S n' =>
    do a <- of_opt (nth_error A i); do b <- of_opt (nth_error B i);
    if (a =? b)%Z then same_bytes n' (S i) A B else Ok (8 * i)
  end.
Fixpoint same_bits (n len : nat) (A B : list Z) : res nat :=
  match n with
  | O => Ok len
  | S n' =>
    do a <- check_bit A len; do b <- check_bit B len;
    if Bool.eqb a b then same_bits n' (S len) A B else Ok len
  end.

(** branchNode, Patricia.hpp 176-230: the node that takes the place of [a] *)
Definition branch_node (a b : pnode) : res pnode :=
  let m := Nat.min (pklen a) (pklen b) in
  do len0 <- same_bytes (m / 8) 0 (pkey a) (pkey b);
  do len <- same_bits (m - len0) len0 (pkey a) (pkey b);
  if (len =? pklen a) && (len =? pklen b) then UB
  else if (len =? pklen a) || (len =? pklen b) then
    if pklen a <? pklen b then set_child a b else set_child b a
  else
    do br <- new_node (pkey a) len;
    do br1 <- set_child br a;
    set_child br1 b.

(** insert, 108-162.  What happens at the branch point, 141-160: the node in place of [n] and whether the key is new *)
Definition ins_at (n : pnode) (buf : list Z) (al : nat) (v : V) : res (pnode * bool) :=
  do m <- (if pklen n =? al then match_key (pkey n) buf (pklen n) else Ok false);
  if (m : bool) then
    let '(PN _ _ d _ _ _) := n in
    do x <- of_opt d;
    Ok (set_data n v, negb (truthy x))
  else
    do t <- new_node buf al;
    do br <- branch_node n (set_data t v);
    Ok (br, true).
(** The search of the branch point, 122-139.  The parent stores its new child at the bit found in the child's key
    (229); where the child is the same node as before this is the bit just followed. *)
Fixpoint p_ins (n : pnode) (buf : list Z) (al : nat) (v : V) : res (pnode * bool) :=
  let '(PN k kl d a l0 l1) := n in
  do m <- match_key k buf kl;
  if (m : bool) then
    if al <=? kl then ins_at n buf al v
    else
      do bit <- check_bit buf kl;
      match (if bit then l1 else l0) with
      | None => ins_at n buf al v
      | Some c => do r <- p_ins c buf al v; do n' <- set_child n (fst r); Ok (n', snd r)
      end
  else ins_at n buf al v.

(** lookup, 232-267: [Some d] when it returns true, [d] being the data found *)
Fixpoint p_find (n : pnode) (buf : list Z) (al : nat) : res (option (option V)) :=
  let '(PN k kl d a l0 l1) := n in
  if kl <=? al then
    do m <- (if kl =? al then match_key k buf kl else Ok false);
    if (m : bool) then Ok (Some d)
    else if al <=? kl then Ok None
    else
      do bit <- check_bit buf kl;
      match (if bit then l1 else l0) with None => Ok None | Some c => p_find c buf al end
  else Ok None.

(** deleteNode, 307-350.  [DGone k o]: the node, whose key is [k], is deleted and replaced by [o]; the parent goes on.
    [DKept n]: nothing more to do.  [DNone]: the key was not found. *)
Inductive dres := DNone | DKept (n : pnode) | DGone (k : list Z) (o : option pnode).
Definition delete_node (n : pnode) : dres :=
  let '(PN k kl d a l0 l1) := n in
  match l0, l1 with
  | Some c, None => DGone k (Some c)
  | None, Some c => DGone k (Some c)
  | None, None => DGone k None
  | Some _, Some _ => DKept (PN k kl d true l0 l1)
  end.
Definition has_null (n : pnode) : bool :=
  let '(PN _ _ _ _ l0 l1) := n in match l0, l1 with Some _, Some _ => false | _, _ => true end.
(** remove, 269-305; [r]: the node is the root *)
Fixpoint p_del (r : bool) (n : pnode) (buf : list Z) (al : nat) : res dres :=
  let '(PN k kl d a l0 l1) := n in
  if kl <=? al then
    do m <- (if kl =? al then match_key k buf kl else Ok false);
    if (m : bool) then Ok (if r then DNone else delete_node n)
    else if al <=? kl then Ok DNone
    else
      do bit <- check_bit buf kl;
      match (if bit then l1 else l0) with
      | None => Ok DNone
      | Some c =>
        do x <- p_del false c buf al;
        match x with
        | DNone => Ok DNone
        | DKept c' => Ok (DKept (set_link n bit (Some c')))
        | DGone tk o =>
          do n' <- (match o with
                    | Some g => set_child n g
                    | None => do b <- check_bit tk kl; Ok (set_link n b None)
                    end);
          Ok (if has_null n' && negb r then delete_node n' else DKept n')
        end
      end
  else Ok DNone.

(** The tree: root and dataCount, 88-89; constructor, 92-99 *)
Record ptree := PT { proot : pnode; pcount : Z }.
Definition p_new : ptree := PT (PN [] 0 None false None None) 0.
Definition u32 (z : Z) : Z := (z mod 4294967296)%Z.

Definition p_insert (t : ptree) (buf : list Z) (len : nat) (v : V) : res (ptree * bool) :=
  if len =? 0 then UB
  else
    do r <- p_ins (proot t) buf (8 * len) v;
    Ok (PT (fst r) (if snd r then u32 (pcount t + 1) else u32 (u32 (pcount t - 1) + 1)), snd r).
Definition p_lookup (t : ptree) (buf : list Z) (len : nat) : res (option (option V)) :=
  if len =? 0 then UB else p_find (proot t) buf (8 * len).
Definition p_remove (t : ptree) (buf : list Z) (len : nat) : res (ptree * bool) :=
  if len =? 0 then UB
  else
    do x <- p_del true (proot t) buf (8 * len);
    match x with
    | DKept n => Ok (PT n (u32 (pcount t - 1)), true)
    | _ => Ok (t, false)
    end.

(** getSubnodes, 352-356 with PTreeNode.hpp 231-246 *)
Fixpoint p_sub (n : pnode) : Z :=
  let '(PN _ _ _ _ l0 l1) := n in
  (match l0 with Some c => p_sub c | None => 0 end + match l1 with Some c => p_sub c | None => 0 end + 1)%Z.

(** Histories: memory area, length, value *)
Inductive pop := PIns (buf : list Z) (len : nat) (v : V) | PDel (buf : list Z) (len : nat).
Definition p_step (t : ptree) (o : pop) : res ptree :=
  match o with
  | PIns b l v => do x <- p_insert t b l v; Ok (fst x)
  | PDel b l => do x <- p_remove t b l; Ok (fst x)
  end.
Fixpoint p_run (t : ptree) (os : list pop) : res ptree :=
  match os with [] => Ok t | o :: r => do t' <- p_step t o; p_run t' r end.
End Patricia.
Arguments p_new {V}. Arguments DNone {V}. Arguments PDel {V}.
