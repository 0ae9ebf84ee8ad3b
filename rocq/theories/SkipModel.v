(** Model of pskiplists/simplePSkiplist.hpp.

    A list is the array of its nodes in order of allocation (a pointer is an index, node 0 is the
    head), the height and the node counter.  Persistent stores are explicit: [insert_stores] yields the
    stores of an insert in program order and [insert] executes them, so that a power failure is a prefix.

    Simplifications: newSkipNode allocates and constructs in one transaction, so the new node appears
    in one store; the default constructor of persistent_ptr makes every forward pointer null.  The
    outcome of rnd->Uniform(MAX_LEVEL) is an argument [r] of every insert.  KeyType is an integer type
    with smallest value [minkey]; [v0] is ValueType\{\}.  recover(), 235-237, touches volatile data only. *)
From Verif Require Import Base.
Open Scope nat_scope.

Section Simple.
Variables (V : Type) (maxl : nat) (minkey : Z) (v0 : V).

Record snode := SNode { nkey : Z; nval : V; nlev : nat; nfwd : list (option nat) }.   (* 67-71 *)
Record slist := SList { snodes : list snode; slevel : nat; scount : nat }.            (* 98-101 *)

Definition node_at (ns : list snode) (p : nat) : res snode := of_opt (nth_error ns p).
Definition fwd (ns : list snode) (p i : nat) : res (option nat) :=
  do x <- node_at ns p; of_opt (nth_error (nfwd x) i).

(** Constructor and initList, 132-138, 151-153 *)
Definition s_new : slist := SList [SNode minkey v0 maxl (repeat None maxl)] 0 0.

(** getRandomLevel, 140-143 *)
Definition random_level (r : nat) : nat := if r =? 0 then 1 else r.

(** The inner loops, 175-179 and 223-226. *)
Fixpoint walk (fuel : nat) (ns : list snode) (i node : nat) (key : Z) : res nat :=
  do next <- fwd ns node i;
  match next with
  | None => Ok node
  | Some n =>
    do x <- node_at ns n;
    if (nkey x <? key)%Z then
      match fuel with O => NoFuel | S f => walk f ns i n key end
    else Ok node
  end.

(** search, 219-235 *)
Fixpoint descend (i : nat) (ns : list snode) (node : nat) (key : Z) : res nat :=
  do n <- walk (length ns) ns i node key;
  match i with O => Ok n | S j => descend j ns n key end.
Definition search (s : slist) (key : Z) : res (option V) :=
  let ns := snodes s in
  do n <- descend (slevel s) ns 0 key;
  do next <- fwd ns n 0;
  match next with
  | None => Ok None
  | Some p => do x <- node_at ns p; if (nkey x =? key)%Z then Ok (Some (nval x)) else Ok None
  end.

(** The outer loop of insert, 174-182, with the array update. *)
Fixpoint descend_upd (i : nat) (ns : list snode) (node : nat) (key : Z) (u : list (option nat))
  : res (nat * list (option nat)) :=
  do n <- walk (length ns) ns i node key;
  do u' <- of_opt (lset u i (Some n));
  match i with O => Ok (n, u') | S j => descend_upd j ns n key u' end.

Inductive st :=
| SetLevel (n : nat) | NewNode (x : snode) | SetVal (p : nat) (v : V)
| FwdCopy (dst src i : nat)                       (* dst->forward[i] = src->forward[i] *)
| FwdSet (p i n : nat)                            (* p->forward[i] = n *)
| IncCount.

Definition set_fwd (ns : list snode) (p i : nat) (o : option nat) : res (list snode) :=
  do x <- node_at ns p;
  do f <- of_opt (lset (nfwd x) i o);
  of_opt (lset ns p (SNode (nkey x) (nval x) (nlev x) f)).

Definition st_step (s : slist) (a : st) : res slist :=
  match a with
  | SetLevel n => Ok (SList (snodes s) n (scount s))
  | NewNode x => Ok (SList (snodes s ++ [x]) (slevel s) (scount s))
  | SetVal p v =>
    do x <- node_at (snodes s) p;
    do ns <- of_opt (lset (snodes s) p (SNode (nkey x) v (nlev x) (nfwd x)));
    Ok (SList ns (slevel s) (scount s))
  | FwdCopy d p i =>
    do o <- fwd (snodes s) p i;
    do ns <- set_fwd (snodes s) d i o; Ok (SList ns (slevel s) (scount s))
  | FwdSet p i n => do ns <- set_fwd (snodes s) p i (Some n); Ok (SList ns (slevel s) (scount s))
  | IncCount => Ok (SList (snodes s) (slevel s) (S (scount s)))
  end.
Fixpoint st_exec (s : slist) (p : list st) : res slist :=
  match p with [] => Ok s | a :: r => do s' <- st_step s a; st_exec s' r end.

(** The loop linking the new node, 204-207; a null entry of update is dereferenced. *)
Fixpoint link_stores (n i new : nat) (u : list (option nat)) : res (list st) :=
  match n with
  | O => Ok []
  | S n' =>
    do o <- of_opt (nth_error u i);
    do p <- of_opt o;
    do r <- link_stores n' (S i) new u;
    Ok (FwdCopy new p i :: FwdSet p i new :: r)
  end.

(** insert, 170-211: the result and the stores. *)
Definition insert_stores (s : slist) (key : Z) (val : V) (r : nat) : res (bool * list st) :=
  let ns := snodes s in
  do d <- descend_upd (slevel s) ns 0 key (repeat None maxl);
  let '(n, u) := d in
  do next <- fwd ns n 0;
  let node := match next with Some p => p | None => n end in
  do x <- node_at ns node;
  if (nkey x =? key)%Z then Ok (false, [SetVal node val])
  else
    let new_level := random_level r in
    let grow := slevel s <? new_level in
    do u' <- (if grow then
                for_up (S (slevel s)) (new_level - S (slevel s)) (fun i u => of_opt (lset u i (Some 0))) u
              else Ok u);
    let new := length ns in
    do links <- link_stores new_level 0 new u';
    Ok (true, (if grow then [SetLevel new_level] else []) ++
              NewNode (SNode key val new_level (repeat None maxl)) :: links ++ [IncCount]).

Definition insert (s : slist) (key : Z) (val : V) (r : nat) : res (slist * bool) :=
  do p <- insert_stores s key val r;
  do s' <- st_exec s (snd p);
  Ok (s', fst p).

(** Histories of inserts, some of them cut off by a power failure after [n] stores. *)
Inductive sop := SIns (k : Z) (v : V) (r : nat) | SCrash (k : Z) (v : V) (r n : nat).
Definition s_step (s : slist) (o : sop) : res slist :=
  match o with
  | SIns k v r => do x <- insert s k v r; Ok (fst x)
  | SCrash k v r n => do p <- insert_stores s k v r; st_exec s (firstn n (snd p))
  end.
Fixpoint s_run (s : slist) (os : list sop) : res slist :=
  match os with [] => Ok s | o :: r => do s' <- s_step s o; s_run s' r end.

(** printList, 250-266: the node count, and from the topmost level downwards the printed entries. *)
Fixpoint show_level (fuel : nat) (ns : list snode) (i : nat) (o : option nat) : res (list (Z * V)) :=
  match o with
  | None => Ok []
  | Some p =>
    match fuel with
    | O => NoFuel
    | S f =>
      do x <- node_at ns p; do nx <- of_opt (nth_error (nfwd x) i);
      do r <- show_level f ns i nx; Ok ((nkey x, nval x) :: r)
    end
  end.
Fixpoint show_levels (i : nat) (ns : list snode) : res (list (list (Z * V))) :=
  do o <- fwd ns 0 i;
  do row <- show_level (length ns) ns i o;
  match i with O => Ok [row] | S j => do r <- show_levels j ns; Ok (row :: r) end.
Definition print_list (s : slist) : res (nat * list (list (Z * V))) :=
  do rows <- show_levels (slevel s) (snodes s); Ok (scount s, rows).

End Simple.
Arguments SetLevel {V}. Arguments FwdCopy {V}. Arguments FwdSet {V}. Arguments IncCount {V}.
