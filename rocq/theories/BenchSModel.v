(** The skip list benchmarks bench/pskiplists/pskip_insert.cpp and pskip_get.cpp.

    The value of key j, ValueType(j, j * 100, j * 1.0), is [f j]; the random number drawn by an insert of
    key j, used only if that insert splits a node, is [g j].  The pool, the transactions, flushes, timers
    and printed lines have no part in the contents.  The nodes copied into nodeArray are appended to the
    array of nodes: copy i is node 2 + i, as the list consists of the head and one node. *)
From Verif Require Import Base RankModel BitmapModel ULeafModel WoModel.
Open Scope nat_scope.

Section BenchS.
Variables (V : Type) (t : ktype) (N M : nat) (f : Z -> V) (g : Z -> nat).

(** insertLoop, pskip_insert.cpp:169-174: the keys start..end *)
Definition sb_loop (first last : nat) : list Z := map Z.of_nat (seq first (last + 1 - first)).
(** prepare, pskip_insert.cpp:167-187, for TARGET_KEY = [T]; no case label matches: nothing is inserted *)
Definition sb_prepare (T : nat) : list Z :=
  if T =? 1 then sb_loop 2 N
  else if T =? N then sb_loop 1 (N - 1)
  else if T =? (N + 1) / 2 then sb_loop 1 (T - 1) ++ sb_loop (T + 1) N
  else [].
(** pskip_get.cpp:56-59 *)
Definition sb_fill : list Z := map (fun i => Z.of_nat (i + 1)) (seq 0 N).

(** The list after its constructor and the inserts of [ks] *)
Definition sb_list (r0 : nat) (ks : list Z) : res (wlist V) :=
  do s0 <- w_new V t N M r0; w_run t N M s0 (map (fun k => (k, f k, g k)) ks).

(** head->forward[0], pskip_insert.cpp:80, pskip_get.cpp:62 *)
Definition sb_first (s : wlist V) : res (wnode V) :=
  do o <- wfwd_at (wnodes s) 0 0; do p <- of_opt o; wnode_at (wnodes s) p.
(** The copies in nodeArray, pskip_insert.cpp:83-90, pskip_get.cpp:65-72 *)
Definition sb_copies (s : wlist V) (n : nat) : res (wlist V) :=
  do x <- sb_first s; Ok (WList (wnodes s ++ repeat x n) (wheight s) (wcount s)).

(** The measured part, pskip_insert.cpp:101-110, on copy [i]: whether it split, and the state after it *)
Definition sb_measure (s : wlist V) (i T : nat) : res (bool * wlist V) :=
  do q <- w_insert_in t N M s (2 + i) (Z.of_nat T) (f (Z.of_nat T));
  do s1 <- w_exec s (snd q);
  Ok (fst q, s1).
(** Resetting the node, pskip_insert.cpp:127 and 144 *)
Definition sb_reset (s : wlist V) (i : nat) : res (wlist V) :=
  do x <- sb_first s;
  do ns <- of_opt (lset (wnodes s) (2 + i) x);
  Ok (WList ns (wheight s) (wcount s)).
(** The rounds on the copies [picks], pskip_insert.cpp:113-129 and 135-148 *)
Fixpoint sb_rounds (s : wlist V) (T : nat) (picks : list nat) : res (wlist V * list (bool * wlist V)) :=
  match picks with
  | [] => Ok (s, [])
  | i :: r =>
    do m <- sb_measure s i T;
    do s' <- sb_reset (snd m) i;
    do x <- sb_rounds s' T r;
    Ok (fst x, m :: snd x)
  end.
(** One round of pskip_get.cpp:78-92 on copy [i] *)
Definition sb_get (s : wlist V) (i T : nat) : res (option V) :=
  do x <- wnode_at (wnodes s) (2 + i); w_search_in N (wc x) (Z.of_nat T).
End BenchS.
