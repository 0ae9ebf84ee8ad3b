(** What the tree-level proof needs to know about the leaf code of a class.  These are not
    assumptions of the final theorems: each instance proves them ([SLeafProofs] etc.). *)
From Coq Require Export Permutation.
From Verif Require Import Base MapSpec SortedList BTreeModel.
Open Scope nat_scope.

Section Laws.
Variables (L V : Type) (O : leafops L V) (M minL : nat).
Variable kok : Z -> Prop.                       (* values of KeyType *)
Variable lrep : L -> list (Z * V) -> Prop.      (* leaf holds exactly these (sorted) entries *)
Variable lhint : L -> list (Z * V) -> Z -> Prop. (* ... and key [k] was just erased from it *)
Variable side : bool -> L -> L -> Prop.          (* donor and receiver look ordered to the code; donor left? *)

Record leaf_laws : Prop := {
  law_new : lrep (lo_new O) [];
  law_sorted : forall l es, lrep l es -> sorted es;
  law_cap : forall l es, lrep l es -> length es <= M;
  law_count : forall l es, lrep l es -> lo_count O l = length es;
  law_lookup : forall l es k, lrep l es -> lo_lookup O l k = Ok (get k es);
  law_insert : forall l es k v, kok k -> lrep l es ->
    (exists l', lo_insert O l k v = Ok (LDone l') /\ lrep l' (ins k v es)) \/
    (exists l1 l2 sk e1 e2,
       lo_insert O l k v = Ok (LSplit l1 l2 sk) /\
       ins k v es = e1 ++ e2 /\ lrep l1 e1 /\ lrep l2 e2 /\
       minL <= length e1 /\ minL <= length e2 /\ e1 <> [] /\ e2 <> [] /\
       alt sk (keys e1) /\ age sk (keys e2));
  law_scan : forall l es, lrep l es ->
    exists out, lo_scan O l = Ok out /\ Permutation out es;
  law_bpos : forall a b R key, ssorted (a ++ b) -> ale key a -> agt key b ->
    lo_bpos O (map Some (a ++ b) ++ R) (length (a ++ b)) key = Ok (length a)
}.

(** Sorted leaves report their entries in order; range scan stops only beyond the bound. *)
Record scan_laws : Prop := {
  law_scan_sorted : forall l es, lrep l es -> lo_scan O l = Ok es;
  law_range : forall l es lo hi, lrep l es ->
    exists out stop, lo_range O l lo hi = Ok (out, stop) /\
      out = filter (in_range lo hi) es /\
      (stop = true -> exists x, In x (keys es) /\ (hi < x)%Z)
}.

(** Unsorted leaves: the entries in range, in some order. *)
Definition range_law : Prop := forall l es lo hi, lrep l es ->
  exists out stop, lo_range O l lo hi = Ok (out, stop) /\
    Permutation out (filter (in_range lo hi) es) /\
    (stop = true -> exists x, In x (keys es) /\ (hi < x)%Z).

Record erase_core : Prop := {
  law_hint : forall l es k, lhint l es k -> lrep l es;
  law_erase : forall l es k, lrep l es -> get k es <> None ->
    exists l', lo_erase O l k = Ok (true, l') /\ lhint l' (del k es) k;
  law_merge : forall l1 l2 e1 e2, lrep l1 e1 -> lrep l2 e2 -> sorted (e1 ++ e2) ->
    length e1 + length e2 <= M ->
    exists l, lo_merge O l1 l2 = Ok l /\ lrep l (e1 ++ e2);
  law_balance_left : forall dl rl ed er k, side true dl rl -> lrep dl ed -> lhint rl er k ->
    sorted (ed ++ er) -> alt k (keys ed) -> length er < length ed -> 1 < length ed ->
    exists d' r' e1 e2, lo_balance O dl rl = Ok (d', r') /\ ed = e1 ++ e2 /\
      length e1 = (length ed + length er) / 2 /\ lrep d' e1 /\ lrep r' (e2 ++ er);
  law_balance_right : forall dl rl ed er k, side false dl rl -> lrep dl ed -> lhint rl er k ->
    sorted (er ++ ed) -> agt k (keys ed) -> length er < length ed -> 1 < length ed ->
    exists d' r' e1 e2, lo_balance O dl rl = Ok (d', r') /\ ed = e1 ++ e2 /\
      length e2 = (length ed + length er) / 2 /\ lrep d' e2 /\ lrep r' (er ++ e1);
  law_minkey : forall l es x v, lrep l ((x, v) :: es) -> lo_minkey O l = Ok x
}.
End Laws.
Record erase_laws (L V : Type) (O : leafops L V) M (lrep : L -> list (Z * V) -> Prop) lhint : Prop := {
  law_core :> erase_core O M lrep lhint (fun _ _ _ => True);
  law_free : lo_del_after O = false
}.
