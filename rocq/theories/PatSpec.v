(** Specification of the Patricia trie: the map from byte strings of [TrieSpec]. *)
From Verif Require Import Base TrieSpec PatModel.
Open Scope nat_scope.

(** The key passed by a caller *)
Definition arg_key (buf : list Z) (len : nat) : list Z := firstn len buf.

(** Two keys that agree on a non-empty prefix and differ in the byte behind it agree on the topmost bit of that byte. *)
Definition top_ok (K : list (list Z)) : Prop := forall p a b x y, p <> [] -> In (p ++ a :: x) K -> In (p ++ b :: y) K -> (a <? 128)%Z = (b <? 128)%Z.

Section PatSpec.
Variables (V : Type) (truthy : V -> bool).
Definition po_key (o : pop V) : list Z := match o with PIns b l _ => arg_key b l | PDel b l => arg_key b l end.
(** The keys are not empty and have at most [cap] bytes; the memory areas are eight times as long; values are true. *)
Definition po_ok (cap : nat) (o : pop V) : Prop :=
  match o with
  | PIns b l v => byte_key b /\ 1 <= l <= cap /\ 8 * cap <= length b /\ truthy v = true
  | PDel b l => byte_key b /\ 1 <= l <= cap /\ 8 * cap <= length b
  end.
Definition is_ins (o : pop V) : Prop := match o with PIns _ _ _ => True | PDel _ _ => False end.
Definition pm_step (m : bmap V) (o : pop V) : bmap V := match o with PIns b l v => b_put m (arg_key b l) v | PDel b l => b_del m (arg_key b l) end.
Definition pm_run (os : list (pop V)) : bmap V := fold_left pm_step os b_empty.
End PatSpec.
