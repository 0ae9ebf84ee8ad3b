(** Conditions under which erases are right after restarts. *)
From Verif Require Import Base MapSpec BTreeModel EraseSpec RecSpec CutModel RecEModel.
Open Scope nat_scope.

(** All digits of [n] in base N + 1 but the leading one are at least two. *)
Fixpoint wide (fuel N n : nat) : bool :=
  match fuel with
  | 0 => true
  | S f => (n <=? N) || ((2 <=? n mod S N) && wide f N (n / S N))
  end.
(** Number of leaves in the list. *)
Definition leaves_of {L} (t : tree L) : nat := chain_len (S (hfresh (th t))) (hnx (th t)) (Some 0).
Definition restart_ok {L} (N : nat) (t : tree L) : bool := wide (leaves_of t) N (leaves_of t - 1).

(** The inserts and erases of a history, interrupted ones included. *)
Definition xops {V} (os : list (xop V)) : list (mop V) :=
  flat_map (fun o => match o with
    | XIns k v | XInsCut _ k v => [OpInsert k v]
    | XDel k | XDelCut _ k => [OpErase _ k]
    | XRestart => []
    end) os.
Definition xkeys_ok {V} (kok : Z -> Prop) (o : xop V) : Prop :=
  match o with XIns k _ | XInsCut _ k _ => kok k | _ => True end.

(** Every erase meets [g] (EraseSpec), every restart finds a number of leaves of the above kind. *)
Section Fine.
Variables (L V : Type) (N M : nat) (O : leafops L V) (g : heap L -> nat -> nat -> nat -> res bool).
Definition x_fine (t : tree L) (o : xop V) : bool :=
  match o with
  | XDel k | XDelCut _ k => match leaf_guard M O g (th t) (tdepth t) (troot t) k with Ok b => b | _ => false end
  | _ => true
  end &&
  match x_left N M O t o with Ok (Some t') => restart_ok N t' | _ => true end.
Fixpoint xfine (t : tree L) (os : list (xop V)) : bool :=
  match os with
  | [] => true
  | o :: r => x_fine t o && match x_step N M O false t o with Ok t' => xfine t' r | _ => true end
  end.
End Fine.
