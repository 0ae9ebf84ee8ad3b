(** Specification of the trie: a map from byte strings. *)
From Verif Require Import Base TrieModel.
Open Scope Z_scope.

Definition byte_key (k : list Z) : Prop := Forall (fun b => 0 <= b < 256) k.
Definition prefix (a b : list Z) : Prop := exists s, b = a ++ s.

Section TrieSpec.
Variable V : Type.
Definition bmap := list Z -> option V.
Definition b_empty : bmap := fun _ => None.
Definition b_put (m : bmap) (k : list Z) (v : V) : bmap := fun x => if list_eq_dec Z.eq_dec x k then Some v else m x.
Definition b_del (m : bmap) (k : list Z) : bmap := fun x => if list_eq_dec Z.eq_dec x k then None else m x.

Definition b_puts (l : list (list Z * V)) : bmap := fold_left (fun m e => b_put m (fst e) (snd e)) l b_empty.

(** What removing [k] does: besides [k], it loses every key except the empty one that is a proper prefix of [k] and
    below which only prefixes of [k] are stored. *)
Definition survives (m : bmap) (k x : list Z) : Prop :=
  x <> k /\ (x <> [] -> prefix x k -> exists y, m y <> None /\ prefix x y /\ ~ prefix y k).
Definition removed (m : bmap) (k : list Z) (m' : bmap) : Prop :=
  (m k = None -> forall x, m' x = m x) /\
  (m k <> None -> forall x, (survives m k x -> m' x = m x) /\ (~ survives m k x -> m' x = None)).

Definition b_step (m : bmap) (o : top V) (m' : bmap) : Prop :=
  match o with TIns k v => forall x, m' x = b_put m k v x | TDel _ k => removed m k m' end.
Fixpoint b_run (m : bmap) (os : list (top V)) (m' : bmap) : Prop :=
  match os with [] => forall x, m' x = m x | o :: r => exists m1, b_step m o m1 /\ b_run m1 r m' end.

Definition op_bytes (o : top V) : Prop := match o with TIns k _ => byte_key k | TDel _ k => byte_key k end.

(** The map a history is meant to have. *)
Definition m_step (m : bmap) (o : top V) : bmap := match o with TIns k v => b_put m k v | TDel _ k => b_del m k end.
Definition m_run (os : list (top V)) : bmap := fold_left m_step os b_empty.

(** A completed operation takes effect; one cut off by a power failure does or does not. *)
Definition c_step (m : bmap) (o : tcop V) (m' : bmap) : Prop :=
  match o with
  | CIns k v => forall x, m' x = b_put m k v x
  | CDel _ k => forall x, m' x = b_del m k x
  | CInsCut k v _ => (forall x, m' x = m x) \/ (forall x, m' x = b_put m k v x)
  | CDelCut _ k _ => (forall x, m' x = m x) \/ (forall x, m' x = b_del m k x)
  end.
Fixpoint c_run (m : bmap) (os : list (tcop V)) (m' : bmap) : Prop :=
  match os with [] => forall x, m' x = m x | o :: r => exists m1, c_step m o m1 /\ c_run m1 r m' end.
Definition c_key (o : tcop V) : list Z := match o with CIns k _ | CDel _ k | CInsCut k _ _ | CDelCut _ k _ => k end.
Definition c_bytes (o : tcop V) : Prop := byte_key (c_key o).
Definition c_ins (o : tcop V) : Prop := match o with CIns _ _ | CInsCut _ _ _ => True | _ => False end.

Definition o_key (o : top V) : list Z := match o with TIns k _ | TDel _ k => k end.
(** No key is a proper prefix of another. *)
Definition prefix_free (l : list (list Z)) : Prop := forall x y, In x l -> In y l -> prefix x y -> x = y.
End TrieSpec.
Arguments b_empty {V}.
