(** Histories that only insert, as lists of entries. *)
From Verif Require Import Base MapSpec.

Definition inserts {V} (os : list (Z * V)) : list (mop V) := map (fun e => OpInsert (fst e) (snd e)) os.
(** No key is smaller than an earlier one. *)
Definition ascending {V} (os : list (Z * V)) : Prop := StronglySorted Z.le (map fst os).
(** A key that is not stored yet is above or below all stored keys. *)
Fixpoint outward {V} (m : amap V) (os : list (Z * V)) : Prop :=
  match os with
  | [] => True
  | (k, v) :: r => (m k <> None \/ (forall x, m x <> None -> (x < k)%Z) \/ (forall x, m x <> None -> (k < x)%Z)) /\
                   outward (m_put m k v) r
  end.
