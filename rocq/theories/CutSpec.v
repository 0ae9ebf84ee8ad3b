(** Vocabulary of the properties on interrupted inserts. *)
From Coq Require Import ZArith List Bool.
Import ListNotations.
From Verif Require Import Base MapSpec CutModel.

(** [x] lies in [a, b); no [b] means no upper end. *)
Definition in_gap (a : Z) (b : option Z) (x : Z) : bool :=
  ((a <=? x) && match b with None => true | Some y => x <? y end)%Z.

(** The inserts of a history with restarts, interrupted ones included. *)
Definition fops {V} (os : list (fop V)) : list (mop V) :=
  flat_map (fun o => match o with FIns k v => [OpInsert k v] | FRestart => [] | FCut _ k v => [OpInsert k v] end) os.
Definition fkeys_ok {V} (kok : Z -> Prop) (o : fop V) : Prop :=
  match o with FIns k _ => kok k | FRestart => True | FCut _ k _ => kok k end.

(** Every lookup is answered, and as the map [m] says, except that the keys of one interval may be reported
    absent; at most [w] keys of [m] lie in that interval. *)
Definition gap_only {V} (w : nat) (m : amap V) (look : Z -> res (option V)) : Prop :=
  (forall x, look x = Ok (m x)) \/
  exists a b ks, length ks <= w /\ (forall x, m x <> None -> in_gap a b x = true -> In x ks) /\
    forall x, look x = Ok (if in_gap a b x then None else m x).
