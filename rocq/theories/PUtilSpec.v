(** What the helpers of PatriciaUtils.hpp and PersistEmulation.hpp should deliver. *)
From Verif Require Import Base.
Open Scope Z_scope.

(** [r] is the mirror image of the lowest [b] bits of [n]. *)
Definition mirrored (b : nat) (n r : Z) : Prop :=
  0 <= r < 2 ^ Z.of_nat b /\ forall i, 0 <= i < Z.of_nat b -> Z.testbit r i = Z.testbit n (Z.of_nat b - 1 - i).

(** Bit [x] of a byte string, the most significant bit of each byte first. *)
Definition bit_at (bytes : list Z) (x : nat) : bool := Z.testbit (nth (x / 8) bytes 0) (7 - Z.of_nat (x mod 8)).

(** A key read as a number, most significant byte first. *)
Fixpoint be_value (acc : Z) (key : list Z) : Z := match key with [] => acc | c :: r => be_value (acc * 256 + c) r end.

(** Lower-case strings, shorter ones first, then alphabetically. *)
Definition letters (s : list Z) : Prop := s <> [] /\ Forall (fun c => 97 <= c <= 122) s.
Fixpoint lexlt (s t : list Z) : Prop :=
  match s, t with c :: s', d :: t' => c < d \/ c = d /\ lexlt s' t' | _, _ => False end.
Definition before (s t : list Z) : Prop := (length s < length t)%nat \/ length s = length t /\ lexlt s t.

(** The sums of what was written between two questions. *)
From Verif Require Import PUtilModel.
Fixpoint written (acc : Z) (h : list pe_op) : list Z :=
  match h with
  | [] => []
  | PWrite n :: r => written (acc + n) r
  | PGet :: r => acc :: written 0 r
  end.
