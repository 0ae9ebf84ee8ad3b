(** Model of ptable/core/serialize.hpp.

    Types: fixed-width integers (any trivially copyable type of [w] bytes with a two's complement,
    little-endian representation), std::string, std::vector, std::tuple, nested arbitrarily.
    A byte is an integer in 0 .. 255; a character of a string is its byte.

    Simplifications: get_size is computed without wrap-around (an object larger than 2^64 bytes
    cannot exist); the allocations of the containers succeed. *)
From Verif Require Import Base.
Open Scope Z_scope.
Unset Implicit Arguments.

Inductive ty := TInt (w : nat) (signed : bool) | TStr | TVec (t : ty) | TTup (ts : tys)
with tys := TOne (t : ty) | TMore (t : ty) (r : tys).

(** Values of a type. *)
Fixpoint den (t : ty) : Type :=
  match t with TInt _ _ => Z | TStr => list Z | TVec t => list (den t) | TTup ts => dens ts end
with dens (ts : tys) : Type :=
  match ts with TOne t => den t | TMore t r => (den t * dens r)%type end.

Definition size_bytes : nat := 8.        (* sizeof(size_t) *)

(** get_size and its helpers, 40-101. *)
Fixpoint get_size (t : ty) : den t -> nat :=
  match t return den t -> nat with
  | TInt w _ => fun _ => w
  | TStr => fun s => (size_bytes + length s)%nat
  | TVec t => fun v => fold_left (fun acc x => (acc + get_size t x)%nat) v size_bytes
  | TTup ts => get_sizes ts
  end
with get_sizes (ts : tys) : dens ts -> nat :=
  match ts return dens ts -> nat with
  | TOne t => get_size t
  | TMore t r => fun p => (get_size t (fst p) + get_sizes r (snd p))%nat
  end.

(** Memory image of an integer of [w] bytes and its inverse. *)
Fixpoint bytes (w : nat) (z : Z) : list Z :=
  match w with O => [] | S w' => z mod 256 :: bytes w' (z / 256) end.
Fixpoint unbytes (l : list Z) : Z :=
  match l with [] => 0 | b :: r => b + 256 * unbytes r end.
Definition image (w : nat) (z : Z) : list Z := bytes w (z mod 2 ^ (8 * Z.of_nat w)).
Definition value (w : nat) (signed : bool) (l : list Z) : Z :=
  let u := unbytes l in
  if signed && (2 ^ (8 * Z.of_nat w) <=? 2 * u) then u - 2 ^ (8 * Z.of_nat w) else u.

(** The output iterator: the buffer and a position; writing behind the end is undefined. *)
Definition out := (list Z * nat)%type.
Definition put (o : out) (b : Z) : res out := do l <- of_opt (lset (fst o) (snd o) b); Ok (l, S (snd o)).
Fixpoint puts (o : out) (bs : list Z) : res out :=
  match bs with [] => Ok o | b :: r => do o' <- put o b; puts o' r end.

(** [for (const auto& cur : obj) serializer(cur, res)] *)
Fixpoint each {A} (f : out -> A -> res out) (o : out) (l : list A) : res out :=
  match l with [] => Ok o | x :: r => do o' <- f o x; each f o' r end.

(** serializer and its helpers, 103-177. *)
Fixpoint serializer (t : ty) : out -> den t -> res out :=
  match t return out -> den t -> res out with
  | TInt w _ => fun o z => puts o (image w z)
  | TStr => fun o s => do o' <- puts o (image size_bytes (Z.of_nat (length s))); each (fun o c => puts o (image 1 c)) o' s
  | TVec t => fun o v => do o' <- puts o (image size_bytes (Z.of_nat (length v))); each (serializer t) o' v
  | TTup ts => serializers ts
  end
with serializers (ts : tys) : out -> dens ts -> res out :=
  match ts return out -> dens ts -> res out with
  | TOne t => serializer t
  | TMore t r => fun o p => do o' <- serializer t o (fst p); serializers r o' (snd p)
  end.

(** serialize, 181-190, with its assertion. *)
Definition serialize (t : ty) (v : den t) (buf : list Z) : res (list Z) :=
  let offset := length buf in
  let size := get_size t v in
  do o <- serializer t (buf ++ repeat 0 size, offset) v;
  if (snd o =? offset + size)%nat then Ok (fst o) else UB.

(** The input iterators [begin], [end]: the bytes between them.  Reading behind [end] is undefined
    (the code asserts it). *)
Definition takes (w : nat) (l : list Z) : res (list Z * list Z) :=
  if (w <=? length l)%nat then Ok (firstn w l, skipn w l) else UB.

(** [for (i = 0; i < size; ++i) vect[i] = apply(begin, end)] *)
Fixpoint repeat_read {A} (n : nat) (f : list Z -> res (A * list Z)) (l : list Z) : res (list A * list Z) :=
  match n with
  | O => Ok ([], l)
  | S n' => do x <- f l; do r <- repeat_read n' f (snd x); Ok (fst x :: fst r, snd r)
  end.

(** deserialize_helper and deserialize, 192-301. *)
Definition read_int (w : nat) (s : bool) (l : list Z) : res (Z * list Z) :=
  do r <- takes w l; Ok (value w s (fst r), snd r).
Fixpoint deserialize (t : ty) : list Z -> res (den t * list Z) :=
  match t return list Z -> res (den t * list Z) with
  | TInt w s => read_int w s
  | TStr => fun l => do n <- read_int size_bytes false l;
                     if fst n =? 0 then Ok ([], snd n) else repeat_read (Z.to_nat (fst n)) (read_int 1 false) (snd n)
  | TVec t => fun l => do n <- read_int size_bytes false l; repeat_read (Z.to_nat (fst n)) (deserialize t) (snd n)
  | TTup ts => deserializes ts
  end
with deserializes (ts : tys) : list Z -> res (dens ts * list Z) :=
  match ts return list Z -> res (dens ts * list Z) with
  | TOne t => deserialize t
  | TMore t r => fun l => do a <- deserialize t l; do b <- deserializes r (snd a); Ok ((fst a, fst b), snd b)
  end.
