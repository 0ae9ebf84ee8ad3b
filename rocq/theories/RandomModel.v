(** utils/Random.hpp: the generator of the skip list levels.  The member [seed] is a uint32_t; the
    product is computed in uint64_t.  [Skewed] is modelled for max_log < 31, where 1 << Uniform(max_log+1)
    does not overflow int. *)
From Verif Require Import Base.
Open Scope Z_scope.

Definition u32 (x : Z) : Z := x mod 2 ^ 32.
Definition u64 (x : Z) : Z := x mod 2 ^ 64.
Definition rnd_M : Z := 2147483647.

(** Constructor, 30-34 *)
Definition rnd_new (s : Z) : Z :=
  let seed := Z.land (u32 s) 2147483647 in
  if (seed =? 0) || (seed =? 2147483647) then 1 else seed.

(** Next, 36-44: the new seed, which is also the result *)
Definition rnd_next (seed : Z) : Z :=
  let product := u64 (seed * 16807) in
  let s := u32 (u64 (Z.shiftr product 31 + Z.land product rnd_M)) in
  if rnd_M <? s then u32 (s - rnd_M) else s.

(** Uniform, 46-48; remainder by zero is undefined *)
Definition rnd_uniform (seed n : Z) : res (Z * Z) :=
  let x := rnd_next seed in if n =? 0 then UB else Ok (x, u32 (x mod n)).

(** OneIn, 50-52 *)
Definition rnd_one_in (seed n : Z) : res (Z * bool) :=
  let x := rnd_next seed in if n =? 0 then UB else Ok (x, x mod n =? 0).

(** Skewed, 54-56: the argument of the outer call is evaluated first *)
Definition rnd_skewed (seed max_log : Z) : res (Z * Z) :=
  do a <- rnd_uniform seed (u64 (max_log + 1));
  rnd_uniform (fst a) (2 ^ snd a).

(** simplePSkiplist: inserts whose levels are drawn by the member rnd (seeded in the constructor, 155).
    getRandomLevel is reached for new keys only, so only then the generator moves. *)
From Verif Require Import SkipModel.
Section Seeded.
Variables (V : Type) (maxl : nat).
Fixpoint seeded (seed : Z) (s : slist V) (l : list (Z * V)) : res (slist V) :=
  match l with
  | [] => Ok s
  | (k, v) :: r =>
    do u <- rnd_uniform seed (Z.of_nat maxl);
    do x <- insert maxl s k v (Z.to_nat (snd u));
    seeded (if snd x then fst u else seed) (fst x) r
  end.
End Seeded.
