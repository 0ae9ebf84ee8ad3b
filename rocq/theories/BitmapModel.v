(** Model of utils/Bitmap.hpp, class Bitmap<NUM_BITS>, word for word, and of utils/Random.hpp.

    A word ([size_t], 64 bits) is an [N] kept below 2^64; [words] is a list of
    [NUM_WORDS = (NUM_BITS + 63) / 64] words.  An exception thrown by [check] (lines 55-59)
    is represented by the outcome [UB].  The class Bitref (lines 73-110) names members that
    do not exist ([getword], [maskbit]) and is not instantiated anywhere: not modelled. *)
From Verif Require Import Base RankModel.
Open Scope N_scope.

Definition W : N := 2 ^ 64.
Definition allones : N := N.ones 64.
(** [~w] on 64-bit words *)
Definition wnot (w : N) : N := N.lnot w 64.
(** [-w] on 64-bit words *)
Definition wneg (w : N) : N := (W - w) mod W.

Definition num_words (n : nat) : nat := ((n + 64 - 1) / 64)%nat.

(** 51-53 *)
Definition maskBit (pos : nat) : N := N.shiftl 1 (N.of_nat (pos mod 64)).

(** 118: [words()] zero-initialises. *)
Definition bm_new (n : nat) : list N := repeat 0 (num_words n).

(** 126-129 *)
Definition bm_test (n : nat) (ws : list N) (pos : nat) : res bool :=
  if (pos <? n)%nat then do w <- lget ws (pos / 64)%nat; Ok (negb (N.land w (maskBit pos) =? 0)) else UB.

(** 210-217 *)
Definition bm_set (n : nat) (ws : list N) (pos : nat) (value : bool) : res (list N) :=
  if (pos <? n)%nat then
    do w <- lget ws (pos / 64)%nat;
    of_opt (lset ws (pos / 64)%nat (if value then N.lor w (maskBit pos) else N.land w (wnot (maskBit pos))))
  else UB.

(** 225-229 *)
Definition bm_reset (n : nat) (ws : list N) (pos : nat) : res (list N) :=
  if (pos <? n)%nat then
    do w <- lget ws (pos / 64)%nat; of_opt (lset ws (pos / 64)%nat (N.land w (wnot (maskBit pos))))
  else UB.

(** 64-66 *)
Definition sanitize (n : nat) (ws : list N) : res (list N) :=
  let i := (num_words n - 1)%nat in
  do w <- lget ws i;
  of_opt (lset ws i (N.land w (wnot (N.shiftl allones (N.of_nat (n mod 64)) mod W)))).

(** 186-190 *)
Definition bm_flip (n : nat) (ws : list N) : res (list N) := sanitize n (map wnot ws).
(** 197-201 *)
Definition bm_set_all (n : nat) (ws : list N) : res (list N) := sanitize n (map (fun _ => wnot 0) ws).

(** 161-164: the parallel bit count of one word. *)
Definition popcount (w : N) : N :=
  let w := (w + W - N.land (N.shiftr w 1) (wnot 0 / 3)) mod W in
  let w := (N.land w (wnot 0 / 15 * 3) + N.land (N.shiftr w 2) (wnot 0 / 15 * 3)) mod W in
  let w := N.land ((w + N.shiftr w 4) mod W) (wnot 0 / 255 * 15) in
  N.shiftr ((w * (wnot 0 / 255)) mod W) ((8 - 1) * 8).
(** 157-168 *)
Definition bm_count (ws : list N) : N := fold_left (fun c w => (c + popcount w) mod W) ws 0.

(** 175-180 *)
Definition bm_all (n : nat) (ws : list N) : res bool :=
  let i := (num_words n - 1)%nat in
  do last <- lget ws i;
  Ok (forallb (fun w => w =? wnot 0) (firstn i ws) &&
      (last =? N.shiftr (wnot 0) (N.of_nat (num_words n * 64 - n)))).

(** 26-31 *)
Definition deBruijnSeq : N := 0x07EDD5E59A4E28C2.
Definition tab64 : list nat :=
  [63; 0;  58; 1;  59; 47; 53; 2;  60; 39; 48; 27; 54; 33; 42; 3;  61; 51; 37; 40; 49; 18;
   28; 20; 55; 30; 34; 11; 43; 14; 22; 4;  62; 57; 46; 52; 38; 26; 32; 41; 50; 36; 17; 19;
   29; 10; 13; 21; 56; 45; 25; 31; 35; 16; 9;  12; 44; 24; 15; 8;  23; 7;  6;  5]%nat.

(** 250, 268 *)
Definition ctz_lookup (w : N) : res nat :=
  lget tab64 (N.to_nat (N.shiftr ((N.land w (wneg w) * deBruijnSeq) mod W) 58)).

(** 243-255 ([f] is [~]) and 262-273 ([f] is the identity). *)
Fixpoint first_word (f : N -> N) (i : nat) (ws : list N) : res nat :=
  match ws with
  | [] => Ok (64 * i)%nat
  | x :: rest =>
    let w := f x in
    if w =? 0 then first_word f (S i) rest else do c <- ctz_lookup w; Ok (64 * i + c)%nat
  end.
Definition getFreeZero (ws : list N) : res nat := first_word wnot 0 ws.
Definition getFirstSet (ws : list N) : res nat := first_word (fun w => w) 0 ws.

(** The state-changing operations, for histories. *)
Inductive bmop := BSet (pos : nat) (v : bool) | BReset (pos : nat) | BFlip | BSetAll.
Definition bm_step (n : nat) (ws : list N) (o : bmop) : res (list N) :=
  match o with
  | BSet p v => bm_set n ws p v
  | BReset p => bm_reset n ws p
  | BFlip => bm_flip n ws
  | BSetAll => bm_set_all n ws
  end.
Fixpoint bm_run (n : nat) (ws : list N) (os : list bmop) : res (list N) :=
  match os with [] => Ok ws | o :: os => do ws <- bm_step n ws o; bm_run n ws os end.

(** ** utils/Random.hpp *)
Definition RM : N := 2147483647.
(** 30-34 *)
Definition rnd_new (s : N) : N :=
  let seed := N.land s 0x7fffffff in if (seed =? 0) || (seed =? RM) then 1 else seed.
(** 36-44: [seed] is uint32_t, the product uint64_t. *)
Definition rnd_next (seed : N) : N :=
  let product := (seed * 16807) mod W in
  let seed := (N.shiftr product 31 + N.land product RM) mod 2 ^ 32 in
  if RM <? seed then seed - RM else seed.
(** 46-52: division by [n = 0] is undefined. *)
Definition rnd_uniform (seed n : N) : res (N * N) :=
  let s := rnd_next seed in if n =? 0 then UB else Ok (s mod n, s).
Definition rnd_onein (seed n : N) : res (bool * N) :=
  let s := rnd_next seed in if n =? 0 then UB else Ok (s mod n =? 0, s).
(** 54-56: [1 << k] for a C int is undefined from [k = 31] on; [max_log + 1] as size_t. *)
Definition rnd_skewed (seed max_log : N) : res (N * N) :=
  do u <- rnd_uniform seed ((max_log + 1) mod W);
  if fst u <? 31 then rnd_uniform (snd u) (N.shiftl 1 (fst u)) else UB.
