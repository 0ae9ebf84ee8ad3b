(** Model of utils/PatriciaUtils.hpp and utils/PersistEmulation.hpp.

    Not modelled: toHexString (returns ""), the class Timer, the random engines (what they deliver is
    an argument), the stall loop of PersistEmulation. *)
From Verif Require Import Base.
Open Scope Z_scope.

(** reverse, PatriciaUtils.hpp:33-43, for an integer type with [w] value bits; a signed [rv] that leaves its range is undefined,
    an unsigned one wraps.  A failing assertion is [UB]. *)
Definition rev_body (signed : bool) (w : nat) (st : Z * Z) : res (Z * Z) :=
  let '(rv, n) := st in
  let rv' := Z.lor (Z.shiftl rv 1) (Z.land n 1) in
  if signed then if rv' <? 2 ^ Z.of_nat w then Ok (rv', Z.shiftr n 1) else UB
  else Ok (rv' mod 2 ^ Z.of_nat w, Z.shiftr n 1).
Definition reverse (signed : bool) (w : nat) (n : Z) (b : nat) : res Z :=
  if (w <? b)%nat then UB else
  do r <- for_up 0 b (fun _ => rev_body signed w) (0, n);
  Ok (fst r).

(** toBinaryString, 49-62.  [size] is an int; [i] is a std::size_t, so both comparisons convert [size] (or [size / 8]) to it. *)
Definition to_sz (z : Z) : Z := z mod 2 ^ 64.
Fixpoint bits_of (ptr : arr Z) (size : Z) (i : nat) (m j : nat) (ss : list bool) : res (list bool * bool) :=
  match m with
  | O => Ok (ss, false)
  | S m' =>
    if to_sz (Z.of_nat i * 8 + Z.of_nat j) =? to_sz size then Ok (ss, true) else
    do byte <- aget ptr i;
    bits_of ptr size i m' (S j) (ss ++ [negb (Z.land byte (Z.shiftl 1 (7 - Z.of_nat j)) =? 0)])
  end.
Fixpoint bytes_of (fuel : nat) (ptr : arr Z) (size : Z) (i : nat) (ss : list bool) : res (list bool) :=
  match fuel with
  | O => NoFuel
  | S f =>
    if Z.of_nat i <=? to_sz (Z.quot size 8) then
      do r <- bits_of ptr size i 8 0 ss;
      if snd r then Ok (fst r) else bytes_of f ptr size (S i) (fst r)
    else Ok ss
  end.
Definition toBinaryString (fuel : nat) (ptr : arr Z) (size : Z) : res (list bool) := bytes_of fuel ptr size 0 [].

(** toString, 81-90 *)
Definition toString (ptr : arr Z) (size : nat) : res (list Z) :=
  for_up 0 size (fun i ss => do c <- aget ptr i; Ok (ss ++ [c])) [].

(** RNGBin::next, 99-109: [r] is what std::rand delivers, [rnd] the bytes drawn; one byte is allocated (104). *)
Definition rngbin_next (maxsize : nat) (r : nat) (rnd : nat -> Z) : res (arr Z * nat) :=
  if (maxsize =? 0)%nat then UB else
  let m := (r mod maxsize + 1)%nat in
  do ptr <- for_up 0 m (fun i p => aset p i (rnd i)) (anew 1);
  Ok (ptr, m).

(** RNG.  [inc_val] is a pointer, [None] while it has not been assigned. *)
Inductive rtype := DIGITS | CHARACTERS.
Record rng := Rng { rtyp : rtype; inc_val : option Z; inc_string : list Z }.
Definition KEY_SIZE : nat := 4.       (* 116 *)
(** reset, 200-204 *)
Definition rng_reset (g : rng) : res rng :=
  match inc_val g with Some _ => Ok (Rng (rtyp g) (Some 0) (inc_string g)) | None => UB end.
(** Constructor, 127-141 ("a" is 97). *)
Definition rng_new (t : rtype) : res rng :=
  rng_reset (Rng t (match t with DIGITS => Some 0 | CHARACTERS => None end) [97]).
(** Byte [i] of the counter in memory (little endian). *)
Definition byte_at (v : Z) (i : nat) : Z := (v / 256 ^ Z.of_nat i) mod 256.
(** next for INCREMENTAL and DIGITS, 147-155: [size] is replaced by KEY_SIZE. *)
Definition digits_next (g : rng) (key : arr Z) (size : nat) : res (rng * arr Z) :=
  if (size =? 0)%nat then UB else
  match inc_val g with
  | None => UB
  | Some v =>
    do key' <- for_up 0 KEY_SIZE (fun i k => aset k (KEY_SIZE - 1 - i) (byte_at v i)) key;
    Ok (Rng (rtyp g) (Some ((v + 1) mod 2 ^ 64)) (inc_string g), key')
  end.
(** The string that follows, 164-187, in three parts: [carry] is the loop 169-181 from [index] down ([z] is 122); it returns the
    string and the index from which the letters become [a]. *)
Fixpoint carry (s : list Z) (index : nat) : res (list Z * nat) :=
  do c <- of_opt (nth_error s index);
  if negb (c =? 122) then do s' <- of_opt (lset s index (c + 1)); Ok (s', S index)
  else match index with
       | O => Ok (repeat 97 (S (length s)), S (length s))
       | S i => carry s i
       end.
Definition set_a (s : list Z) (index : nat) : res (list Z) :=
  for_up index (length s - index) (fun i s => of_opt (lset s i 97)) s.
Definition last_of (s : list Z) : res Z := of_opt (nth_error s (length s - 1)).
Definition next_string (s0 : list Z) : res (list Z) :=
  do c0 <- last_of s0;
  let s := if (length s0 =? 1)%nat && (c0 =? 122) then [98; 97] else s0 in
  do c <- last_of s;
  if c =? 122 then
    do r <- carry s (length s - 2);
    set_a (fst r) (snd r)
  else of_opt (lset s (length s - 1) (c + 1)).
(** The key written, 157-163. *)
Definition string_key (s : list Z) (key : arr Z) : res (arr Z) :=
  for_up 0 KEY_SIZE (fun i k => aset k i (match nth_error s i with Some c => c | None => 0 end)) key.

(** PersistEmulation: a 32-bit counter, PersistEmulation.hpp:25-42. *)
Inductive pe_op := PWrite (n : Z) | PGet.
Definition pe_step (c : Z) (o : pe_op) : Z * option Z :=
  match o with
  | PWrite n => ((c + n) mod 2 ^ 32, None)
  | PGet => (0, Some c)
  end.
Fixpoint pe_run (c : Z) (h : list pe_op) : list Z :=
  match h with
  | [] => []
  | o :: r => let '(c', out) := pe_step c o in match out with Some x => x :: pe_run c' r | None => pe_run c' r end
  end.
(** [n] calls of next, each into the same buffer. *)
Fixpoint digits_run (n : nat) (g : rng) (key : arr Z) (size : nat) : res (rng * arr Z) :=
  match n with
  | O => Ok (g, key)
  | S n' => do r <- digits_next g key size; digits_run n' (fst r) (snd r) size
  end.
