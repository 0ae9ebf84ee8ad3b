(** Model of ptable/core/BDCCInfo.hpp and of PTable::getBDCCFromTuple (ptable/PTable.hpp).

    A bitset<32> is the number with these bits.  Simplifications: the widths and alignments are
    uint16_t in the code and unbounded naturals here (they are only decremented while positive);
    numberOfBins is accumulated in an int, so sums from 2^31 on are not covered. *)
From Verif Require Import Base.
Open Scope Z_scope.

(** An entry of Dimensions: column, number of bits, alignment, 45. *)
Definition dim := (nat * nat * nat)%type.
Definition d_col (d : dim) := fst (fst d).
Definition d_bits (d : dim) := snd (fst d).
Definition d_align (d : dim) := snd d.

(** numberOfBins, 70-74 *)
Definition num_bins (ds : list dim) : nat := fold_left (fun s d => (s + d_bits d)%nat) ds 0%nat.

(** bitset<32>::operator[](i) = 1: positions from 32 on are outside the object. *)
Definition bs_set (m : N) (i : nat) : res N := if (i <? 32)%nat then Ok (N.setbit m (N.of_nat i)) else UB.

(** One round of the for loop in deriveMasks, 93-99: remaining widths, masks, bdccSize.  The
    subtraction --bdccSize on 0 wraps around to an index far outside the bitset. *)
Fixpoint mask_round (ws : list nat) (ms : list N) (size : nat) : res (list nat * list N * nat) :=
  match ws, ms with
  | [], [] => Ok ([], [], size)
  | w :: ws', m :: ms' =>
    match w with
    | O => do x <- mask_round ws' ms' size;
           let '(a, b, c) := x in Ok (O :: a, m :: b, c)
    | S w' =>
      match size with
      | O => UB
      | S s => do m' <- bs_set m s;
               do x <- mask_round ws' ms' s;
               let '(a, b, c) := x in Ok (w' :: a, m' :: b, c)
      end
    end
  | _, _ => UB
  end.

(** The while loop, 91-100. *)
Fixpoint mask_loop (fuel : nat) (ws : list nat) (ms : list N) (size : nat) : res (list N) :=
  match size with
  | O => Ok ms
  | S _ =>
    match fuel with
    | O => NoFuel
    | S f => do x <- mask_round ws ms size;
             let '(a, b, c) := x in mask_loop f a b c
    end
  end.

(** deriveMasks, 83-102: the bit sets of the dimensions in order. *)
Definition derive_masks (ds : list dim) : res (list N) :=
  mask_loop (num_bins ds) (map d_bits ds) (map (fun _ => 0%N) ds) (num_bins ds).

(** ** The clustering value of a tuple

    [neg] fixes what a shift by a negative or too large amount yields; with [None] such a shift is
    undefined, as in C++. *)
Section Value.
Variable neg : option (Z -> Z -> Z).

Definition shr (x j : Z) : res Z :=
  if (0 <=? j) && (j <? 32) then Ok (Z.shiftr x j)
  else match neg with Some f => Ok (f x j) | None => UB end.

(** Conversion to a 32-bit int. *)
Definition wrap32 (z : Z) : Z := let u := z mod 4294967296 in if u <? 2147483648 then u else u - 4294967296.

(** The loop [for (i = 31; i >= 0; --i)], 1101-1104: [i + 1] rounds are left. *)
Fixpoint scatter (i : nat) (x : Z) (mapping : N) (j : Z) (acc : N) : res N :=
  match i with
  | O => Ok acc
  | S p =>
    do s <- shr x j;
    let mb := N.testbit mapping (N.of_nat p) in
    let b := Z.odd s && mb in
    let acc' := if b then N.setbit acc (N.of_nat p) else N.clearbit acc (N.of_nat p) in
    scatter p x mapping (j - Z.b2z mb) acc'
  end.

(** The body for one dimension, 1089-1105; [value] is the attribute read as an int by applyMask. *)
Definition dim_value (d : dim) (mapping : N) (value : Z) : res N :=
  let nbits := Z.of_nat (d_bits d) in
  let alignment := Z.of_nat (d_align d) - nbits in
  if (nbits <? 63) && (0 <=? alignment) && (nbits + alignment <? 64) then
    let mask := Z.shiftl (2 ^ nbits - 1) alignment in
    do x <- shr (Z.land value (wrap32 mask)) alignment;
    scatter 32 x mapping (nbits - 1) mapping
  else UB.

(** getBDCCFromTuple, 1081-1110.  [tuple] gives the attributes as applyMask reads them; callForIndex
    does nothing for a column the tuple does not have. *)
Fixpoint bdcc_dims (ds : list dim) (ms : list N) (tuple : list Z) (xtr : N) : res N :=
  match ds, ms with
  | [], [] => Ok xtr
  | d :: ds', m :: ms' =>
    do xtr' <- match nth_error tuple (d_col d) with
               | Some v => do y <- dim_value d m v; Ok (N.lor xtr y)
               | None => Ok xtr
               end;
    bdcc_dims ds' ms' tuple xtr'
  | _, _ => UB
  end.
Definition bdcc_value (ds : list dim) (tuple : list Z) : res N :=
  do ms <- derive_masks ds; bdcc_dims ds ms tuple 0%N.
End Value.
