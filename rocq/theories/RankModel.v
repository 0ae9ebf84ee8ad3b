(** Model of utils/SearchFunctions.hpp:34-97 (ElementOfRankK and findSplitKey) and of the
    minimum / maximum key searches at 106-222.

    Simplifications: the sub-array [data[start .. start+length)] of elementOfRankK is
    represented by the list of its elements (the C++ code addresses nothing else of [data]);
    [std::sort] on at most five integers is represented by insertion sort; the loop counter
    [int j] of partition does not overflow (arrays shorter than 2^31). *)
From Verif Require Import Base.
Open Scope Z_scope.

(** An integral KeyType: signedness and width in bits. *)
Record ktype := { kt_signed : bool; kt_bits : Z }.
Definition kt_min (t : ktype) : Z := if kt_signed t then - 2 ^ (kt_bits t - 1) else 0.
Definition kt_max (t : ktype) : Z := if kt_signed t then 2 ^ (kt_bits t - 1) - 1 else 2 ^ kt_bits t - 1.
Definition kt_in (t : ktype) (z : Z) : Prop := kt_min t <= z <= kt_max t.

(** Integral conversion KeyType -> std::size_t and std::size_t -> KeyType (both modular). *)
Definition to_size (z : Z) : Z := z mod 2 ^ 64.
Definition of_size (t : ktype) (s : Z) : Z :=
  if kt_signed t then (s + 2 ^ (kt_bits t - 1)) mod 2 ^ kt_bits t - 2 ^ (kt_bits t - 1)
  else s mod 2 ^ kt_bits t.

Definition lget {A} (l : list A) (i : nat) : res A := of_opt (nth_error l i).

Definition lswap {A} (l : list A) (i j : nat) : res (list A) :=
  do x <- lget l i;
  do y <- lget l j;
  do l1 <- of_opt (lset l i y);
  of_opt (lset l1 j x).

Fixpoint insert_sorted (x : Z) (l : list Z) : list Z :=
  match l with
  | [] => [x]
  | y :: t => if x <=? y then x :: l else y :: insert_sorted x t
  end.
Definition isort (l : list Z) : list Z := fold_right insert_sorted [] l.

(** 61-64: sorts the group in place and returns its middle element. *)
Definition findMedian (g : list Z) : res (list Z * Z) :=
  let s := isort g in do m <- lget s (length g / 2)%nat; Ok (s, m).

(** 44-49: groups of five, the last group possibly shorter. *)
Fixpoint medians (parts : nat) (data : list Z) : res (list Z * list Z) :=
  match parts with
  | O => Ok (data, [])
  | S p =>
    do g <- findMedian (firstn 5 data);
    do r <- medians p (skipn 5 data);
    Ok (fst g ++ fst r, snd g :: snd r)
  end.

(** 69: the first position below [endp] holding [x], or [endp]. *)
Fixpoint find_first (rounds : nat) (i : nat) (data : list Z) (x : Z) : res nat :=
  match rounds with
  | O => Ok i
  | S n => do d <- lget data i; if d =? x then Ok i else find_first n (S i) data x
  end.

(** 67-78 *)
Definition partition (data : list Z) (endp : nat) (x : Z) : res (list Z * nat) :=
  do i <- find_first endp 0 data x;
  do data <- lswap data i endp;
  do p <- for_up 0 endp (fun j p =>
    do d <- lget (fst p) j;
    if d <=? x then do data <- lswap (fst p) (snd p) j; Ok (data, S (snd p)) else Ok p) (data, O);
  do data <- lswap (fst p) (snd p) endp;
  Ok (data, snd p).

(** 40-56; a call with [k = 0] or [length = 0] leaves the array (wrapped size_t): [UB]. *)
Fixpoint elementOfRankK (fuel : nat) (t : ktype) (k : nat) (data : list Z) : res Z :=
  match fuel with
  | O => NoFuel
  | S f =>
    match length data, k with
    | O, _ | _, O => UB
    | S len1, S k1 =>
      do m <- medians ((length data + 4) / 5)%nat data;
      let data := fst m in
      let n := length (snd m) in
      do mom <- (if (n =? 1)%nat then lget (snd m) 0
                 else do s <- elementOfRankK f t (n / 2)%nat (snd m); Ok (of_size t s));
      do p <- partition data len1 mom;
      let pos := snd p in
      if (pos =? k1)%nat then do d <- lget (fst p) pos; Ok (to_size d)
      else if (k1 <? pos)%nat then elementOfRankK f t k (firstn pos (fst p))
      else elementOfRankK f t (k - pos - 1)%nat (skipn (S pos) (fst p))
    end
  end.

(** 90-95: the comparison is made in std::size_t. [splitPos] has no initial value. *)
Fixpoint mark (s : Z) (i : nat) (data : list Z) (pos : option nat) : list bool * option nat :=
  match data with
  | [] => ([], pos)
  | d :: rest =>
    let pos := if to_size d <? s then pos else if to_size d =? s then Some i else pos in
    let r := mark s (S i) rest pos in ((to_size d <? s) :: fst r, snd r)
  end.

(** 82-97; [data] is the whole array of [M] keys, [length data = M]. *)
Definition findSplitKey (t : ktype) (data : list Z) : res (list bool * nat) :=
  let M := length data in
  do s <- elementOfRankK (S M) t ((M + 1) / 2 + 1)%nat data;
  let r := mark s 0 data None in
  do p <- of_opt (snd r);
  Ok (fst r, p).

(** 106-116 and 144-154: node with numKeys, no bitmap.  [better new cur] is [<] or [>]. *)
Definition find_ext (better : Z -> Z -> bool) (keys : arr Z) (num : nat) : res nat :=
  do k0 <- aget keys 0;
  do r <- for_up 1 (num - 1) (fun i r =>
    do k <- aget keys i; if better k (fst r) then Ok (k, i) else Ok r) (k0, O);
  Ok (snd r).
Definition findMinKeyPos := find_ext Z.ltb.
Definition findMaxKeyPos := find_ext Z.gtb.

(** 124-135 and 163-174: key array with bitmap; [lim] is numeric_limits<KeyType>::max() / min().
    A key is read only if its bit is set. *)
Definition find_ext_bits (better : Z -> Z -> bool) (lim : Z) (keys : arr Z) (bits : list bool) (N : nat) : res nat :=
  do r <- for_up 0 N (fun i r =>
    do b <- lget bits i;
    if b then do k <- aget keys i; if better k (fst r) then Ok (k, i) else Ok r
    else Ok r) (lim, O);
  Ok (snd r).
Definition findMinKeyPosB (t : ktype) := find_ext_bits Z.ltb (kt_max t).
Definition findMaxKeyPosB (t : ktype) := find_ext_bits Z.gtb (kt_min t).

(** 184-198 and 208-222 *)
Definition find_next_bits (better : Z -> Z -> bool) (lim : Z) (keys : arr Z) (bits : list bool)
    (N : nat) (key : Z) : res nat :=
  do r <- for_up 0 N (fun i r =>
    do b <- lget bits i;
    if b then do k <- aget keys i; if better k (fst r) && better key k then Ok (k, i) else Ok r
    else Ok r) (lim, O);
  if fst r =? lim then Ok N else Ok (snd r).
Definition findMinKeyPosGreaterThan (t : ktype) := find_next_bits Z.ltb (kt_max t).
Definition findMaxKeyPosSmallerThan (t : ktype) := find_next_bits Z.gtb (kt_min t).
