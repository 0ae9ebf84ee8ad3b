(** Model of the blocks of a table: ptable/core/DataNode.hpp, ptable/core/utils.hpp (copyToByteArray),
    PTuple::createTuple (ptable/core/PTuple.hpp) and, from ptable/PTable.hpp, calcMinipageSizes,
    initBlock, the block part of insertTuple, hasEnoughSpace, the block test of getCandidateBlocks
    and isPTupleinRange.

    A block is an array of 2^15 bytes; an access outside is undefined.  Numbers are stored
    little-endian in two's complement (SerModel.image / value).  A double is its bit pattern; the
    comparison of two doubles is the parameter [dlt].

    Simplifications: alignment of the casted references is ignored; an attribute is taken from the
    tuple directly instead of through the serialised buffer (C39 shows that the buffer gives it back);
    only the size of the buffer is kept. *)
From Coq Require Import FMapPositive.
From Verif Require Import Base SerModel.
Open Scope Z_scope.

Definition block_size : Z := 32768.      (* gBlockSize, DataNode.hpp 50 *)
Definition count_pos : Z := 8.           (* gCountPos etc., 35-46 *)
Definition free_pos : Z := 12.
Definition sma_off_pos : Z := 14.
Definition data_off_pos : Z := 16.
Definition header_fixed : Z := 14.

(** ** Bytes *)
Definition block := PositiveMap.t Z.
Definition empty_block : block := PositiveMap.empty Z.          (* BDCC_Block{} *)
Definition in_block (p : Z) : bool := (0 <=? p) && (p <? block_size).
Definition byte_at (b : block) (p : Z) : Z :=
  match PositiveMap.find (Z.to_pos (p + 1)) b with Some v => v | None => 0 end.
Definition rd (b : block) (p : Z) : res Z := if in_block p then Ok (byte_at b p) else UB.
Definition wr (b : block) (p v : Z) : res block :=
  if in_block p then Ok (PositiveMap.add (Z.to_pos (p + 1)) v b) else UB.
Fixpoint rds (b : block) (p : Z) (n : nat) : res (list Z) :=
  match n with O => Ok [] | S n' => do x <- rd b p; do r <- rds b (p + 1) n'; Ok (x :: r) end.
(** copyToByteArray, utils.hpp 28-33 *)
Fixpoint wrs (b : block) (p : Z) (l : list Z) : res block :=
  match l with [] => Ok b | x :: r => do b' <- wr b p x; wrs b' (p + 1) r end.

Definition get (w : nat) (s : bool) (b : block) (p : Z) : res Z := do l <- rds b p w; Ok (value w s l).
Definition put (w : nat) (b : block) (p z : Z) : res block := wrs b p (image w z).
Definition u16 := get 2 false.
Definition u32 := get 4 false.
Definition w16 (z : Z) : Z := z mod 65536.
Definition w32 (z : Z) : Z := z mod 4294967296.
Definition w64 (z : Z) : Z := z mod 18446744073709551616.

(** A C string starting at [p]. *)
Fixpoint cstr (fuel : nat) (b : block) (p : Z) : res (list Z) :=
  match fuel with
  | O => NoFuel
  | S f => do c <- rd b p; if c =? 0 then Ok [] else do r <- cstr f b (p + 1); Ok (c :: r)
  end.
Definition string_at (b : block) (p : Z) : res (list Z) := cstr (S (Z.to_nat (block_size - p))) b p.

(** std::string operator<: bytes compared as unsigned char. *)
Fixpoint str_lt (x y : list Z) : bool :=
  match x, y with
  | _, [] => false
  | [], _ :: _ => true
  | a :: x', b :: y' => if a <? b then true else if b <? a then false else str_lt x' y'
  end.

(** ** Columns and tuples *)
Inductive col := CInt | CDbl | CStr.
Inductive attr := AInt (z : Z) | ADbl (bits : Z) | AStr (s : list Z).
Definition tuple := list attr.

(** ColumnAttributes<...>::dataSize, VTableInfo.hpp *)
Definition data_size (c : col) : Z := match c with CInt => 4 | CDbl => 8 | CStr => 2 end.
Definition fixed_width (c : col) : nat := match c with CInt => 4 | CDbl => 8 | CStr => 2 end.
(** serialised size of an attribute *)
Definition ser_size (a : attr) : Z :=
  match a with AInt _ => 4 | ADbl _ => 8 | AStr s => 8 + Z.of_nat (length s) end.
Definition buf_size (t : tuple) : Z := fold_right (fun a n => ser_size a + n) 0 t.

Section Compare.
Variable dlt : Z -> Z -> bool.
Definition fixed_lt (c : col) (x y : Z) : bool := match c with CInt => x <? y | _ => dlt x y end.
Definition fixed_signed (c : col) : bool := match c with CInt => true | _ => false end.
Definition get_fixed (c : col) (b : block) (p : Z) : res Z := get (fixed_width c) (fixed_signed c) b p.
Definition put_fixed (c : col) (b : block) (p z : Z) : res block := put (fixed_width c) b p z.

(** ** Layout *)

Definition portion (c : col) : Z := match c with CInt => 1 | CDbl => 2 | CStr => 4 end.

(** calcMinipageSizes, 640-703.  [cust] is the optional map of weightings, uint16_t values; the sum is
    kept in an unsigned int, the products are computed in int (overflow undefined), the quotient is
    stored in a uint16_t. *)
Definition weight (cust : nat -> option Z) (i : nat) (c : col) : Z :=
  match cust i with Some w => w | None => portion c end.
Fixpoint portions (cust : nat -> option Z) (i : nat) (cs : list col) (acc : Z) : Z :=
  match cs with [] => acc | c :: r => portions cust (S i) r (w32 (acc + weight cust i c)) end.
Fixpoint page_sizes (cust : nat -> option Z) (i : nat) (cs : list col) (total p : Z) : res (list Z) :=
  match cs with
  | [] => Ok []
  | c :: r =>
    let prod := weight cust i c * total in
    if (2147483648 <=? prod) || (p =? 0) then UB
    else do l <- page_sizes cust (S i) r total p; Ok (w16 (prod / p) :: l)
  end.
Definition calc_minipage_sizes (cust : nat -> option Z) (cs : list col) (total : Z) : res (list Z) :=
  page_sizes cust 0 cs total (portions cust 0 cs 0).

Definition no_cust (i : nat) : option Z := None.
Definition sma_size (c : col) : Z := match c with CInt => 8 | CDbl => 16 | CStr => 4 end.

(** The loop over the columns in initBlock, 780-810: currentOffset, smaSize. *)
Fixpoint set_offsets (b : block) (i : Z) (cs : list col) (sizes : list Z) (cur sma : Z) : res (block * Z) :=
  match cs, sizes with
  | [], _ => Ok (b, sma)
  | c :: r, s :: sizes' =>
    let smaOffset := w16 cur in
    let dataOffset := w16 (smaOffset + sma_size c) in
    do b1 <- put 2 b (sma_off_pos + i * 4) smaOffset;
    do b2 <- put 2 b1 (data_off_pos + i * 4) dataOffset;
    set_offsets b2 (i + 1) r sizes' (w64 (cur + s)) (w32 (sma + sma_size c))
  | _ :: _, [] => UB
  end.

(** initBlock, 747-817 *)
Definition init_block (cs : list col) (bdcc0 bdcc1 : Z) : res block :=
  do b1 <- put 4 empty_block 0 bdcc0;
  do b2 <- put 4 b1 4 bdcc1;
  let header := header_fixed + Z.of_nat (length cs) * 4 in
  let body := w64 (block_size - header) in
  do sizes <- calc_minipage_sizes no_cust cs (w16 body);
  do x <- set_offsets b2 0 cs sizes header 0;
  put 2 (fst x) free_pos (w16 (body - snd x)).

(** ** Rows *)

(** End of the minipage of column [i], as computed in insertTuple 893-895 and hasEnoughSpace. *)
Definition page_end (n : nat) (b : block) (i : Z) : res Z :=
  if Z.of_nat n <=? i + 1 then Ok block_size else u16 b (sma_off_pos + (i + 1) * 4).

(** One column of insertTuple, 843-939: the block, the offset kept in the PTuple, the bytes used. *)
Definition insert_col (n : nat) (b : block) (i : Z) (c : col) (a : attr) : res (block * Z * Z) :=
  do sma <- u16 b (sma_off_pos + i * 4);
  do dat <- u16 b (data_off_pos + i * 4);
  do cnt <- u32 b count_pos;
  let fixed (v : Z) :=
    let w := Z.of_nat (fixed_width c) in
    let off := dat + cnt * w in
    do b1 <- put_fixed c b off v;
    do mn <- get_fixed c b1 sma;
    do b2 <- if fixed_lt c v mn || (cnt =? 0) then put_fixed c b1 sma v else Ok b1;
    do mx <- get_fixed c b2 (sma + w);
    do b3 <- if fixed_lt c mx v || (cnt =? 0) then put_fixed c b2 (sma + w) v else Ok b2;
    Ok (b3, w16 off, w) in
  match c, a with
  | CInt, AInt v => fixed v
  | CDbl, ADbl v => fixed v
  | CStr, AStr s =>
    let size := Z.of_nat (length s) + 1 in
    let opos := w32 (dat + cnt * 2) in
    do top <- (if cnt =? 0 then page_end n b i else u16 b (opos - 2));
    let tgt := w16 (top - size) in
    do b1 <- put 2 b opos tgt;
    do b2 <- wrs b1 tgt (s ++ [0]);
    do b3 <- (if cnt =? 0 then do x <- put 2 b2 sma tgt; put 2 x (sma + 2) tgt
              else
                do mnp <- u16 b2 sma;
                do mxp <- u16 b2 (sma + 2);
                do mn <- string_at b2 mnp;
                do mx <- string_at b2 mxp;
                if str_lt s mn then put 2 b2 sma tgt
                else if str_lt mx s then put 2 b2 (sma + 2) tgt else Ok b2);
    Ok (b3, tgt, size + 2)
  | _, _ => UB
  end.

Fixpoint insert_cols (n : nat) (b : block) (i : Z) (cs : list col) (t : tuple) (size : Z)
  : res (block * list Z * Z) :=
  match cs, t with
  | [], [] => Ok (b, [], size)
  | c :: cs', a :: t' =>
    do x <- insert_col n b i c a;
    let '(b', off, s) := x in
    do y <- insert_cols n b' (i + 1) cs' t' (size + s);
    let '(b'', offs, size') := y in Ok (b'', off :: offs, size')
  | _, _ => UB
  end.

(** insertTuple without index and bdccSum, 824-942: the block and the offsets of the PTuple. *)
Definition block_insert (cs : list col) (b : block) (t : tuple) : res (block * list Z) :=
  do x <- insert_cols (length cs) b 0 cs t 0;
  let '(b1, offs, size) := x in
  do cnt <- u32 b1 count_pos;
  do b2 <- put 4 b1 count_pos (cnt + 1);
  do fr <- u16 b2 free_pos;
  do b3 <- put 2 b2 free_pos (fr - size);
  Ok (b3, offs).

(** hasEnoughSpace, 1270-1350 *)
Fixpoint enough_cols (n : nat) (b : block) (i : Z) (cs : list col) (t : tuple) (cnt : Z) : res bool :=
  match cs, t with
  | [], [] => Ok true
  | c :: cs', a :: t' =>
    do dat <- u16 b (data_off_pos + i * 4);
    do ok <- match c, a with
             | CStr, AStr s =>
               do free <- (if cnt =? 0 then do e <- page_end n b i; Ok (w16 (e - dat))
                           else
                             let opos := w32 (dat + cnt * 2) in
                             do o <- u16 b (opos - 2);
                             Ok (w16 (w32 (o - opos))));
               Ok (negb (free <? Z.of_nat (length s) + 1 + 2))
             | _, _ =>
               do e <- page_end n b i;
               let w := Z.of_nat (fixed_width c) in
               Ok (negb (w64 (e - dat - cnt * w) <? w))
             end;
    if ok : bool then enough_cols n b (i + 1) cs' t' cnt else Ok false
  | _, _ => UB
  end.
Definition has_enough_space (cs : list col) (b : block) (t : tuple) : res bool :=
  do free <- u16 b free_pos;
  if free <? buf_size t then Ok false
  else do cnt <- u32 b count_pos; enough_cols (length cs) b 0 cs t cnt.

(** The offsets of the attributes of row [pos], as in splitBlock 1006-1030 and
    BlockIterator::operator*, 156-195. *)
Fixpoint row_offsets (b : block) (i : Z) (cs : list col) (pos : Z) : res (list Z) :=
  match cs with
  | [] => Ok []
  | c :: r =>
    do dat <- u16 b (data_off_pos + i * 4);
    do o <- match c with
            | CStr => u16 b (dat + pos * 2)
            | _ => Ok (w16 (dat + pos * Z.of_nat (fixed_width c)))
            end;
    do offs <- row_offsets b (i + 1) r pos; Ok (o :: offs)
  end.

(** PTuple::createTuple, PTuple.hpp 52-153 and 364-370 *)
Definition get_attr (b : block) (c : col) (off : Z) : res attr :=
  match c with
  | CInt => do v <- get_fixed CInt b off; Ok (AInt v)
  | CDbl => do v <- get_fixed CDbl b off; Ok (ADbl v)
  | CStr => do s <- string_at b off; Ok (AStr s)
  end.
Fixpoint create_tuple (b : block) (cs : list col) (offs : list Z) : res tuple :=
  match cs, offs with
  | [], [] => Ok []
  | c :: cs', o :: offs' => do a <- get_attr b c o; do t <- create_tuple b cs' offs'; Ok (a :: t)
  | _, _ => UB
  end.

(** ** Predicates: column, smallest and largest admitted value *)
Definition pred := (nat * attr * attr)%type.
Definition attr_lt (x y : attr) : res bool :=
  match x, y with
  | AInt a, AInt b => Ok (a <? b)
  | ADbl a, ADbl b => Ok (dlt a b)
  | AStr a, AStr b => Ok (str_lt a b)
  | _, _ => UB
  end.

(** The two summary values of a column, 1144-1180. *)
Definition block_sma (b : block) (i : Z) (c : col) : res (attr * attr) :=
  do sma <- u16 b (sma_off_pos + i * 4);
  match c with
  | CStr => do mnp <- u16 b sma; do mxp <- u16 b (sma + 2);
            do mn <- string_at b mnp; do mx <- string_at b mxp; Ok (AStr mn, AStr mx)
  | _ => do mn <- get_attr b c sma; do mx <- get_attr b c (sma + Z.of_nat (fixed_width c)); Ok (mn, mx)
  end.

(** Is the block a candidate?  The loop over the predicates, 1139-1183. *)
Fixpoint candidate (cs : list col) (b : block) (ps : list pred) : res bool :=
  match ps with
  | [] => Ok true
  | (i, lo, hi) :: r =>
    do c <- of_opt (nth_error cs i);
    do m <- block_sma b (Z.of_nat i) c;
    do below <- attr_lt hi (fst m);
    do above <- attr_lt (snd m) lo;
    if below || above then Ok false else candidate cs b r
  end.

(** isPTupleinRange, 1192-1242 *)
Fixpoint in_range (cs : list col) (b : block) (offs : list Z) (ps : list pred) : res bool :=
  match ps with
  | [] => Ok true
  | (i, lo, hi) :: r =>
    do o <- of_opt (nth_error offs i);
    do c <- of_opt (nth_error cs i);
    do v <- get_attr b c o;
    do below <- attr_lt hi v;
    do above <- attr_lt v lo;
    if below || above then Ok false else in_range cs b offs r
  end.
End Compare.
