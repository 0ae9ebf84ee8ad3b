(** Model of PTable::print, ptable/PTable.hpp 545-618, for raw = false.

    The output is the list of what is printed for each block; texts, column names and type names are
    left out.  The list of blocks is never empty, so the do-while loop is the loop over [chain];
    print reaching a null pointer at once is [UB].  numColumns() and the number of the table's types
    are both the number of columns. *)
From Verif Require Import Base SerModel BlockModel PTableModel.
Open Scope Z_scope.

(** One column: "Space left", "smaMin", "smaMax" (604-608). *)
Record shown_col := ShownCol { sc_space : Z; sc_min : attr; sc_max : attr }.
(** One block: the range, "Tuple count", "Header size", "Body size", "Free Space" (577-582) and its
    columns. *)
Record shown := Shown {
  s_lo : Z; s_hi : Z; s_count : Z; s_header : Z; s_body : Z; s_free : Z; s_cols : list shown_col }.

(** ColumnAttributes::freeSpace, ptable/core/VTableInfo.hpp 62-66, 89-93, 116-120 and 147-159. *)
Definition col_free (n : nat) (b : block) (dat cnt i : Z) (c : col) : res Z :=
  match c with
  | CStr =>
    if cnt =? 0 then do e <- page_end n b i; Ok (w32 (e - dat))
    else do o <- u16 b (dat + cnt * 2 - 2); Ok (w32 (o - (dat + cnt * 2)))
  | _ => do e <- page_end n b i; Ok (w32 (e - dat - cnt * Z.of_nat (fixed_width c)))
  end.

(** printColumns, 587-612 *)
Definition show_col (n : nat) (b : block) (cnt i : Z) (c : col) : res shown_col :=
  do m <- block_sma b i c;
  do dat <- u16 b (data_off_pos + i * 4);
  do f <- col_free n b dat cnt i c;
  Ok (ShownCol f (fst m) (snd m)).

(** forEachTypeInTuple, 613 *)
Fixpoint show_cols (n : nat) (b : block) (cnt i : Z) (cs : list col) : res (list shown_col) :=
  match cs with
  | [] => Ok []
  | c :: r => do x <- show_col n b cnt i c; do l <- show_cols n b cnt (i + 1) r; Ok (x :: l)
  end.

(** The loop body, 551-615. *)
Definition show_node (cs : list col) (nd : node) : res shown :=
  let b := blk nd in
  do lo <- u32 b 0;
  do hi <- u32 b 4;
  do cnt <- u32 b count_pos;
  do space <- u16 b free_pos;
  let header := header_fixed + Z.of_nat (length cs) * 4 in
  do l <- (if cnt =? 0 then Ok [] else show_cols (length cs) b cnt 0 cs);
  Ok (Shown lo hi (w64 (cnt - Z.of_nat (length (del nd)))) header (w64 (block_size - header)) space l).

Fixpoint show_nodes (cs : list col) (t : table) (c : list nat) : res (list shown) :=
  match c with
  | [] => Ok []
  | i :: r => do n <- node_at t i; do x <- show_node cs n; do l <- show_nodes cs t r; Ok (x :: l)
  end.

Definition t_print (P : params) (t : table) : res (list shown) :=
  match chain t with [] => UB | _ => show_nodes (cols P) t (chain t) end.
