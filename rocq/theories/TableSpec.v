(** Specification vocabulary for tables: a table is a map from keys to rows. *)
From Verif Require Import Base SerProofs BdccModel BdccSpec BlockModel PTableModel BlockSpec.
Open Scope Z_scope.

(** A dimension takes its bits from those an int has. *)
Definition dim_fine (d : dim) : Prop := (d_bits d <= d_align d /\ d_align d - d_bits d < 32)%nat.

(** Tables with at least one and at most 800 columns, an int key column, at most 32 clustering bits. *)
Record params_ok (P : params) (dv : Z -> Prop) : Prop := {
  p_ne : cols P <> [];
  p_len : Z.of_nat (length (cols P)) <= 800;
  p_key : nth_error (cols P) (kc P) = Some CInt;
  p_bits : (total (map d_bits (dims P)) <= 32)%nat;
  p_dims : Forall dim_fine (dims P);
  p_dbl : dbl_order dv (dlt P)
}.

(** The row fits into an empty block. *)
Definition row_fits (cs : list col) (t : tuple) : Prop :=
  fits cs (pages_of cs) [t] /\ buf_size t <= block_size - hdr (length cs) - zsum (map sma_size cs).

(** The row belongs to the table, has key [k] in its key column, and the key fits into 16 bits. *)
Definition row_ok (P : params) (dv : Z -> Prop) (k : Z) (t : tuple) : Prop :=
  tuple_ok dv (cols P) t /\ nth_error t (kc P) = Some (AInt k) /\ 0 <= k < 65536 /\ row_fits (cols P) t.

Definition tmap := list (Z * tuple).
Fixpoint assoc (m : tmap) (k : Z) : option tuple :=
  match m with [] => None | (k', t) :: r => if k' =? k then Some t else assoc r k end.
Definition s_step (m : tmap) (o : top) : tmap :=
  match o with TInsert k t => (k, t) :: m | TDelete k => filter (fun x => negb (fst x =? k)) m end.
Definition s_run (m : tmap) (l : list top) : tmap := fold_left s_step l m.

(** Inserted keys are not in the table; rows are deleted only if the first column is not a string. *)
Definition step_ok (P : params) (dv : Z -> Prop) (m : tmap) (o : top) : Prop :=
  match o with
  | TInsert k t => row_ok P dv k t /\ ~ In k (map fst m)
  | TDelete _ => hd_error (cols P) <> Some CStr
  end.
Fixpoint ops_ok (P : params) (dv : Z -> Prop) (m : tmap) (l : list top) : Prop :=
  match l with [] => True | o :: r => step_ok P dv m o /\ ops_ok P dv (s_step m o) r end.

(** The ranges of consecutive blocks: from [lo] to [hi], each beginning behind the one before it, or
    repeating its last value alone. *)
Fixpoint tiles (lo hi : Z) (rs : list (Z * Z)) : Prop :=
  match rs with
  | [] => False
  | (a, b) :: r =>
    a = lo /\ a <= b /\
    match r with
    | [] => b = hi
    | (c, d) :: _ => (c = b + 1 \/ (c = b /\ d = b)) /\ tiles c hi r
    end
  end.

(** A history and the table it makes. *)
Definition history (P : params) (fuel : nat) (l : list top) : res table := do t <- t_init P; t_run P fuel t l.
(** The ranges of the blocks in the list of blocks. *)
Definition ranges (t : table) (rs : list (Z * Z)) : Prop :=
  Forall2 (fun i r => exists n, node_at t i = Ok n /\ range_of n = Ok r) (chain t) rs.
(** Every block in the list has a row, and no deleted one. *)
Definition no_holes (t : table) : Prop :=
  Forall (fun i => exists n, node_at t i = Ok n /\ del n = [] /\ u32 (blk n) count_pos <> Ok 0) (chain t).

(** Every block in the list has a row, deleted or not. *)
Definition no_empty (t : table) : Prop :=
  Forall (fun i => exists n, node_at t i = Ok n /\ u32 (blk n) count_pos <> Ok 0) (chain t).
(** The rows at the positions marked as deleted, block by block. *)
Definition deleted_rows (P : params) (t : table) (ds : list tuple) : Prop :=
  exists dss, ds = concat dss /\
  Forall2 (fun i ds => exists n, node_at t i = Ok n /\
             Forall2 (fun p tp => exists os, row_offsets (blk n) 0 (cols P) p = Ok os /\ create_tuple (blk n) (cols P) os = Ok tp) (del n) ds)
          (chain t) dss.

(** Block [b] is made by inserting [rows] one after the other, each into a block with enough space. *)
Inductive filled (dlt : Z -> Z -> bool) (cs : list col) (lo hi : Z) : list tuple -> block -> Prop :=
| F_init b : init_block cs lo hi = Ok b -> filled dlt cs lo hi [] b
| F_insert rows b t b' o : filled dlt cs lo hi rows b -> has_enough_space cs b t = Ok true ->
    block_insert dlt cs b t = Ok (b', o) -> filled dlt cs lo hi (rows ++ [t]) b'.
