(** What PTable::print should say. *)
From Verif Require Import Base SerModel BlockModel PTableModel BlockSpec TPrintModel.
Open Scope Z_scope.

Definition bytes_of (rows : list tuple) : Z := zsum (map (fun t => zsum (map attr_bytes t)) rows).

(** The text of one column, for the values [vals] it stores in minipage [p]: least and greatest value,
    and the bytes not used. *)
Definition col_text (lt : attr -> attr -> Prop) (c : col) (p : Z * Z) (vals : list attr) (x : shown_col) : Prop :=
  In (sc_min x) vals /\ In (sc_max x) vals /\ (forall v, In v vals -> ~ lt v (sc_min x) /\ ~ lt (sc_max x) v) /\
  snd p - fst p = sma_size c + used vals + sc_space x /\ 0 <= sc_space x.

(** The text of one block with the rows [live] and the deleted rows [dead], which keep their bytes;
    [val] is the clustering value of a row. *)
Definition text (lt : attr -> attr -> Prop) (val : tuple -> res Z) (cs : list col) (x : shown) (live dead : list tuple) : Prop :=
  s_count x = Z.of_nat (length live) /\
  Forall (fun t => exists v, val t = Ok v /\ s_lo x <= v <= s_hi x) live /\
  s_header x = 14 + 4 * Z.of_nat (length cs) /\ s_header x + s_body x = 32768 /\
  s_body x = zsum (map sma_size cs) + bytes_of (live ++ dead) + s_free x /\ 0 <= s_free x /\
  (live ++ dead = [] -> s_cols x = []) /\
  (live ++ dead <> [] -> length (s_cols x) = length cs /\
     forall i c, nth_error cs i = Some c -> exists y p, nth_error (s_cols x) i = Some y /\ nth_error (pages_of cs) i = Some p /\
       col_text lt c p (column i (live ++ dead)) y).

(** [x] describes a block: one of [live] and one of [dead] each. *)
Inductive texts (lt : attr -> attr -> Prop) (val : tuple -> res Z) (cs : list col) :
  list shown -> list (list tuple) -> list (list tuple) -> Prop :=
| texts_nil : texts lt val cs [] [] []
| texts_cons x xs l ls d ds : text lt val cs x l d -> texts lt val cs xs ls ds ->
    texts lt val cs (x :: xs) (l :: ls) (d :: ds).
