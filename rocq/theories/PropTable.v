(** C41 (ranges), C43, C44, C45, C53, C55, C56: what holds for tables.

    [params_ok]: 1 to 800 columns, an int key column, at most 32 clustering bits taken from the bits an
    int has, doubles compared by a strict weak order.  [ops_ok]: keys from 0 to 65535, no key inserted
    while it is in the table, rows that fit into an empty block, deletions only if the first column is
    not a string.  Each of the restrictions is needed: see PropPTable.v, PropLayout.v, PropBdcc.v. *)
From Coq Require Import Permutation.
From Verif Require Import Base SerModel SerProofs BdccModel BdccSpec BlockModel PTableModel BlockSpec TableSpec TableTop PropPTable.
Open Scope Z_scope.

(** C41: the ranges of the blocks always tile 0 .. 2^bins-1, except that the last value of a range may
    be repeated by following ranges that contain only it. *)
Theorem C41_tiles_partial : forall P dv l fuel t, params_ok P dv -> ops_ok P dv [] l -> history P fuel l = Ok t ->
  exists rs, ranges t rs /\ tiles 0 (2 ^ Z.of_nat (num_bins (dims P)) - 1) rs.
Proof. exact top_tiles. Qed.
Print Assumptions C41_tiles_partial.

(** C43: the summary values kept for a column of a block, of any type, occur in the column and bound it. *)
Theorem C43_bounds : forall dlt dv cs lo hi rows b i c,
  dbl_order dv dlt -> cs <> [] -> Z.of_nat (length cs) <= 800 -> Forall (tuple_ok dv cs) rows ->
  filled dlt cs lo hi rows b -> rows <> [] -> nth_error cs i = Some c ->
  exists mn mx, block_sma b (Z.of_nat i) c = Ok (mn, mx) /\ In mn (column i rows) /\ In mx (column i rows) /\
    forall v, In v (column i rows) -> ~ lt_attr dlt v mn /\ ~ lt_attr dlt mx v.
Proof. exact block_bounds. Qed.
Print Assumptions C43_bounds.

(** C43: a block is skipped only if none of its rows satisfies the predicates. *)
Theorem C43_prune : forall dlt dv cs lo hi rows b ps,
  dbl_order dv dlt -> cs <> [] -> Z.of_nat (length cs) <= 800 -> Forall (tuple_ok dv cs) rows -> preds_ok dv cs ps ->
  filled dlt cs lo hi rows b -> rows <> [] ->
  exists r, candidate dlt cs b ps = Ok r /\ (r = false -> forall t, In t rows -> ~ satisfies dlt t ps).
Proof. exact block_prune. Qed.
Print Assumptions C43_prune.

(** C43 for tables: the block that holds a matching row is among the candidates. *)
Theorem C43_table : forall P dv l fuel t ps c k tp, params_ok P dv -> ops_ok P dv [] l -> history P fuel l = Ok t ->
  preds_ok dv (cols P) ps -> candidates P t (chain t) ps = Ok c ->
  assoc (s_run [] l) k = Some tp -> satisfies (dlt P) tp ps ->
  exists p, ix_lookup (index t) k = Some p /\ In (pnode p) c.
Proof. exact top_prune. Qed.
Print Assumptions C43_table.

(** C44: after any history, with any number of splits, getByKey gives the row stored for each key. *)
Theorem C44_get_partial : forall P dv l fuel t k, params_ok P dv -> ops_ok P dv [] l -> history P fuel l = Ok t ->
  get_by_key P t k = Ok (assoc (s_run [] l) k).
Proof. exact top_get. Qed.
Print Assumptions C44_get_partial.

(** C45: count() is the number of keys inserted and not deleted. *)
Theorem C45_count_partial : forall P dv l fuel t, params_ok P dv -> ops_ok P dv [] l -> history P fuel l = Ok t ->
  count t = Ok (Z.of_nat (length (s_run [] l))) /\ NoDup (map fst (s_run [] l)).
Proof. exact top_count. Qed.
Print Assumptions C45_count_partial.

(** C55: a deleted row stays deleted, whatever is split later. *)
Theorem C55_delete_partial : forall P dv l1 k l2 fuel t, params_ok P dv -> ops_ok P dv [] (l1 ++ TDelete k :: l2) ->
  (forall tp, ~ In (TInsert k tp) l2) -> history P fuel (l1 ++ TDelete k :: l2) = Ok t -> get_by_key P t k = Ok None.
Proof. exact top_delete. Qed.
Print Assumptions C55_delete_partial.

(** C56: histories of rows that fit have no undefined behaviour ... *)
Theorem C56_safe_partial : forall P dv l fuel, params_ok P dv -> ops_ok P dv [] l ->
  history P fuel l = NoFuel \/ exists t, history P fuel l = Ok t.
Proof. exact top_safe. Qed.
Print Assumptions C56_safe_partial.

(** ... and insert always ends: a row that fits into an empty block ends the splitting. *)
Theorem C56_ends_partial : forall P dv l, params_ok P dv -> ops_ok P dv [] l ->
  exists F, forall fuel, (F <= fuel)%nat -> exists t, history P fuel l = Ok t.
Proof. exact top_ends. Qed.
Print Assumptions C56_ends_partial.

(** C53: on a table where each block has a row and no deleted one, and if the memory behind the
    candidate list looks like a null pointer, rangeScan produces exactly the matching rows, each once. *)
Theorem C53_scan_partial : forall P dv l fuel t ps, params_ok P dv -> ops_ok P dv [] l -> history P fuel l = Ok t ->
  past P = true -> no_holes t -> preds_ok dv (cols P) ps ->
  exists F found rest, (forall f, (F <= f)%nat -> range_scan P f t ps = Ok found) /\
    Permutation (map snd (s_run [] l)) (found ++ rest) /\
    Forall (fun tp => satisfies (dlt P) tp ps) found /\ Forall (fun tp => ~ satisfies (dlt P) tp ps) rest.
Proof. exact top_scan. Qed.
Print Assumptions C53_scan_partial.

(** C46: what rangeScan produces when rows were deleted (every block still having a row, deleted or not):
    the matching rows of the table and the matching rows among the deleted ones, nothing else. *)
Theorem C46_scan_partial : forall P dv l fuel t ps, params_ok P dv -> ops_ok P dv [] l -> history P fuel l = Ok t ->
  past P = true -> no_empty t -> preds_ok dv (cols P) ps ->
  exists F ds found rest, deleted_rows P t ds /\ (forall f, (F <= f)%nat -> range_scan P f t ps = Ok found) /\
    Permutation (map snd (s_run [] l) ++ ds) (found ++ rest) /\
    Forall (fun tp => satisfies (dlt P) tp ps) found /\ Forall (fun tp => ~ satisfies (dlt P) tp ps) rest.
Proof. exact top_scan_deleted. Qed.
Print Assumptions C46_scan_partial.

(** A deleted row is left out only if it does not satisfy the predicates ... *)
Corollary C46_deleted_shown : forall P dv l fuel t ps, params_ok P dv -> ops_ok P dv [] l -> history P fuel l = Ok t ->
  past P = true -> no_empty t -> preds_ok dv (cols P) ps ->
  exists F ds found, deleted_rows P t ds /\ (forall f, (F <= f)%nat -> range_scan P f t ps = Ok found) /\
    forall tp, In tp ds -> satisfies (dlt P) tp ps -> In tp found.
Proof.
  intros P dv l fuel t ps HP H E Hp NE Hps. destruct (top_scan_deleted HP H E Hp NE Hps) as (F & ds & found & rest & D & R & PM & S1 & S2).
  exists F, ds, found. split; [exact D|]. split; [exact R|]. intros tp Ht Hs.
  assert (Hi : In tp (found ++ rest)) by (eapply Permutation_in; [exact PM|apply in_or_app; now right]).
  apply in_app_or in Hi. destruct Hi as [Hi|Hi]; [exact Hi|]. rewrite Forall_forall in S2. now apply S2 in Hi.
Qed.
Print Assumptions C46_deleted_shown.
(** ... and a table with one matching deleted row gives one row too many. *)
Corollary C46_surplus : forall P dv l fuel t ps, params_ok P dv -> ops_ok P dv [] l -> history P fuel l = Ok t ->
  past P = true -> no_empty t -> preds_ok dv (cols P) ps ->
  forall dec : tuple -> bool, (forall tp, dec tp = true <-> satisfies (dlt P) tp ps) ->
  exists F ds found, deleted_rows P t ds /\ (forall f, (F <= f)%nat -> range_scan P f t ps = Ok found) /\
    length found = (length (filter dec (map snd (s_run [] l))) + length (filter dec ds))%nat.
Proof.
  intros P dv l fuel t ps HP H E Hp NE Hps dec Hd. destruct (top_scan_deleted HP H E Hp NE Hps) as (F & ds & found & rest & D & R & PM & S1 & S2).
  exists F, ds, found. split; [exact D|]. split; [exact R|]. rewrite <- app_length, <- filter_app.
  assert (PF : forall a b : list tuple, Permutation a b -> length (filter dec a) = length (filter dec b)).
  { clear. induction 1 as [|x a b Hp IH|x y a|a b c H1 IH1 H2 IH2]; cbn [filter]; auto.
    - destruct (dec x); cbn [length]; auto.
    - destruct (dec x), (dec y); reflexivity.
    - congruence. }
  rewrite (PF _ _ PM), filter_app, app_length.
  assert (F1 : filter dec found = found).
  { clear - S1 Hd. induction S1 as [|x a Hx _ IH]; cbn [filter]; [reflexivity|]. apply Hd in Hx. rewrite Hx. now f_equal. }
  assert (F2 : filter dec rest = []).
  { clear - S2 Hd. induction S2 as [|x a Hx _ IH]; cbn [filter]; [reflexivity|]. destruct (dec x) eqn:Ed; [|exact IH]. apply Hd in Ed. contradiction. }
  rewrite F1, F2. cbn [length]. lia.
Qed.
Print Assumptions C46_surplus.

(** The hypotheses can be met: the table of PropPTable.v, rows with strings of 10000 bytes, three of
    which do not fit into one block. *)
Lemma ex_params : params_ok ex_P (fun _ => False).
Proof.
  split; try discriminate; try reflexivity.
  - cbn. lia.
  - repeat constructor.
  - unfold dbl_order. split; [|split]; intros; contradiction.
Qed.
Lemma ex_row k c : 0 <= k < 65536 -> 0 < c < 256 -> row_ok ex_P (fun _ => False) k (row k c).
Proof.
  intros Hk Hc. unfold row_ok, row. split; [|split; [reflexivity|split; [exact Hk|]]].
  - unfold tuple_ok. constructor; [unfold attr_ok, int_ok; cbn; lia|]. constructor; [|constructor].
    cbn [attr_ok]. apply Forall_forall. intros x Hx. apply repeat_spec in Hx. now subst.
  - assert (L : Z.of_nat (length (big c)) = 10000) by (unfold big; rewrite repeat_length; lia).
    change (cols ex_P) with [CInt; CStr].
    assert (PG : pages_of [CInt; CStr] = [(22, 6571); (6571, 32768)]) by (vm_compute; reflexivity).
    split.
    + unfold fits. rewrite PG. intros [|[|[|i]]] c0 p E1 E2; try discriminate; cbn [nth_error] in E1, E2;
        injection E1 as <-; injection E2 as <-; unfold used, zsum, column; cbn [map fold_right nth attr_bytes fst snd sma_size]; lia.
    + unfold buf_size. cbn [fold_right ser_size]. rewrite L. vm_compute. discriminate.
Qed.
Definition ex_ops : list top :=
  [TInsert 4 (row 4 97); TInsert 3 (row 3 98); TInsert 8 (row 8 99); TDelete 3; TInsert 12 (row 12 100); TInsert 3 (row 3 101)].
Lemma ex_ops_ok : ops_ok ex_P (fun _ => False) [] ex_ops.
Proof.
  unfold ex_ops. cbn [ops_ok step_ok s_step filter fst negb Z.eqb Pos.eqb map].
  repeat match goal with |- _ /\ _ => split | |- True => exact I end;
    try (apply ex_row; lia); try discriminate; cbn; intuition lia.
Qed.

Example tables_ex : params_ok ex_P (fun _ => False) /\ ops_ok ex_P (fun _ => False) [] ex_ops /\
  (do t <- history ex_P 9 ex_ops; do a <- brief_get ex_P t 8; do b <- brief_get ex_P t 3; do c <- count t; Ok (chain t, a, b, c))
  = Ok ([5; 6; 4; 2]%nat, Some (Some (8, 99)), Some (Some (3, 101)), 4).
Proof. split; [exact ex_params|split; [exact ex_ops_ok|]]. vm_compute. reflexivity. Qed.

(** A table whose blocks all have rows, and a scan on it. *)
Definition ex_ops2 : list top := [TInsert 4 (row 4 97); TInsert 2 (row 2 98); TInsert 7 (row 7 99)].
Example C53_ex : ops_ok ex_P (fun _ => False) [] ex_ops2 /\
  (exists t, history ex_P 9 ex_ops2 = Ok t /\ no_holes t /\ length (chain t) = 2%nat) /\
  preds_ok (fun _ => False) (cols ex_P) [(0%nat, AInt 3, AInt 7)] /\
  (do t <- history ex_P 9 ex_ops2; do s <- range_scan ex_P 20 t [(0%nat, AInt 3, AInt 7)]; Ok (map brief s))
  = Ok [Some (4, 97); Some (7, 99)].
Proof.
  split; [|split; [|split]].
  - unfold ex_ops2. cbn [ops_ok step_ok s_step map].
    repeat match goal with |- _ /\ _ => split | |- True => exact I end; try (apply ex_row; lia); cbn; intuition lia.
  - assert (C : (do t <- history ex_P 9 ex_ops2; Ok (chain t)) = Ok [1; 2]%nat) by (vm_compute; reflexivity).
    assert (N : forall i, In i [1; 2]%nat -> exists c, c <> 0 /\
      (do t <- history ex_P 9 ex_ops2; do n <- node_at t i; do k <- u32 (blk n) count_pos; Ok (del n, k)) = Ok ([], c)).
    { intros i [<-|[<-|[]]]; eexists; (split; [|vm_compute; reflexivity]); discriminate. }
    destruct (history ex_P 9 ex_ops2) as [t| |]; try discriminate. exists t. cbn [bind] in *. injection C as C.
    split; [reflexivity|]. split; [|now rewrite C]. unfold no_holes. rewrite C. apply Forall_forall. intros i Hi.
    destruct (N i Hi) as (c & Nc & E). destruct (node_at t i) as [n| |]; try discriminate. cbn [bind] in E.
    destruct (u32 (blk n) count_pos) as [k| |] eqn:K; try discriminate. injection E as E1 E2. exists n. subst k. split; [reflexivity|].
    split; [exact E1|]. rewrite K. congruence.
  - constructor; [|constructor]. exists CInt. split; [reflexivity|]. cbn. lia.
  - vm_compute. reflexivity.
Qed.

(** C43: with predicate "first column at least 5" the first block is skipped. *)
Example C43_ex :
  (do t <- history ex_P 9 ex_ops2; do c <- candidates ex_P t (chain t) [(0%nat, AInt 5, AInt 100)]; Ok (chain t, c))
  = Ok ([1; 2]%nat, [2]%nat).
Proof. vm_compute. reflexivity. Qed.

Definition ex_ops3 : list top := [TInsert 4 (row 4 97); TInsert 2 (row 2 98); TInsert 7 (row 7 99); TDelete 4].
Example C46_ex : ops_ok ex_P (fun _ => False) [] ex_ops3 /\
  (exists t, history ex_P 9 ex_ops3 = Ok t /\ no_empty t /\ length (chain t) = 2%nat) /\
  preds_ok (fun _ => False) (cols ex_P) [(0%nat, AInt 3, AInt 7)] /\
  (do t <- history ex_P 9 ex_ops3; do g <- brief_get ex_P t 4; do s <- range_scan ex_P 20 t [(0%nat, AInt 3, AInt 7)]; Ok (g, map brief s))
  = Ok (None, [Some (4, 97); Some (7, 99)]).
Proof.
  split; [|split; [|split]].
  - unfold ex_ops3. cbn [ops_ok step_ok s_step filter fst negb Z.eqb Pos.eqb map].
    repeat match goal with |- _ /\ _ => split | |- True => exact I end; try (apply ex_row; lia); try discriminate; cbn; intuition lia.
  - assert (C : (do t <- history ex_P 9 ex_ops3; Ok (chain t)) = Ok [1; 2]%nat) by (vm_compute; reflexivity).
    assert (N : forall i, In i [1; 2]%nat -> exists c, c <> 0 /\
      (do t <- history ex_P 9 ex_ops3; do n <- node_at t i; do k <- u32 (blk n) count_pos; Ok k) = Ok c).
    { intros i [<-|[<-|[]]]; eexists; (split; [|vm_compute; reflexivity]); discriminate. }
    destruct (history ex_P 9 ex_ops3) as [t| |]; try discriminate. exists t. cbn [bind] in *. injection C as C.
    split; [reflexivity|]. split; [|now rewrite C]. unfold no_empty. rewrite C. apply Forall_forall. intros i Hi.
    destruct (N i Hi) as (c & Nc & E). destruct (node_at t i) as [n| |]; try discriminate. cbn [bind] in E.
    destruct (u32 (blk n) count_pos) as [k| |] eqn:K; try discriminate. injection E as E2. exists n. subst k. split; [reflexivity|].
    rewrite K. congruence.
  - constructor; [|constructor]. exists CInt. split; [reflexivity|]. cbn. lia.
  - vm_compute. reflexivity.
Qed.
