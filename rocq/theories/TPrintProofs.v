(** PTable::print describes every block of the table. *)
From Coq Require Import Permutation.
From Verif Require Import Base SerModel SerProofs BdccModel BdccSpec BdccProofs BlockModel PTableModel BlockSpec
  LayoutProofs BlockBytes ColProofs InsColProofs BlockProofs InitProofs TableSpec TableProofs SplitProofs InsertProofs RunProofs ScanProofs
  TableTop TPrintModel TPrintSpec.
Open Scope Z_scope.

Lemma zsum_perm l m : Permutation l m -> zsum l = zsum m.
Proof. induction 1; rewrite ?zsum_cons; lia. Qed.
Lemma used_perm l m : Permutation l m -> used l = used m.
Proof. intros H. unfold used. apply zsum_perm. now apply Permutation_map. Qed.
Lemma bytes_perm l m : Permutation l m -> bytes_of l = bytes_of m.
Proof. intros H. unfold bytes_of. apply zsum_perm. now apply Permutation_map. Qed.

Lemma bytes_columns n (rows : list tuple) : Forall (fun t : tuple => length t = n) rows -> columns_used n rows = bytes_of rows.
Proof.
  induction rows as [|t rows IH] using rev_ind; intros F; [apply columns_used_nil|].
  apply Forall_app in F. destruct F as (F & Ft). apply Forall_inv in Ft.
  rewrite (columns_used_app rows (eq_sym Ft)), (IH F). unfold bytes_of. rewrite map_app, zsum_app. cbn [map]. rewrite zsum_cons. change (zsum []) with 0. rewrite Z.add_0_r. reflexivity.
Qed.

Section Cols.
Variables (dlt : Z -> Z -> bool) (dv : Z -> Prop) (cs : list col) (lo hi : Z) (rows : list tuple) (b : block).
Notation pages := (pages_of cs).
Hypothesis Hd : dbl_order dv dlt.
Hypothesis N : cs <> [].
Hypothesis L : layout cs pages.
Hypothesis R : brep dlt dv cs pages lo hi rows b.
Hypothesis Ne : rows <> [].

Lemma show_col_spec i c : nth_error cs i = Some c ->
  exists y p, show_col (length cs) b (Z.of_nat (length rows)) (Z.of_nat i) c = Ok y /\ nth_error pages i = Some p /\
    col_text (lt_attr dlt) c p (column i rows) y.
Proof.
  intros Ec. destruct (layout_page L Ec) as (p & Ep).
  destruct (block_sma_spec R L Ec Ep Ne) as (mn & mx & ES & B1 & B2 & B3).
  destruct (r_ent R Ec Ep) as (_ & RD). pose proof L as (CH & _). destruct (chained_nth CH Ep) as (V1 & V2 & V3).
  pose proof (@sma_pos c) as SP. pose proof (r_fits R Ec Ep) as HF. pose proof (@used_nonneg (column i rows)) as UN.
  pose proof (column_ok (r_rows R) Ec) as Hc.
  assert (RF : 2 * Z.of_nat (length rows) <= block_size) by exact (rows_few L (r_fits R) N).
  assert (Pos : 0 < Z.of_nat (length rows)) by (destruct rows; [congruence|cbn [length]; lia]).
  unfold show_col. rewrite ES. cbn [bind]. unfold block_size in *. unfold hdr, header_fixed in V1.
  rewrite (u16_reg RD) by lia. cbn [bind].
  assert (G : col_free (length cs) b (fst p + sma_size c) (Z.of_nat (length rows)) (Z.of_nat i) c
    = Ok (snd p - fst p - sma_size c - used (column i rows))).
  { unfold col_free. destruct c.
    - rewrite (page_end_ok L (r_ent R) Ec Ep). cbn [bind].
      rewrite (@used_fixed dv CInt) in * by (auto; discriminate). rewrite column_length in *. unfold w32, wz in *.
      cbn [fixed_width sma_size] in *. rewrite Z.mod_small by lia. f_equal. lia.
    - rewrite (page_end_ok L (r_ent R) Ec Ep). cbn [bind].
      rewrite (@used_fixed dv CDbl) in * by (auto; discriminate). rewrite column_length in *. unfold w32, wz in *.
      cbn [fixed_width sma_size] in *. rewrite Z.mod_small by lia. f_equal. lia.
    - destruct (Z.eqb_spec (Z.of_nat (length rows)) 0); [lia|].
      destruct (nth_error (column i rows) (length rows - 1)) as [v|] eqn:Ev.
      2: { apply nth_error_None in Ev. rewrite column_length in Ev. lia. }
      destruct (r_col R Ec Ep) as (HI & _). destruct (HI _ _ Ev) as (RO & _).
      assert (SO : soff (snd p) (column i rows) (length rows - 1) = snd p - zsum (map slen (column i rows))).
      { unfold soff. rewrite firstn_all2; [reflexivity|]. rewrite column_length. lia. }
      rewrite SO in RO. rewrite (@used_str dv) in * by exact Hc. rewrite column_length in *. cbn [sma_size] in *.
      pose proof (@slens_nonneg (column i rows)).
      replace (fst p + 4 + Z.of_nat (length rows) * 2 - 2) with (fst p + 4 + Z.of_nat (length rows - 1) * 2) by lia.
      rewrite (u16_reg RO) by lia. cbn [bind]. unfold w32. rewrite Z.mod_small by lia. f_equal. lia. }
  rewrite G. cbn [bind]. eexists _, p. split; [reflexivity|]. split; [exact Ep|].
  unfold col_text. cbn [sc_min sc_max sc_space fst snd]. splits; auto; lia.
Qed.

Lemma show_cols_spec cs' : forall i, (forall k, nth_error cs (i + k) = nth_error cs' k) ->
  exists l, show_cols (length cs) b (Z.of_nat (length rows)) (Z.of_nat i) cs' = Ok l /\ length l = length cs' /\
    forall k c, nth_error cs' k = Some c -> exists y p, nth_error l k = Some y /\ nth_error pages (i + k) = Some p /\
      col_text (lt_attr dlt) c p (column (i + k) rows) y.
Proof.
  induction cs' as [|c cs' IH]; intros i Nc.
  - exists []. splits; auto. intros [|k] c E; discriminate.
  - pose proof (Nc 0%nat) as E0. rewrite Nat.add_0_r in E0. cbn [nth_error] in E0.
    destruct (show_col_spec E0) as (y & p & Ey & Ep & HT).
    destruct (IH (S i)) as (l & El & Ll & Hl). { intros k. rewrite Nat.add_succ_comm. apply Nc. }
    cbn [show_cols]. rewrite Ey. cbn [bind]. replace (Z.of_nat i + 1) with (Z.of_nat (S i)) by lia. rewrite El. cbn [bind].
    exists (y :: l). split; [reflexivity|]. split; [cbn [length]; lia|].
    intros [|k] c' E; cbn [nth_error] in E |- *.
    + injection E as <-. rewrite Nat.add_0_r. eauto.
    + rewrite <- Nat.add_succ_comm. apply Hl. exact E.
Qed.
End Cols.

Lemma col_text_perm lt c p v w x : Permutation v w -> col_text lt c p v x -> col_text lt c p w x.
Proof.
  intros H (A & B & C & D & E). unfold col_text. rewrite <- (used_perm H). splits; auto.
  - now apply (Permutation_in _ H).
  - now apply (Permutation_in _ H).
  - intros u Hu. apply C. now apply (Permutation_in _ (Permutation_sym H)).
Qed.

Section Table.
Variables (P : params) (dv : Z -> Prop).
Hypothesis HP : params_ok P dv.

Lemma show_node_spec i g n : noderep P dv g n ->
  exists x ds, show_node (cols P) n = Ok x /\ (s_lo x, s_hi x) = (glo g, ghi g) /\
    text (lt_attr (dlt P)) (xtr P) (cols P) x (map snd (nlocs i 0 (grows g) (gdel g))) ds /\
    Forall2 (fun p tp => exists os, row_offsets (blk n) 0 (cols P) p = Ok os /\ create_tuple (blk n) (cols P) os = Ok tp) (del n) ds.
Proof.
  intros Hn. pose proof (few_rows HP Hn) as FR. pose proof (n_rng Hn) as RG. pose proof (top_range HP) as TR.
  destruct (n_dl Hn) as (D1 & D2). destruct (@nlocs_perm i (grows g) (gdel g) D1 D2) as (ds & F2 & PM).
  assert (NC : (length (nlocs i 0 (grows g) (gdel g)) + length (gdel g) = length (grows g))%nat).
  { apply nlocs_count; [exact D1|]. eapply Forall_impl; [|exact D2]. cbn. lia. }
  set (live := map snd (nlocs i 0 (grows g) (gdel g))) in *.
  assert (LL : length live = length (nlocs i 0 (grows g) (gdel g))) by apply map_length.
  pose proof (room_bound (lay HP) (r_fits (n_b Hn))) as RB.
  assert (CB : columns_used (length (cols P)) (grows g) = bytes_of (live ++ ds)).
  { rewrite bytes_columns; [now apply bytes_perm|]. eapply Forall_impl; [|exact (r_rows (n_b Hn))].
    intros t Ht. symmetry. now apply Forall2_length in Ht. }
  assert (BS : Z.of_nat (length (cols P)) <= 800) by exact (p_len HP).
  assert (CL : exists l, (if Z.of_nat (length (grows g)) =? 0 then Ok [] else
       show_cols (length (cols P)) (blk n) (Z.of_nat (length (grows g))) 0 (cols P)) = Ok l /\
     (live ++ ds = [] -> l = []) /\ (live ++ ds <> [] -> length l = length (cols P) /\
     forall i c, nth_error (cols P) i = Some c -> exists y p, nth_error l i = Some y /\ nth_error (pages_of (cols P)) i = Some p /\
       col_text (lt_attr (dlt P)) c p (column i (live ++ ds)) y)).
  { pose proof (Permutation_length PM) as PL. destruct (Z.eqb_spec (Z.of_nat (length (grows g))) 0) as [E|E].
    - exists []. split; [reflexivity|]. split; [reflexivity|]. intros C. destruct (live ++ ds); [congruence|]. cbn [length] in PL. lia.
    - assert (Ne : grows g <> []) by (intros C; rewrite C in E; cbn in E; lia).
      destruct (@show_cols_spec (dlt P) dv (cols P) (glo g) (ghi g) (grows g) (blk n) (p_ne HP) (lay HP) (n_b Hn) Ne (cols P) 0%nat)
        as (l & El & Ll & Hl); [reflexivity|].
      exists l. split; [exact El|]. split.
      + intros C. rewrite C in PL. cbn in PL. lia.
      + intros _. split; [exact Ll|]. intros k c Ek. destruct (Hl k c Ek) as (y & p & A & B & C). exists y, p. splits; auto.
        cbn [Nat.add] in C. revert C. apply col_text_perm. unfold column. now apply Permutation_map. }
  destruct CL as (l & El & Hl0 & Hl1).
  unfold show_node. rewrite (u32_reg (r_lo (n_b Hn))) by lia. cbn [bind]. rewrite (u32_reg (r_hi (n_b Hn))) by lia. cbn [bind].
  rewrite (u32_reg (r_cnt (n_b Hn))) by lia. cbn [bind]. rewrite (u16_reg (r_free (n_b Hn))) by lia. cbn [bind].
  rewrite El. cbn [bind]. eexists _, ds. split; [reflexivity|]. cbn [s_lo s_hi]. split; [reflexivity|]. split.
  - unfold text. cbn [s_lo s_hi s_count s_header s_body s_free s_cols]. rewrite (n_del Hn), map_length.
    unfold w64, header_fixed, block_size in *. rewrite !Z.mod_small by lia.
    split; [lia|]. split.
    { apply Forall_forall. intros t Ht. exists (xv P t). split; [exact (xtr_ok HP t)|].
      pose proof (n_rows Hn) as NR. rewrite Forall_forall in NR. apply NR.
      apply (Permutation_in _ (Permutation_sym PM)). apply in_or_app. now left. }
    split; [lia|]. split; [lia|]. split.
    { unfold room, block_size, hdr, header_fixed. rewrite CB. lia. }
    split; [lia|]. split; [exact Hl0|exact Hl1].
  - rewrite (n_del Hn). clear - F2 Hn HP. induction F2 as [|j tp dl ds Ej F2 IH]; cbn [map]; constructor; auto.
    eexists. split.
    + apply (row_offsets_spec (n_b Hn) (lay HP)). apply nth_error_Some. congruence.
    + exact (create_tuple_spec (n_b Hn) (lay HP) Ej).
Qed.

Lemma show_nodes_spec gs t : Forall2 (noderep P dv) gs (nodes t) -> forall c, Forall (fun i => (i < length gs)%nat) c ->
  exists xs dss, show_nodes (cols P) t c = Ok xs /\ map (fun x => (s_lo x, s_hi x)) xs = map (rng gs) c /\
    texts (lt_attr (dlt P)) (xtr P) (cols P) xs (map (fun i => map snd (locs_at gs i)) c) dss /\
    Forall2 (fun i ds => exists n, node_at t i = Ok n /\
             Forall2 (fun p tp => exists os, row_offsets (blk n) 0 (cols P) p = Ok os /\ create_tuple (blk n) (cols P) os = Ok tp) (del n) ds)
          c dss.
Proof.
  intros F. induction c as [|i c IH]; intros B.
  - exists [], []. cbn. splits; auto; constructor.
  - inversion B as [|? ? Bi Bc]; subst. destruct (at_node HP F Bi) as (g & n & Eg & En & Hn & _).
    destruct (IH Bc) as (xs & dss & E1 & E2 & E3 & E4). destruct (@show_node_spec i g n Hn) as (x & ds & X1 & X2 & X3 & X4).
    exists (x :: xs), (ds :: dss). cbn [show_nodes]. rewrite En. cbn [bind]. rewrite X1. cbn [bind]. rewrite E1. cbn [bind map].
    split; [reflexivity|]. split; [f_equal; [rewrite X2; symmetry; now apply rng_at|exact E2]|]. split.
    + constructor; [|exact E3]. unfold locs_at. rewrite Eg. exact X3.
    + constructor; [|exact E4]. eauto.
Qed.

Lemma print_spec l fuel t : ops_ok P dv [] l -> history P fuel l = Ok t ->
  exists out live dead, t_print P t = Ok out /\
    tiles 0 (2 ^ Z.of_nat (num_bins (dims P)) - 1) (map (fun x => (s_lo x, s_hi x)) out) /\
    texts (lt_attr (dlt P)) (xtr P) (cols P) out live dead /\
    Permutation (map snd (s_run [] l)) (concat live) /\ deleted_rows P t (concat dead).
Proof.
  intros H E. destruct (history_inv HP H E) as (gs & I). destruct (i_chain I) as (_ & B).
  destruct (show_nodes_spec (i_nodes I) B) as (xs & dss & E1 & E2 & E3 & E4).
  exists xs, (map (fun i => map snd (locs_at gs i)) (chain t)), dss.
  pose proof (i_tiles I) as T. split.
  - unfold t_print. destruct (chain t) as [|i c]; [destruct T|exact E1].
  - rewrite E2. split; [exact T|]. split; [exact E3|]. split.
    + pose proof (Permutation_map snd (i_map I)) as PM. rewrite map_map in PM. cbn [snd] in PM.
      rewrite PM. unfold all_locs. rewrite flat_map_concat_map, concat_map, map_map. reflexivity.
    + exists dss. split; [reflexivity|exact E4].
Qed.
End Table.
