(** Blocks as lists of rows: what the bytes of a block mean, initialisation, insertion, reading. *)
From Verif Require Import Base SerModel SerProofs BlockModel BlockSpec LayoutProofs BlockBytes ColProofs InsColProofs.
Open Scope Z_scope.

(** The minipages follow each other from [lo] to the end of the block. *)
Fixpoint chained (lo : Z) (pages : list (Z * Z)) : Prop :=
  match pages with
  | [] => lo <= block_size
  | p :: r => fst p = lo /\ lo <= snd p /\ (r = [] -> snd p = block_size) /\ chained (snd p) r
  end.

(** Every minipage has room for the summary of its column. *)
Definition layout (cs : list col) (pages : list (Z * Z)) : Prop :=
  chained (hdr (length cs)) pages /\ Forall2 (fun c p => fst p + sma_size c <= snd p) cs pages.

Lemma chained_le pages : forall lo, chained lo pages -> lo <= block_size.
Proof.
  induction pages as [|p r IH]; intros lo; cbn [chained]; [auto|]. intros (_ & H & _ & C). apply IH in C. lia.
Qed.

Lemma chained_nth pages : forall lo i p, chained lo pages -> nth_error pages i = Some p ->
  lo <= fst p /\ fst p <= snd p /\ snd p <= block_size.
Proof.
  induction pages as [|q r IH]; intros lo [|i] p H E; try discriminate; destruct H as (H1 & H2 & _ & C).
  - injection E as <-. apply chained_le in C. lia.
  - specialize (IH _ _ _ C E). lia.
Qed.

Lemma chained_sep pages : forall lo i j p q, chained lo pages -> nth_error pages i = Some p -> nth_error pages j = Some q ->
  (i < j)%nat -> snd p <= fst q.
Proof.
  induction pages as [|x r IH]; intros lo [|i] [|j] p q H E1 E2 L; try discriminate; try lia; destruct H as (H1 & H2 & _ & C).
  - injection E1 as <-. exact (proj1 (@chained_nth r (snd x) j q C E2)).
  - apply (IH (snd x) i j p q C E1 E2). lia.
Qed.

Lemma chained_next pages : forall lo i p, chained lo pages -> nth_error pages i = Some p ->
  match nth_error pages (S i) with Some q => fst q = snd p | None => snd p = block_size end.
Proof.
  induction pages as [|x r IH]; intros lo [|i] p H E; try discriminate; destruct H as (H1 & H2 & H3 & C).
  - injection E as <-. destruct r as [|y r]; cbn [nth_error]; [now apply H3|apply C].
  - cbn [nth_error]. exact (IH _ _ _ C E).
Qed.

Lemma chained_sum pages : forall lo sp, chained lo pages -> Forall2 (fun p x => fst p + x <= snd p) pages sp ->
  zsum sp <= block_size - lo.
Proof.
  induction pages as [|p r IH]; intros lo sp H F; inversion F as [|? x ? l Hx Fl]; subst.
  - cbn [chained] in H. change (zsum []) with 0. lia.
  - destruct H as (H1 & H2 & _ & C). rewrite zsum_cons. specialize (IH _ _ C Fl). lia.
Qed.

Lemma Forall2_length (A B : Type) (R : A -> B -> Prop) l m : Forall2 R l m -> length l = length m.
Proof. induction 1; cbn; congruence. Qed.

(** ** Columns of rows *)
Lemma column_app i rows t : column i (rows ++ [t]) = column i rows ++ [nth i t (AInt 0)].
Proof. unfold column. now rewrite map_app. Qed.
Lemma column_length i rows : length (column i rows) = length rows.
Proof. apply map_length. Qed.
Lemma column_nth i rows j : nth_error (column i rows) j = option_map (fun t => nth i t (AInt 0)) (nth_error rows j).
Proof. unfold column. apply nth_error_map. Qed.

Section Block.
Variables (dlt : Z -> Z -> bool) (dv : Z -> Prop).
Hypothesis Hd : dbl_order dv dlt.
Notation attr_ok := (attr_ok dv).
Notation tuple_ok := (tuple_ok dv).
Notation colrep := (colrep dlt).

Lemma tuple_nth cs t i c : tuple_ok cs t -> nth_error cs i = Some c -> attr_ok c (nth i t (AInt 0)).
Proof.
  intros H. revert i. induction H as [|c0 a cs t H _ IH]; intros [|i] E; try discriminate; cbn in *.
  - now injection E as <-.
  - now apply IH.
Qed.
Lemma column_ok cs rows i c : Forall (tuple_ok cs) rows -> nth_error cs i = Some c -> Forall (attr_ok c) (column i rows).
Proof.
  intros H E. unfold column. apply Forall_map. eapply Forall_impl; [|exact H]. intros t Ht. eapply tuple_nth; eauto.
Qed.

(** The header entries of the columns. *)
Definition entries (cs : list col) (pages : list (Z * Z)) (b : block) : Prop :=
  forall i c p, nth_error cs i = Some c -> nth_error pages i = Some p ->
  reg b (sma_off_pos + Z.of_nat i * 4) (image 2 (fst p)) /\
  reg b (data_off_pos + Z.of_nat i * 4) (image 2 (fst p + sma_size c)).

Definition columns_used (n : nat) (rows : list tuple) : Z := zsum (map (fun i => used (column i rows)) (seq 0 n)).
Definition room (cs : list col) (rows : list tuple) : Z :=
  block_size - hdr (length cs) - zsum (map sma_size cs) - columns_used (length cs) rows.

(** Block [b] holds [rows], for the range [lo, hi]. *)
Record brep (cs : list col) (pages : list (Z * Z)) (lo hi : Z) (rows : list tuple) (b : block) : Prop := Brep {
  r_lo : reg b 0 (image 4 lo);
  r_hi : reg b 4 (image 4 hi);
  r_cnt : reg b count_pos (image 4 (Z.of_nat (length rows)));
  r_free : reg b free_pos (image 2 (room cs rows));
  r_ent : entries cs pages b;
  r_col : forall i c p, nth_error cs i = Some c -> nth_error pages i = Some p ->
    colrep c (fst p) (snd p) (column i rows) b;
  r_rows : Forall (tuple_ok cs) rows;
  r_fits : fits cs pages rows
}.

Lemma layout_length cs pages : layout cs pages -> length pages = length cs.
Proof. intros (_ & F). symmetry. now apply Forall2_length in F. Qed.

Lemma layout_page cs pages i c : layout cs pages -> nth_error cs i = Some c -> exists p, nth_error pages i = Some p.
Proof.
  intros L E. destruct (nth_error pages i) as [p|] eqn:Ep; [eauto|]. apply nth_error_None in Ep.
  rewrite (layout_length L) in Ep. apply nth_error_None in Ep. congruence.
Qed.

Lemma hdr_small cs pages : layout cs pages -> hdr (length cs) <= block_size.
Proof. intros (C & _). now apply chained_le in C. Qed.

Lemma page_end_ok cs pages b i c p : layout cs pages -> entries cs pages b -> nth_error cs i = Some c ->
  nth_error pages i = Some p -> page_end (length cs) b (Z.of_nat i) = Ok (snd p).
Proof.
  intros L HE Ec Ep. destruct L as (C & F). pose proof (@chained_next pages _ i p C Ep) as N.
  pose proof (layout_length (conj C F)) as Len.
  unfold page_end. destruct (Z.leb_spec (Z.of_nat (length cs)) (Z.of_nat i + 1)) as [H|H].
  - assert (E : nth_error pages (S i) = None) by (apply nth_error_None; lia). rewrite E in N. now rewrite N.
  - destruct (nth_error pages (S i)) as [q|] eqn:Eq; [|apply nth_error_None in Eq; lia].
    destruct (nth_error cs (S i)) as [c'|] eqn:Ec'; [|apply nth_error_None in Ec'; lia].
    destruct (HE (S i) c' q Ec' Eq) as (R & _). destruct (chained_nth C Eq) as (Q1 & Q2 & Q3).
    unfold block_size, hdr, header_fixed in *. replace (Z.of_nat i + 1) with (Z.of_nat (S i)) by lia. rewrite (u16_reg R) by lia.
    now rewrite N.
Qed.

(** Offsets of row [j], column by column. *)
Fixpoint offs_from (i : nat) (cs : list col) (pages : list (Z * Z)) (rows : list tuple) (j : nat) : list Z :=
  match cs, pages with
  | c :: cs', p :: pages' => offset c (fst p) (snd p) (column i rows) j :: offs_from (S i) cs' pages' rows j
  | _, _ => []
  end.
Definition offs_of (cs : list col) (pages : list (Z * Z)) (rows : list tuple) (j : nat) : list Z := offs_from 0 cs pages rows j.

Lemma offs_from_app cs : forall i pages rows t j, (j < length rows)%nat ->
  offs_from i cs pages (rows ++ [t]) j = offs_from i cs pages rows j.
Proof.
  induction cs as [|c cs IH]; intros i [|p pages] rows t j H; cbn [offs_from]; try reflexivity.
  rewrite column_app, offset_app by (now rewrite column_length). f_equal. now apply IH.
Qed.

(** [b'] agrees with [b] outside of the minipages from [k] on. *)
Definition same_pages (k : nat) (pages : list (Z * Z)) (b b' : block) : Prop :=
  forall q, 0 <= q -> (forall j p, (k <= j)%nat -> nth_error pages j = Some p -> ~ (fst p <= q < snd p)) -> byte_at b' q = byte_at b q.

Lemma entries_same cs pages b b' : layout cs pages -> (forall q, sma_off_pos <= q < hdr (length cs) -> byte_at b' q = byte_at b q) ->
  entries cs pages b -> entries cs pages b'.
Proof.
  intros L H HE i c p Ec Ep. destruct (HE i c p Ec Ep) as (A & B).
  assert (I : (i < length cs)%nat) by (apply nth_error_Some; congruence).
  unfold hdr, header_fixed, sma_off_pos, data_off_pos in *.
  split; [revert A|revert B]; apply reg_same; rewrite image_length; intros q Hq; apply H; lia.
Qed.

Lemma same_pages_hdr cs pages k b b' : layout cs pages -> same_pages k pages b b' ->
  forall q, 0 <= q < hdr (length cs) -> byte_at b' q = byte_at b q.
Proof.
  intros (C & _) S q Hq. apply S; [lia|]. intros j p _ Ep F. destruct (chained_nth C Ep). lia.
Qed.

Lemma insert_cols_spec cs pages rows t : layout cs pages -> Forall (tuple_ok cs) rows -> tuple_ok cs t ->
  fits cs pages (rows ++ [t]) ->
  forall cs' pages' t' i b size,
  (forall j, nth_error cs (i + j) = nth_error cs' j) -> (forall j, nth_error pages (i + j) = nth_error pages' j) ->
  (forall j, nth_error t (i + j) = nth_error t' j) -> length cs' = length t' -> length cs' = length pages' ->
  entries cs pages b -> reg b count_pos (image 4 (Z.of_nat (length rows))) ->
  (forall j c p, (i <= j)%nat -> nth_error cs j = Some c -> nth_error pages j = Some p ->
     colrep c (fst p) (snd p) (column j rows) b) ->
  exists b', insert_cols dlt (length cs) b (Z.of_nat i) cs' t' size
             = Ok (b', offs_from i cs' pages' (rows ++ [t]) (length rows), size + zsum (map attr_bytes t')) /\
    same_pages i pages b b' /\
    (forall j c p, (i <= j)%nat -> nth_error cs j = Some c -> nth_error pages j = Some p ->
       colrep c (fst p) (snd p) (column j (rows ++ [t])) b').
Proof.
  intros L Hr Ht HF. pose proof L as (CH & F2).
  induction cs' as [|c cs' IH]; intros pages' t' i b size Nc Np Nt L1 L2 HE HC HR.
  - destruct t'; [|discriminate]. destruct pages'; [|discriminate]. cbn [insert_cols offs_from map].
    exists b. splits; [change (zsum []) with 0; now rewrite Z.add_0_r|intros q _ _; reflexivity|].
    intros j c p Hj Ec. specialize (Nc (j - i)%nat). replace (i + (j - i))%nat with j in Nc by lia.
    rewrite Ec in Nc. destruct (j - i)%nat; discriminate.
  - destruct t' as [|a t']; [discriminate|]. destruct pages' as [|p pages']; [discriminate|].
    pose proof (Nc 0%nat) as Ec. pose proof (Np 0%nat) as Ep. pose proof (Nt 0%nat) as Et.
    rewrite Nat.add_0_r in Ec, Ep, Et. cbn [nth_error] in Ec, Ep, Et.
    assert (Ea : nth i t (AInt 0) = a) by (now apply nth_error_nth).
    destruct (HE _ _ _ Ec Ep) as (R1 & R2). destruct (chained_nth CH Ep) as (Q1 & Q2 & Q3).
    assert (H14 : 14 <= hdr (length cs)) by (unfold hdr, header_fixed; lia).
    assert (Hok : attr_ok c a) by (rewrite <- Ea; eapply tuple_nth; eauto).
    specialize (HF _ _ _ Ec Ep) as HFi. rewrite column_app, Ea in HFi.
    destruct (@insert_col_spec dlt dv Hd (length cs) b (Z.of_nat i) c (fst p) (snd p) (column i rows) a)
      as (b1 & E1 & S1 & C1); auto.
    { lia. }
    { now rewrite column_length. }
    { eapply page_end_ok; eauto. }
    { eapply column_ok; eauto. }
    rewrite column_length in E1. cbn [insert_cols]. rewrite E1. cbn [bind].
    replace (Z.of_nat i + 1) with (Z.of_nat (S i)) by lia.
    assert (HS : forall q, 0 <= q < hdr (length cs) -> byte_at b1 q = byte_at b q) by (intros q Hq; apply S1; lia).
    destruct (IH pages' t' (S i) b1 (size + attr_bytes a)) as (b2 & E2 & S2 & C2).
    { intros j. rewrite Nat.add_succ_comm. apply Nc. }
    { intros j. rewrite Nat.add_succ_comm. apply Np. }
    { intros j. rewrite Nat.add_succ_comm. apply Nt. }
    { cbn [length] in L1. lia. }
    { cbn [length] in L2. lia. }
    { eapply entries_same; [exact L| |exact HE]. intros q Hq. apply HS. unfold sma_off_pos in Hq. lia. }
    { eapply reg_same; [|exact HC]. rewrite image_length. intros q Hq. apply HS. unfold count_pos in *. lia. }
    { intros j c' p' Hj Ec' Ep'. pose proof (@chained_sep pages _ i j p p' CH Ep Ep' ltac:(lia)).
      destruct (chained_nth CH Ep') as (V1 & V2 & V3).
      specialize (HF _ _ _ Ec' Ep'). rewrite column_app, used_app in HF.
      assert (0 <= attr_bytes (nth j t (AInt 0))) by (destruct (nth j t (AInt 0)); cbn; lia).
      apply (@colrep_same dlt dv c' (fst p') (snd p') (column j rows) b b1); try lia.
      - eapply column_ok; eauto.
      - intros q Hq. apply S1; lia.
      - apply HR; auto; lia. }
    rewrite E2. cbn [bind offs_from map]. exists b2. rewrite zsum_cons. splits.
    + rewrite column_app, Ea, Z.add_assoc. reflexivity.
    + intros q Hq Hn. rewrite S2; [|exact Hq|intros j p' Hj; apply Hn; lia].
      apply S1; [exact Hq|]. specialize (Hn i p (Nat.le_refl _) Ep). lia.
    + intros j c' p' Hj Ec' Ep'. destruct (Nat.eq_dec j i) as [->|Nj].
      * rewrite Ec in Ec'. rewrite Ep in Ep'. injection Ec' as <-. injection Ep' as <-. rewrite column_app, Ea.
        apply (@colrep_same dlt dv c (fst p) (snd p) _ b1 b2); try lia.
        -- apply Forall_app. split; [eapply column_ok; eauto|auto].
        -- intros q Hq. apply S2; [lia|]. intros j p' Hj' Ep'.
           pose proof (@chained_sep pages _ i j p p' CH Ep Ep' ltac:(lia)). lia.
        -- exact C1.
      * apply C2; auto. lia.
Qed.

(** ** Free space *)
Lemma map_nth_seq (t : tuple) : map (fun i => nth i t (AInt 0)) (seq 0 (length t)) = t.
Proof.
  apply nth_ext with (d := AInt 0) (d' := AInt 0); [now rewrite map_length, seq_length|].
  intros k Hk. rewrite map_length, seq_length in Hk.
  rewrite nth_indep with (d' := (fun i => nth i t (AInt 0)) 0%nat) by (now rewrite map_length, seq_length).
  rewrite (map_nth (fun i => nth i t (AInt 0))). now rewrite seq_nth by exact Hk.
Qed.

Lemma columns_used_app n (rows : list tuple) (t : tuple) : n = length t -> columns_used n (rows ++ [t]) = columns_used n rows + zsum (map attr_bytes t).
Proof.
  intros ->. unfold columns_used. rewrite <- (map_nth_seq t) at 3. rewrite map_map.
  induction (seq 0 (length t)) as [|i l IH]; [reflexivity|]. cbn [map]. rewrite !zsum_cons, column_app, used_app, IH. lia.
Qed.

Lemma columns_used_nil n : columns_used n [] = 0.
Proof. unfold columns_used. induction (seq 0 n) as [|i l IH]; [reflexivity|]. cbn [map]. rewrite zsum_cons, IH. reflexivity. Qed.

Lemma room_bound cs pages rows : layout cs pages -> fits cs pages rows -> 0 <= room cs rows < 65536.
Proof.
  intros (CH & F2) HF. split.
  - assert (X : zsum (map (fun x => sma_size (snd x) + used (column (fst x) rows)) (combine (seq 0 (length cs)) cs))
                <= block_size - hdr (length cs)).
    { apply (@chained_sum pages); [exact CH|]. unfold fits in HF.
      assert (G : forall k, (forall i c p, nth_error cs i = Some c -> nth_error pages i = Some p ->
                   fst p + sma_size c + used (column (k + i) rows) <= snd p) ->
                 Forall2 (fun p x => fst p + x <= snd p) pages
                   (map (fun x => sma_size (snd x) + used (column (fst x) rows)) (combine (seq k (length cs)) cs))).
      { clear CH HF. induction F2 as [|c p cs' pages' H F2 IH]; intros k HF; cbn [length seq combine map]; [constructor|].
        constructor.
        - cbn [fst snd]. specialize (HF 0%nat c p eq_refl eq_refl). rewrite Nat.add_0_r in HF. lia.
        - apply IH. intros i c' p' E1 E2. specialize (HF (S i) c' p' E1 E2). now rewrite <- Nat.add_succ_comm in HF. }
      apply (G 0%nat). exact HF. }
    assert (Y : forall k, zsum (map (fun x => sma_size (snd x) + used (column (fst x) rows)) (combine (seq k (length cs)) cs))
                = zsum (map sma_size cs) + zsum (map (fun i => used (column i rows)) (seq k (length cs)))).
    { clear. induction cs as [|c cs IH]; intros k; cbn [length seq combine map]; [reflexivity|].
      rewrite !zsum_cons, IH. cbn [fst snd]. lia. }
    rewrite Y in X. unfold room, columns_used. lia.
  - unfold room, columns_used, hdr, header_fixed, block_size.
    assert (0 <= zsum (map sma_size cs)).
    { apply zsum_nonneg. apply Forall_map, Forall_forall. intros c _. destruct c; cbn; lia. }
    assert (0 <= zsum (map (fun i => used (column i rows)) (seq 0 (length cs)))).
    { apply zsum_nonneg. apply Forall_map, Forall_forall. intros i _. apply used_nonneg. }
    lia.
Qed.

Lemma rows_few cs pages rows : layout cs pages -> fits cs pages rows -> cs <> [] -> 2 * Z.of_nat (length rows) <= block_size.
Proof.
  intros L HF N. destruct cs as [|c cs]; [congruence|].
  destruct (@layout_page (c :: cs) pages 0 c L eq_refl) as (p & Ep). specialize (HF 0%nat c p eq_refl Ep).
  destruct L as (CH & _). destruct (chained_nth CH Ep) as (V1 & V2 & V3).
  pose proof (@used_length (column 0 rows)) as U. rewrite column_length in U. pose proof (@sma_pos c).
  unfold hdr, header_fixed in V1. lia.
Qed.

(** Changing the count and the free space changes nothing else. *)
Lemma block_insert_spec cs pages lo hi rows t b : cs <> [] -> layout cs pages -> brep cs pages lo hi rows b ->
  tuple_ok cs t -> fits cs pages (rows ++ [t]) ->
  exists b', block_insert dlt cs b t = Ok (b', offs_of cs pages (rows ++ [t]) (length rows)) /\
    brep cs pages lo hi (rows ++ [t]) b'.
Proof.
  intros N L [Hlo Hhi Hcnt Hfree Hent Hcol Hrows Hfits] Ht HF. unfold block_insert.
  assert (Lt : length cs = length t) by (now apply Forall2_length in Ht).
  destruct (@insert_cols_spec cs pages rows t L Hrows Ht HF cs pages t 0%nat b 0) as (b1 & E1 & S1 & C1); auto.
  { now rewrite (layout_length L). }
  change (Z.of_nat 0) with 0 in E1. rewrite E1. cbn [bind].
  pose proof (same_pages_hdr L S1) as SH. pose proof L as (CH & F2).
  pose proof (hdr_small L) as HS. pose proof (rows_few L HF N) as RF.
  rewrite app_length in RF. cbn [length] in RF.
  assert (H14 : 14 <= hdr (length cs)) by (unfold hdr, header_fixed; lia).
  unfold block_size in *. unfold count_pos, free_pos in *.
  assert (Hcnt1 : reg b1 8 (image 4 (Z.of_nat (length rows)))).
  { eapply reg_same; [|exact Hcnt]. rewrite image_length. intros q Hq. apply SH. lia. }
  rewrite (u32_reg Hcnt1) by lia. cbn [bind].
  destruct (@put_ok 4 b1 8 (Z.of_nat (length rows) + 1)) as (b2 & E2 & S2 & R2); [lia|unfold block_size; lia|].
  rewrite E2. cbn [bind]. change (8 + Z.of_nat 4) with 12 in S2.
  pose proof (room_bound L Hfits) as RB.
  assert (Hf2 : reg b2 12 (image 2 (room cs rows))).
  { eapply reg_frame; [exact S2|lia|right; lia|]. eapply reg_same; [|exact Hfree]. rewrite image_length. intros q Hq. apply SH. lia. }
  rewrite (u16_reg Hf2) by lia. cbn [bind].
  set (fr := room cs rows - (0 + zsum (map attr_bytes t))).
  destruct (@put_ok 2 b2 12 fr) as (b3 & E3 & S3 & R3); [lia|unfold block_size; lia|].
  rewrite E3. cbn [bind]. change (12 + Z.of_nat 2) with 14 in S3.
  assert (S13 : same_out b1 b3 8 14).
  { eapply same_out_trans; [eapply same_out_wider; [exact S2|lia|lia]|eapply same_out_wider; [exact S3|lia|lia]]. }
  exists b3. split; [reflexivity|]. split.
  - eapply reg_frame; [exact S13|lia|left; rewrite image_length; lia|].
    eapply reg_same; [|exact Hlo]. rewrite image_length. intros q Hq. apply SH. lia.
  - eapply reg_frame; [exact S13|lia|left; rewrite image_length; lia|].
    eapply reg_same; [|exact Hhi]. rewrite image_length. intros q Hq. apply SH. lia.
  - rewrite app_length. cbn [length]. replace (Z.of_nat (length rows + 1)) with (Z.of_nat (length rows) + 1) by lia.
    eapply reg_frame; [exact S3|unfold count_pos; lia|left; rewrite image_length; unfold count_pos; lia|]. exact R2.
  - replace (room cs (rows ++ [t])) with fr by (unfold fr, room; rewrite (columns_used_app rows Lt); lia). exact R3.
  - eapply entries_same; [exact L| |exact Hent]. intros q Hq. unfold sma_off_pos in Hq. rewrite S13 by lia. apply SH. lia.
  - intros i c p Ec Ep. destruct (chained_nth CH Ep) as (V1 & V2 & V3).
    apply (@colrep_same dlt dv c (fst p) (snd p) _ b1 b3); try lia.
    + eapply column_ok; eauto. apply Forall_app. auto.
    + apply HF; auto.
    + intros q Hq. apply S13; lia.
    + apply C1; auto. lia.
  - apply Forall_app. auto.
  - exact HF.
Qed.

(** ** Reading *)
Lemma create_tuple_spec cs pages lo hi rows b j t : brep cs pages lo hi rows b -> layout cs pages ->
  nth_error rows j = Some t -> create_tuple b cs (offs_of cs pages rows j) = Ok t.
Proof.
  intros R L Ej. pose proof (r_rows R) as Hr. rewrite Forall_forall in Hr. specialize (Hr t (nth_error_In _ _ Ej)).
  unfold offs_of. pose proof (r_col R) as HC. pose proof L as (_ & F2).
  assert (G : forall i cs' pages' t', (forall k, nth_error cs (i + k) = nth_error cs' k) ->
     (forall k, nth_error pages (i + k) = nth_error pages' k) -> (forall k, nth_error t (i + k) = nth_error t' k) ->
     Forall2 attr_ok cs' t' -> length cs' = length pages' ->
     create_tuple b cs' (offs_from i cs' pages' rows j) = Ok t').
  { intros i cs'. revert i. induction cs' as [|c cs' IH]; intros i pages' t' Nc Np Nt F LL; inversion F as [|? a ? l Ha Fl]; subst.
    - reflexivity.
    - destruct pages' as [|p pages']; [discriminate|]. cbn [offs_from create_tuple].
      pose proof (Nc 0%nat) as Ec. pose proof (Np 0%nat) as Ep. pose proof (Nt 0%nat) as Et.
      rewrite Nat.add_0_r in Ec, Ep, Et. cbn [nth_error] in Ec, Ep, Et.
      destruct (HC _ _ _ Ec Ep) as (HI & _). specialize (HI j a).
      rewrite column_nth, Ej in HI. cbn [option_map] in HI. rewrite (nth_error_nth _ _ _ Et) in HI.
      rewrite (@get_attr_item dv c _ _ _ _ _ a Ha (HI eq_refl)). cbn [bind].
      rewrite (IH (S i) pages' l); [reflexivity| | | |exact Fl|].
      + intros k. rewrite Nat.add_succ_comm. apply Nc.
      + intros k. rewrite Nat.add_succ_comm. apply Np.
      + intros k. rewrite Nat.add_succ_comm. apply Nt.
      + cbn [length] in LL. lia. }
  apply (G 0%nat); auto. now rewrite (layout_length L).
Qed.

Lemma row_offsets_spec cs pages lo hi rows b j : brep cs pages lo hi rows b -> layout cs pages ->
  (j < length rows)%nat -> row_offsets b 0 cs (Z.of_nat j) = Ok (offs_of cs pages rows j).
Proof.
  intros R L Hj. unfold offs_of. pose proof (r_ent R) as HE. pose proof (r_col R) as HC. pose proof L as (CH & F2).
  pose proof (r_fits R) as HF. pose proof (r_rows R) as Hr.
  assert (G : forall i cs' pages', (forall k, nth_error cs (i + k) = nth_error cs' k) ->
     (forall k, nth_error pages (i + k) = nth_error pages' k) -> length cs' = length pages' ->
     row_offsets b (Z.of_nat i) cs' (Z.of_nat j) = Ok (offs_from i cs' pages' rows j)).
  { intros i cs'. revert i. induction cs' as [|c cs' IH]; intros i pages' Nc Np LL.
    - destruct pages'; [reflexivity|discriminate].
    - destruct pages' as [|p pages']; [discriminate|]. cbn [offs_from row_offsets].
      pose proof (Nc 0%nat) as Ec. pose proof (Np 0%nat) as Ep.
      rewrite Nat.add_0_r in Ec, Ep. cbn [nth_error] in Ec, Ep.
      destruct (HE _ _ _ Ec Ep) as (_ & RD). destruct (chained_nth CH Ep) as (V1 & V2 & V3).
      pose proof (@sma_pos c). pose proof (HF _ _ _ Ec Ep) as HFi. pose proof (@used_nonneg (column i rows)).
      pose proof (@column_ok _ _ _ _ Hr Ec) as Hc.
      unfold block_size in *. unfold hdr, header_fixed in V1.
      rewrite (u16_reg RD) by lia. cbn [bind]. replace (Z.of_nat i + 1) with (Z.of_nat (S i)) by lia.
      rewrite (IH (S i) pages').
      2: { intros k. rewrite Nat.add_succ_comm. apply Nc. }
      2: { intros k. rewrite Nat.add_succ_comm. apply Np. }
      2: { cbn [length] in LL. lia. }
      assert (O : match c with
            | CStr => u16 b (fst p + sma_size c + Z.of_nat j * 2)
            | _ => Ok (w16 (fst p + sma_size c + Z.of_nat j * Z.of_nat (fixed_width c))) end
            = Ok (offset c (fst p) (snd p) (column i rows) j)).
      { destruct c; cbn [offset].
        - rewrite (@used_fixed dv CInt) in HFi by (auto; discriminate). rewrite column_length in HFi. unfold w16, wz in *.
          cbn [fixed_width sma_size] in *. rewrite Z.mod_small by lia. reflexivity.
        - rewrite (@used_fixed dv CDbl) in HFi by (auto; discriminate). rewrite column_length in HFi. unfold w16, wz in *.
          cbn [fixed_width sma_size] in *. rewrite Z.mod_small by lia. reflexivity.
        - destruct (nth_error (column i rows) j) as [v|] eqn:Ev.
          2: { apply nth_error_None in Ev. rewrite column_length in Ev. lia. }
          destruct (HC _ _ _ Ec Ep) as (HI & _). destruct (HI _ _ Ev) as (RO & _). cbn [sma_size].
          apply u16_reg; [exact RO|]. rewrite (@used_str dv) in HFi by exact Hc. unfold soff.
          pose proof (@zsum_firstn_le (column i rows) (S j)). pose proof (@slens_nonneg (firstn (S j) (column i rows))).
          cbn [sma_size] in *. lia. }
      rewrite O. reflexivity. }
  apply (G 0%nat); auto. now rewrite (layout_length L).
Qed.

(** ** Free space test *)
Lemma has_enough_space_spec cs pages lo hi rows b t : cs <> [] -> brep cs pages lo hi rows b -> layout cs pages ->
  tuple_ok cs t ->
  exists r, has_enough_space cs b t = Ok r /\
    (r = true <-> buf_size t <= room cs rows /\ fits cs pages (rows ++ [t])).
Proof.
  intros N R L Ht. unfold has_enough_space. pose proof (room_bound L (r_fits R)) as RB.
  rewrite (u16_reg (r_free R)) by lia. cbn [bind].
  destruct (Z.ltb_spec (room cs rows) (buf_size t)) as [H|H].
  { exists false. split; [reflexivity|]. split; [discriminate|]. lia. }
  pose proof (rows_few L (r_fits R) N) as RF. unfold block_size in RF.
  rewrite (u32_reg (r_cnt R)) by lia. cbn [bind].
  pose proof (r_ent R) as HE. pose proof (r_col R) as HC. pose proof L as (CH & F2).
  pose proof (r_fits R) as HF. pose proof (r_rows R) as Hr.
  assert (G : forall cs' i t', (forall k, nth_error cs (i + k) = nth_error cs' k) ->
     (forall k, nth_error t (i + k) = nth_error t' k) -> length cs' = length t' ->
     exists r, enough_cols (length cs) b (Z.of_nat i) cs' t' (Z.of_nat (length rows)) = Ok r /\
       (r = true <-> forall j c p, (i <= j)%nat -> nth_error cs j = Some c -> nth_error pages j = Some p ->
            fst p + sma_size c + used (column j (rows ++ [t])) <= snd p)).
  { induction cs' as [|c cs' IH]; intros i t' Nc Nt LL.
    - destruct t'; [|discriminate]. exists true. split; [reflexivity|]. split; [|reflexivity]. intros _ j c p Hj Ec.
      specialize (Nc (j - i)%nat). replace (i + (j - i))%nat with j in Nc by lia.
      rewrite Ec in Nc. destruct (j - i)%nat; discriminate.
    - destruct t' as [|a t']; [discriminate|]. cbn [enough_cols].
      pose proof (Nc 0%nat) as Ec. pose proof (Nt 0%nat) as Et.
      rewrite Nat.add_0_r in Ec, Et. cbn [nth_error] in Ec, Et.
      destruct (layout_page L Ec) as (p & Ep).
      destruct (HE _ _ _ Ec Ep) as (_ & RD). destruct (chained_nth CH Ep) as (V1 & V2 & V3).
      pose proof (@sma_pos c). pose proof (HF _ _ _ Ec Ep) as HFi. pose proof (@used_nonneg (column i rows)).
      pose proof (@column_ok _ _ _ _ Hr Ec) as Hc. unfold block_size in *. unfold hdr, header_fixed in V1.
      assert (Ea : nth i t (AInt 0) = a) by (now apply nth_error_nth).
      assert (Hok : attr_ok c a) by (rewrite <- Ea; eapply tuple_nth; eauto).
      rewrite (u16_reg RD) by lia. cbn [bind]. rewrite (page_end_ok L HE Ec Ep).
      destruct (IH (S i) t') as (r & Er & Hrr).
      { intros k. rewrite Nat.add_succ_comm. apply Nc. }
      { intros k. rewrite Nat.add_succ_comm. apply Nt. }
      { cbn [length] in LL. lia. }
      replace (Z.of_nat i + 1) with (Z.of_nat (S i)) by lia. rewrite Er.
      assert (SPLIT : (forall j c p, (i <= j)%nat -> nth_error cs j = Some c -> nth_error pages j = Some p ->
            fst p + sma_size c + used (column j (rows ++ [t])) <= snd p) <->
          fst p + sma_size c + used (column i rows) + attr_bytes a <= snd p /\ r = true).
      { rewrite Hrr. split.
        - intros X. split; [|intros; apply X; auto; lia]. specialize (X i c p (Nat.le_refl _) Ec Ep).
          rewrite column_app, used_app, Ea in X. lia.
        - intros (X & Y) j c' p' Hj Ec' Ep'. destruct (Nat.eq_dec j i) as [->|Nj]; [|apply Y; auto; lia].
          rewrite Ec in Ec'. rewrite Ep in Ep'. injection Ec' as <-. injection Ep' as <-.
          rewrite column_app, used_app, Ea. lia. }
      assert (M : forall ok : bool, (ok = true <-> fst p + sma_size c + used (column i rows) + attr_bytes a <= snd p) ->
        exists r0, (if ok then Ok r else Ok false) = Ok r0 /\
         (r0 = true <-> forall j c p, (i <= j)%nat -> nth_error cs j = Some c -> nth_error pages j = Some p ->
            fst p + sma_size c + used (column j (rows ++ [t])) <= snd p)).
      { intros ok Hok'. destruct ok.
        - exists r. split; [reflexivity|]. rewrite SPLIT. tauto.
        - exists false. split; [reflexivity|]. rewrite SPLIT. split; [discriminate|]. intros (X & _). tauto. }
      assert (FIX : c <> CStr -> (negb (w64 (snd p - (fst p + sma_size c) - Z.of_nat (length rows) * Z.of_nat (fixed_width c)) <?
                 Z.of_nat (fixed_width c)) = true <-> fst p + sma_size c + used (column i rows) + attr_bytes a <= snd p)).
      { intros Nst. rewrite (@used_fixed dv c) in HFi |- * by auto. rewrite column_length in HFi |- *.
        assert (AB : attr_bytes a = wz c) by (unfold wz; destruct c, a; cbn in Hok |- *; tauto || congruence).
        rewrite AB. unfold w64. change (Z.of_nat (fixed_width c)) with (wz c).
        rewrite Z.mod_small by (pose proof (@wz_pos c); nia). rewrite negb_true_iff, Z.ltb_ge. nia. }
      destruct c, a as [z|z|str]; cbn in Hok; try tauto.
      + cbn [bind]. apply M. apply FIX. discriminate.
      + cbn [bind]. apply M. apply FIX. discriminate.
      + assert (FR : (if Z.of_nat (length rows) =? 0 then do e <- Ok (snd p); Ok (w16 (e - (fst p + sma_size CStr)))
           else do o <- u16 b (w32 (fst p + sma_size CStr + Z.of_nat (length rows) * 2) - 2);
                Ok (w16 (w32 (o - w32 (fst p + sma_size CStr + Z.of_nat (length rows) * 2)))))
           = Ok (snd p - fst p - 4 - used (column i rows))).
        { rewrite (@used_str dv) in HFi |- * by exact Hc. rewrite column_length in HFi |- *. cbn [sma_size] in *.
          pose proof (@slens_nonneg (column i rows)).
          destruct (Z.eqb_spec (Z.of_nat (length rows)) 0) as [Z0|Z0].
          - destruct rows; [|cbn [length] in Z0; lia]. cbn [bind column map length Z.of_nat] in *. unfold w16.
            rewrite Z.mod_small by lia. f_equal. cbn. lia.
          - unfold w32 at 1. rewrite Z.mod_small by lia.
            assert (NE : nth_error (column i rows) (length rows - 1) <> None).
            { apply nth_error_Some. rewrite column_length. lia. }
            destruct (nth_error (column i rows) (length rows - 1)) as [v|] eqn:Ev; [|congruence].
            destruct (HC _ _ _ Ec Ep) as (HI & _). destruct (HI _ _ Ev) as (RO & _).
            assert (SO : soff (snd p) (column i rows) (length rows - 1) = snd p - zsum (map slen (column i rows))).
            { unfold soff. rewrite firstn_all2; [reflexivity|]. rewrite column_length. lia. }
            rewrite SO in RO.
            replace (fst p + 4 + Z.of_nat (length rows) * 2 - 2) with (fst p + 4 + Z.of_nat (length rows - 1) * 2) by lia.
            rewrite (u16_reg RO) by lia. cbn [bind]. unfold w16, w32.
            rewrite (Z.mod_small (fst p + 4 + Z.of_nat (length rows) * 2)) by lia.
            rewrite (Z.mod_small (_ - _) 4294967296) by lia. rewrite Z.mod_small by lia. f_equal. lia. }
        cbv zeta. rewrite FR. cbn [bind]. apply M. rewrite negb_true_iff, Z.ltb_ge. cbn [attr_bytes sma_size]. lia. }
  destruct (G cs 0%nat t) as (r & Er & Hrr); auto.
  { now apply Forall2_length in Ht. }
  change (Z.of_nat 0) with 0 in Er. exists r. split; [exact Er|]. rewrite Hrr. split.
  - intros X. split; [exact H|]. intros i c p Ec Ep. apply X; auto. lia.
  - intros (_ & X) j c p _ Ec Ep. now apply X.
Qed.

(** ** Summary values *)
Lemma block_sma_spec cs pages lo hi rows b i c p : brep cs pages lo hi rows b -> layout cs pages ->
  nth_error cs i = Some c -> nth_error pages i = Some p -> rows <> [] ->
  exists mn mx, block_sma b (Z.of_nat i) c = Ok (mn, mx) /\ bounds dlt mn mx (column i rows).
Proof.
  intros R L Ec Ep N. destruct (r_col R Ec Ep) as (HI & HB). destruct (r_ent R Ec Ep) as (RS & _).
  destruct L as (CH & _). destruct (chained_nth CH Ep) as (V1 & V2 & V3). pose proof (column_ok (r_rows R) Ec) as Hc.
  destruct HB as (mn & mx & B & S1 & S2).
  { intros E. apply N. destruct rows; [reflexivity|discriminate]. }
  exists mn, mx. split; [|exact B]. destruct B as (I1 & I2 & _). rewrite Forall_forall in Hc.
  pose proof (Hc _ I1) as Hmn. pose proof (Hc _ I2) as Hmx.
  unfold block_sma. unfold hdr, header_fixed in V1. unfold block_size in *. rewrite (u16_reg RS) by lia. cbn [bind].
  assert (FX : c <> CStr -> forall q v, attr_ok c v -> reg b q (image (fixed_width c) (raw v)) -> get_attr b c q = Ok v).
  { intros Nst q v Hv Rq. assert (G : get_fixed c b q = Ok (raw v)) by (apply get_reg; [exact Rq|now apply (@fixed_int_ok dv)]).
    destruct c, v; cbn in Hv; try tauto; try congruence; cbn [get_attr]; rewrite G; reflexivity. }
  change (Z.of_nat (fixed_width c)) with (wz c).
  destruct c.
  - rewrite (FX ltac:(discriminate) _ mn Hmn S1). cbn [bind]. rewrite (FX ltac:(discriminate) _ mx Hmx S2). reflexivity.
  - rewrite (FX ltac:(discriminate) _ mn Hmn S1). cbn [bind]. rewrite (FX ltac:(discriminate) _ mx Hmx S2). reflexivity.
  - destruct S1 as (j1 & J1 & S1), S2 as (j2 & J2 & S2). change (wz CStr) with 2 in S2.
    destruct (HI _ _ J1) as (_ & T1), (HI _ _ J2) as (_ & T2).
    assert (B1 : forall q l, l <> [] -> reg b q l -> 0 <= q < 65536).
    { intros q l Nl Rq. destruct (reg_range Rq Nl). unfold block_size in *. destruct l; [congruence|]. cbn [length] in *. lia. }
    rewrite (u16_reg S1) by (eapply B1; [|exact T1]; destruct (str_of mn); discriminate). cbn [bind].
    rewrite (u16_reg S2) by (eapply B1; [|exact T2]; destruct (str_of mx); discriminate). cbn [bind].
    rewrite (string_reg T1) by (now apply (@str_ok_nonul dv)). cbn [bind].
    rewrite (string_reg T2) by (now apply (@str_ok_nonul dv)). cbn [bind].
    destruct mn, mx; cbn in Hmn, Hmx; try tauto.
Qed.

Lemma attr_lt_spec c x y : attr_ok c x -> attr_ok c y -> exists r, attr_lt dlt x y = Ok r /\ (r = true <-> lt_attr dlt x y).
Proof.
  destruct c, x, y; cbn; try tauto; intros _ _; eexists; (split; [reflexivity|]); try tauto. apply Z.ltb_lt.
Qed.

(** A block that is not a candidate holds no row in the range. *)
Lemma candidate_spec cs pages lo hi rows b ps : brep cs pages lo hi rows b -> layout cs pages -> rows <> [] ->
  preds_ok dv cs ps ->
  exists r, candidate dlt cs b ps = Ok r /\ (r = false -> forall t, In t rows -> ~ satisfies dlt t ps).
Proof.
  intros R L N Hp. induction Hp as [|[[i lo'] hi'] ps (c & Ec & Hlo & Hhi) Hp (r & Er & Hr)]; cbn [candidate].
  - exists true. split; [reflexivity|discriminate].
  - rewrite Ec. cbn [of_opt bind]. destruct (layout_page L Ec) as (p & Ep).
    destruct (block_sma_spec R L Ec Ep N) as (mn & mx & -> & I1 & I2 & B). cbn [bind fst snd].
    pose proof (column_ok (r_rows R) Ec) as Hc. rewrite Forall_forall in Hc.
    destruct (@attr_lt_spec c _ _ Hhi (Hc _ I1)) as (r1 & -> & H1). cbn [bind].
    destruct (@attr_lt_spec c _ _ (Hc _ I2) Hlo) as (r2 & -> & H2). cbn [bind].
    assert (IN : forall t, In t rows -> In (nth i t (AInt 0)) (column i rows)).
    { intros t It. unfold column. apply in_map_iff. eauto. }
    assert (NTH : forall t v, nth_error t i = Some v -> nth i t (AInt 0) = v) by (intros; now apply nth_error_nth).
    destruct r1; cbn [orb].
    { exists false. split; [reflexivity|]. intros _ t It S. destruct (Forall_inv S) as (v & Ev & U & W).
      specialize (IN t It). rewrite (NTH _ _ Ev) in IN. destruct (B _ IN) as (B1 & B2).
      destruct (@lt_co dlt dv Hd c hi' mn v Hhi (Hc _ I1) (Hc _ IN) (proj1 H1 eq_refl)); auto. }
    destruct r2; cbn [orb].
    { exists false. split; [reflexivity|]. intros _ t It S. destruct (Forall_inv S) as (v & Ev & U & W).
      specialize (IN t It). rewrite (NTH _ _ Ev) in IN. destruct (B _ IN) as (B1 & B2).
      destruct (@lt_co dlt dv Hd c mx lo' v (Hc _ I2) Hlo (Hc _ IN) (proj1 H2 eq_refl)); auto. }
    exists r. split; [exact Er|]. intros E t It S. exact (Hr E t It (Forall_inv_tail S)).
Qed.

(** The test of single rows is exact. *)
Lemma in_range_spec cs pages lo hi rows b j t ps : brep cs pages lo hi rows b -> layout cs pages ->
  nth_error rows j = Some t -> preds_ok dv cs ps ->
  exists r, in_range dlt cs b (offs_of cs pages rows j) ps = Ok r /\ (r = true <-> satisfies dlt t ps).
Proof.
  intros R L Ej Hp. pose proof (r_rows R) as Hr. rewrite Forall_forall in Hr. specialize (Hr t (nth_error_In _ _ Ej)).
  assert (ON : forall cs' pages' k i c p, nth_error cs' i = Some c -> nth_error pages' i = Some p ->
     nth_error (offs_from k cs' pages' rows j) i = Some (offset c (fst p) (snd p) (column (k + i) rows) j)).
  { clear. induction cs' as [|c0 cs' IH]; intros [|p0 pages'] k [|i] c p E1 E2; try discriminate; cbn [offs_from nth_error] in *.
    - injection E1 as <-. injection E2 as <-. now rewrite Nat.add_0_r.
    - rewrite <- Nat.add_succ_comm. now apply IH. }
  induction Hp as [|[[i lo'] hi'] ps (c & Ec & Hlo & Hhi) Hp (r & Er & Hrr)]; cbn [in_range].
  - exists true. split; [reflexivity|]. split; [constructor|reflexivity].
  - destruct (layout_page L Ec) as (p & Ep). unfold offs_of. rewrite (ON _ _ 0%nat _ _ _ Ec Ep). cbn [of_opt bind].
    rewrite Ec. cbn [of_opt bind Nat.add].
    pose proof (tuple_nth Hr Ec) as Hv. destruct (r_col R Ec Ep) as (HI & _).
    specialize (HI j (nth i t (AInt 0))). rewrite column_nth, Ej in HI. specialize (HI eq_refl).
    rewrite (get_attr_item Hv HI). cbn [bind].
    destruct (@attr_lt_spec c _ _ Hhi Hv) as (r1 & -> & H1). cbn [bind].
    destruct (@attr_lt_spec c _ _ Hv Hlo) as (r2 & -> & H2). cbn [bind].
    assert (NE : nth_error t i = Some (nth i t (AInt 0))).
    { apply nth_error_nth'. apply Forall2_length in Hr. rewrite <- Hr. apply nth_error_Some. congruence. }
    assert (IFF : satisfies dlt t ((i, lo', hi') :: ps) <->
              ~ lt_attr dlt hi' (nth i t (AInt 0)) /\ ~ lt_attr dlt (nth i t (AInt 0)) lo' /\ satisfies dlt t ps).
    { unfold satisfies. split.
      - intros S. destruct (Forall_inv S) as (v & Ev & U & W). apply Forall_inv_tail in S as S'. rewrite NE in Ev. injection Ev as <-. auto.
      - intros (U & W & S'). constructor; [eauto|exact S']. }
    fold (offs_of cs pages rows j).
    destruct r1, r2; cbn [orb];
      try (exists false; split; [reflexivity|]; split; [discriminate|]; intros X; apply IFF in X; tauto).
    exists r. split; [exact Er|]. split; intros X; [apply Hrr in X; apply IFF|apply IFF in X; apply Hrr; tauto].
    splits; [intros C; apply H1 in C; discriminate|intros C; apply H2 in C; discriminate|exact X].
Qed.
End Block.
