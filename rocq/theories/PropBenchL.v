(** C100-C103: the benchmarks of single leaves. *)
From Verif Require Import Base SearchModel BTreeModel SLeafModel SLeafProofs BenchModel BenchLModel BenchLSpec BenchLProofs.
Open Scope nat_scope.

(** C100: whichever leaves of the array are split, in whatever order, every one is full again after its round.  But the
    leaf that the split has made is never freed and nothing points to it: after r rounds r leaves are lost. *)
Theorem C100_bench_split_rounds : forall V M (f : nat -> V), 2 <= M -> forall n ps, (forall p, In p ps -> 1 <= p <= n) ->
  exists m0 m, bs_prepare M f n = Ok m0 /\ bs_rounds M m0 ps = Ok m /\
  (forall i, i <= n -> exists l, lcell m i = Some (l, None) /\ holds l (entries f (seq 1 M))) /\
  (forall i, n < i <= n + length ps ->
     exists l, lcell m i = Some (l, None) /\ holds l (entries f (seq ((M + 1) / 2 + 1) (M / 2)))) /\
  forall i, n + length ps < i -> lcell m i = None.
Proof. exact split_bench. Qed.
Print Assumptions C100_bench_split_rounds.

Theorem C100_bench_split_frees_refuted : exists M n p m0 m, 1 <= p <= n /\ bs_prepare M (fun j => j) n = Ok m0 /\
  bs_rounds M m0 [p] = Ok m /\ exists i l, lcell m0 i = None /\ lcell m i = Some (l, None).
Proof.
  destruct (@split_bench nat 18 (fun j => j) ltac:(lia) 2 [1]) as (m0 & m & E0 & E & _ & L & _); [intros p [<-|[]]; lia|].
  exists 18, 2, 1, m0, m. split; [lia|]. split; [exact E0|]. split; [exact E|]. destruct (L 3 ltac:(cbn; lia)) as (l & C & _).
  exists 3, l. split; [|exact C]. unfold bs_prepare in E0. destruct (bl_prepare _ _ _ _); cbn in E0; try discriminate.
  injection E0 as <-. reflexivity.
Qed.
Print Assumptions C100_bench_split_frees_refuted.

(** Three rounds with leaves of 5 keys: the three halves that were split off stay. *)
Example C100_ex : (do m0 <- bs_prepare 5 (fun j => j) 2; do m <- bs_rounds 5 m0 [1; 2; 1];
    Ok (map (fun i => match lcell m i with Some (l, n) => Some (sn l, nth_error (sk l) 0, n) | None => None end) (seq 0 7))) =
  Ok ([Some (5%nat, Some (Some 1), None); Some (5%nat, Some (Some 1), None); Some (5%nat, Some (Some 1), None);
       Some (2%nat, Some (Some 4), None); Some (2%nat, Some (Some 4), None); Some (2%nat, Some (Some 4), None); None])%Z.
Proof. vm_compute. reflexivity. Qed.

(** C101: the merge appends the smaller keys behind the larger ones. *)
Theorem C101_bench_merge_partial : forall V M (f : nat -> V), 2 <= M -> exists s t l,
  bm_prepare M f = Ok (s, t) /\ holds s (entries f (seq 1 ((M + 1) / 2))) /\
  holds t (entries f (seq ((M + 3) / 2) (M - (M + 3) / 2))) /\ bm_round (s, t) = Ok l /\
  holds l (entries f (seq ((M + 3) / 2) (M - (M + 3) / 2) ++ seq 1 ((M + 1) / 2))).
Proof. exact merge_bench. Qed.
Print Assumptions C101_bench_merge_partial.

(** The result is never a sorted leaf; with the values in the file the key 10 is in it and cannot be found. *)
Theorem C101_bench_merge_unsorted : forall V M (f : nat -> V), 4 <= M -> exists s t l es,
  bm_prepare M f = Ok (s, t) /\ bm_round (s, t) = Ok l /\ holds l es /\ ~ ascending es.
Proof.
  intros V M f H. destruct (@merge_bench V M f ltac:(lia)) as (s & t & l & E & _ & _ & R & HL).
  exists s, t, l. eexists. split; [exact E|]. split; [exact R|]. split; [exact HL|].
  exact (@merge_unsorted V M f ltac:(lia) l H HL).
Qed.
Print Assumptions C101_bench_merge_unsorted.

Theorem C101_bench_merge_lookup_refuted : exists M l, (do st <- bm_prepare M (fun j => j); bm_round st) = Ok l /\
  (exists i, i < sn l /\ aget (sk l) i = Ok 10%Z) /\ sl_lookup (bsearch_pos false) l 10 = Ok None.
Proof.
  exists 18. eexists. split; [vm_compute; reflexivity|]. split; [exists 0; split; vm_compute; [repeat constructor|reflexivity]|].
  vm_compute. reflexivity.
Qed.
Print Assumptions C101_bench_merge_lookup_refuted.

Example C101_ex : (do st <- bm_prepare 6 (fun j => j); do l <- bm_round st; sl_scan l) =
  Ok [(4%Z, 4); (5%Z, 5); (1%Z, 1); (2%Z, 2); (3%Z, 3)].
Proof. vm_compute. reflexivity. Qed.

(** C102: balancing, for both directions, and erasing leave sorted leaves with the right keys; the leaves have the numbers
    of keys that the benchmark computes. *)
Theorem C102_bench_balance : forall V M (f : nat -> V), 3 <= M ->
  (exists d r d' r', bb_prepare M f true = Ok (d, r) /\ bb_round (d, r) = Ok (d', r') /\
    holds d (entries f (seq 1 M)) /\ holds r (entries f (seq (M + 1) ((M - 1) / 2))) /\
    holds d' (entries f (seq 1 (bb_balanced M))) /\ holds r' (entries f (seq (bb_balanced M + 1) (bb_moves M)))) /\
  (exists d r d' r', bb_prepare M f false = Ok (d, r) /\ bb_round (d, r) = Ok (d', r') /\
    holds d (entries f (seq ((M + 1) / 2) M)) /\ holds r (entries f (seq 1 ((M - 1) / 2))) /\
    holds d' (entries f (seq (bb_moves M + 1) (bb_balanced M))) /\ holds r' (entries f (seq 1 (bb_moves M)))).
Proof.
  intros V M f H. assert (H2 : 2 <= M) by lia. split.
  - destruct (@balance_right_bench V M f H2 H) as (d & r & d' & r' & E & R & A & B & C & D). exists d, r, d', r'.
    splits; try assumption; eapply rep_holds; eassumption.
  - destruct (@balance_left_bench V M f H2 H) as (d & r & d' & r' & E & R & A & B & C & D). exists d, r, d', r'.
    splits; try assumption; eapply rep_holds; eassumption.
Qed.
Print Assumptions C102_bench_balance.

Theorem C102_bench_erase : forall V M (f : nat -> V), 2 <= M -> forall k, 1 <= k <= M -> exists l l',
  be_prepare M f = Ok l /\ holds l (entries f (seq 1 M)) /\
  be_round (Z.of_nat k) l = Ok (true, l') /\ holds l' (entries f (seq 1 (k - 1) ++ seq (k + 1) (M - k))).
Proof.
  intros V M f H k K. destruct (@erase_bench V M f H k K) as (l & l' & E & R & E' & R'). exists l, l'.
  splits; try assumption. eapply rep_holds; eassumption.
Qed.
Print Assumptions C102_bench_erase.

Example C102_ex : bb_balanced 5 = 3 /\ bb_moves 5 = 4 /\
  (do dr <- bb_prepare 5 (fun j => j) false; do dr' <- bb_round dr; do a <- sl_scan (fst dr'); do b <- sl_scan (snd dr'); Ok (map fst a, map fst b))
    = Ok ([5; 6; 7], [1; 2; 3; 4])%Z /\
  (do dr <- bb_prepare 5 (fun j => j) true; do dr' <- bb_round dr; do a <- sl_scan (fst dr'); do b <- sl_scan (snd dr'); Ok (map fst a, map fst b))
    = Ok ([1; 2; 3], [4; 5; 6; 7])%Z /\
  (do l <- be_prepare 5 (fun j => j); do r <- be_round 2 l; do a <- sl_scan (snd r); Ok (fst r, map fst a)) = Ok (true, [1; 3; 4; 5]%Z).
Proof. vm_compute. repeat split. Qed.

(** C103: the flushed ranges.  Erase (tree_erase.cpp:113-114), split (tree_split.cpp:120-121) and balance to the right
    (tree_balance.cpp:130-131) flush every slot whose content has changed, for elements of any size. *)
Theorem C103_bench_flush_erase : forall V M (f : nat -> V), 2 <= M -> forall k l l' w i, 1 <= k <= M ->
  be_prepare M f = Ok l -> be_round (Z.of_nat k) l = Ok (true, l') ->
  changed l l' i -> flushed w (k - 1) ((M - 1 - (k - 1)) * w) i.
Proof.
  intros V M f H k l l' w i K E R C. destruct (@erase_bench V M f H k K) as (l0 & _ & E0 & RL & _).
  rewrite E0 in E. injection E as ->. pose proof (@erase_frame V M f H k l l' i K RL R C). unfold flushed. nia.
Qed.
Print Assumptions C103_bench_flush_erase.

Theorem C103_bench_flush_split : forall V M (f : nat -> V), 2 <= M -> forall l l1 l2 w, be_prepare M f = Ok l ->
  sl_split M l = Ok (l1, l2) ->
  (forall i, ~ changed l l1 i) /\ forall i, changed (sl_new V M) l2 i -> flushed w 0 (w * (M + 1) / 2) i.
Proof.
  intros V M f H l l1 l2 w E S. destruct (@erase_bench V M f H 1 ltac:(lia)) as (l0 & _ & E0 & RL & _).
  rewrite E0 in E. injection E as ->. destruct RL as (_ & N & _). rewrite ent_len, seq_length in N.
  destruct (@split_frame V M f H l l1 l2 S N) as (A & B & C). split.
  - intros i [D|D]; apply D; congruence.
  - intros i D. specialize (C i D). unfold flushed. split; [lia|]. rewrite Nat.mul_0_r. apply Nat.div_le_lower_bound; [lia|].
    nia.
Qed.
Print Assumptions C103_bench_flush_split.

Theorem C103_bench_flush_balance_right : forall V M (f : nat -> V), 3 <= M -> forall d r d' r' w,
  bb_prepare M f true = Ok (d, r) -> bb_round (d, r) = Ok (d', r') ->
  (forall i, ~ changed d d' i) /\ forall i, changed r r' i -> flushed w 0 (w * bb_moves M) i.
Proof.
  intros V M f H3 d r d' r' w E R. assert (H : 2 <= M) by lia.
  destruct (@balance_right_bench V M f H H3) as (d0 & r0 & _ & _ & E0 & _ & RD & RR & _).
  rewrite E0 in E. injection E as -> ->.
  pose proof (rep_holds RD) as [ND HD]. pose proof (rep_holds RR) as [NR HR]. rewrite ent_len, seq_length in ND, NR.
  assert (A0 : aget (sk d) 0 = Ok 1%Z).
  { unfold aget. rewrite (proj1 (HD 0 1%Z (f 1) ltac:(destruct M; [lia|reflexivity]))). reflexivity. }
  assert (B0 : aget (sk r) 0 = Ok (Z.of_nat (M + 1))).
  { unfold aget. rewrite (proj1 (HR 0 (Z.of_nat (M + 1)) (f (M + 1)) ltac:(replace ((M - 1) / 2) with (S ((M - 1) / 2 - 1)) by lia; reflexivity))). reflexivity. }
  destruct (@balance_frame V M f H d r d' r' _ _ R A0 B0 ltac:(lia)) as (A & B & C). split.
  - intros i [D|D]; apply D; congruence.
  - intros i D. specialize (C i D). rewrite ND, NR in C. unfold flushed, bb_moves, bb_balanced.
    split; [lia|]. rewrite Nat.mul_0_r. assert (i + 1 <= (M - 1) / 2 + M - ((M - 1) / 2 + M) / 2) by lia. nia.
Qed.
Print Assumptions C103_bench_flush_balance_right.

(** In the other direction, which is the one in the file (MOVE_TO_RIGHT = 0), the donor is rewritten and not flushed at all. *)
Theorem C103_bench_flush_balance_refuted : exists M d r d' r', bb_prepare M (fun j => j) false = Ok (d, r) /\
  bb_round (d, r) = Ok (d', r') /\ changed d d' 0 /\ forall w, 0 < w -> ~ flushed w 0 0 0.
Proof.
  destruct (@balance_left_bench nat 18 (fun j => j) ltac:(lia) ltac:(lia)) as (d & r & d' & r' & E & R & RD & _ & RD' & _).
  exists 18, d, r, d', r'. split; [exact E|]. split; [exact R|]. split.
  - left. rewrite (proj1 (proj2 (rep_holds RD) 0 9%Z 9 eq_refl)), (proj1 (proj2 (rep_holds RD') 0 14%Z 14 eq_refl)). discriminate.
  - intros w W [_ F]. lia.
Qed.
Print Assumptions C103_bench_flush_balance_refuted.

(** The merge flushes too late a slot: the first entries that were copied are left out. *)
Theorem C103_bench_flush_merge_refuted : exists M s t l i, bm_prepare M (fun j => j) = Ok (s, t) /\ bm_round (s, t) = Ok l /\
  changed t l i /\ forall w, ~ flushed w ((M + 1) / 2) (w * (M - 1) / 2) i.
Proof.
  exists 18. eexists _, _, _, 8. split; [vm_compute; reflexivity|]. split; [vm_compute; reflexivity|]. split; [left; discriminate|].
  intros w [F _]. change ((18 + 1) / 2) with 9 in F. lia.
Qed.
Print Assumptions C103_bench_flush_merge_refuted.

(** What changes in an erase of key 3 from a leaf of 5: slots 2 and 3, the range that is flushed. *)
Example C103_ex : exists l l', be_prepare 5 (fun j => j) = Ok l /\ be_round 3 l = Ok (true, l') /\ changed l l' 2 /\ changed l l' 3 /\
  flushed 8 2 ((5 - 1 - 2) * 8) 3 /\ ~ flushed 8 2 ((5 - 1 - 2) * 8) 4.
Proof.
  eexists _, _. split; [vm_compute; reflexivity|]. split; [vm_compute; reflexivity|].
  split; [left; discriminate|]. split; [left; discriminate|]. unfold flushed. lia.
Qed.

(** C104: the benchmark of an insert into a leaf (tree_insert.cpp).  For KEYPOS 1, and for the middle if it is a key of one
    leaf, the prepared leaf lacks just this key and the insert makes it the full leaf 1 to LEAFKEYS; for KEYPOS = ELEMENTS
    the key becomes the last one. *)
Theorem C104_bench_insert : forall V M (f : nat -> V), 2 <= M -> forall E k, M <= E ->
  k = 1 \/ (k = (E + 1) / 2 /\ k <= M /\ k <> E) -> exists l l',
  bi_prepare M f E k = Ok l /\ sn l = M - 1 /\ bi_pos k l = Ok (k - 1) /\ bi_round f k l = Ok l' /\ holds l' (entries f (seq 1 M)).
Proof.
  intros V M f H E k ME C. assert (K1 : 1 <= k) by lia.
  destruct (@insert_bench V M f H E k K1 ME) as (a & b & l & l' & EP & _ & LN & R & P & EI & R' & RS).
  { unfold bi_fine. destruct C as [C|(C & D & _)]; [left; exact C|right; right; split; assumption]. }
  assert (RR : bi_result M E k = seq 1 M).
  { unfold bi_result. destruct (Nat.eqb_spec k E) as [->|]; [|reflexivity]. destruct (Nat.eqb_spec E 1); [reflexivity|lia]. }
  rewrite RR in RS. assert (LA : length a = k - 1).
  { assert (LT : length a < length (a ++ k :: b)) by (rewrite app_length; cbn; lia).
    assert (N : nth_error (a ++ k :: b) (length a) = Some k) by (rewrite nth_error_app2, Nat.sub_diag by lia; reflexivity).
    rewrite RS in N, LT. rewrite seq_length in LT.
    apply (nth_error_nth _ _ 0) in N. rewrite seq_nth in N by exact LT. lia. }
  rewrite RS in R'. rewrite LA in P. exists l, l'. splits; try assumption.
  - destruct R as (_ & N & _). rewrite N, ent_len. exact LN.
  - exact (rep_holds R').
Qed.
Print Assumptions C104_bench_insert.

Theorem C104_bench_insert_last : forall V M (f : nat -> V), 2 <= M -> forall E, M <= E -> exists l l',
  bi_prepare M f E E = Ok l /\ sn l = M - 1 /\ bi_round f E l = Ok l' /\ holds l' (entries f (seq 1 (M - 1) ++ [E])).
Proof.
  intros V M f H E ME.
  destruct (@insert_bench V M f H E E ltac:(lia) ME) as (a & b & l & l' & EP & _ & LN & R & P & EI & R' & RS).
  { right. left. split; [reflexivity|exact ME]. }
  assert (RR : bi_result M E E = seq 1 (M - 1) ++ [E]).
  { unfold bi_result. rewrite Nat.eqb_refl. destruct (Nat.eqb_spec E 1); [lia|reflexivity]. }
  rewrite RS, RR in R'. exists l, l'. splits; try assumption.
  - destruct R as (_ & N & _). rewrite N, ent_len. exact LN.
  - exact (rep_holds R').
Qed.
Print Assumptions C104_bench_insert_last.

(** The flush (tree_insert.cpp:117-118) covers what was written, and it stays inside the arrays exactly if ELEMENTS is at
    most LEAFKEYS, that is for TARGET_DEPTH 0. *)
Theorem C104_bench_insert_flush : forall V M (f : nat -> V), 2 <= M -> forall E k l l' p w, M <= E ->
  k = 1 \/ (k = E) \/ (k = (E + 1) / 2 /\ k <= M) ->
  bi_prepare M f E k = Ok l -> bi_pos k l = Ok p -> bi_round f k l = Ok l' ->
  (forall i, changed l l' i -> flushed w p (w * (E - p)) i) /\
  (0 < w -> ((forall i, flushed w p (w * (E - p)) i -> i < M) <-> E <= M)).
Proof.
  intros V M f H E k l l' p w ME C EP P EI. assert (K1 : 1 <= k) by lia.
  destruct (@insert_bench V M f H E k K1 ME) as (a & b & l0 & l0' & EP0 & _ & LN & R & P0 & _).
  { unfold bi_fine. destruct C as [C|[C|C]]; [left; exact C|right; left; split; assumption|right; right; exact C]. }
  rewrite EP0 in EP. injection EP as ->. rewrite P0 in P. injection P as <-. destruct R as (_ & N & _). rewrite ent_len in N.
  assert (LA : length a <= sn l) by (rewrite N, app_length; lia). split.
  - intros i D. pose proof (@insert_frame V M f H k (length a) l l' i P0 EI LA D) as B. unfold flushed. split; [lia|].
    assert (i + 1 <= E) by lia. rewrite <- Nat.mul_add_distr_l. apply Nat.mul_le_mono_l. lia.
  - intros W. split.
    + intros D. assert (F : flushed w (length a) (w * (E - length a)) (E - 1)).
      { unfold flushed. split; [lia|]. rewrite <- Nat.mul_add_distr_l. apply Nat.mul_le_mono_l. lia. }
      apply D in F. lia.
    + intros EM i (_ & F). rewrite <- Nat.mul_add_distr_l in F. apply Nat.mul_le_mono_pos_l in F; [|exact W]. lia.
Qed.
Print Assumptions C104_bench_insert_flush.

(** LEAFKEYS and ELEMENTS of the file: 512 bytes for a leaf, branch nodes of 14 keys, depth 1. *)
Definition pb_elements (M E : nat) : Prop := pb_leaf_keys 8 16 512 = Ok M /\ E = M * (14 + 1) ^ 1.
(** With the values in the file (18 keys, ELEMENTS 270) the flush goes beyond the node, and the middle position does not
    work: the inserts of prepare split the leaf. *)
Theorem C104_bench_insert_flush_inside_refuted : exists M E l p, pb_elements M E /\ bi_prepare M (fun j => j) E 1 = Ok l /\
  bi_pos 1 l = Ok p /\ exists i, flushed 8 p (8 * (E - p)) i /\ 10 * M < i.
Proof.
  exists 18, 270. eexists _, 0. split; [split; reflexivity|]. split; [vm_compute; reflexivity|]. split; [vm_compute; reflexivity|].
  exists 269. unfold flushed. lia.
Qed.
Print Assumptions C104_bench_insert_flush_inside_refuted.
Theorem C104_bench_insert_middle_refuted : exists M E, pb_elements M E /\ bi_prepare M (fun j => j) E ((E + 1) / 2) = UB.
Proof. exists 18, 270. split; [split; reflexivity|]. vm_compute. reflexivity. Qed.
Print Assumptions C104_bench_insert_middle_refuted.

Example C104_ex : (do l <- bi_prepare 5 (fun j => j) 5 3; do a <- sl_scan l; do l' <- bi_round (fun j => j) 3 l; do b <- sl_scan l';
    Ok (map fst a, map fst b)) = Ok ([1; 2; 4; 5], [1; 2; 3; 4; 5])%Z.
Proof. vm_compute. reflexivity. Qed.
