(** Initialising a block. *)
From Verif Require Import Base SerModel SerProofs BlockModel BlockSpec LayoutProofs BlockBytes ColProofs InsColProofs BlockProofs.
Open Scope Z_scope.

Lemma page_list_cons s r cur : page_list (s :: r) cur
  = (cur, match r with [] => block_size | _ => cur + s end) :: page_list r (cur + s).
Proof. destruct r; reflexivity. Qed.

Lemma zsum_nonneg_sizes l : Forall (fun x => 0 <= x) l -> 0 <= zsum l.
Proof. exact (@zsum_nonneg l). Qed.

Lemma page_list_chained sizes : forall cur, Forall (fun x => 0 <= x) sizes -> cur + zsum sizes <= block_size ->
  chained cur (page_list sizes cur).
Proof.
  induction sizes as [|s r IH]; intros cur F H.
  - change (zsum []) with 0 in H. cbn [page_list chained]. lia.
  - rewrite zsum_cons in H. inversion F as [|? ? Hs Fr]; subst. pose proof (zsum_nonneg Fr) as Z0.
    rewrite page_list_cons. cbn [chained fst snd]. destruct r as [|s' r].
    + change (zsum []) with 0 in *. splits; [reflexivity|lia|reflexivity|]. cbn. lia.
    + splits; [lia|lia|rewrite page_list_cons; discriminate|]. apply IH; [exact Fr|lia].
Qed.

Lemma page_list_room cs sizes : Forall2 (fun c s => sma_size c <= s) cs sizes -> forall cur,
  cur + zsum sizes <= block_size -> Forall (fun x => 0 <= x) sizes ->
  Forall2 (fun c p => fst p + sma_size c <= snd p) cs (page_list sizes cur).
Proof.
  induction 1 as [|c s cs r H F IH]; intros cur Hs Hn; [constructor|].
  rewrite zsum_cons in Hs. inversion Hn as [|? ? Hn0 Hnr]; subst. pose proof (zsum_nonneg Hnr).
  rewrite page_list_cons. constructor.
  - cbn [fst snd]. destruct r; lia.
  - apply IH; [lia|exact Hnr].
Qed.

Lemma page_list_length sizes : forall cur, length (page_list sizes cur) = length sizes.
Proof. induction sizes as [|s r IH]; intros cur; [reflexivity|]. rewrite page_list_cons. cbn [length]. now rewrite IH. Qed.

Lemma sizes_of_ok cs : Z.of_nat (length cs) <= 800 -> calc_minipage_sizes no_cust cs (block_size - hdr (length cs)) = Ok (sizes_of cs).
Proof.
  intros L. destruct cs as [|c cs0] eqn:E; [reflexivity|]. rewrite <- E in *.
  assert (L1 : (1 <= length cs)%nat) by (rewrite E; cbn [length]; lia). clear E.
  assert (T : 0 <= block_size - hdr (length cs) < 65536) by (unfold block_size, hdr, header_fixed; lia).
  destruct (@minipage_sizes_default cs (block_size - hdr (length cs))) as (sizes & Es); [lia|exact T|].
  rewrite Es. f_equal. unfold calc_minipage_sizes in Es.
  destruct (@weights_range no_cust cs no_cust_ok 0%nat) as (A & B). pose proof (zsum_nonneg A) as A0.
  rewrite portions_spec in Es by (auto using no_cust_ok; lia). rewrite weights_default in Es. cbn [Z.add] in Es.
  pose proof (@portion_sum cs) as Hs.
  apply page_sizes_nth in Es; [exact Es|exact T|lia|lia].
Qed.

Lemma pages_layout cs : Z.of_nat (length cs) <= 800 -> layout cs (pages_of cs).
Proof.
  intros L. pose proof (sizes_of_ok L) as E.
  assert (T : 0 <= block_size - hdr (length cs) < 65536) by (unfold block_size, hdr, header_fixed; lia).
  destruct (@minipage_sizes_fit no_cust cs _ _ no_cust_ok ltac:(lia) T E) as (Len & F & S).
  assert (F0 : Forall (fun x => 0 <= x) (sizes_of cs)) by (eapply Forall_impl; [|exact F]; intros a Ha; cbn in Ha; lia).
  split.
  - apply page_list_chained; [exact F0|]. lia.
  - apply page_list_room; [|lia|exact F0]. eapply summary_fits; [exact L|reflexivity|exact E].
Qed.

Lemma set_offsets_spec cs : forall sizes b i cur sma, length sizes = length cs -> Forall (fun x => 0 <= x) sizes ->
  0 <= i -> 14 + (i + Z.of_nat (length cs)) * 4 <= block_size ->
  0 <= cur -> cur + zsum sizes <= block_size -> 0 <= sma -> sma + 16 * Z.of_nat (length cs) < 4294967296 ->
  exists b', set_offsets b i cs sizes cur sma = Ok (b', sma + zsum (map sma_size cs)) /\
    same_out b b' (14 + i * 4) (14 + (i + Z.of_nat (length cs)) * 4) /\
    forall j c p, nth_error cs j = Some c -> nth_error (page_list sizes cur) j = Some p ->
      reg b' (sma_off_pos + (i + Z.of_nat j) * 4) (image 2 (fst p)) /\
      reg b' (data_off_pos + (i + Z.of_nat j) * 4) (image 2 (fst p + sma_size c)).
Proof.
  induction cs as [|c cs IH]; intros sizes b i cur sma Len F Hi Hb Hc Hs Hm Hm2; cbn [set_offsets].
  - exists b. splits; [cbn; now rewrite Z.add_0_r|apply same_out_refl|]. intros [|j] c p E; discriminate.
  - destruct sizes as [|s sizes]; [discriminate|]. cbn [length] in *. rewrite zsum_cons in Hs.
    inversion F as [|? ? Fs Fr]; subst. pose proof (zsum_nonneg Fr) as Z0.
    assert (Sm : 0 <= sma_size c <= 16) by (destruct c; cbn; lia).
    unfold block_size, sma_off_pos, data_off_pos in *.
    assert (W1 : w16 cur = cur) by (unfold w16; apply Z.mod_small; lia). rewrite W1.
    assert (W2 : w16 (cur + sma_size c) = cur + sma_size c) by (unfold w16; apply Z.mod_small; lia). rewrite W2.
    assert (W3 : w64 (cur + s) = cur + s) by (unfold w64; apply Z.mod_small; lia). rewrite W3.
    assert (W4 : w32 (sma + sma_size c) = sma + sma_size c) by (unfold w32; apply Z.mod_small; lia). rewrite W4.
    destruct (@put_ok 2 b (14 + i * 4) cur) as (b1 & E1 & S1 & R1); [lia|unfold block_size; lia|]. rewrite E1. cbn [bind].
    destruct (@put_ok 2 b1 (16 + i * 4) (cur + sma_size c)) as (b2 & E2 & S2 & R2); [lia|unfold block_size; lia|]. rewrite E2. cbn [bind].
    change (Z.of_nat 2) with 2 in S1, S2.
    destruct (IH sizes b2 (i + 1) (cur + s) (sma + sma_size c)) as (b3 & E3 & S3 & R3); try lia; auto.
    rewrite E3. exists b3. cbn [map]. rewrite zsum_cons. splits.
    + now rewrite Z.add_assoc.
    + eapply same_out_trans; [eapply same_out_wider; [exact S1|lia|lia]|].
      eapply same_out_trans; [eapply same_out_wider; [exact S2|lia|lia]|].
      eapply same_out_wider; [exact S3|lia|lia].
    + intros [|j] c' p E Ep; rewrite page_list_cons in Ep; cbn [nth_error] in E, Ep.
      * injection E as <-. injection Ep as <-. cbn [fst]. rewrite Z.add_0_r. split.
        -- eapply reg_frame; [exact S3|lia|left; rewrite image_length; lia|].
           eapply reg_frame; [exact S2|lia|left; rewrite image_length; lia|exact R1].
        -- eapply reg_frame; [exact S3|lia|left; rewrite image_length; lia|]. exact R2.
      * replace (i + Z.of_nat (S j)) with (i + 1 + Z.of_nat j) by lia. exact (R3 j c' p E Ep).
Qed.

Section Init.
Variables (dlt : Z -> Z -> bool) (dv : Z -> Prop).

Lemma init_block_spec cs lo hi : Z.of_nat (length cs) <= 800 ->
  exists b, init_block cs lo hi = Ok b /\ brep dlt dv cs (pages_of cs) lo hi [] b.
Proof.
  intros L. unfold init_block.
  destruct (@put_ok 4 empty_block 0 lo) as (b1 & E1 & S1 & R1); [lia|unfold block_size; lia|]. rewrite E1. cbn [bind].
  destruct (@put_ok 4 b1 4 hi) as (b2 & E2 & S2 & R2); [lia|unfold block_size; lia|]. rewrite E2. cbn [bind].
  fold (hdr (length cs)). pose proof (sizes_of_ok L) as ES.
  assert (T : 0 <= block_size - hdr (length cs) < 65536) by (unfold block_size, hdr, header_fixed; lia).
  assert (W : w64 (block_size - hdr (length cs)) = block_size - hdr (length cs)).
  { unfold w64. apply Z.mod_small. lia. }
  assert (W' : w16 (block_size - hdr (length cs)) = block_size - hdr (length cs)).
  { unfold w16. apply Z.mod_small. lia. }
  rewrite W, W', ES. cbn [bind].
  destruct (@minipage_sizes_fit no_cust cs _ _ no_cust_ok ltac:(lia) T ES) as (Len & F & S).
  assert (F0 : Forall (fun x => 0 <= x) (sizes_of cs)) by (eapply Forall_impl; [|exact F]; intros a Ha; cbn in Ha; lia).
  destruct (@set_offsets_spec cs (sizes_of cs) b2 0 (hdr (length cs)) 0) as (b3 & E3 & S3 & R3); auto; try lia.
  { unfold block_size; lia. }
  { unfold hdr, header_fixed; lia. }
  rewrite E3. cbn [bind fst snd]. change (14 + 0 * 4) with 14 in S3. cbn [Z.add] in S3.
  unfold free_pos.
  destruct (@put_ok 2 b3 12 (w16 (block_size - hdr (length cs) - (0 + zsum (map sma_size cs))))) as (b4 & E4 & S4 & R4);
    [lia|unfold block_size; lia|].
  rewrite E4. exists b4. split; [reflexivity|]. change (Z.of_nat 2) with 2 in S4. change (Z.of_nat 4) with 4 in *.
  assert (G : forall p l, 0 <= p -> p + Z.of_nat (length l) <= 12 -> reg b2 p l -> reg b4 p l).
  { intros p l H0 H1 Rg. eapply reg_frame; [exact S4|lia|left; lia|]. eapply reg_frame; [exact S3|lia|left; lia|exact Rg]. }
  split.
  - apply G; [lia|rewrite image_length; lia|]. eapply reg_frame; [exact S2|lia|left; rewrite image_length; lia|exact R1].
  - apply G; [lia|rewrite image_length; lia|]. exact R2.
  - apply G; [unfold count_pos; lia|rewrite image_length; unfold count_pos; lia|]. cbn [length].
    eapply reg_frame; [exact S2|unfold count_pos; lia|right; unfold count_pos; lia|].
    eapply reg_frame; [exact S1|unfold count_pos; lia|right; unfold count_pos; lia|].
    vm_compute. repeat split; try (intros C; discriminate C).
  - eapply reg_image_mod; [|exact R4]. unfold room, w16. rewrite columns_used_nil. change (2 ^ (8 * Z.of_nat 2)) with 65536.
    rewrite Z.mod_mod by lia. f_equal. lia.
  - intros i c p Ec Ep. destruct (R3 i c p Ec Ep) as (A & B). cbn [Z.add] in A, B. unfold sma_off_pos, data_off_pos in *.
    split; (eapply reg_frame; [exact S4|lia|right; lia|assumption]).
  - intros i c p Ec Ep. split; [intros j v E; destruct j; discriminate|intros N; cbn in N; congruence].
  - constructor.
  - intros i c p Ec Ep. change (used (column i [])) with 0. destruct (pages_layout L) as (_ & F2).
    clear - F2 Ec Ep. rewrite Z.add_0_r. revert i Ec Ep.
    induction F2 as [|c0 p0 cs0 ps0 H F2 IH]; intros [|i] Ec Ep; try discriminate; cbn [nth_error] in *.
    + injection Ec as <-. injection Ep as <-. exact H.
    + eapply IH; eauto.
Qed.
End Init.
