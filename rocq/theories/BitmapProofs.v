(** Bitmap<n> refines the function "bit i of n". *)
From Verif Require Import Base RankModel BitmapModel.
From Coq Require Import NArith.
Open Scope N_scope.

(** Bit [i] of a word list. *)
Definition bit (ws : list N) (i : nat) : bool := N.testbit (nth (i / 64)%nat ws 0) (N.of_nat (i mod 64)).

Definition bm_ok (n : nat) (ws : list N) : Prop :=
  length ws = num_words n /\ (forall w, In w ws -> w < W) /\ (forall i, (n <= i)%nat -> bit ws i = false).

Lemma W_ones : W = N.succ (N.ones 64). Proof. reflexivity. Qed.

Lemma lt_bits w : w < W <-> forall j, 64 <= j -> N.testbit w j = false.
Proof.
  split.
  - intros H j Hj. destruct (N.eq_dec w 0) as [->|NZ]; [apply N.bits_0|].
    apply N.bits_above_log2. apply N.lt_le_trans with 64; auto. apply N.log2_lt_pow2; auto. lia.
  - intros H. destruct (N.eq_dec w 0) as [->|NZ]; [reflexivity|].
    apply N.log2_lt_pow2; [lia|]. destruct (N.lt_ge_cases (N.log2 w) 64) as [L|L]; auto.
    specialize (H _ L). rewrite N.bit_log2 in H by auto. discriminate.
Qed.

Lemma wnot_spec w j : N.testbit (wnot w) j = if j <? 64 then negb (N.testbit w j) else N.testbit w j.
Proof.
  unfold wnot. destruct (N.ltb_spec j 64); [now apply N.lnot_spec_low|now apply N.lnot_spec_high].
Qed.

Lemma wnot_lt w : w < W -> wnot w < W.
Proof.
  rewrite !lt_bits. intros H j Hj. rewrite wnot_spec. destruct (N.ltb_spec j 64); [lia|]. auto.
Qed.

Lemma maskBit_spec p j : N.testbit (maskBit p) j = (j =? N.of_nat (p mod 64)).
Proof.
  unfold maskBit. rewrite N.shiftl_1_l. destruct (N.eqb_spec j (N.of_nat (p mod 64))) as [->|NE].
  - apply N.pow2_bits_true.
  - apply N.pow2_bits_false. congruence.
Qed.

Lemma maskBit_lt p : maskBit p < W.
Proof. apply lt_bits. intros j Hj. rewrite maskBit_spec. apply N.eqb_neq. lia. Qed.

Lemma test_mask w p : negb (N.land w (maskBit p) =? 0) = N.testbit w (N.of_nat (p mod 64)).
Proof.
  destruct (N.testbit w (N.of_nat (p mod 64))) eqn:E.
  - apply negb_true_iff, N.eqb_neq. intros Z.
    assert (X : N.testbit (N.land w (maskBit p)) (N.of_nat (p mod 64)) = true).
    { rewrite N.land_spec, maskBit_spec, E, N.eqb_refl. reflexivity. }
    rewrite Z, N.bits_0 in X. discriminate.
  - apply negb_false_iff, N.eqb_eq. apply N.bits_inj. intros j. rewrite N.land_spec, maskBit_spec, N.bits_0.
    destruct (N.eqb_spec j (N.of_nat (p mod 64))) as [->|]; [now rewrite E|apply andb_false_r].
Qed.

Lemma num_words_pos n i : (i < n)%nat -> (i / 64 < num_words n)%nat.
Proof. unfold num_words. lia. Qed.

Lemma lget_nth {A} (l : list A) i d : (i < length l)%nat -> lget l i = Ok (nth i l d).
Proof. intros H. unfold lget. rewrite (nth_error_nth' l d H). reflexivity. Qed.

Lemma bm_test_ok n ws i : bm_ok n ws -> (i < n)%nat -> bm_test n ws i = Ok (bit ws i).
Proof.
  intros (L & _) Hi. unfold bm_test. destruct (Nat.ltb_spec i n); [|lia].
  rewrite lget_nth with (d := 0) by (rewrite L; now apply num_words_pos).
  cbn [bind]. now rewrite test_mask.
Qed.

Lemma nth_lset {A} (l : list A) i x l' j d : lset l i x = Some l' ->
  nth j l' d = if (j =? i)%nat then x else nth j l d.
Proof.
  intros H. pose proof (lset_nth j H) as E. pose proof (lset_length H) as EL.
  destruct (Nat.eqb_spec j i) as [->|NE].
  - erewrite nth_error_nth; eauto.
  - destruct (nth_error l j) as [y|] eqn:EJ.
    + erewrite nth_error_nth by eauto. symmetry. erewrite nth_error_nth; eauto.
    + rewrite !nth_overflow; auto; apply nth_error_None; congruence.
Qed.

Lemma In_lset {A} (l : list A) i x l' y : lset l i x = Some l' -> In y l' -> y = x \/ In y l.
Proof.
  intros H HI. apply In_nth_error in HI. destruct HI as (j & E). rewrite (lset_nth j H) in E.
  destruct (j =? i)%nat; [left; congruence|right; eapply nth_error_In; eauto].
Qed.

(** Writing one word: the bits of other words are untouched. *)
Lemma bit_lset ws p x ws' i : lset ws (p / 64)%nat x = Some ws' ->
  bit ws' i = if (i / 64 =? p / 64)%nat then N.testbit x (N.of_nat (i mod 64)) else bit ws i.
Proof.
  intros H. unfold bit. rewrite (nth_lset (i/64) 0 H). destruct (i / 64 =? p / 64)%nat; reflexivity.
Qed.

Lemma one_bit n ws p v g : bm_ok n ws -> (p < n)%nat ->
  (forall w, w < W -> g w < W /\ forall j, (j < 64)%nat ->
     N.testbit (g w) (N.of_nat j) = if (j =? p mod 64)%nat then v else N.testbit w (N.of_nat j)) ->
  exists ws', (do w <- lget ws (p / 64)%nat; of_opt (lset ws (p / 64)%nat (g w))) = Ok ws' /\
    bm_ok n ws' /\ forall i, bit ws' i = if (i =? p)%nat then v else bit ws i.
Proof.
  intros (L & HW & HT) Hp Hg.
  assert (Hl : (p / 64 < length ws)%nat) by (rewrite L; now apply num_words_pos).
  rewrite lget_nth with (d := 0) by exact Hl. cbn [bind].
  destruct (lset_some (g (nth (p / 64) ws 0)) Hl) as (ws' & E). rewrite E. cbn [of_opt].
  assert (HWp : nth (p / 64) ws 0 < W) by (apply HW; now apply nth_In).
  destruct (Hg _ HWp) as [G1 G2].
  assert (B : forall i, bit ws' i = if (i =? p)%nat then v else bit ws i).
  { intros i. rewrite (bit_lset i E). destruct (Nat.eqb_spec (i / 64) (p / 64)) as [EQ|NE].
    - rewrite G2 by (apply Nat.mod_upper_bound; lia).
      destruct (Nat.eqb_spec (i mod 64) (p mod 64)), (Nat.eqb_spec i p); try reflexivity; try lia.
      unfold bit. now rewrite EQ.
    - destruct (Nat.eqb_spec i p); [congruence|reflexivity]. }
  exists ws'. splits; auto. unfold bm_ok. splits.
  - rewrite (lset_length E). exact L.
  - intros w Hw. destruct (In_lset E Hw) as [->|]; auto.
  - intros i Hi. rewrite B. destruct (Nat.eqb_spec i p); [lia|]. auto.
Qed.

Lemma set_word p w : w < W -> N.lor w (maskBit p) < W /\ forall j, (j < 64)%nat ->
  N.testbit (N.lor w (maskBit p)) (N.of_nat j) = if (j =? p mod 64)%nat then true else N.testbit w (N.of_nat j).
Proof.
  intros H. split.
  - rewrite lt_bits in *. intros j Hj. rewrite N.lor_spec, H by auto.
    pose proof (maskBit_lt p) as M. rewrite lt_bits in M. now apply M.
  - intros j Hj. rewrite N.lor_spec, maskBit_spec.
    destruct (Nat.eqb_spec j (p mod 64)) as [->|NE].
    + rewrite N.eqb_refl. apply orb_true_r.
    + destruct (N.eqb_spec (N.of_nat j) (N.of_nat (p mod 64))); [lia|]. apply orb_false_r.
Qed.

Lemma reset_word p w : w < W -> N.land w (wnot (maskBit p)) < W /\ forall j, (j < 64)%nat ->
  N.testbit (N.land w (wnot (maskBit p))) (N.of_nat j) = if (j =? p mod 64)%nat then false else N.testbit w (N.of_nat j).
Proof.
  intros H. split.
  - rewrite lt_bits in *. intros j Hj. now rewrite N.land_spec, H by auto.
  - intros j Hj. rewrite N.land_spec, wnot_spec, maskBit_spec.
    destruct (N.ltb_spec (N.of_nat j) 64); [|lia].
    destruct (Nat.eqb_spec j (p mod 64)) as [->|NE].
    + rewrite N.eqb_refl. apply andb_false_r.
    + destruct (N.eqb_spec (N.of_nat j) (N.of_nat (p mod 64))); [lia|]. apply andb_true_r.
Qed.

Lemma bm_set_ok n ws p v : bm_ok n ws -> (p < n)%nat ->
  exists ws', bm_set n ws p v = Ok ws' /\ bm_ok n ws' /\ forall i, bit ws' i = if (i =? p)%nat then v else bit ws i.
Proof.
  intros H Hp. unfold bm_set. destruct (Nat.ltb_spec p n); [|lia]. destruct v.
  - apply one_bit; auto. intros w Hw. now apply set_word.
  - apply one_bit; auto. intros w Hw. now apply reset_word.
Qed.

Lemma bm_reset_ok n ws p : bm_ok n ws -> (p < n)%nat ->
  exists ws', bm_reset n ws p = Ok ws' /\ bm_ok n ws' /\ forall i, bit ws' i = if (i =? p)%nat then false else bit ws i.
Proof.
  intros H Hp. unfold bm_reset. destruct (Nat.ltb_spec p n); [|lia].
  apply one_bit; auto. intros w Hw. now apply reset_word.
Qed.

Lemma bit_new n i : bit (bm_new n) i = false.
Proof.
  unfold bit, bm_new.
  assert (E : nth (i / 64) (repeat 0 (num_words n)) 0 = 0); [|rewrite E; apply N.bits_0].
  generalize (i / 64)%nat. induction (num_words n) as [|k IH]; intros [|j]; simpl; auto.
Qed.

Lemma bm_new_ok n : bm_ok n (bm_new n).
Proof.
  unfold bm_ok. splits.
  - apply repeat_length.
  - intros w Hw. apply repeat_spec in Hw. subst. reflexivity.
  - intros i _. apply bit_new.
Qed.

(** ** flip() and set() *)
Lemma sanitize_mask r j : (0 < r < 64)%nat -> (j < 64)%nat ->
  N.testbit (wnot (N.shiftl allones (N.of_nat r) mod W)) (N.of_nat j) = (j <? r)%nat.
Proof.
  intros Hr Hj. rewrite wnot_spec. destruct (N.ltb_spec (N.of_nat j) 64); [|lia].
  unfold W. rewrite N.mod_pow2_bits_low by lia.
  destruct (Nat.ltb_spec j r).
  - rewrite N.shiftl_spec_low by lia. reflexivity.
  - rewrite N.shiftl_spec_high' by lia. unfold allones. rewrite N.ones_spec_low by lia. reflexivity.
Qed.

Lemma sanitize_ok n ws : (n mod 64 <> 0)%nat -> length ws = num_words n -> (forall w, In w ws -> w < W) ->
  exists ws', sanitize n ws = Ok ws' /\ bm_ok n ws' /\ forall i, (i < n)%nat -> bit ws' i = bit ws i.
Proof.
  intros Hn L HW. unfold sanitize.
  assert (En : (num_words n - 1 = n / 64)%nat) by (unfold num_words; lia).
  assert (Hl : (n / 64 < length ws)%nat) by (rewrite L; unfold num_words; lia).
  rewrite En. rewrite lget_nth with (d := 0) by exact Hl. cbn [bind].
  set (m := wnot (N.shiftl allones (N.of_nat (n mod 64)) mod W)).
  destruct (lset_some (N.land (nth (n / 64) ws 0) m) Hl) as (ws' & E). rewrite E. cbn [of_opt].
  assert (HWn : nth (n / 64) ws 0 < W) by (apply HW; now apply nth_In).
  assert (B : forall i, bit ws' i = if (i <? n)%nat then bit ws i else false).
  { intros i. rewrite (bit_lset i E). destruct (Nat.eqb_spec (i / 64) (n / 64)) as [EQ|NE].
    - rewrite N.land_spec. unfold m. rewrite sanitize_mask by lia. unfold bit. rewrite EQ.
      destruct (Nat.ltb_spec (i mod 64) (n mod 64)), (Nat.ltb_spec i n);
        try (exfalso; lia); [apply andb_true_r|apply andb_false_r].
    - destruct (Nat.ltb_spec i n); [reflexivity|].
      unfold bit. rewrite nth_overflow; [apply N.bits_0|]. rewrite L. unfold num_words. lia. }
  exists ws'. splits; auto.
  - unfold bm_ok. splits.
    + rewrite (lset_length E). exact L.
    + intros w Hw. destruct (In_lset E Hw) as [->|]; auto.
      rewrite lt_bits in *. intros j Hj. now rewrite N.land_spec, HWn by auto.
    + intros i Hi. rewrite B. destruct (Nat.ltb_spec i n); [lia|reflexivity].
  - intros i Hi. rewrite B. destruct (Nat.ltb_spec i n); [reflexivity|lia].
Qed.

Lemma bit_map f ws i : (i / 64 < length ws)%nat ->
  bit (map f ws) i = N.testbit (f (nth (i / 64) ws 0)) (N.of_nat (i mod 64)).
Proof.
  intros H. unfold bit. rewrite nth_indep with (d' := f 0) by now rewrite map_length. now rewrite map_nth.
Qed.

Lemma bm_flip_ok n ws : (n mod 64 <> 0)%nat -> bm_ok n ws ->
  exists ws', bm_flip n ws = Ok ws' /\ bm_ok n ws' /\ forall i, (i < n)%nat -> bit ws' i = negb (bit ws i).
Proof.
  intros Hn (L & HW & HT). unfold bm_flip.
  destruct (@sanitize_ok n (map wnot ws)) as (ws' & E & OK & B); auto.
  { now rewrite map_length. }
  { intros w Hw. apply in_map_iff in Hw. destruct Hw as (x & <- & Hx). apply wnot_lt. auto. }
  exists ws'. splits; auto. intros i Hi. rewrite B by exact Hi.
  rewrite bit_map by (rewrite L; now apply num_words_pos). rewrite wnot_spec.
  destruct (N.ltb_spec (N.of_nat (i mod 64)) 64); [reflexivity|lia].
Qed.

Lemma bm_set_all_ok n ws : (n mod 64 <> 0)%nat -> bm_ok n ws ->
  exists ws', bm_set_all n ws = Ok ws' /\ bm_ok n ws' /\ forall i, (i < n)%nat -> bit ws' i = true.
Proof.
  intros Hn (L & HW & HT). unfold bm_set_all.
  destruct (@sanitize_ok n (map (fun _ => wnot 0) ws)) as (ws' & E & OK & B); auto.
  { now rewrite map_length. }
  { intros w Hw. apply in_map_iff in Hw. destruct Hw as (x & <- & Hx). reflexivity. }
  exists ws'. splits; auto. intros i Hi. rewrite B by exact Hi.
  rewrite bit_map by (rewrite L; now apply num_words_pos). rewrite wnot_spec.
  destruct (N.ltb_spec (N.of_nat (i mod 64)) 64); [|lia]. now rewrite N.bits_0.
Qed.

(** ** all() *)
Lemma eq_ones w k : w < W -> k <= 64 ->
  (w = N.shiftr (wnot 0) k <-> (forall j, (j < 64)%nat -> N.testbit w (N.of_nat j) = (N.of_nat j <? 64 - k))).
Proof.
  intros Hw Hk. split.
  - intros -> j Hj. rewrite N.shiftr_spec'. rewrite wnot_spec, N.bits_0.
    destruct (N.ltb_spec (N.of_nat j + k) 64), (N.ltb_spec (N.of_nat j) (64 - k)); auto; lia.
  - intros H. apply N.bits_inj. intros j. rewrite N.shiftr_spec', wnot_spec, N.bits_0.
    destruct (N.ltb_spec j 64) as [Lj|Lj].
    + replace j with (N.of_nat (N.to_nat j)) by lia. rewrite H by lia.
      destruct (N.ltb_spec (N.of_nat (N.to_nat j) + k) 64), (N.ltb_spec (N.of_nat (N.to_nat j)) (64 - k)); auto; lia.
    + rewrite lt_bits in Hw. rewrite Hw by auto. destruct (N.ltb_spec (j + k) 64); auto; lia.
Qed.

Lemma bm_all_ok n ws : (0 < n)%nat -> bm_ok n ws ->
  exists b, bm_all n ws = Ok b /\ (b = true <-> forall i, (i < n)%nat -> bit ws i = true).
Proof.
  intros Hn (L & HW & HT). unfold bm_all.
  assert (Hl : (num_words n - 1 < length ws)%nat) by (rewrite L; unfold num_words; lia).
  rewrite lget_nth with (d := 0) by exact Hl. cbn [bind].
  eexists. split; [reflexivity|]. rewrite andb_true_iff, forallb_forall, N.eqb_eq.
  set (q := (num_words n - 1)%nat) in *.
  assert (HWq : nth q ws 0 < W) by (apply HW; now apply nth_In).
  rewrite eq_ones; auto.
  2:{ unfold num_words. lia. }
  split.
  - intros [H1 H2] i Hi. destruct (Nat.lt_ge_cases (i / 64) q) as [Lq|Lq].
    + assert (E : nth (i / 64) ws 0 = wnot 0).
      { apply N.eqb_eq. apply H1.
        assert (EN : nth (i / 64) ws 0 = nth (i / 64) (firstn q ws) 0).
        { rewrite <- (firstn_skipn q ws) at 1. apply app_nth1. rewrite firstn_length. lia. }
        rewrite EN. apply nth_In. rewrite firstn_length. lia. }
      unfold bit. rewrite E, wnot_spec, N.bits_0. destruct (N.ltb_spec (N.of_nat (i mod 64)) 64); auto; lia.
    + assert (E : (i / 64 = q)%nat) by (unfold q, num_words in *; lia).
      unfold bit. rewrite E, H2 by (apply Nat.mod_upper_bound; lia).
      apply N.ltb_lt. unfold q, num_words in *. lia.
  - intros H. split.
    + intros w Hw. apply N.eqb_eq. apply In_nth_error in Hw. destruct Hw as (k & Ek).
      assert (Hk : (k < q)%nat).
      { assert (k < length (firstn q ws))%nat by (apply nth_error_Some; congruence). rewrite firstn_length in *. lia. }
      assert (Ew : nth k ws 0 = w).
      { rewrite <- (firstn_skipn q ws). rewrite app_nth1 by (rewrite firstn_length; lia). now apply nth_error_nth. }
      apply N.bits_inj. intros j. rewrite wnot_spec, N.bits_0.
      destruct (N.ltb_spec j 64) as [Lj|Lj].
      * specialize (H (k * 64 + N.to_nat j)%nat). unfold bit in H.
        replace ((k * 64 + N.to_nat j) / 64)%nat with k in H by lia.
        replace ((k * 64 + N.to_nat j) mod 64)%nat with (N.to_nat j) in H by lia.
        rewrite Ew, N2Nat.id in H. apply H. unfold q, num_words in *. lia.
      * assert (Hw : w < W). { rewrite <- Ew. apply HW. apply nth_In. lia. }
        rewrite lt_bits in Hw. auto.
    + intros j Hj. specialize (H (q * 64 + j)%nat). specialize (HT (q * 64 + j)%nat). unfold bit in H, HT.
      replace ((q * 64 + j) / 64)%nat with q in H, HT by lia.
      replace ((q * 64 + j) mod 64)%nat with j in H, HT by lia.
      destruct (N.ltb_spec (N.of_nat j) (64 - N.of_nat (num_words n * 64 - n))).
      * apply H. unfold q, num_words in *. lia.
      * apply HT. unfold q, num_words in *. lia.
Qed.

(** ** getFreeZero / getFirstSet *)
Lemma ctz_decomp w : w <> 0 -> exists c q, w = 2 ^ c * (2 * q + 1).
Proof.
  destruct w as [|p]; [congruence|]. intros _. induction p as [p IH|p IH|].
  - exists 0, (N.pos p). lia.
  - destruct IH as (c & q & E). exists (N.succ c), q. rewrite N.pow_succ_r'. lia.
  - exists 0, 0. reflexivity.
Qed.

Lemma low_bit w : 0 < w -> w < W -> exists c, (c < 64)%nat /\ N.land w (wneg w) = 2 ^ N.of_nat c /\
  N.testbit w (N.of_nat c) = true /\ (forall j, (j < c)%nat -> N.testbit w (N.of_nat j) = false).
Proof.
  intros H0 HW. destruct (@ctz_decomp w) as (c & q & E); [lia|].
  assert (Hc : c < 64).
  { destruct (N.lt_ge_cases c 64) as [|Hc]; auto. exfalso.
    assert (2 ^ 64 <= 2 ^ c) by (apply N.pow_le_mono_r; lia). unfold W in HW. nia. }
  exists (N.to_nat c).
  assert (EW : W = 2 ^ c * (2 * 2 ^ (63 - c))).
  { unfold W. replace 64 with (c + N.succ (63 - c)) at 1 by lia. now rewrite N.pow_add_r, N.pow_succ_r'. }
  assert (Pc : 0 < 2 ^ c) by (apply N.neq_0_lt_0, N.pow_nonzero; lia).
  assert (Hq : q < 2 ^ (63 - c)) by (rewrite E, EW in HW; nia).
  assert (En : wneg w = 2 ^ c * (2 * N.lnot q (63 - c) + 1)).
  { unfold wneg. rewrite N.mod_small by lia. 
    assert (EL : N.lnot q (63 - c) = N.ones (63 - c) - q).
    { destruct (N.eq_dec q 0) as [->|NZ]; [rewrite N.lnot_0_l; lia|].
      apply N.lnot_sub_low. apply N.log2_lt_pow2; lia. }
    rewrite EL, N.ones_equiv. rewrite E, EW. rewrite <- N.mul_sub_distr_l. f_equal. lia. }
  assert (EA : N.land w (wneg w) = 2 ^ c).
  { rewrite En, E. rewrite !(N.mul_comm (2 ^ c)). rewrite <- !N.shiftl_mul_pow2, <- N.shiftl_land.
    replace (N.land (2 * q + 1) (2 * N.lnot q (63 - c) + 1)) with 1; [apply N.shiftl_1_l|].
    apply N.bits_inj. intros j. rewrite N.land_spec.
    destruct (N.eq_dec j 0) as [->|NJ].
    - now rewrite !N.testbit_odd_0.
    - replace j with (N.succ (N.pred j)) by lia. rewrite !N.testbit_odd_succ by lia.
      rewrite <- N.land_spec.
      assert (ED : N.land q (N.lnot q (63 - c)) = 0).
      { destruct (N.eq_dec q 0) as [->|NZ]; [apply N.land_0_l|].
        apply N.land_lnot_diag_low. apply N.log2_lt_pow2; lia. }
      rewrite ED, N.bits_0. symmetry.
      destruct (N.pred j) as [|[]]; reflexivity. }
  splits.
  - lia.
  - rewrite N2Nat.id. exact EA.
  - rewrite N2Nat.id. rewrite E, N.mul_comm, <- N.shiftl_mul_pow2, N.shiftl_spec_high' by lia.
    rewrite N.sub_diag. apply N.testbit_odd_0.
  - intros j Hj. rewrite E, N.mul_comm, <- N.shiftl_mul_pow2, N.shiftl_spec_low by lia. reflexivity.
Qed.

(** The de Bruijn table answers correctly for each of the 64 powers of two. *)
Lemma table_ok : forallb (fun c => match lget tab64 (N.to_nat (N.shiftr ((2 ^ N.of_nat c * deBruijnSeq) mod W) 58)) with
  | Ok r => (r =? c)%nat | _ => false end) (seq 0 64) = true.
Proof. vm_compute. reflexivity. Qed.

Lemma ctz_ok w : 0 < w -> w < W -> exists c, ctz_lookup w = Ok c /\ (c < 64)%nat /\
  N.testbit w (N.of_nat c) = true /\ (forall j, (j < c)%nat -> N.testbit w (N.of_nat j) = false).
Proof.
  intros H0 HW. destruct (low_bit H0 HW) as (c & Hc & E & Hb & Hl). exists c. splits; auto.
  unfold ctz_lookup. rewrite E. pose proof table_ok as T. rewrite forallb_forall in T.
  specialize (T c). rewrite in_seq in T. specialize (T ltac:(lia)).
  destruct (lget tab64 _) as [r| |]; try discriminate. apply Nat.eqb_eq in T. now subst.
Qed.

Lemma first_word_ok f : forall ws k, (forall w, In w ws -> f w < W) ->
  exists r, first_word f k ws = Ok r /\
   ((exists i, r = (64 * k + i)%nat /\ (i / 64 < length ws)%nat /\
       bit (map f ws) i = true /\ forall j, (j < i)%nat -> bit (map f ws) j = false)
    \/ r = (64 * (k + length ws))%nat /\ forall j, (j < 64 * length ws)%nat -> bit (map f ws) j = false).
Proof.
  induction ws as [|w ws IH]; intros k HW.
  - exists (64 * k)%nat. split; [reflexivity|]. right. cbn [length]. split; [lia|]. intros; lia.
  - cbn [first_word].
    assert (B : forall j, bit (map f (w :: ws)) (64 + j) = bit (map f ws) j).
    { intros j. unfold bit. replace ((64 + j) / 64)%nat with (S (j / 64)) by lia.
      replace ((64 + j) mod 64)%nat with (j mod 64)%nat by lia. reflexivity. }
    assert (B0 : forall j, (j < 64)%nat -> bit (map f (w :: ws)) j = N.testbit (f w) (N.of_nat j)).
    { intros j Hj. unfold bit. replace (j / 64)%nat with 0%nat by lia.
      replace (j mod 64)%nat with j by lia. reflexivity. }
    destruct (N.eqb_spec (f w) 0) as [E|NE].
    + destruct (IH (S k)) as (r & Er & C); [intros; apply HW; now right|]. exists r. split; auto.
      destruct C as [(i & Ei & Hi & Hb & Hl)|[Ei Hl]].
      * left. exists (64 + i)%nat. rewrite B. splits; auto; [lia|cbn [length]; lia|].
        intros j Hj. destruct (Nat.lt_ge_cases j 64) as [L|L].
        -- rewrite B0, E by auto. apply N.bits_0.
        -- replace j with (64 + (j - 64))%nat by lia. rewrite B. apply Hl. lia.
      * right. cbn [length] in *. split; [lia|]. intros j Hj. destruct (Nat.lt_ge_cases j 64) as [L|L].
        -- rewrite B0, E by auto. apply N.bits_0.
        -- replace j with (64 + (j - 64))%nat by lia. rewrite B. apply Hl. lia.
    + destruct (@ctz_ok (f w)) as (c & Ec & Hc & Hb & Hl); [lia|apply HW; now left|].
      rewrite Ec. cbn [bind]. eexists. split; [reflexivity|]. left. exists c. splits; auto.
      * cbn [length]. lia.
      * now rewrite B0.
      * intros j Hj. rewrite B0 by lia. auto.
Qed.

Lemma getFreeZero_ok n ws : bm_ok n ws -> exists r, getFreeZero ws = Ok r /\ (r <= n)%nat /\
  (forall j, (j < r)%nat -> bit ws j = true) /\ ((r < n)%nat -> bit ws r = false).
Proof.
  intros (L & HW & HT). unfold getFreeZero.
  destruct (@first_word_ok wnot ws 0) as (r & E & C).
  { intros w Hw. now apply wnot_lt, HW. }
  assert (B : forall i, (i / 64 < length ws)%nat -> bit (map wnot ws) i = negb (bit ws i)).
  { intros i Hi. rewrite bit_map by auto. rewrite wnot_spec. unfold bit.
    destruct (N.ltb_spec (N.of_nat (i mod 64)) 64); [reflexivity|lia]. }
  exists r. split; auto. destruct C as [(i & -> & Hi & Hb & Hl)|[-> Hl]].
  - cbn [Nat.mul Nat.add]. replace (64 * 0 + i)%nat with i by lia.
    assert (Hj : forall j, (j < i)%nat -> bit ws j = true).
    { intros j Hj. specialize (Hl j Hj). rewrite B in Hl by lia. now apply negb_false_iff. }
    splits; auto.
    + destruct (Nat.le_gt_cases i n) as [|G]; auto. specialize (Hj n G). rewrite HT in Hj by lia. discriminate.
    + intros _. rewrite B in Hb by auto. now apply negb_true_iff.
  - assert (Hj : forall j, (j < 64 * length ws)%nat -> bit ws j = true).
    { intros j Hj. specialize (Hl j Hj). rewrite B in Hl by lia. now apply negb_false_iff. }
    rewrite Nat.add_0_l. splits; auto.
    + destruct (Nat.le_gt_cases (64 * length ws) n) as [|G]; auto.
      specialize (Hj n G). rewrite HT in Hj by lia. discriminate.
    + rewrite L. unfold num_words. intros; lia.
Qed.

Lemma getFirstSet_ok n ws : bm_ok n ws -> exists r, getFirstSet ws = Ok r /\
  (((r < n)%nat /\ bit ws r = true /\ forall j, (j < r)%nat -> bit ws j = false) \/
   r = (64 * num_words n)%nat /\ forall j, (j < n)%nat -> bit ws j = false).
Proof.
  intros (L & HW & HT). unfold getFirstSet.
  destruct (@first_word_ok (fun w => w) ws 0) as (r & E & C); auto.
  rewrite map_id in C. exists r. split; auto. destruct C as [(i & -> & Hi & Hb & Hl)|[-> Hl]].
  - left. replace (64 * 0 + i)%nat with i by lia. splits; auto.
    destruct (Nat.lt_ge_cases i n) as [|G]; auto. rewrite HT in Hb by lia. discriminate.
  - right. rewrite L in *. split; auto. intros j Hj. apply Hl. unfold num_words. lia.
Qed.
