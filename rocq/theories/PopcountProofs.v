(** The parallel bit count of Bitmap::count() is the number of set bits. *)
From Verif Require Import Base RankModel BitmapModel BitmapProofs.
From Coq Require Import NArith.
Open Scope N_scope.

(** A word written in base 256. *)
Fixpoint join (bs : list N) : N := match bs with [] => 0 | b :: r => b + 256 * join r end.

Fixpoint lanes (k : nat) (w : N) : list N :=
  match k with O => [] | S k => w mod 256 :: lanes k (w / 256) end.

Lemma join_lanes k : forall w, w < 256 ^ N.of_nat k -> join (lanes k w) = w.
Proof.
  induction k as [|k IH]; intros w H; [cbn in *; lia|].
  cbn [lanes join]. rewrite IH.
  - rewrite N.add_comm. symmetry. apply N.div_mod. lia.
  - replace (N.of_nat (S k)) with (N.succ (N.of_nat k)) in H by lia. rewrite N.pow_succ_r' in H.
    apply N.div_lt_upper_bound; lia.
Qed.

Lemma lanes_lt k : forall w b, In b (lanes k w) -> b < 256.
Proof.
  induction k as [|k IH]; intros w b H; [destruct H|]. cbn [lanes] in H. destruct H as [<-|H]; [|eauto].
  apply N.mod_lt. lia.
Qed.

Lemma small_bit a k j : a < 2 ^ k -> k <= j -> N.testbit a j = false.
Proof.
  intros H L. destruct (N.eq_dec a 0) as [->|NZ]; [apply N.bits_0|].
  apply N.bits_above_log2. apply N.lt_le_trans with k; auto. apply N.log2_lt_pow2; lia.
Qed.

Lemma bit_add a b j : a < 256 -> N.testbit (a + 256 * b) j = if j <? 8 then N.testbit a j else N.testbit b (j - 8).
Proof.
  intros Ha.
  assert (E : a + 256 * b = N.lor a (N.shiftl b 8)).
  { rewrite N.shiftl_mul_pow2, (N.mul_comm b). change (2 ^ 8) with 256.
    assert (Z : N.land a (256 * b) = 0); [|rewrite N.add_nocarry_lxor, N.lxor_lor; auto].
    apply N.bits_inj. intros i. rewrite N.land_spec, N.bits_0.
    rewrite (N.mul_comm 256). change 256 with (2 ^ 8). rewrite <- N.shiftl_mul_pow2.
    destruct (N.lt_ge_cases i 8).
    - rewrite N.shiftl_spec_low by auto. apply andb_false_r.
    - rewrite (@small_bit a 8) by auto. reflexivity. }
  rewrite E, N.lor_spec. destruct (N.ltb_spec j 8).
  - rewrite N.shiftl_spec_low by auto. apply orb_false_r.
  - rewrite N.shiftl_spec_high' by auto.
    rewrite (@small_bit a 8) by auto. reflexivity.
Qed.

(** Shift-and-mask works lane by lane if the mask leaves out the bits shifted in. *)
Lemma lane_mask s m : m < 2 ^ (8 - s) -> s <= 8 -> forall bs, (forall b, In b bs -> b < 256) ->
  N.land (N.shiftr (join bs) s) (join (map (fun _ => m) bs)) = join (map (fun b => N.land (N.shiftr b s) m) bs).
Proof.
  intros Hm Hs. induction bs as [|b bs IH]; intros H.
  - cbn [join map]. apply N.land_0_r.
  - cbn [join map].
    assert (Hb : b < 256) by (apply H; now left).
    assert (Hm8 : m < 256).
    { apply N.lt_le_trans with (2 ^ (8 - s)); auto. change 256 with (2 ^ 8). apply N.pow_le_mono_r; lia. }
    assert (Hl : N.land (N.shiftr b s) m < 256).
    { destruct (N.eq_dec (N.land (N.shiftr b s) m) 0) as [->|NZ]; [reflexivity|].
      change 256 with (2 ^ 8). apply N.log2_lt_pow2; [lia|].
      destruct (N.eq_dec m 0) as [->|NM]; [rewrite N.land_0_r in NZ; congruence|].
      eapply N.le_lt_trans; [apply N.log2_land|].
      eapply N.le_lt_trans; [apply N.le_min_r|]. apply N.log2_lt_pow2; [lia|exact Hm8]. }
    rewrite <- IH by (intros; apply H; now right).
    apply N.bits_inj. intros j. rewrite N.land_spec, N.shiftr_spec', !bit_add by auto.
    assert (Mbit : forall i, 8 - s <= i -> N.testbit m i = false).
    { intros i Hi. now apply small_bit with (8 - s). }
    destruct (N.ltb_spec j 8) as [Lj|Lj].
    + rewrite N.land_spec, N.shiftr_spec'. destruct (N.ltb_spec (j + s) 8); [reflexivity|].
      rewrite (Mbit j) by lia. now rewrite !andb_false_r.
    + destruct (N.ltb_spec (j + s) 8); [lia|]. rewrite N.land_spec, N.shiftr_spec'.
      do 2 f_equal. lia.
Qed.

Definition s1 (b : N) : N := b - N.land (N.shiftr b 1) 0x55.
Definition s2 (b : N) : N := N.land b 0x33 + N.land (N.shiftr b 2) 0x33.

Fixpoint nbits (k : nat) (w : N) : nat :=
  match k with O => 0%nat | S k => ((if N.testbit w (N.of_nat k) then 1 else 0) + nbits k w)%nat end.

Lemma byte_ok : forallb (fun i => let b := N.of_nat i in let c := s2 (s1 b) in
   (N.land (N.shiftr b 1) 0x55 <=? b) && (s1 b <? 256) && (c <? 256) && (c mod 16 <=? 4) && (c / 16 <=? 4)
   && (N.land c 0x33 + N.land (N.shiftr c 2) 0x33 <? 256) && (c mod 16 + c / 16 =? N.of_nat (nbits 8 b))) (seq 0 256) = true.
Proof. vm_compute. reflexivity. Qed.

Lemma byte_spec b : b < 256 -> N.land (N.shiftr b 1) 0x55 <= b /\ s1 b < 256 /\ s2 (s1 b) mod 16 <= 4 /\
  s2 (s1 b) / 16 <= 4 /\ s2 (s1 b) mod 16 + s2 (s1 b) / 16 = N.of_nat (nbits 8 b).
Proof.
  intros H. pose proof byte_ok as T. rewrite forallb_forall in T. specialize (T (N.to_nat b)).
  rewrite in_seq in T. specialize (T ltac:(lia)). cbn beta zeta in T. rewrite N2Nat.id in T.
  rewrite !andb_true_iff in T. destruct T as ((((((A1 & A2) & _) & A3) & A4) & _) & A5).
  apply N.leb_le in A1, A3, A4. apply N.ltb_lt in A2. apply N.eqb_eq in A5. auto.
Qed.

Lemma join_lt bs : (forall b, In b bs -> b < 256) -> join bs < 256 ^ N.of_nat (length bs).
Proof.
  induction bs as [|b bs IH]; intros H; [reflexivity|]. cbn [join length].
  replace (N.of_nat (S (length bs))) with (N.succ (N.of_nat (length bs))) by lia. rewrite N.pow_succ_r'.
  specialize (IH (fun x Hx => H x (or_intror Hx))). specialize (H b (or_introl eq_refl)). lia.
Qed.

Lemma join_sub (f g : N -> N) bs : (forall b, In b bs -> g b <= f b) ->
  join (map f bs) - join (map g bs) = join (map (fun b => f b - g b) bs) /\ join (map g bs) <= join (map f bs).
Proof.
  induction bs as [|b bs IH]; intros H; [split; reflexivity|]. cbn [map join].
  destruct IH as [E L]; [intros; apply H; now right|]. specialize (H b (or_introl eq_refl)).
  rewrite <- E. split; lia.
Qed.

Lemma join_add (f g : N -> N) bs : join (map f bs) + join (map g bs) = join (map (fun b => f b + g b) bs).
Proof. induction bs as [|b bs IH]; [reflexivity|]. cbn [map join]. rewrite <- IH. lia. Qed.

(** Bits of a base-256 word, counted lane by lane. *)
Lemma nbits_ext k w v : (forall j, (j < k)%nat -> N.testbit w (N.of_nat j) = N.testbit v (N.of_nat j)) -> nbits k w = nbits k v.
Proof. induction k as [|k IH]; intros H; [reflexivity|]. cbn [nbits]. rewrite H by lia. rewrite IH; auto. Qed.

Lemma nbits_split b w : b < 256 -> forall k, nbits (k + 8) (b + 256 * w) = (nbits 8 b + nbits k w)%nat.
Proof.
  intros Hb. induction k as [|k IH].
  - rewrite Nat.add_0_l. change (nbits 0 w) with 0%nat. rewrite Nat.add_0_r.
    apply nbits_ext. intros j Hj. rewrite bit_add by auto.
    destruct (N.ltb_spec (N.of_nat j) 8); [reflexivity|lia].
  - cbn [Nat.add]. set (n8 := nbits 8 b) in *. cbn [nbits]. rewrite IH, bit_add by auto.
    destruct (N.ltb_spec (N.of_nat (k + 8)) 8); [lia|].
    replace (N.of_nat (k + 8) - 8) with (N.of_nat k) by lia. lia.
Qed.

Lemma land15 a : N.land a 15 = a mod 16.
Proof. change 15 with (N.ones 4). now rewrite N.land_ones. Qed.

Lemma mod16 a x : a < 16 -> (a + 16 * x) mod 16 = a.
Proof. intros H. rewrite (N.mul_comm 16), N.mod_add by lia. now apply N.mod_small. Qed.

Lemma mul_step d0 d1 d2 d3 d4 d5 d6 d7 :
  d0 < 16 -> d1 < 16 -> d2 < 16 -> d3 < 16 -> d4 < 16 -> d5 < 16 -> d6 < 16 -> d7 < 16 ->
  N.shiftr ((join [d0; d1; d2; d3; d4; d5; d6; d7] * (wnot 0 / 255)) mod W) ((8 - 1) * 8)
  = d0 + d1 + d2 + d3 + d4 + d5 + d6 + d7.
Proof.
  intros. rewrite N.shiftr_div_pow2. change (2 ^ ((8 - 1) * 8)) with 72057594037927936.
  change (wnot 0 / 255) with (join [1;1;1;1;1;1;1;1]). change W with 18446744073709551616.
  set (low := join [d0; d0+d1; d0+d1+d2; d0+d1+d2+d3; d0+d1+d2+d3+d4; d0+d1+d2+d3+d4+d5; d0+d1+d2+d3+d4+d5+d6]).
  set (s7 := d0+d1+d2+d3+d4+d5+d6+d7).
  assert (Ll : low < 72057594037927936).
  { assert (J : low < 256 ^ N.of_nat 7) by (unfold low; apply join_lt; intros b Hb; cbn [In] in Hb; intuition (subst; lia)).
    exact J. }
  assert (E : join [d0; d1; d2; d3; d4; d5; d6; d7] * join [1;1;1;1;1;1;1;1]
    = (low + s7 * 72057594037927936) + join [d1+d2+d3+d4+d5+d6+d7; d2+d3+d4+d5+d6+d7; d3+d4+d5+d6+d7; d4+d5+d6+d7; d5+d6+d7; d6+d7; d7] * 18446744073709551616).
  { unfold low, s7. cbn [join]. ring. }
  rewrite E, N.mod_add by discriminate.
  rewrite N.mod_small by (unfold s7; lia). rewrite N.div_add by discriminate.
  rewrite N.div_small by exact Ll. reflexivity.
Qed.

(** Third and fourth step, on lanes whose nibbles are at most 4. *)
Lemma tail_steps cs : length cs = 8%nat -> (forall c, In c cs -> c mod 16 <= 4 /\ c / 16 <= 4) ->
  N.shiftr ((N.land ((join cs + N.shiftr (join cs) 4) mod W) (wnot 0 / 255 * 15) * (wnot 0 / 255)) mod W) ((8 - 1) * 8)
  = fold_right (fun c a => c mod 16 + c / 16 + a) 0 cs.
Proof.
  intros L H.
  assert (exists ls, length ls = 8%nat /\ cs = map (fun p => fst p + 16 * snd p) ls /\
    forall p, In p ls -> fst p <= 4 /\ snd p <= 4) as (ls & LL & -> & Hl).
  { exists (map (fun c => (c mod 16, c / 16)) cs). rewrite map_length, map_map. splits; auto.
    - rewrite <- (map_id cs) at 1. apply map_ext. intros c. cbn [fst snd]. pose proof (N.div_mod c 16). lia.
    - intros p Hp. apply in_map_iff in Hp. destruct Hp as (c & <- & Hc). apply (H c Hc). }
  assert (EF : fold_right (fun c a => c mod 16 + c / 16 + a) 0 (map (fun p => fst p + 16 * snd p) ls)
             = fold_right (fun p a => fst p + snd p + a) 0 ls).
  { clear LL L H. induction ls as [|p ls IH]; [reflexivity|]. cbn [map fold_right].
    rewrite IH by (intros; apply Hl; now right). specialize (Hl p (or_introl eq_refl)).
    rewrite (N.mul_comm 16), N.mod_add, N.div_add by lia. rewrite N.mod_small, N.div_small by lia. reflexivity. }
  rewrite EF. clear EF L H.
  do 8 (destruct ls as [|[? ?] ls]; [discriminate|]). destruct ls; [|discriminate]. clear LL.
  repeat match type of Hl with forall p, In p (?x :: ?l) -> _ =>
    let S := fresh "S" in pose proof (Hl x (or_introl eq_refl)) as S; cbn [fst snd] in S;
    let H := fresh in assert (H : forall p, In p l -> fst p <= 4 /\ snd p <= 4) by (intros; apply Hl; now right);
    clear Hl; rename H into Hl end.
  clear Hl. cbn [map fst snd fold_right].
  match goal with |- context [join [?a0 + 16 * ?b0; ?a1 + 16 * ?b1; ?a2 + 16 * ?b2; ?a3 + 16 * ?b3;
     ?a4 + 16 * ?b4; ?a5 + 16 * ?b5; ?a6 + 16 * ?b6; ?a7 + 16 * ?b7]] =>
    set (J := join _);
    assert (ES : (J + N.shiftr J 4) mod W = join [a0 + b0 + 16 * (b0 + a1); a1 + b1 + 16 * (b1 + a2); a2 + b2 + 16 * (b2 + a3);
      a3 + b3 + 16 * (b3 + a4); a4 + b4 + 16 * (b4 + a5); a5 + b5 + 16 * (b5 + a6); a6 + b6 + 16 * (b6 + a7); a7 + b7 + 16 * b7]);
    [|rewrite ES; clear ES J; pose proof (@lane_mask 0 15 eq_refl ltac:(lia) [a0 + b0 + 16 * (b0 + a1); a1 + b1 + 16 * (b1 + a2); a2 + b2 + 16 * (b2 + a3);
      a3 + b3 + 16 * (b3 + a4); a4 + b4 + 16 * (b4 + a5); a5 + b5 + 16 * (b5 + a6); a6 + b6 + 16 * (b6 + a7); a7 + b7 + 16 * b7]) as LM]
  end.
  - rewrite N.shiftr_div_pow2. change (2 ^ 4) with 16. unfold J. cbn [join]. unfold W.
    rewrite N.mod_small; lia.
  - rewrite N.shiftr_0_r in LM.
    change (wnot 0 / 255 * 15) with (join (map (fun _ : N => 15) [0;0;0;0;0;0;0;0])).
    cbn [map] in LM |- *. rewrite LM; clear LM.
    2:{ intros c Hc. cbn [In] in Hc. intuition (subst; lia). }
    rewrite !N.shiftr_0_r, !land15.
    rewrite !mod16 by lia.
    rewrite mul_step by lia. lia.
Qed.

Theorem popcount_ok w : w < W -> popcount w = N.of_nat (nbits 64 w).
Proof.
  intros HW. pose proof (@join_lanes 8 w) as EJ. specialize (EJ HW).
  pose proof (lanes_lt (k := 8) (w := w)) as HL. set (bs := lanes 8 w) in *.
  assert (LB : length bs = 8%nat) by reflexivity.
  assert (EB : nbits 64 w = fold_right (fun b a => (nbits 8 b + a)%nat) 0%nat bs).
  { rewrite <- EJ. clear EJ HW. clearbody bs. clear w.
    change 64%nat with (8 * 8)%nat. rewrite <- LB at 1. clear LB. induction bs as [|b bs IH]; [reflexivity|].
    cbn [length join fold_right]. replace (S (length bs) * 8)%nat with (length bs * 8 + 8)%nat by lia.
    rewrite nbits_split by (apply HL; now left). rewrite IH by (intros; apply HL; now right). reflexivity. }
  rewrite EB. clear EB. rewrite <- EJ at 1. clear EJ HW. clearbody bs. clear w.
  (* first step *)
  assert (M1 : wnot 0 / 3 = join (map (fun _ => 0x55) bs)).
  { do 8 (destruct bs as [|? bs]; [discriminate|]). destruct bs; [|discriminate]. reflexivity. }
  assert (M2 : wnot 0 / 15 * 3 = join (map (fun _ => 0x33) bs)).
  { do 8 (destruct bs as [|? bs]; [discriminate|]). destruct bs; [|discriminate]. reflexivity. }
  assert (E1 : (join bs + W - N.land (N.shiftr (join bs) 1) (wnot 0 / 3)) mod W = join (map s1 bs)).
  { rewrite M1, lane_mask by (auto; first [reflexivity|discriminate]).
    destruct (@join_sub (fun b => b) (fun b => N.land (N.shiftr b 1) 0x55) bs) as [E L].
    { intros b Hb. apply (byte_spec (HL b Hb)). }
    rewrite map_id in E, L. fold s1 in E. change (fun b => b - N.land (N.shiftr b 1) 85) with s1 in E.
    replace (join bs + W - join (map (fun b => N.land (N.shiftr b 1) 85) bs))
      with (join (map s1 bs) + 1 * W) by lia.
    rewrite N.mod_add by discriminate. apply N.mod_small.
    assert (J : join (map s1 bs) < 256 ^ N.of_nat (length (map s1 bs))).
    { apply join_lt. intros x Hx. apply in_map_iff in Hx. destruct Hx as (b & <- & Hb). apply (byte_spec (HL b Hb)). }
    rewrite map_length, LB in J. exact J. }
  unfold popcount. rewrite E1. clear E1. cbv zeta.
  set (cs := map s1 bs) in *.
  assert (HC : forall c, In c cs -> c < 256).
  { intros x Hx. apply in_map_iff in Hx. destruct Hx as (b & <- & Hb). apply (byte_spec (HL b Hb)). }
  assert (M2' : wnot 0 / 15 * 3 = join (map (fun _ => 0x33) cs)).
  { rewrite M2. unfold cs. now rewrite map_map. }
  assert (E2 : (N.land (join cs) (wnot 0 / 15 * 3) + N.land (N.shiftr (join cs) 2) (wnot 0 / 15 * 3)) mod W = join (map s2 cs)).
  { rewrite M2', lane_mask by (auto; first [reflexivity|discriminate]).
    pose proof (@lane_mask 0 0x33 eq_refl ltac:(lia) cs HC) as LM. rewrite N.shiftr_0_r in LM. rewrite LM.
    rewrite join_add. apply N.mod_small.
    assert (J : join (map s2 cs) < 256 ^ N.of_nat (length (map s2 cs))).
    { apply join_lt. intros x Hx. apply in_map_iff in Hx. destruct Hx as (c & <- & Hc).
      apply in_map_iff in Hc. destruct Hc as (b & <- & Hb). destruct (byte_spec (HL b Hb)) as (_ & _ & A & B & _). lia. }
    rewrite map_length in J. unfold cs in J at 2. rewrite map_length, LB in J.
    exact J. }
  rewrite E2. clear E2 M2 M2'. unfold cs. rewrite map_map. clear HC cs M1.
  rewrite tail_steps.
  - clear LB. induction bs as [|b bs IH]; [reflexivity|]. cbn [map fold_right].
    rewrite IH by (intros; apply HL; now right). destruct (byte_spec (HL b (or_introl eq_refl))) as (_ & _ & _ & _ & E).
    lia.
  - now rewrite map_length.
  - intros c Hc. apply in_map_iff in Hc. destruct Hc as (b & <- & Hb).
    destruct (byte_spec (HL b Hb)) as (_ & _ & A & B & _). auto.
Qed.

(** ** count() *)
Definition cnt (f : nat -> bool) (lo n : nat) : nat := length (filter f (seq lo n)).

Lemma cnt_app f lo a b : cnt f lo (a + b) = (cnt f lo a + cnt f (lo + a) b)%nat.
Proof. unfold cnt. now rewrite seq_app, filter_app, app_length. Qed.

Lemma cnt_ext f g lo n : (forall i, (lo <= i < lo + n)%nat -> f i = g i) -> cnt f lo n = cnt g lo n.
Proof.
  revert lo; induction n as [|n IH]; intros lo H; [reflexivity|]. unfold cnt in *. cbn [seq filter].
  rewrite H by lia. destruct (g lo); cbn [length]; rewrite IH; auto; intros; apply H; lia.
Qed.

Lemma cnt_shift f d lo n : cnt f (d + lo) n = cnt (fun i => f (d + i)%nat) lo n.
Proof.
  revert lo; induction n as [|n IH]; intros lo; [reflexivity|]. unfold cnt in *. cbn [seq filter].
  rewrite <- Nat.add_succ_r. destruct (f (d + lo)%nat); cbn [length]; now rewrite IH.
Qed.

Lemma cnt_nbits w k : cnt (fun i => N.testbit w (N.of_nat i)) 0 k = nbits k w.
Proof.
  induction k as [|k IH]; [reflexivity|]. rewrite <- Nat.add_1_r, cnt_app, IH, Nat.add_1_r. cbn [nbits].
  unfold cnt. cbn [Nat.add seq filter]. destruct (N.testbit w (N.of_nat k)); cbn [length]; lia.
Qed.

Lemma cnt_le f lo n : (cnt f lo n <= n)%nat.
Proof. unfold cnt. rewrite <- (seq_length n lo) at 2.
  induction (seq lo n) as [|x l IH]; [reflexivity|]. cbn [filter]. destruct (f x); cbn [length]; lia. Qed.

Lemma cnt_words : forall ws, (forall w, In w ws -> w < W) ->
  cnt (bit ws) 0 (64 * length ws) = fold_right (fun w a => (nbits 64 w + a)%nat) 0%nat ws.
Proof.
  induction ws as [|w ws IH]; intros H; [reflexivity|]. cbn [length fold_right].
  replace (64 * S (length ws))%nat with (64 + 64 * length ws)%nat by lia. rewrite cnt_app. f_equal.
  - rewrite <- cnt_nbits. apply cnt_ext. intros i Hi. unfold bit.
    replace (i / 64)%nat with 0%nat by lia. replace (i mod 64)%nat with i by lia. reflexivity.
  - rewrite <- IH by (intros; apply H; now right). rewrite Nat.add_0_l.
    pose proof (cnt_shift (bit (w :: ws)) 64 0 (64 * length ws)) as X. rewrite Nat.add_0_r in X. rewrite X.
    apply cnt_ext. intros i Hi. unfold bit.
    replace ((64 + i) / 64)%nat with (S (i / 64)) by lia.
    replace ((64 + i) mod 64)%nat with (i mod 64)%nat by lia. reflexivity.
Qed.

Theorem bm_count_ok n ws : N.of_nat n < W -> bm_ok n ws -> bm_count ws = N.of_nat (cnt (bit ws) 0 n).
Proof.
  intros Hn (L & HW & HT).
  assert (EC : cnt (bit ws) 0 n = fold_right (fun w a => (nbits 64 w + a)%nat) 0%nat ws).
  { rewrite <- cnt_words by exact HW.
    replace (64 * length ws)%nat with (n + (64 * length ws - n))%nat by (rewrite L; unfold num_words; lia).
    rewrite cnt_app. assert (E0 : cnt (bit ws) (0 + n) (64 * length ws - n) = 0%nat); [|lia].
    rewrite cnt_ext with (g := fun _ => false) by (intros; apply HT; lia).
    unfold cnt. induction (seq _ _); auto. }
  pose proof (cnt_le (bit ws) 0 n) as LE. rewrite EC in *. clear EC HT L.
  unfold bm_count. rewrite <- (N.add_0_l (N.of_nat _)).
  assert (G : forall c, c + N.of_nat (fold_right (fun w a => (nbits 64 w + a)%nat) 0%nat ws) < W ->
    fold_left (fun c w => (c + popcount w) mod W) ws c = c + N.of_nat (fold_right (fun w a => (nbits 64 w + a)%nat) 0%nat ws)).
  { clear LE. induction ws as [|w ws IH]; intros c Hc; [cbn; lia|]. cbn [fold_left fold_right] in *.
    rewrite popcount_ok by (apply HW; now left). set (b := nbits 64 w) in *. rewrite N.mod_small by lia. rewrite IH; [lia| |lia].
    intros; apply HW; now right. }
  apply G. lia.
Qed.

(** ** Histories *)
Definition bm_valid (n : nat) (o : bmop) : Prop :=
  match o with BSet p _ | BReset p => (p < n)%nat | BFlip | BSetAll => True end.
(** What an operation does to the state "bit i". *)
Definition f_step (f : nat -> bool) (o : bmop) : nat -> bool :=
  match o with
  | BSet p v => fun i => if (i =? p)%nat then v else f i
  | BReset p => fun i => if (i =? p)%nat then false else f i
  | BFlip => fun i => negb (f i)
  | BSetAll => fun _ => true
  end.
Definition f_run (os : list bmop) : nat -> bool := fold_left f_step os (fun _ => false).

Lemma f_step_ext f g o n : (forall i, (i < n)%nat -> f i = g i) -> forall i, (i < n)%nat -> f_step f o i = f_step g o i.
Proof. intros H i Hi. destruct o; cbn [f_step]; try reflexivity; try (destruct (i =? pos)%nat; auto); now rewrite H. Qed.

Lemma bm_step_ok n ws o : (n mod 64 <> 0)%nat -> bm_ok n ws -> bm_valid n o ->
  exists ws', bm_step n ws o = Ok ws' /\ bm_ok n ws' /\ forall i, (i < n)%nat -> bit ws' i = f_step (bit ws) o i.
Proof.
  intros Hn H HV. destruct o as [p v|p| |]; cbn [bm_step f_step bm_valid] in *.
  - destruct (bm_set_ok v H HV) as (ws' & E & OK & B). exists ws'. auto.
  - destruct (bm_reset_ok H HV) as (ws' & E & OK & B). exists ws'. auto.
  - destruct (bm_flip_ok Hn H) as (ws' & E & OK & B). exists ws'. auto.
  - destruct (bm_set_all_ok Hn H) as (ws' & E & OK & B). exists ws'. auto.
Qed.

Lemma f_fold_ext n os : forall f g, (forall i, (i < n)%nat -> f i = g i) ->
  forall i, (i < n)%nat -> fold_left f_step os f i = fold_left f_step os g i.
Proof.
  induction os as [|o os IH]; intros f g H i Hi; cbn [fold_left]; [auto|].
  apply IH; auto. intros j Hj. now apply f_step_ext with n.
Qed.

Lemma bm_run_ok n os : (n mod 64 <> 0)%nat -> forall ws, bm_ok n ws -> Forall (bm_valid n) os ->
  exists ws', bm_run n ws os = Ok ws' /\ bm_ok n ws' /\ forall i, (i < n)%nat -> bit ws' i = fold_left f_step os (bit ws) i.
Proof.
  intros Hn. induction os as [|o os IH]; intros ws H HV; cbn [bm_run fold_left].
  - exists ws. auto.
  - inversion HV as [|? ? V1 V2]; subst. destruct (bm_step_ok Hn H V1) as (ws1 & E & OK & B).
    rewrite E. cbn [bind]. destruct (IH ws1 OK V2) as (ws2 & E2 & OK2 & B2). exists ws2. splits; auto.
    intros i Hi. rewrite B2 by exact Hi. now apply f_fold_ext with n.
Qed.

Theorem bm_history n os : (n mod 64 <> 0)%nat -> Forall (bm_valid n) os ->
  exists ws, bm_run n (bm_new n) os = Ok ws /\ bm_ok n ws /\ forall i, (i < n)%nat -> bit ws i = f_run os i.
Proof.
  intros Hn HV. destruct (bm_run_ok Hn (bm_new_ok n) HV) as (ws & E & OK & B). exists ws. splits; auto.
  intros i Hi. rewrite B by exact Hi. apply f_fold_ext with n; auto. intros; apply bit_new.
Qed.

(** For any n, histories of set(pos,v) / reset(pos) only. *)
Definition single (o : bmop) : Prop := match o with BSet _ _ | BReset _ => True | _ => False end.
Theorem bm_history_single n os : Forall (bm_valid n) os -> Forall single os ->
  exists ws, bm_run n (bm_new n) os = Ok ws /\ bm_ok n ws /\ forall i, (i < n)%nat -> bit ws i = f_run os i.
Proof.
  intros HV HS.
  assert (G : forall ws, bm_ok n ws -> exists ws', bm_run n ws os = Ok ws' /\ bm_ok n ws' /\
    forall i, (i < n)%nat -> bit ws' i = fold_left f_step os (bit ws) i).
  { induction os as [|o os IH]; intros ws H; cbn [bm_run fold_left].
    - exists ws. auto.
    - inversion HV as [|? ? V1 V2]; inversion HS as [|? ? S1 S2]; subst.
      assert (exists ws1, bm_step n ws o = Ok ws1 /\ bm_ok n ws1 /\ forall i, (i < n)%nat -> bit ws1 i = f_step (bit ws) o i)
        as (ws1 & E & OK & B).
      { destruct o as [p v|p| |]; cbn [bm_step f_step bm_valid single] in *; try contradiction.
        - destruct (bm_set_ok v H V1) as (ws' & E & OK & B). exists ws'. auto.
        - destruct (bm_reset_ok H V1) as (ws' & E & OK & B). exists ws'. auto. }
      rewrite E. cbn [bind]. destruct (IH V2 S2 ws1 OK) as (ws2 & E2 & OK2 & B2). exists ws2. splits; auto.
      intros i Hi. rewrite B2 by exact Hi. now apply f_fold_ext with n. }
  destruct (G _ (bm_new_ok n)) as (ws & E & OK & B). exists ws. splits; auto.
  intros i Hi. rewrite B by exact Hi. apply f_fold_ext with n; auto. intros; apply bit_new.
Qed.

(** ** Random *)
Definition rnd_ok (s : N) : Prop := 1 <= s <= 2147483646.

Lemma land_RM p : N.land p RM = p mod 2147483648.
Proof. change RM with (N.ones 31). now rewrite N.land_ones. Qed.

Lemma rnd_new_ok s : rnd_ok (rnd_new s).
Proof.
  unfold rnd_new, rnd_ok. change 0x7fffffff with RM. rewrite land_RM. unfold RM.
  destruct (N.eqb_spec (s mod 2147483648) 0), (N.eqb_spec (s mod 2147483648) 2147483647); cbn [orb]; lia.
Qed.

Lemma rnd_next_ok s : rnd_ok s -> rnd_next s = (16807 * s) mod 2147483647 /\ rnd_ok (rnd_next s).
Proof.
  unfold rnd_ok. intros H.
  assert (NZ : (16807 * s) mod 2147483647 <> 0).
  { intros E. apply N.mod_divide in E; [|discriminate]. apply N.gauss in E; [|reflexivity].
    apply N.divide_pos_le in E; lia. }
  assert (E : rnd_next s = (16807 * s) mod 2147483647).
  { unfold rnd_next. rewrite land_RM, N.shiftr_div_pow2. change (2 ^ 31) with 2147483648.
    change (2 ^ 32) with 4294967296. unfold W. change (2 ^ 64) with 18446744073709551616. unfold RM.
    rewrite (N.mod_small (s * 16807)) by lia. rewrite (N.mul_comm s).
    set (p := 16807 * s) in *. assert (p < 36092975319482) by lia.
    assert (EM : p mod 2147483647 = (p / 2147483648 + p mod 2147483648) mod 2147483647).
    { rewrite (N.div_mod p 2147483648) at 1 by discriminate.
      replace (2147483648 * (p / 2147483648) + p mod 2147483648)
        with (p / 2147483648 + p mod 2147483648 + (p / 2147483648) * 2147483647) by lia.
      now rewrite N.mod_add by discriminate. }
    rewrite EM in NZ |- *. 
    assert (B : p / 2147483648 + p mod 2147483648 < 4294967294) by lia.
    set (q := p / 2147483648 + p mod 2147483648) in *. clearbody q p. clear EM.
    rewrite (N.mod_small q 4294967296) by lia.
    destruct (N.ltb_spec 2147483647 q).
    - replace (q mod 2147483647) with ((q - 2147483647 + 1 * 2147483647) mod 2147483647) by (f_equal; lia).
      rewrite N.mod_add by discriminate. now rewrite N.mod_small by lia.
    - destruct (N.eq_dec q 2147483647) as [->|]; [exfalso; apply NZ; reflexivity|].
      now rewrite N.mod_small by lia. }
  rewrite E. split; auto.
  assert ((16807 * s) mod 2147483647 < 2147483647) by (apply N.mod_lt; discriminate). lia.
Qed.
