(** Proofs about the computations of the benchmarks. *)
From Coq Require Import Zpow_facts Sorted.
From Verif Require Import Base BenchModel BenchSpec.
Open Scope nat_scope.

(** ** Sizes *)
Lemma shrink_ok : forall size T n,
  (exists m, shrink size T n = Ok m /\ size m <= T /\ forall j, j <= n -> size j <= T -> j <= m)
  \/ (shrink size T n = UB /\ forall j, j <= n -> T < size j).
Proof.
  intros size T n. induction n as [|n IH]; cbn [shrink].
  - destruct (Nat.leb_spec (size 0) T).
    + left. exists 0. splits; auto.
    + right. split; [reflexivity|]. intros j Hj. replace j with 0 by lia. assumption.
  - destruct (Nat.leb_spec (size (S n)) T).
    + left. exists (S n). splits; auto.
    + destruct IH as [(m & E & F & G)|(E & G)].
      * left. exists m. splits; [assumption|assumption|]. intros j Hj Hs.
        destruct (Nat.eq_dec j (S n)) as [->|]; [lia|]. apply G; lia.
      * right. split; [assumption|]. intros j Hj.
        destruct (Nat.eq_dec j (S n)) as [->|]; [lia|]. apply G; lia.
Qed.

Lemma search_ok : forall (fits : nat -> Prop) size h w T,
  0 < w -> (forall n, fits n <-> size n <= T) -> (forall n, h + n * w <= size n) ->
  sized fits (do a <- csub T h; do n <- cdiv a w; shrink size T n).
Proof.
  intros fits size h w T W F G. unfold csub.
  destruct (Nat.ltb_spec T h) as [HT|HT]; cbn [bind].
  - right. split; [reflexivity|]. intros n Hn. apply F in Hn. specialize (G n). lia.
  - unfold cdiv. destruct (Nat.eqb_spec w 0); [lia|]. cbn [bind].
    assert (U : forall j, size j <= T -> j <= (T - h) / w).
    { intros j Hj. specialize (G j). apply Nat.div_le_lower_bound; [lia|]. rewrite Nat.mul_comm. lia. }
    destruct (shrink_ok size T ((T - h) / w)) as [(m & E & A & B)|(E & A)].
    + left. exists m. split; [exact E|]. split; [apply F; exact A|].
      intros j Hj. apply F in Hj. apply B; auto.
    + right. split; [exact E|]. intros x Hx. apply F in Hx. specialize (A x (U x Hx)). lia.
Qed.

Lemma padded_up : forall a x y, 0 < a -> padded a x y <-> y = (x + (a - 1)) / a * a.
Proof.
  intros a x y Ha. pose proof (Nat.div_mod_eq (x + (a - 1)) a) as D.
  pose proof (Nat.mod_upper_bound (x + (a - 1)) a ltac:(lia)) as M.
  set (q := (x + (a - 1)) / a) in *. set (r := (x + (a - 1)) mod a) in *. split.
  - intros (A & B & C). apply Nat.mod_divides in A; [|lia]. destruct A as (c & ->).
    assert (c = q); [|nia]. nia.
  - intros ->. repeat split; [apply Nat.mod_mul; lia|nia|nia].
Qed.
Lemma padded8 : forall x y, padded 8 x y <-> y = (x + 7) / 8 * 8.
Proof. intros. apply padded_up. lia. Qed.
Lemma padded64 : forall x y, padded 64 x y <-> y = (x + 63) / 64 * 64.
Proof. intros. apply padded_up. lia. Qed.
Lemma bitmap_up : forall n b, bitmap_bytes n b <-> b = (n + 63) / 64 * 8.
Proof. intros. unfold bitmap_bytes. rewrite padded64. lia. Qed.

Lemma up64_pos : forall x, 0 < x -> 64 <= (x + 63) / 64 * 64.
Proof. intros. lia. Qed.

Lemma wb_branch_fits_size : forall k p T n, wb_branch_fits k p T n <-> wb_branch_size k p n <= T.
Proof.
  intros k p T n. unfold wb_branch_fits, wb_branch_size. cbv zeta. split.
  - intros (s & b & h & A & B & C & D). apply padded8 in A. apply bitmap_up in B. apply padded64 in C.
    subst s b h. rewrite Nat.mul_add_distr_l. nia.
  - intros H. do 3 eexists. rewrite padded8, bitmap_up, padded64. splits; try reflexivity.
    rewrite Nat.mul_add_distr_l in H. nia.
Qed.

Lemma wb_branch_sized : forall k p T, 0 < k -> sized (wb_branch_fits k p T) (wb_branch_keys k p T).
Proof.
  intros k p T K. pose proof (@search_ok (wb_branch_fits k p T) (wb_branch_size k p) (64 + p) (k + p) T) as H.
  assert (E : wb_branch_keys k p T = do a <- csub T (64 + p); do n <- cdiv a (k + p); shrink (wb_branch_size k p) T n).
  { unfold wb_branch_keys, csub.
    destruct (Nat.ltb_spec T 64); destruct (Nat.ltb_spec T (64 + p)); cbn [bind]; try lia; try reflexivity.
    - destruct (Nat.ltb_spec (T - 64) p); [reflexivity|lia].
    - destruct (Nat.ltb_spec (T - 64) p); [lia|]. cbn [bind]. rewrite Nat.sub_add_distr. reflexivity. }
  rewrite E. apply H; [lia|apply wb_branch_fits_size|].
  intros n. unfold wb_branch_size. cbv zeta.
  pose proof (@up64_pos ((n + 1 + 7) / 8 * 8 + (n + 63) / 64 * 8) ltac:(lia)). lia.
Qed.

Ltac leafy := 
  match goal with |- sized ?f (do a <- csub ?T ?h; do n <- cdiv a ?w; shrink ?s ?T n) =>
    apply (@search_ok f s h w T) end.

Lemma wb_leaf_sized : forall k v T, 0 < k -> sized (wb_leaf_fits k v T) (wb_leaf_keys k v T).
Proof.
  intros k v T K. unfold wb_leaf_keys. leafy; [lia| |].
  - intros n. unfold wb_leaf_fits, wb_leaf_size. cbv zeta. rewrite Nat.mul_add_distr_l. split.
    + intros (s & b & h & A & B & C & D). apply padded8 in A. apply bitmap_up in B. apply padded64 in C.
      subst s b h. change (2 * 16) with 32 in D. lia.
    + intros H. do 3 eexists. rewrite padded8, bitmap_up, padded64. splits; try reflexivity.
      change (2 * 16) with 32. lia.
  - intros n. unfold wb_leaf_size. cbv zeta.
    pose proof (@up64_pos ((n + 1 + 7) / 8 * 8 + (n + 63) / 64 * 8 + 32) ltac:(lia)). lia.
Qed.

Lemma fp_leaf_sized : forall k v T, 0 < k -> sized (fp_leaf_fits k v T) (fp_leaf_keys k v T).
Proof.
  intros k v T K. unfold fp_leaf_keys. leafy; [lia| |].
  - intros n. unfold fp_leaf_fits, fp_leaf_size. cbv zeta. rewrite Nat.mul_add_distr_l. split.
    + intros (s & b & h & A & B & C & D). apply padded8 in A. apply bitmap_up in B. apply padded64 in C.
      subst s b h. change (2 * 16) with 32 in D. lia.
    + intros H. do 3 eexists. rewrite padded8, bitmap_up, padded64. splits; try reflexivity.
      change (2 * 16) with 32. lia.
  - intros n. unfold fp_leaf_size. cbv zeta.
    pose proof (@up64_pos ((n + 7) / 8 * 8 + (n + 63) / 64 * 8 + 32) ltac:(lia)). lia.
Qed.

Lemma bit_leaf_sized : forall k v T, 0 < k -> sized (bit_leaf_fits k v T) (bit_leaf_keys k v T).
Proof.
  intros k v T K. unfold bit_leaf_keys. leafy; [lia| |].
  - intros n. unfold bit_leaf_fits, bit_leaf_size. cbv zeta. rewrite Nat.mul_add_distr_l. split.
    + intros (b & h & B & C & D). apply bitmap_up in B. apply padded64 in C.
      subst b h. change (2 * 16) with 32 in D. lia.
    + intros H. do 2 eexists. rewrite bitmap_up, padded64. splits; try reflexivity.
      change (2 * 16) with 32. lia.
  - intros n. unfold bit_leaf_size. cbv zeta.
    pose proof (@up64_pos ((n + 63) / 64 * 8 + 32) ltac:(lia)). lia.
Qed.

Lemma wo_node_sized : forall k v p lev T, 0 < k -> sized (wo_node_fits k v p lev T) (wo_node_keys k v p lev T).
Proof.
  intros k v p lev T K. unfold wo_node_keys. leafy; [lia| |].
  - intros n. unfold wo_node_fits, wo_node_size. cbv zeta. rewrite Nat.mul_add_distr_l.
    replace ((n + 63) / 64 * 8 + lev * p + 2 * k + 8 + 63) with ((n + 63) / 64 * 8 + lev * p + k + k + 8 + 63) by lia.
    split.
    + intros (b & h & B & C & D). apply bitmap_up in B. apply padded64 in C. subst b h. lia.
    + intros H. do 2 eexists. rewrite bitmap_up, padded64. splits; try reflexivity. lia.
  - intros n. unfold wo_node_size.
    pose proof (@up64_pos ((n + 63) / 64 * 8 + lev * p + 2 * k + 8) ltac:(lia)). lia.
Qed.

Lemma plain_sized : forall (fits : nat -> Prop) h w T, 0 < w -> (forall n, fits n <-> h + n * w <= T) ->
  sized fits (do a <- csub T h; cdiv a w).
Proof.
  intros fits h w T W F. unfold csub. destruct (Nat.ltb_spec T h); cbn [bind].
  - right. split; [reflexivity|]. intros n Hn. apply F in Hn. lia.
  - unfold cdiv. destruct (Nat.eqb_spec w 0); [lia|]. left. exists ((T - h) / w). split; [reflexivity|].
    pose proof (Nat.mul_div_le (T - h) w ltac:(lia)). split.
    + apply F. rewrite (Nat.mul_comm _ w). lia.
    + intros m Hm. apply F in Hm. apply Nat.div_le_lower_bound; [lia|]. rewrite Nat.mul_comm. lia.
Qed.

Lemma pb_sized : forall k v T, 0 < k ->
  sized (pb_branch_fits k T) (pb_branch_keys k 24 T) /\ sized (pb_leaf_fits k v T) (pb_leaf_keys k v T).
Proof.
  intros k v T K. split; apply plain_sized; try lia; intros n; unfold pb_branch_fits, pb_leaf_fits;
    rewrite Nat.mul_add_distr_l; lia.
Qed.

(** BitPBPTree, inner nodes. *)
Lemma bit_branch_fits_size : forall k p T n, bit_branch_fits k p T n <-> bit_branch_size k p n <= T.
Proof.
  intros k p T n. unfold bit_branch_fits, bit_branch_size. rewrite Nat.mul_add_distr_l. split.
  - intros (b & B & D). apply bitmap_up in B. subst b. lia.
  - intros H. eexists. rewrite bitmap_up. split; [reflexivity|]. lia.
Qed.

Lemma bit_branch_below : forall k p T n, bit_branch_keys k p T = Ok n -> bit_branch_fits k p T n.
Proof.
  intros k p T n. unfold bit_branch_keys. rewrite bit_branch_fits_size.
  destruct (csub T 8) as [a| |]; cbn [bind]; try discriminate.
  destruct (csub a p) as [b| |]; cbn [bind]; try discriminate.
  destruct (cdiv b (k + p)) as [m| |]; cbn [bind]; try discriminate.
  destruct (Nat.leb_spec (bit_branch_size k p m) T).
  - intros [= <-]. assumption.
  - destruct (csub m 1) as [q| |]; cbn [bind]; try discriminate.
    destruct (shrink_ok (wb_branch_size k p) T q) as [(j & E & A & B)|(E & A)]; rewrite E; [|discriminate].
    intros [= <-]. eapply Nat.le_trans; [|exact A]. unfold bit_branch_size, wb_branch_size. cbv zeta. lia.
Qed.

Lemma bit_branch_small : forall k p T, 0 < k -> 8 + p <= T -> (T - 8 - p) / (k + p) <= 64 ->
  exists n, bit_branch_keys k p T = Ok n /\ largest (bit_branch_fits k p T) n.
Proof.
  intros k p T K HT S. unfold bit_branch_keys, csub, cdiv.
  destruct (Nat.ltb_spec T 8); [lia|]. cbn [bind]. destruct (Nat.ltb_spec (T - 8) p); [lia|]. cbn [bind].
  destruct (Nat.eqb_spec (k + p) 0) as [|NZ]; [lia|]. cbn [bind].
  pose proof (Nat.mul_div_le (T - 8 - p) (k + p) ltac:(lia)) as M.
  set (n := (T - 8 - p) / (k + p)) in *.
  assert (F : bit_branch_size k p n <= T).
  { unfold bit_branch_size. assert ((n + 63) / 64 * 8 <= 8) by lia. rewrite (Nat.mul_comm n). lia. }
  rewrite (proj2 (Nat.leb_le _ _) F). exists n. split; [reflexivity|]. split; [apply bit_branch_fits_size; exact F|].
  intros m Hm. apply bit_branch_fits_size in Hm. unfold bit_branch_size in Hm.
  destruct (Nat.eq_dec m 0); [lia|]. assert (8 <= (m + 63) / 64 * 8) by lia.
  apply Nat.div_le_lower_bound; [lia|]. rewrite (Nat.mul_comm (k + p)). lia.
Qed.

(** ** ipow, hibit_pos, createPointVector *)
Open Scope Z_scope.
Lemma ipow_ok_ : forall fuel b e r, 0 <= e -> (Z.to_nat e < fuel)%nat -> 0 <= r < 2 ^ 64 ->
  ipow_ fuel b e r = Ok ((r * b ^ e) mod 2 ^ 64).
Proof.
  induction fuel as [|f IH]; intros b e r E F R; [lia|]. cbn [ipow_].
  destruct (Z.ltb_spec e 1).
  - replace e with 0 by lia. rewrite Z.pow_0_r, Z.mul_1_r, Z.mod_small; auto.
  - rewrite Z.quot_div_nonneg by lia. rewrite Z.rem_mod_nonneg by lia.
    assert (Q : e = 2 * (e / 2) + e mod 2) by (apply Z.div_mod; lia).
    assert (P : forall x, (x * (w64 (b * b)) ^ (e / 2)) mod 2 ^ 64 = (x * b ^ (2 * (e / 2))) mod 2 ^ 64).
    { intros x. rewrite <- Z.mul_mod_idemp_r by lia. unfold w64. rewrite <- Zpower_mod by lia.
      rewrite Z.mul_mod_idemp_r by lia. rewrite Z.pow_mul_r by lia. rewrite Z.pow_2_r. reflexivity. }
    destruct (Z.eqb_spec (e mod 2) 0) as [M|M].
    + rewrite IH; [|lia|lia|lia]. rewrite P. f_equal. f_equal. f_equal. f_equal. lia.
    + rewrite IH; [| lia | lia | unfold w64; apply Z.mod_pos_bound; lia]. rewrite P. f_equal. unfold w64.
      rewrite Z.mul_mod_idemp_l by lia. f_equal. rewrite <- Z.mul_assoc. f_equal.
      rewrite <- Z.pow_succ_r by lia. f_equal. lia.
Qed.
Lemma ipow_ok : forall b e, 0 <= e -> ipow b e = Ok (b ^ e mod 2 ^ 64).
Proof.
  intros b e E. unfold ipow. rewrite ipow_ok_; [|lia|lia|lia]. rewrite Z.mul_1_l. reflexivity.
Qed.
Lemma ipow_neg : forall b e, e < 0 -> ipow b e = Ok 1.
Proof.
  intros b e E. unfold ipow. cbn [ipow_]. destruct (Z.ltb_spec e 1); [reflexivity|lia].
Qed.

Lemma hibit_ok_ : forall f n c, 1 <= n -> n < 2 ^ Z.of_nat f ->
  exists h, hibit_ f n c = Ok (c + h) /\ 0 <= h /\ 2 ^ h <= n < 2 ^ (h + 1).
Proof.
  induction f as [|f IH]; intros n c N F.
  - change (2 ^ Z.of_nat 0) with 1 in F. lia.
  - cbn [hibit_]. destruct (Z.eqb_spec (n / 2) 0).
    + exists 0. rewrite Z.add_0_r. splits; try reflexivity; try lia.
    + rewrite Nat2Z.inj_succ, Z.pow_succ_r in F by lia.
      destruct (IH (n / 2) (c + 1)) as (h & E & H0 & H1 & H2); [lia|lia|].
      exists (h + 1). rewrite E. split; [f_equal; lia|]. split; [lia|].
      rewrite Z.pow_add_r in H2 by lia. rewrite Z.pow_add_r by lia. rewrite (Z.pow_add_r 2 (h + 1) 1) by lia.
      rewrite (Z.pow_add_r 2 h 1) by lia. change (2 ^ 1) with 2 in *. lia.
Qed.
Lemma hibit_ok : forall n, 1 <= n -> exists fuel h, forall f, (fuel <= f)%nat ->
  hibit_ f n 0 = Ok h /\ 0 <= h /\ 2 ^ h <= n < 2 ^ (h + 1).
Proof.
  intros n N. exists (Z.to_nat (Z.log2 n + 1)), (Z.log2 n). intros f F.
  destruct (Z.log2_spec n ltac:(lia)) as (A & B). pose proof (Z.log2_nonneg n) as LN.
  destruct (@hibit_ok_ f n 0 N) as (h & E & H0 & H1).
  - eapply Z.lt_le_trans; [exact B|]. apply Z.pow_le_mono_r; lia.
  - rewrite E. pose proof (Z.log2_unique n h H0) as U. rewrite <- Z.add_1_r in U. specialize (U H1). subst h.
    split; [reflexivity|]. split; [exact LN|]. rewrite Z.add_1_r. split; [exact A|exact B].
Qed.
Lemma hibit_neg : forall f n c, n < 0 -> hibit_ f n c = NoFuel.
Proof.
  induction f as [|f IH]; intros n c N; [reflexivity|]. cbn [hibit_].
  destruct (Z.eqb_spec (n / 2) 0); [lia|]. apply IH. lia.
Qed.
Close Scope Z_scope.

Lemma points_ok : forall f size, size < f -> exists l, points f size = Ok l /\
  forall a b, In (a, b) l <-> exists k, a = size / 10 ^ k /\ 100 <= a /\ b = a / 2.
Proof.
  induction f as [|f IH]; intros size F; [lia|]. cbn [points].
  destruct (Nat.leb_spec 100 size).
  - destruct (IH (size / 10)) as (r & E & R); [lia|]. rewrite E. cbn [bind].
    eexists. split; [reflexivity|]. intros a b. rewrite in_app_iff, R. split.
    + intros [(k & A & B & C)|[[= <- <-]|[]]].
      * exists (S k). splits; auto. rewrite A, Nat.pow_succ_r', Nat.div_div; auto. apply Nat.pow_nonzero. lia.
      * exists 0. splits; auto. rewrite Nat.pow_0_r, Nat.div_1_r. reflexivity.
    + intros ([|k] & A & B & C).
      * right. left. rewrite Nat.pow_0_r, Nat.div_1_r in A. subst. reflexivity.
      * left. exists k. splits; auto. rewrite A, Nat.pow_succ_r', Nat.div_div; auto. apply Nat.pow_nonzero. lia.
  - exists []. split; [reflexivity|]. intros a b. split; [intros []|]. intros (k & A & B & C).
    assert (size / 10 ^ k <= size); [|lia].
    apply Nat.div_le_upper_bound; [apply Nat.pow_nonzero; lia|].
    assert (1 <= 10 ^ k) by (apply Nat.neq_0_lt_0, Nat.pow_nonzero; lia). nia.
Qed.

Lemma points_sorted : forall f size, size < f -> exists l, points f size = Ok l /\
  StronglySorted (fun x y => fst x < fst y) l /\
  forall a b, In (a, b) l <-> exists k, a = size / 10 ^ k /\ 100 <= a /\ b = a / 2.
Proof.
  intros f size F. destruct (points_ok F) as (l & E & I). exists l. split; [exact E|]. split; [|exact I].
  clear I. revert size F l E. induction f as [|f IH]; intros size F l E; [lia|]. cbn [points] in E.
  destruct (Nat.leb_spec 100 size).
  - assert (F' : size / 10 < f) by lia. destruct (points_ok F') as (r & R & I). rewrite R in E. cbn [bind] in E.
    injection E as <-. specialize (IH _ F' _ R).
    assert (SM : forall x, In x r -> fst x < size).
    { intros (a, b) X. apply I in X. destruct X as (k & -> & _). cbn [fst].
      assert (size / 10 / 10 ^ k <= size / 10); [|lia].
      apply Nat.div_le_upper_bound; [apply Nat.pow_nonzero; lia|].
      assert (1 <= 10 ^ k) by (apply Nat.neq_0_lt_0, Nat.pow_nonzero; lia). nia. }
    clear R I. induction IH as [|x r S' IH' HF]; [repeat constructor|]. cbn [app]. constructor.
    + apply IH'. intros y Y. apply SM. right. exact Y.
    + apply Forall_app. split; [exact HF|]. constructor; [|constructor]. apply SM. left. reflexivity.
  - injection E as <-. constructor.
Qed.

(** ** The order of the inserts *)
Lemma rounds_ok : forall n fuel i last step, i + n * step <= last -> last < i + S n * step -> n + 1 < fuel ->
  rounds fuel i last step = Ok (map (fun j => i + j * step) (seq 0 (S n))).
Proof.
  induction n as [|n IH]; intros fuel i last step A B F; (destruct fuel as [|fuel]; [lia|]); cbn [rounds].
  - rewrite (proj2 (Nat.leb_le i last)) by lia. destruct fuel as [|fuel]; [lia|]. cbn [rounds].
    destruct (Nat.leb_spec (i + step) last); [lia|]. cbn. rewrite Nat.add_0_r. reflexivity.
  - rewrite (proj2 (Nat.leb_le i last)) by lia. rewrite (IH fuel (i + step) last step); [|lia|lia|lia].
    cbn [bind]. f_equal. change (seq 0 (S (S n))) with (0 :: seq 1 (S n)). cbn [map].
    f_equal; [lia|]. rewrite <- (seq_shift (S n) 0), map_map. apply map_ext. intros a. lia.
Qed.

Lemma each_ok : forall f (g : nat -> list nat) is, (forall i, In i is -> f i = Ok (g i)) ->
  each f is = Ok (flat_map g is).
Proof.
  induction is as [|i is IH]; intros H; [reflexivity|]. cbn [each flat_map].
  rewrite (H i) by (left; reflexivity). cbn [bind]. rewrite IH by (intros; apply H; right; assumption). reflexivity.
Qed.

Lemma flat_map_bound : forall (f : nat -> list nat) c is, (forall i, In i is -> length (f i) <= c) ->
  length (flat_map f is) <= length is * c.
Proof.
  induction is as [|i is IH]; intros H; [cbn; lia|]. cbn [flat_map length]. rewrite app_length.
  pose proof (H i (or_introl eq_refl)). specialize (IH (fun j J => H j (or_intror J))). lia.
Qed.

Section Fill.
Variables (L B td : nat).
Hypothesis HL : 1 <= L.

Notation range := (range L B).
Notation E := (elements L B td).

Lemma pow_pos : forall d, 1 <= (B + 1) ^ d.
Proof. intros d. apply Nat.neq_0_lt_0, Nat.pow_nonzero. lia. Qed.
Lemma range_pos : forall d, 1 <= range d.
Proof. intros d. unfold BenchModel.range. pose proof (pow_pos d). nia. Qed.
Lemma range_S : forall d, range (S d) = range d * (B + 1).
Proof. intros d. unfold BenchModel.range. rewrite Nat.pow_succ_r'. nia. Qed.

Lemma leaf_in : forall start o x, In x (loop_leaf L B td start o) <->
  exists j, x = S j /\ start <= j /\ j < E /\ j < start + (L + 1) / 2 - (if (L mod 2 =? 1) && o then 1 else 0).
Proof.
  intros start o x. unfold loop_leaf. rewrite in_map_iff. split.
  - intros (j & <- & J). apply in_seq in J. exists j. splits; try reflexivity; lia.
  - intros (j & -> & A & C & D). exists j. split; [reflexivity|]. apply in_seq. lia.
Qed.
Lemma leaf_length : forall start, length (loop_leaf L B td start false) <= (L + 1) / 2.
Proof. intros start. unfold loop_leaf. rewrite map_length, seq_length, andb_false_r. lia. Qed.
Lemma leaf_length_other : forall start, length (loop_leaf L B td start true) <= L / 2.
Proof.
  intros start. unfold loop_leaf. rewrite map_length, seq_length, andb_true_r.
  destruct (Nat.eqb_spec (L mod 2) 1); lia.
Qed.
Lemma leaf_beyond : forall start o, E <= start -> loop_leaf L B td start o = [].
Proof.
  intros start o H. unfold loop_leaf. replace (Nat.min _ _ - start) with 0 by lia. reflexivity.
Qed.

(** The pieces that a node of depth [d] is filled with. *)
Definition piece (d start : nat) : res (list nat) :=
  match d with 0 => Ok (loop_leaf L B td start false) | S _ => loop_branch L B td d start false end.

(** The number of the last piece of the first and of the second half. *)
Lemma first_half : forall lr, 1 <= lr -> exists n, B / 2 <= n /\
  n * lr <= (lr * (B + 1) + 1) / 2 < S n * lr /\ (B mod 2 = 1 -> n = B / 2 + 1) /\ (2 <= lr -> B mod 2 = 0 -> n = B / 2).
Proof.
  intros lr H. destruct (Nat.eq_dec (B mod 2) 0) as [Z|Z].
  - set (b := B / 2). assert (EB : B = 2 * b) by (subst b; lia). clearbody b. subst B.
    replace (lr * (2 * b + 1) + 1) with (lr * b * 2 + (lr + 1)) by lia. rewrite Nat.div_add_l by lia.
    destruct (Nat.eq_dec lr 1) as [->|].
    + exists (b + 1). replace ((1 + 1) / 2) with 1 by reflexivity. splits; try lia.
    + exists b. splits; try lia.
  - set (b := B / 2). assert (EB : B = 2 * b + 1) by (subst b; lia). clearbody b. subst B.
    replace (lr * (2 * b + 1 + 1) + 1) with (lr * (b + 1) * 2 + 1) by lia. rewrite Nat.div_add_l by lia.
    change (1 / 2) with 0. exists (b + 1). splits; try lia; nia.
Qed.

Definition second_from : nat := B / 2 + 1 + B mod 2.
Lemma second_start : forall lr, 1 <= lr ->
  (if B mod 2 =? 0 then (lr * (B + 1) + 1) / 2 + lr - (lr + 1) / 2 else (lr * (B + 1) + 1) / 2 + lr) = second_from * lr.
Proof.
  intros lr H. unfold second_from. destruct (Nat.eqb_spec (B mod 2) 0) as [Z|Z].
  - set (b := B / 2). assert (EB : B = 2 * b) by (subst b; lia). rewrite Z. clearbody b. subst B.
    replace (lr * (2 * b + 1) + 1) with (lr * b * 2 + (lr + 1)) by lia. rewrite Nat.div_add_l by lia. lia.
  - replace (B mod 2) with 1 by lia.
    set (b := B / 2). assert (EB : B = 2 * b + 1) by (subst b; lia). clearbody b. subst B.
    replace (lr * (2 * b + 1 + 1) + 1) with (lr * (b + 1) * 2 + 1) by lia. rewrite Nat.div_add_l by lia.
    change (1 / 2) with 0. lia.
Qed.
Lemma second_half : forall lr start, 1 <= lr ->
  exists n, n = B / 2 /\
  start + n * lr <= (if B mod 2 =? 0 then start + lr * (B + 1) - (lr * (B + 1) + 1) / 2
                     else start + lr * (B + 1) - (lr * (B + 1) + 1) / 2 - lr) < start + S n * lr.
Proof.
  intros lr start H. exists (B / 2). split; [reflexivity|]. destruct (Nat.eqb_spec (B mod 2) 0) as [Z|Z].
  - set (b := B / 2). assert (EB : B = 2 * b) by (subst b; lia). clearbody b. subst B.
    replace (lr * (2 * b + 1) + 1) with (lr * b * 2 + (lr + 1)) by lia. rewrite Nat.div_add_l by lia. lia.
  - set (b := B / 2). assert (EB : B = 2 * b + 1) by (subst b; lia). clearbody b. subst B.
    replace (lr * (2 * b + 1 + 1) + 1) with (lr * (b + 1) * 2 + 1) by lia. rewrite Nat.div_add_l by lia.
    change (1 / 2) with 0. lia.
Qed.

(** Total variants without errors. *)
Lemma branch_first : forall d start, exists n, B / 2 <= n /\ (B mod 2 = 1 -> n = B / 2 + 1) /\
  (2 <= range d -> B mod 2 = 0 -> n = B / 2) /\
  loop_branch L B td (S d) start false = each (piece d) (map (fun j => start + j * range d) (seq 0 (S n))).
Proof.
  intros d start. destruct (@first_half (range d) (range_pos d)) as (n & A & (C & D) & O & P).
  exists n. splits; [exact A|exact O|exact P|]. cbn [loop_branch]. rewrite !range_S.
  rewrite (@rounds_ok n); [reflexivity|lia|lia|]. pose proof (range_pos d). nia.
Qed.
Lemma branch_second : forall d start,
  loop_branch L B td (S d) start true = each (piece d) (map (fun j => start + j * range d) (seq 0 (S (B / 2)))).
Proof.
  intros d start. destruct (@second_half (range d) start (range_pos d)) as (n & -> & C & D).
  cbn [loop_branch]. rewrite !range_S.
  rewrite (@rounds_ok (B / 2)); [reflexivity|exact C|exact D|]. pose proof (range_pos d). nia.
Qed.

Lemma piece_total : forall d start, exists l, piece d start = Ok l.
Proof.
  induction d as [|d IH]; intros start; [eexists; reflexivity|].
  destruct (branch_first d start) as (n & _ & _ & _ & Q). unfold piece. rewrite Q.
  rewrite (@each_ok (piece d) (fun i => match piece d i with Ok l => l | _ => [] end)); [eexists; reflexivity|].
  intros i _. destruct (IH i) as (l & ->). reflexivity.
Qed.
Definition keys_of (r : res (list nat)) : list nat := match r with Ok l => l | _ => [] end.
Lemma piece_keys : forall d start, piece d start = Ok (keys_of (piece d start)).
Proof. intros d start. destruct (piece_total d start) as (l & ->). reflexivity. Qed.
Lemma pieces_keys : forall d is, each (piece d) is = Ok (flat_map (fun i => keys_of (piece d i)) is).
Proof. intros d is. apply each_ok. intros i _. apply piece_keys. Qed.

Definition second_keys (d start : nat) : list nat :=
  flat_map (fun i => keys_of (piece d i)) (map (fun j => start + j * range d) (seq 0 (S (B / 2)))).

Lemma other_S : forall d, loop_other L B td (S d) =
  do b <- loop_other L B td d;
  Ok (flat_map (fun i => second_keys d (second_from * range d + i * range (S d))) (seq 0 ((B + 1) ^ (td - S d))) ++ b).
Proof.
  intros d. cbn [loop_other]. rewrite (range_S d), second_start by apply range_pos.
  rewrite (@each_ok _ (fun i => second_keys d (second_from * range d + i * range (S d)))).
  - cbn [bind]. rewrite range_S. reflexivity.
  - intros i _. rewrite <- (range_S d), branch_second. rewrite pieces_keys. rewrite range_S. reflexivity.
Qed.

Lemma other_total : forall d, exists l, loop_other L B td d = Ok l.
Proof.
  induction d as [|d (l & IH)]; [eexists; reflexivity|]. rewrite other_S, IH. eexists. reflexivity.
Qed.

(** All pieces of depth 0 and all other halves of leaves are all keys. *)
Lemma leaves_cover : forall x, 1 <= x <= E ->
  exists i, i < (B + 1) ^ td /\ (In x (loop_leaf L B td (i * L) false) \/ In x (loop_leaf L B td ((L + 1) / 2 + i * L) true)).
Proof.
  intros x X. unfold elements, BenchModel.range in X. exists ((x - 1) / L).
  pose proof (Nat.div_mod_eq (x - 1) L) as D. pose proof (Nat.mod_upper_bound (x - 1) L ltac:(lia)) as M.
  set (q := (x - 1) / L) in *. set (r := (x - 1) mod L) in *. split; [nia|].
  rewrite !leaf_in. unfold elements, BenchModel.range. rewrite andb_true_r, andb_false_r.
  destruct (Nat.lt_ge_cases r ((L + 1) / 2)).
  - left. exists (x - 1). splits; lia.
  - right. exists (x - 1). destruct (Nat.eqb_spec (L mod 2) 1); splits; lia.
Qed.

Lemma other_cover : forall d acc l, d <= td -> loop_other L B td d = Ok l ->
  (forall i x, i < (B + 1) ^ (td - d) -> In x (keys_of (piece d (i * range d))) -> In x acc) ->
  forall x, 1 <= x <= E -> In x (acc ++ l).
Proof.
  induction d as [|d IH]; intros acc l D O H x X.
  - cbn in O. injection O as <-. destruct (leaves_cover X) as (i & I & C). apply in_app_iff. rewrite Nat.sub_0_r in H.
    destruct C as [C|C].
    + left. apply (H i); [exact I|]. cbn [piece keys_of]. unfold BenchModel.range. rewrite Nat.pow_0_r, Nat.mul_1_r. exact C.
    + right. apply in_flat_map. exists i. split; [apply in_seq; lia|exact C].
  - rewrite other_S in O. destruct (other_total d) as (l' & O'). rewrite O' in O. cbn [bind] in O. injection O as <-.
    rewrite app_assoc. apply (IH _ _ ltac:(lia) O'); [|exact X]. clear x X. intros i x I Hx.
    replace (td - d) with (S (td - S d)) in I by lia. rewrite Nat.pow_succ_r' in I.
    pose proof (Nat.div_mod_eq i (B + 1)) as DM. pose proof (Nat.mod_upper_bound i (B + 1) ltac:(lia)) as M.
    set (q := i / (B + 1)) in *. set (r := i mod (B + 1)) in *.
    assert (Q : q < (B + 1) ^ (td - S d)) by nia.
    assert (PI : i * range d = q * range (S d) + r * range d) by (rewrite range_S, DM; lia).
    apply in_app_iff. destruct (Nat.lt_ge_cases r second_from) as [R|R].
    + left. apply (H q x Q). destruct (branch_first d (q * range (S d))) as (n & N & N1 & _ & BQ).
      change (piece (S d) (q * range (S d))) with (loop_branch L B td (S d) (q * range (S d)) false).
      rewrite BQ, pieces_keys. cbn [keys_of]. apply in_flat_map. exists (i * range d). split; [|exact Hx].
      apply in_map_iff. exists r. split; [symmetry; exact PI|]. apply in_seq.
      unfold second_from in R. destruct (Nat.eq_dec (B mod 2) 1) as [Z|Z]; [specialize (N1 Z)|]; lia.
    + right. apply in_flat_map. exists q. split; [apply in_seq; lia|]. unfold second_keys.
      apply in_flat_map. exists (i * range d). split; [|exact Hx].
      apply in_map_iff. exists (r - second_from). split.
      * rewrite PI. replace (r * range d) with ((second_from + (r - second_from)) * range d) by (f_equal; lia). lia.
      * apply in_seq. unfold second_from in *. lia.
Qed.

Lemma piece_within : forall d start x, In x (keys_of (piece d start)) -> 1 <= x <= E.
Proof.
  induction d as [|d IH]; intros start x H.
  - cbn [piece keys_of] in H. apply leaf_in in H. destruct H as (j & -> & ? & ? & _). lia.
  - destruct (branch_first d start) as (n & _ & _ & _ & Q).
    change (piece (S d) start) with (loop_branch L B td (S d) start false) in H. rewrite Q, pieces_keys in H.
    cbn [keys_of] in H. apply in_flat_map in H. destruct H as (i & _ & H). exact (IH _ _ H).
Qed.
Lemma other_within : forall d l x, loop_other L B td d = Ok l -> In x l -> 1 <= x <= E.
Proof.
  induction d as [|d IH]; intros l x O H.
  - cbn in O. injection O as <-. apply in_flat_map in H. destruct H as (i & _ & H). apply leaf_in in H.
    destruct H as (j & -> & ? & ? & _). lia.
  - rewrite other_S in O. destruct (other_total d) as (l' & O'). rewrite O' in O. cbn [bind] in O. injection O as <-.
    apply in_app_iff in H. destruct H as [H|H]; [|exact (IH _ _ O' H)].
    apply in_flat_map in H. destruct H as (i & _ & H). apply in_flat_map in H. destruct H as (j & _ & H).
    exact (@piece_within _ _ _ H).
Qed.

Lemma fill_total_cover : exists l, bench_insert L B td = Ok l /\ forall x, In x l <-> 1 <= x <= E.
Proof.
  unfold bench_insert. destruct (Nat.eqb_spec td 0) as [Z|Z].
  - eexists. split; [reflexivity|]. intros x. rewrite in_app_iff, !leaf_in. rewrite !andb_false_r.
    assert (EE : E = L) by (unfold elements, BenchModel.range; rewrite Z, Nat.pow_0_r; lia). rewrite EE. split.
    + intros [(j & -> & ? & ? & _)|(j & -> & ? & ? & _)]; lia.
    + intros X. destruct (Nat.lt_ge_cases (x - 1) ((L + 1) / 2)).
      * left. exists (x - 1). splits; lia.
      * right. exists (x - 1). destruct (Nat.eqb_spec (L mod 2) 0); splits; lia.
  - destruct td as [|d] eqn:ET; [lia|]. rewrite <- ET in *.
    destruct (piece_total td 0) as (a & P). destruct (other_total td) as (b & O).
    assert (P' : loop_branch L B td td 0 false = Ok a) by (rewrite <- P; unfold piece; rewrite ET; reflexivity).
    rewrite P', O. cbn [bind]. eexists. split; [reflexivity|]. intros x. split.
    + intros H. apply in_app_iff in H. destruct H as [H|H].
      * apply (@piece_within td 0). rewrite P. exact H.
      * exact (@other_within _ _ _ O H).
    + apply (@other_cover td); [lia|exact O|]. intros i y I. rewrite Nat.sub_diag, Nat.pow_0_r in I.
      replace i with 0 by lia. rewrite Nat.mul_0_l, P. intros HY. exact HY.
Qed.

End Fill.

Lemma fill_once_ : forall L B, 1 <= L -> 2 <= L \/ B mod 2 = 1 -> exists l, bench_insert L B 1 = Ok l /\ NoDup l /\
  forall x, In x l <-> 1 <= x <= L * (B + 1).
Proof.
  intros L B H1 HL. destruct (@fill_total_cover L B 1 H1) as (l & E & C).
  assert (EE : elements L B 1 = L * (B + 1)) by (unfold elements, range; rewrite Nat.pow_1_r; reflexivity).
  rewrite EE in C. exists l. split; [exact E|]. split; [|exact C].
  apply (NoDup_incl_NoDup (seq_NoDup (L * (B + 1)) 1)).
  - rewrite seq_length. unfold bench_insert in E. cbn [Nat.eqb] in E.
    destruct (@branch_first L B 1 H1 0 0) as (n & N & N1 & N0 & Q). rewrite Q in E.
    rewrite pieces_keys in E by exact H1. cbn [bind] in E. rewrite other_S in E by exact H1. cbn [loop_other bind] in E.
    apply (f_equal keys_of) in E. cbn [keys_of] in E. rewrite <- E. clear E C.
    rewrite Nat.sub_diag, !Nat.pow_0_r, Nat.pow_1_r. change (seq 0 1) with [0]. cbn [flat_map].
    rewrite app_nil_r, !app_length. unfold second_keys.
    assert (R0 : range L B 0 = L) by (unfold range; rewrite Nat.pow_0_r; lia). rewrite R0 in N0. rewrite !R0.
    set (p := fun i => keys_of (piece L B 1 0 i)).
    assert (PB : forall i, length (p i) <= (L + 1) / 2) by (intros i; apply leaf_length; lia).
    pose proof (@flat_map_bound p ((L + 1) / 2) (map (fun j => 0 + j * L) (seq 0 (S n))) (fun i _ => PB i)) as A1.
    rewrite map_length, seq_length in A1.
    pose proof (@flat_map_bound (fun i => loop_leaf L B 1 ((L + 1) / 2 + i * L) true) (L / 2) (seq 0 (B + 1))
                  (fun i _ => leaf_length_other B 1 H1 _)) as A3. rewrite seq_length in A3.
    rewrite (seq_S (B / 2) 0), map_app, flat_map_app, app_length. cbn [map flat_map].
    pose proof (@flat_map_bound p ((L + 1) / 2) (map (fun j => second_from B * L + 0 * range L B 1 + j * L) (seq 0 (B / 2))) (fun i _ => PB i)) as A2.
    rewrite map_length, seq_length in A2.
    assert (LAST : p (second_from B * L + 0 * range L B 1 + (0 + B / 2) * L) = []).
    { unfold p. cbn [piece keys_of]. apply leaf_beyond; [exact H1|]. rewrite EE. unfold second_from.
      assert (B + 1 = B / 2 + 1 + B mod 2 + B / 2) as -> by lia. nia. }
    rewrite LAST. cbn [app length].
    assert (LL : L = (L + 1) / 2 + L / 2) by lia. set (u := (L + 1) / 2) in *. set (w := L / 2) in *.
    assert (CNT : S n + B / 2 = B + 1).
    { destruct (Nat.eq_dec (B mod 2) 0) as [Z|Z]; [rewrite (N0 ltac:(lia) Z); lia|]. rewrite N1; lia. }
    assert (L * (B + 1) = S n * u + B / 2 * u + (B + 1) * w) by (rewrite <- CNT; rewrite LL at 1; nia).
    lia.
  - intros x X. apply in_seq in X. apply C. lia.
Qed.

Lemma fill_once : forall L B, 2 <= L -> exists l, bench_insert L B 1 = Ok l /\ NoDup l /\
  forall x, In x l <-> 1 <= x <= L * (B + 1).
Proof. intros L B H. apply fill_once_; lia. Qed.

Lemma fill_once0 : forall L B, 2 <= L -> L mod 2 = 0 -> exists l, bench_insert L B 0 = Ok l /\ NoDup l /\
  forall x, In x l <-> 1 <= x <= L.
Proof.
  intros L B HL EV. assert (H1 : 1 <= L) by lia. destruct (@fill_total_cover L B 0 H1) as (l & E & C).
  assert (EE : elements L B 0 = L) by (unfold elements, range; rewrite Nat.pow_0_r; lia).
  rewrite EE in C. exists l. split; [exact E|]. split; [|exact C].
  apply (NoDup_incl_NoDup (seq_NoDup L 1)).
  - rewrite seq_length. apply (f_equal keys_of) in E. unfold bench_insert in E. cbn [Nat.eqb keys_of] in E. rewrite <- E.
    rewrite app_length. pose proof (@leaf_length L B 0 H1 0). rewrite EV. cbn [Nat.eqb].
    pose proof (@leaf_length L B 0 H1 ((L + 1) / 2)). lia.
  - intros x X. apply in_seq in X. apply C. lia.
Qed.

(** ** Exactly when no key is inserted twice. *)
Lemma twice : forall (a b : list nat) x, In x a -> In x b -> ~ NoDup (a ++ b).
Proof.
  induction a as [|y a IH]; intros b x A C N; [destruct A|]. cbn in N. inversion N as [|? ? N1 N2]; subst. destruct A as [->|A].
  - apply N1, in_or_app. right. exact C.
  - exact (IH _ _ A C N2).
Qed.
Lemma piece_start : forall L B td d start, 1 <= L -> start < elements L B td -> In (S start) (keys_of (piece L B td d start)).
Proof.
  intros L B td d start HL. induction d as [|d IH]; intros S.
  - cbn [piece keys_of]. apply leaf_in; [exact HL|]. exists start. rewrite andb_false_r. splits; lia.
  - destruct (@branch_first L B td HL d start) as (n & _ & _ & _ & Q).
    change (piece L B td (Datatypes.S d) start) with (loop_branch L B td (Datatypes.S d) start false). rewrite Q.
    rewrite pieces_keys by exact HL. cbn [keys_of]. apply in_flat_map. exists start. split; [|exact (IH S)].
    apply in_map_iff. exists 0. split; [lia|]. apply in_seq. lia.
Qed.

Lemma fill_twice : forall L B td l, 1 <= L -> 1 <= B -> 2 <= td -> bench_insert L B td = Ok l -> ~ NoDup l.
Proof.
  intros L B td l HL HB HT E. destruct td as [|[|d]]; try lia. set (td := S (S d)) in *.
  unfold bench_insert in E. change (td =? 0) with false in E. cbv iota in E.
  destruct (@branch_first L B td HL (S d) 0) as (n & N & N1 & _ & Q).
  change (loop_branch L B td td) with (loop_branch L B td (S (S d))) in E. rewrite Q in E. rewrite pieces_keys in E by exact HL.
  cbn [bind] in E. change (loop_other L B td td) with (loop_other L B td (S (S d))) in E.
  rewrite other_S in E by exact HL. rewrite other_S in E by exact HL.
  destruct (@other_total L B td HL d) as (o & O). rewrite O in E. cbn [bind] in E.
  apply (f_equal keys_of) in E. cbn [keys_of] in E. rewrite <- E. clear E.
  assert (RE : range L B (S d) < elements L B td).
  { unfold elements. subst td. rewrite (@range_S L B HL (S d)). pose proof (@range_pos L B HL (S d)). nia. }
  apply (@twice _ _ (S (range L B (S d)))).
  - apply in_flat_map. exists (range L B (S d)). split; [|apply piece_start; [exact HL|exact RE]].
    apply in_map_iff. exists 1. split; [lia|]. apply in_seq.
    destruct (Nat.eq_dec (B mod 2) 1) as [Z|Z]; [rewrite (N1 Z)|]; lia.
  - apply in_or_app. right. apply in_or_app. left. apply in_flat_map. exists 0.
    split; [apply in_seq; pose proof (@pow_pos L B HL (td - S d)); lia|].
    unfold second_keys. apply in_flat_map. exists (range L B (S d)). split; [|apply piece_start; [exact HL|exact RE]].
    apply in_map_iff. exists (B / 2). split; [|apply in_seq; lia]. rewrite (@range_S L B HL d). unfold second_from.
    assert (B + 1 = B / 2 + 1 + B mod 2 + B / 2) as -> by lia. lia.
Qed.

Lemma fill_twice0 : forall L B l, 1 <= L -> L mod 2 = 1 -> bench_insert L B 0 = Ok l -> ~ NoDup l.
Proof.
  intros L B l HL O E. apply (f_equal keys_of) in E. unfold bench_insert in E. cbn [Nat.eqb keys_of] in E. rewrite <- E.
  assert (EE : elements L B 0 = L) by (unfold elements, range; rewrite Nat.pow_0_r; lia).
  rewrite O. cbn [Nat.eqb]. apply (@twice _ _ (S ((L - 1) / 2))); (apply leaf_in; [exact HL|]); exists ((L - 1) / 2); rewrite andb_false_r, EE; splits; lia.
Qed.

Lemma fill_twice1 : forall B l, 1 <= B -> B mod 2 = 0 -> bench_insert 1 B 1 = Ok l -> ~ NoDup l.
Proof.
  intros B l HB EV E. assert (H1 : 1 <= 1) by lia.
  assert (R0 : range 1 B 0 = 1) by (unfold range; rewrite Nat.pow_0_r; lia).
  assert (EE : elements 1 B 1 = B + 1) by (unfold elements, range; rewrite Nat.pow_1_r; lia).
  unfold bench_insert in E. cbn [Nat.eqb] in E.
  assert (Q : loop_branch 1 B 1 1 0 false = each (piece 1 B 1 0) (map (fun j => 0 + j * range 1 B 0) (seq 0 (S (B / 2 + 1))))).
  { cbn [loop_branch]. rewrite !range_S, R0 by exact H1. rewrite (@rounds_ok (B / 2 + 1)); [reflexivity|lia..]. }
  rewrite Q, pieces_keys in E by exact H1. cbn [bind] in E. rewrite other_S in E by exact H1. cbn [loop_other bind] in E.
  apply (f_equal keys_of) in E. cbn [keys_of] in E. rewrite <- E. clear E.
  apply (@twice _ _ (S (B / 2 + 1))).
  - apply in_flat_map. exists (B / 2 + 1). split; [|apply piece_start; [exact H1|rewrite EE; lia]].
    apply in_map_iff. exists (B / 2 + 1). rewrite R0. split; [lia|]. apply in_seq. lia.
  - apply in_or_app. left. rewrite Nat.sub_diag, Nat.pow_0_r. change (seq 0 1) with [0]. cbn [flat_map]. rewrite app_nil_r.
    unfold second_keys. apply in_flat_map. exists (B / 2 + 1). split; [|apply piece_start; [exact H1|rewrite EE; lia]].
    apply in_map_iff. exists 0. rewrite R0. unfold second_from. split; [lia|]. apply in_seq. lia.
Qed.

Lemma fill_once_iff : forall L B td l, 1 <= L -> 1 <= B -> bench_insert L B td = Ok l ->
  (NoDup l <-> (td = 0 /\ L mod 2 = 0) \/ (td = 1 /\ (2 <= L \/ B mod 2 = 1))).
Proof.
  intros L B td l HL HB E. split.
  - intros N. destruct td as [|[|td]].
    + left. split; [reflexivity|]. destruct (Nat.eq_dec (L mod 2) 0) as [|Z]; [assumption|]. exfalso.
      apply (@fill_twice0 L B l HL ltac:(lia) E N).
    + right. split; [reflexivity|]. destruct (Nat.eq_dec L 1) as [->|]; [|lia].
      destruct (Nat.eq_dec (B mod 2) 1) as [|Z]; [lia|]. exfalso. apply (@fill_twice1 B l HB ltac:(lia) E N).
    + exfalso. apply (@fill_twice L B (S (S td)) l HL HB ltac:(lia) E N).
  - intros [(-> & EV)|(-> & C)].
    + destruct (@fill_once0 L B ltac:(lia) EV) as (l' & E' & N & _). rewrite E in E'. injection E' as ->. exact N.
    + destruct (@fill_once_ L B HL C) as (l' & E' & N & _). rewrite E in E'. injection E' as ->. exact N.
Qed.
