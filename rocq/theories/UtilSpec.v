(** Specification vocabulary and small bridging lemmas for the utils/ properties. *)
From Verif Require Import Base SortedList SearchModel SearchProofs RankModel RankProofs BitmapModel BitmapProofs PopcountProofs.
From Coq Require Import NArith Sorting.Sorted.
Open Scope Z_scope.

(** Number of elements satisfying a test. *)
Definition count_if (f : Z -> bool) (l : list Z) : nat := length (filter f l).

Lemma sorted_split key ks : StronglySorted Z.lt ks -> exists a b, ks = a ++ b /\
  alt key a /\ age key b /\ length a = count_if (fun k => k <? key) ks.
Proof.
  induction ks as [|k ks IH]; intros H.
  - exists [], []. splits; constructor.
  - inversion H as [|? ? HS HF]; subst. destruct (Z.lt_ge_cases k key) as [L|L].
    + destruct (IH HS) as (a & b & -> & Ha & Hb & Ln). exists (k :: a), b. splits; auto.
      * constructor; auto.
      * unfold count_if in *. cbn [filter length]. destruct (Z.ltb_spec k key); [|lia]. cbn [length]. lia.
    + exists [], (k :: ks).
      assert (HA : forall y, In y (k :: ks) -> key <= y).
      { intros y [<-|Hy]; [lia|]. rewrite Forall_forall in HF. specialize (HF y Hy). lia. }
      splits; auto; [constructor|now apply Forall_forall|].
      unfold count_if. symmetry. apply (below_none HA).
Qed.

Lemma count_le key ks : count_if (fun k => k <=? key) ks = count_if (fun k => k <? key + 1) ks.
Proof. unfold count_if. f_equal. apply filter_ext. intros; lia. Qed.

Lemma sorted_pos isBranch key ks : StronglySorted Z.lt ks -> exists a b, ks = a ++ b /\
  pos_spec isBranch key a b /\
  length a = count_if (fun k => if isBranch then k <=? key else k <? key) ks.
Proof.
  intros H. destruct isBranch.
  - destruct (sorted_split (key + 1) H) as (a & b & E & Ha & Hb & L). exists a, b. splits; auto.
    + split; [eapply Forall_impl; [|exact Ha]|eapply Forall_impl; [|exact Hb]]; cbn; intros; lia.
    + now rewrite count_le.
  - destruct (sorted_split key H) as (a & b & E & Ha & Hb & L). exists a, b. splits; auto. split; auto.
Qed.

Lemma bsearch_count isBranch ks rest key : StronglySorted Z.lt ks ->
  bsearch_pos isBranch (map Some ks ++ rest) (length ks) key
  = Ok (count_if (fun k => if isBranch then k <=? key else k <? key) ks).
Proof.
  intros H. destruct (sorted_pos isBranch key H) as (a & b & -> & HP & <-). now apply bsearch_pos_correct.
Qed.

Lemma sbsearch_count isBranch ks keys slots key : StronglySorted Z.lt ks -> slot_keys keys slots ks ->
  sbsearch_pos isBranch keys slots key
  = Ok (S (count_if (fun k => if isBranch then k <=? key else k <? key) ks)).
Proof.
  intros H HK. destruct (sorted_pos isBranch key H) as (a & b & -> & HP & <-). now apply sbsearch_pos_correct with b.
Qed.

Open Scope N_scope.
Lemma sanitize_64 n ws : (0 < n)%nat -> (n mod 64 = 0)%nat -> length ws = num_words n ->
  exists ws', sanitize n ws = Ok ws' /\ forall i, (n - 64 <= i < n)%nat -> bit ws' i = false.
Proof.
  intros Hn H0 L. unfold sanitize.
  assert (Hl : (num_words n - 1 < length ws)%nat) by (rewrite L; unfold num_words; lia).
  rewrite lget_nth with (d := 0) by exact Hl. cbn [bind]. rewrite H0.
  change (wnot (N.shiftl allones (N.of_nat 0) mod W)) with 0. rewrite N.land_0_r.
  destruct (lset_some 0 Hl) as (ws' & E). rewrite E. exists ws'. split; [reflexivity|].
  intros i Hi. unfold bit. rewrite (nth_lset (i / 64) 0 E).
  destruct (Nat.eqb_spec (i / 64) (num_words n - 1)); [apply N.bits_0|unfold num_words in *; lia].
Qed.

Lemma set_all_64 n ws : (0 < n)%nat -> (n mod 64 = 0)%nat -> bm_ok n ws ->
  exists ws', bm_set_all n ws = Ok ws' /\ forall i, (n - 64 <= i < n)%nat -> bit ws' i = false.
Proof. intros Hn H0 (L & _). apply sanitize_64; auto. now rewrite map_length. Qed.
Lemma flip_64 n ws : (0 < n)%nat -> (n mod 64 = 0)%nat -> bm_ok n ws ->
  exists ws', bm_flip n ws = Ok ws' /\ forall i, (n - 64 <= i < n)%nat -> bit ws' i = false.
Proof. intros Hn H0 (L & _). apply sanitize_64; auto. now rewrite map_length. Qed.

(** flip() for every size: exact result. *)
Lemma flip_exact n ws : (0 < n)%nat -> bm_ok n ws ->
  exists ws', bm_flip n ws = Ok ws' /\ bm_ok n ws' /\
    forall i, (i < n)%nat -> bit ws' i = if (n mod 64 =? 0)%nat && (n - 64 <=? i)%nat then false else negb (bit ws i).
Proof.
  intros Hn OK. destruct (Nat.eqb_spec (n mod 64) 0) as [H0|H0].
  2: { destruct (@bm_flip_ok n ws H0 OK) as (ws' & E & OK' & H). exists ws'. splits; auto. }
  destruct OK as (L & HW & HT). unfold bm_flip, sanitize.
  assert (Hl : (num_words n - 1 < length (map wnot ws))%nat) by (rewrite map_length, L; unfold num_words; lia).
  rewrite lget_nth with (d := 0) by exact Hl. cbn [bind]. rewrite H0.
  change (wnot (N.shiftl allones (N.of_nat 0) mod W)) with 0. rewrite N.land_0_r.
  destruct (lset_some 0 Hl) as (ws' & E). rewrite E. cbn [of_opt]. exists ws'. split; [reflexivity|].
  assert (HB : forall i, (i < n)%nat -> bit ws' i = if (n - 64 <=? i)%nat then false else negb (bit ws i)).
  { intros i Hi. unfold bit at 1. rewrite (nth_lset (i / 64) 0 E).
    destruct (Nat.eqb_spec (i / 64) (num_words n - 1)) as [E1|E1]; destruct (Nat.leb_spec (n - 64) i) as [E2|E2];
      try (exfalso; unfold num_words in *; lia); [apply N.bits_0|].
    change (N.testbit (nth (i / 64) (map wnot ws) 0) (N.of_nat (i mod 64))) with (bit (map wnot ws) i).
    rewrite bit_map by (rewrite L; now apply num_words_pos). rewrite wnot_spec.
    destruct (N.ltb_spec (N.of_nat (i mod 64)) 64); [reflexivity|lia]. }
  split; [|exact HB]. unfold bm_ok. splits.
  - rewrite (lset_length E), map_length. exact L.
  - intros w Hw. destruct (In_lset E Hw) as [->|Hw']; [reflexivity|].
    apply in_map_iff in Hw' as (x & <- & Hx). apply wnot_lt. auto.
  - intros i Hi. unfold bit. rewrite nth_overflow; [apply N.bits_0|].
    rewrite (lset_length E), map_length, L. unfold num_words. lia.
Qed.

(** Observables of a bitmap after any valid history. *)
Lemma bm_observe n ws : (0 < n)%nat -> N.of_nat n < W -> bm_ok n ws ->
  (forall i, (i < n)%nat -> bm_test n ws i = Ok (bit ws i)) /\
  (forall i, (n <= i)%nat -> bm_test n ws i = UB) /\
  bm_count ws = N.of_nat (cnt (bit ws) 0 n) /\
  bm_all n ws = Ok (forallb (bit ws) (seq 0 n)).
Proof.
  intros Hn HW OK. splits.
  - intros; now apply bm_test_ok.
  - intros i Hi. unfold bm_test. destruct (Nat.ltb_spec i n); [lia|reflexivity].
  - now apply bm_count_ok.
  - destruct (bm_all_ok Hn OK) as (b & E & HB). rewrite E. f_equal. apply eq_true_iff_eq.
    rewrite HB, forallb_forall. split; intros H i Hi.
    + apply in_seq in Hi. apply H. lia.
    + apply H. apply in_seq. lia.
Qed.

Lemma forallb_ext {A} (f g : A -> bool) l : (forall x, In x l -> f x = g x) -> forallb f l = forallb g l.
Proof. induction l as [|x l IH]; intros H; [reflexivity|]. cbn. rewrite H by now left. rewrite IH; auto. intros; apply H; now right. Qed.

Lemma bm_main n os : (n mod 64 <> 0)%nat -> N.of_nat n < W -> Forall (bm_valid n) os ->
  exists ws, bm_run n (bm_new n) os = Ok ws /\
    (forall i, (i < n)%nat -> bm_test n ws i = Ok (f_run os i)) /\
    (forall i, (n <= i)%nat -> bm_test n ws i = UB) /\
    bm_count ws = N.of_nat (length (filter (f_run os) (seq 0 n))) /\
    bm_all n ws = Ok (forallb (f_run os) (seq 0 n)) /\
    (exists r, getFreeZero ws = Ok r /\ (r <= n)%nat /\ (forall j, (j < r)%nat -> f_run os j = true) /\
       ((r < n)%nat -> f_run os r = false)) /\
    (exists r, getFirstSet ws = Ok r /\
       (((r < n)%nat /\ f_run os r = true /\ forall j, (j < r)%nat -> f_run os j = false) \/
        r = (64 * num_words n)%nat /\ forall j, (j < n)%nat -> f_run os j = false)).
Proof.
  intros Hn HW HV. destruct (bm_history Hn HV) as (ws & E & OK & B). exists ws.
  assert (Hn0 : (0 < n)%nat) by lia.
  destruct (bm_observe Hn0 HW OK) as (T1 & T2 & T3 & T4). splits; auto.
  - intros i Hi. rewrite T1, B by auto. reflexivity.
  - rewrite T3. unfold cnt. do 2 f_equal. apply filter_ext_in. intros i Hi. apply in_seq in Hi. apply B. lia.
  - rewrite T4. f_equal. apply forallb_ext. intros i Hi. apply in_seq in Hi. apply B. lia.
  - destruct (getFreeZero_ok OK) as (r & Er & Lr & H1 & H2). exists r. splits; auto.
    + intros j Hj. rewrite <- B by lia. auto.
    + intros Hr. rewrite <- B by lia. auto.
  - destruct (getFirstSet_ok OK) as (r & Er & C). exists r. split; auto.
    destruct C as [(Hr & H1 & H2)|[Hr H1]]; [left|right]; splits; auto.
    + now rewrite <- B.
    + intros j Hj. rewrite <- B by lia. auto.
    + intros j Hj. rewrite <- B by lia. auto.
Qed.

(** Same without flip() and set(), for every n. *)
Lemma bm_main_single n os : (0 < n)%nat -> N.of_nat n < W -> Forall (bm_valid n) os -> Forall single os ->
  exists ws, bm_run n (bm_new n) os = Ok ws /\
    (forall i, (i < n)%nat -> bm_test n ws i = Ok (f_run os i)) /\
    bm_count ws = N.of_nat (length (filter (f_run os) (seq 0 n))) /\
    bm_all n ws = Ok (forallb (f_run os) (seq 0 n)) /\
    (exists r, getFreeZero ws = Ok r /\ (r <= n)%nat /\ (forall j, (j < r)%nat -> f_run os j = true) /\
       ((r < n)%nat -> f_run os r = false)) /\
    (exists r, getFirstSet ws = Ok r /\
       (((r < n)%nat /\ f_run os r = true /\ forall j, (j < r)%nat -> f_run os j = false) \/
        r = (64 * num_words n)%nat /\ forall j, (j < n)%nat -> f_run os j = false)).
Proof.
  intros Hn0 HW HV HS. destruct (bm_history_single HV HS) as (ws & E & OK & B). exists ws.
  destruct (bm_observe Hn0 HW OK) as (T1 & T2 & T3 & T4). splits; auto.
  - intros i Hi. rewrite T1, B by auto. reflexivity.
  - rewrite T3. unfold cnt. do 2 f_equal. apply filter_ext_in. intros i Hi. apply in_seq in Hi. apply B. lia.
  - rewrite T4. f_equal. apply forallb_ext. intros i Hi. apply in_seq in Hi. apply B. lia.
  - destruct (getFreeZero_ok OK) as (r & Er & Lr & H1 & H2). exists r. splits; auto.
    + intros j Hj. rewrite <- B by lia. auto.
    + intros Hr. rewrite <- B by lia. auto.
  - destruct (getFirstSet_ok OK) as (r & Er & C). exists r. split; auto.
    destruct C as [(Hr & H1 & H2)|[Hr H1]]; [left|right]; splits; auto.
    + now rewrite <- B.
    + intros j Hj. rewrite <- B by lia. auto.
    + intros j Hj. rewrite <- B by lia. auto.
Qed.

Lemma rnd_iter_ok s k : rnd_ok (Nat.iter k rnd_next (rnd_new s)).
Proof. induction k as [|k IH]; [apply rnd_new_ok|]. apply (rnd_next_ok IH). Qed.

Lemma rnd_main s k : let st := Nat.iter k rnd_next (rnd_new s) in
  rnd_next st = (16807 * st) mod (2 ^ 31 - 1) /\ 1 <= rnd_next st <= 2 ^ 31 - 2 /\
  (forall n, 0 < n -> exists v, rnd_uniform st n = Ok (v, rnd_next st) /\ v < n) /\
  (forall n, 0 < n -> rnd_onein st n = Ok (rnd_next st mod n =? 0, rnd_next st)).
Proof.
  intros st. destruct (rnd_next_ok (rnd_iter_ok s k)) as [E OK]. fold st in E, OK. splits; auto; try apply OK.
  - intros n Hn. unfold rnd_uniform. destruct (N.eqb_spec n 0); [lia|]. eexists. split; [reflexivity|]. apply N.mod_lt. lia.
  - intros n Hn. unfold rnd_onein. destruct (N.eqb_spec n 0); [lia|]. reflexivity.
Qed.

Lemma rnd_skewed_ok s k m : m <= 30 -> exists v st', rnd_skewed (Nat.iter k rnd_next (rnd_new s)) m = Ok (v, st') /\ v < 2 ^ m /\ rnd_ok st'.
Proof.
  intros Hm. set (st := Nat.iter k rnd_next (rnd_new s)). unfold rnd_skewed, rnd_uniform.
  rewrite N.mod_small by (unfold W; lia). destruct (N.eqb_spec (m + 1) 0); [lia|]. cbn [bind fst snd].
  assert (Hu : rnd_next st mod (m + 1) < m + 1) by (apply N.mod_lt; lia).
  set (u := rnd_next st mod (m + 1)) in *. destruct (N.ltb_spec u 31); [|lia].
  rewrite N.shiftl_1_l. assert (0 < 2 ^ u) by (apply N.neq_0_lt_0, N.pow_nonzero; lia).
  destruct (N.eqb_spec (2 ^ u) 0); [lia|]. eexists _, _. splits; [reflexivity| |].
  - apply N.lt_le_trans with (2 ^ u); [apply N.mod_lt; lia|]. apply N.pow_le_mono_r; lia.
  - apply (@rnd_next_ok (rnd_next st)). apply (rnd_iter_ok s (S k)).
Qed.
