(** The benchmarks of single leaves. *)
From Verif Require Import Base ArrLemmas SortedList SearchModel SearchProofs BTreeModel SLeafModel SLeafProofs BenchLModel BenchLSpec.
Open Scope nat_scope.

(** ** Loops change only the slots they write. *)
Lemma for_up_frame : forall S X (p : S -> X) f n lo s s',
  (forall i s s', lo <= i < lo + n -> f i s = Ok s' -> p s' = p s) -> for_up lo n f s = Ok s' -> p s' = p s.
Proof.
  intros S X p f. induction n as [|n IH]; intros lo s s' H E; cbn in E; [congruence|].
  destruct (f lo s) as [s1| |] eqn:E1; cbn in E; try discriminate.
  rewrite (IH (Datatypes.S lo) s1 s'); [apply (H lo); [lia|exact E1]|intros i a b I; apply H; lia|exact E].
Qed.
Lemma for_down_frame : forall S X (p : S -> X) f n hi s s', n <= hi ->
  (forall i s s', hi - n < i <= hi -> f i s = Ok s' -> p s' = p s) -> for_down hi n f s = Ok s' -> p s' = p s.
Proof.
  intros S X p f. induction n as [|n IH]; intros hi s s' L H E; cbn in E; [congruence|].
  destruct (f hi s) as [s1| |] eqn:E1; cbn in E; try discriminate.
  rewrite (IH (pred hi) s1 s'); [apply (H hi); [lia|exact E1]|lia|intros i a b I; apply H; lia|exact E].
Qed.
Definition slot {V} (j : nat) (kv : arr Z * arr V) := (nth_error (fst kv) j, nth_error (snd kv) j).
Lemma body_frame : forall V j (g : nat) (rx : res Z) (ry : res V) (kv kv' : arr Z * arr V), j <> g ->
  (do ks <- (do x <- rx; aset (fst kv) g x); do vs <- (do x <- ry; aset (snd kv) g x); Ok (ks, vs)) = Ok kv' ->
  slot j kv' = slot j kv.
Proof.
  intros V j g rx ry kv kv' N E. destruct rx as [x| |]; cbn in E; try discriminate.
  destruct (aset (fst kv) g x) as [ks| |] eqn:E1; cbn in E; try discriminate.
  destruct ry as [y| |]; cbn in E; try discriminate.
  destruct (aset (snd kv) g y) as [vs| |] eqn:E2; cbn in E; try discriminate. injection E as <-. unfold slot. cbn [fst snd].
  rewrite (aset_nth j E1), (aset_nth j E2). destruct (Nat.eqb_spec j g); [contradiction|reflexivity].
Qed.

Section BenchLP.
Variables (V : Type) (M : nat) (f : nat -> V).
Hypothesis HM : 2 <= M.
Notation lp := (bsearch_pos false).
Notation ent := (entries f).

Lemma lp_ok : forall a b R key, ssorted (a ++ b) -> alt key a -> age key b ->
  lp (map Some (a ++ b) ++ R) (length (a ++ b)) key = Ok (length a).
Proof. intros. apply bsearch_pos_correct; simpl; auto. Qed.

Lemma rep_holds : forall (l : sleaf V) es, sl_rep M l es -> holds l es.
Proof.
  intros l es (_ & N & _ & _ & _ & (R & K) & (R' & W)). split; [exact N|]. intros i k v E.
  assert (I : i < length es) by (apply nth_error_Some; congruence). rewrite K, W.
  rewrite !nth_error_app1 by (rewrite map_length; unfold keys, vals; rewrite map_length; exact I).
  unfold keys, vals. rewrite !nth_error_map, E. split; reflexivity.
Qed.

Lemma ent_app : forall a b, ent (a ++ b) = ent a ++ ent b. Proof. intros. apply map_app. Qed.
Lemma ent_len : forall a, length (ent a) = length a. Proof. intros. apply map_length. Qed.
Lemma ent_keys : forall a, keys (ent a) = map Z.of_nat a.
Proof. intros. unfold keys, entries. rewrite map_map. reflexivity. Qed.
Lemma ent_seq_sorted : forall n a, sorted (ent (seq a n)).
Proof.
  unfold sorted. intros n a. rewrite ent_keys. revert a. induction n as [|n IH]; intros a; [constructor|]. cbn.
  constructor; [apply IH|]. apply Forall_forall. intros x X. apply in_map_iff in X. destruct X as (y & <- & Y).
  apply in_seq in Y. lia.
Qed.
Lemma ent_seq_alt : forall n a, alt (Z.of_nat (a + n)) (keys (ent (seq a n))).
Proof.
  intros n a. rewrite ent_keys. apply Forall_forall. intros x X. apply in_map_iff in X. destruct X as (y & <- & Y).
  apply in_seq in Y. lia.
Qed.

Lemma append_ok : forall (l : sleaf V) a n, sl_rep M l (ent (seq a n)) -> n < M ->
  exists l', sl_insert M lp l (Z.of_nat (a + n)) (f (a + n)) = Ok (LDone l') /\ sl_rep M l' (ent (seq a (S n))).
Proof.
  intros l a n R L. pose proof (ent_seq_alt n a) as A.
  destruct (@sl_insert_at_ok V M HM l (ent (seq a n)) [] (Z.of_nat (a + n)) (f (a + n))) as (l' & E & R').
  - rewrite app_nil_r. exact R.
  - rewrite app_nil_r, ent_len, seq_length. exact L.
  - change [(Z.of_nat (a + n), f (a + n))] with (ent [a + n]). rewrite <- ent_app, <- seq_S. apply ent_seq_sorted.
  - exists l'. change [(Z.of_nat (a + n), f (a + n))] with (ent [a + n]) in R'. rewrite <- ent_app, <- seq_S in R'.
    split; [|exact R']. unfold sl_insert.
    rewrite (@lpos_rep V M lp lp_ok l (ent (seq a n)) (ent (seq a n)) [] (Z.of_nat (a + n)) R); [|rewrite app_nil_r; reflexivity|exact A|constructor].
    destruct R as (_ & N & _). cbn [bind]. rewrite N, Nat.ltb_irrefl. cbn [bind].
    rewrite ent_len, seq_length in *. destruct (Nat.eqb_spec n M); [lia|]. rewrite E. reflexivity.
Qed.
Lemma fill_ok : forall k n a (l : sleaf V), sl_rep M l (ent (seq a n)) -> n + k <= M ->
  exists l', bl_fill M f l (seq (a + n) k) = Ok l' /\ sl_rep M l' (ent (seq a (n + k))).
Proof.
  induction k as [|k IH]; intros n a l R L.
  - exists l. rewrite Nat.add_0_r. split; [reflexivity|exact R].
  - destruct (@append_ok l a n R ltac:(lia)) as (l1 & E1 & R1). cbn [seq bl_fill]. rewrite E1. cbn [bind].
    destruct (IH (S n) a l1 R1 ltac:(lia)) as (l2 & E2 & R2). exists l2.
    replace (S (a + n)) with (a + S n) by lia. split; [exact E2|]. replace (n + S k) with (S n + k) by lia. exact R2.
Qed.
Lemma prepare_ok : forall a b, b - a <= M ->
  exists l, bl_prepare M f a b = Ok l /\ sl_rep M l (ent (seq a (b - a))).
Proof.
  intros a b L. unfold bl_prepare, bl_loop.
  destruct (@fill_ok (b - a) 0 a (sl_new V M)) as (l & E & R); [exact (@sl_new_ok V M HM)|lia|].
  rewrite Nat.add_0_r in E. exists l. split; [exact E|exact R].
Qed.

(** ** Merge *)
Lemma merge_raw : forall (l1 l2 : sleaf V) e1 e2, sl_rep M l1 e1 -> sl_rep M l2 e2 -> length e1 + length e2 <= M ->
  exists l, sl_merge l1 l2 = Ok l /\ holds l (e1 ++ e2).
Proof.
  intros l1 l2 e1 e2 (S1 & N1 & C1 & LK1 & LV1 & K1 & V1) (S2 & N2 & C2 & LK2 & LV2 & K2 & V2) HL.
  unfold sl_merge.
  destruct (@arr_copy Z (fun i => sn l1 + i) (fun i => i) (sk l2) (sk l1) [] (keys e2) (keys e1) (sn l2))
    as (k & E & (R & P) & Lk); auto; try (intros; rewrite ?keys_length; lia).
  destruct (@arr_copy V (fun i => sn l1 + i) (fun i => i) (sv l2) (sv l1) [] (vals e2) (vals e1) (sn l2))
    as (v & F & (R' & Q) & Lv); auto; try (intros; rewrite ?vals_length; lia).
  rewrite (for_up_pair E F). cbn [bind fst snd]. eexists. split; [reflexivity|]. split; cbn [sn sk sv].
  { rewrite app_length. lia. }
  intros i x y I. rewrite <- keys_app in P. rewrite <- vals_app in Q.
  assert (IL : i < length (e1 ++ e2)) by (apply nth_error_Some; congruence). rewrite P, Q.
  rewrite !nth_error_app1 by (rewrite map_length; unfold keys, vals; rewrite map_length; exact IL).
  unfold keys, vals. rewrite !nth_error_map, I. split; reflexivity.
Qed.

Lemma merge_bench : exists s t l, bm_prepare M f = Ok (s, t) /\ holds s (ent (seq 1 ((M + 1) / 2))) /\
  holds t (ent (seq ((M + 3) / 2) (M - (M + 3) / 2))) /\ bm_round (s, t) = Ok l /\
  holds l (ent (seq ((M + 3) / 2) (M - (M + 3) / 2) ++ seq 1 ((M + 1) / 2))).
Proof.
  destruct (@prepare_ok 1 ((M + 3) / 2) ltac:(lia)) as (s & ES & RS).
  destruct (@prepare_ok ((M + 3) / 2) M ltac:(lia)) as (t & ET & RT).
  replace ((M + 3) / 2 - 1) with ((M + 1) / 2) in RS by lia.
  destruct (@merge_raw t s _ _ RT RS) as (l & E & R); [rewrite !ent_len, !seq_length; lia|].
  exists s, t, l. unfold bm_prepare. rewrite ES. cbn [bind]. rewrite ET. cbn [bind]. rewrite ent_app.
  splits; [reflexivity|exact (rep_holds RS)|exact (rep_holds RT)|exact E|exact R].
Qed.

Lemma merge_unsorted : forall l, 4 <= M ->
  holds l (ent (seq ((M + 3) / 2) (M - (M + 3) / 2) ++ seq 1 ((M + 1) / 2))) ->
  ~ ascending (ent (seq ((M + 3) / 2) (M - (M + 3) / 2) ++ seq 1 ((M + 1) / 2))).
Proof.
  intros l H4 _ A. rewrite ent_app in A. set (n := M - (M + 3) / 2) in *.
  assert (B : (fst (Z.of_nat ((M + 3) / 2), f ((M + 3) / 2)) < fst (Z.of_nat 1, f 1))%Z).
  { apply (A 0 n); [lia| |].
    - replace n with (S (n - 1)) by lia. reflexivity.
    - rewrite nth_error_app2 by (rewrite ent_len, seq_length; lia). rewrite ent_len, seq_length, Nat.sub_diag.
      replace ((M + 1) / 2) with (S ((M + 1) / 2 - 1)) by lia. reflexivity. }
  cbn [fst] in B. lia.
Qed.

(** ** Balance *)
Lemma seq_cut : forall a n k (e1 e2 : list (Z * V)), ent (seq a n) = e1 ++ e2 -> length e1 = k ->
  e1 = ent (seq a k) /\ e2 = ent (seq (a + k) (n - k)).
Proof.
  intros a n k e1 e2 E L. assert (KN : k <= n).
  { apply (f_equal (@length _)) in E. rewrite ent_len, seq_length, app_length in E. lia. }
  replace n with (k + (n - k)) in E by lia. rewrite seq_app, ent_app in E.
  assert (L2 : length (ent (seq a k)) = length e1) by (rewrite ent_len, seq_length; lia).
  revert E L2. generalize (ent (seq a k)) (ent (seq (a + k) (n - k))). clear. intros x. revert e1.
  induction x as [|c x IH]; intros [|d e1] y E L; try discriminate; [split; [reflexivity|symmetry; exact E]|].
  cbn in E. injection E as -> E. destruct (IH _ _ E) as [-> ->]; [cbn in L; lia|]. split; reflexivity.
Qed.

Lemma balance_right_bench : 3 <= M -> exists d r d' r', bb_prepare M f true = Ok (d, r) /\
  bb_round (d, r) = Ok (d', r') /\ sl_rep M d (ent (seq 1 M)) /\ sl_rep M r (ent (seq (M + 1) ((M - 1) / 2))) /\
  sl_rep M d' (ent (seq 1 (bb_balanced M))) /\ sl_rep M r' (ent (seq (bb_balanced M + 1) (bb_moves M))).
Proof.
  intros H3. destruct (@prepare_ok 1 (M + 1) ltac:(lia)) as (d & ED & RD). replace (M + 1 - 1) with M in RD by lia.
  destruct (@prepare_ok (M + 1) ((3 * M + 1) / 2) ltac:(lia)) as (r & ER & RR).
  replace ((3 * M + 1) / 2 - (M + 1)) with ((M - 1) / 2) in RR by lia.
  destruct (@sl_balance_left_ok V M HM d r (ent (seq 1 M)) (ent (seq (M + 1) ((M - 1) / 2))) (Z.of_nat (M + 1))) as (d' & r' & e1 & e2 & E & EC & L1 & R1 & R2).
  - exact RD.
  - split; [exact RR|]. intros Z. apply (f_equal (@length _)) in Z. rewrite ent_len, seq_length in Z. cbn in Z. lia.
  - rewrite <- ent_app. replace (M + 1) with (1 + M) by lia. rewrite <- seq_app. apply ent_seq_sorted.
  - replace (M + 1) with (1 + M) by lia. apply ent_seq_alt.
  - rewrite !ent_len, !seq_length. lia.
  - rewrite ent_len, seq_length. lia.
  - rewrite !ent_len, !seq_length in L1. destruct (@seq_cut _ _ _ _ _ EC L1) as [-> ->].
    exists d, r, d', r'. unfold bb_prepare. rewrite ED. cbn [bind]. rewrite ER. cbn [bind].
    splits; try reflexivity; try assumption.
    + replace (bb_balanced M) with ((M + (M - 1) / 2) / 2) by (unfold bb_balanced; lia). exact R1.
    + rewrite <- ent_app in R2. unfold bb_moves. replace (bb_balanced M) with ((M + (M - 1) / 2) / 2) by (unfold bb_balanced; lia).
      set (b := (M + (M - 1) / 2) / 2) in *. replace ((M - 1) / 2 + M - b) with ((M - b) + (M - 1) / 2) by lia.
      rewrite seq_app. replace (b + 1 + (M - b)) with (M + 1) by lia. replace (b + 1) with (1 + b) by lia. exact R2.
Qed.
Lemma balance_left_bench : 3 <= M -> exists d r d' r', bb_prepare M f false = Ok (d, r) /\
  bb_round (d, r) = Ok (d', r') /\ sl_rep M d (ent (seq ((M + 1) / 2) M)) /\ sl_rep M r (ent (seq 1 ((M - 1) / 2))) /\
  sl_rep M d' (ent (seq (bb_moves M + 1) (bb_balanced M))) /\ sl_rep M r' (ent (seq 1 (bb_moves M))).
Proof.
  intros H3. destruct (@prepare_ok 1 ((M + 1) / 2) ltac:(lia)) as (r & ER & RR).
  replace ((M + 1) / 2 - 1) with ((M - 1) / 2) in RR by lia.
  destruct (@prepare_ok ((M + 1) / 2) ((3 * M + 1) / 2) ltac:(lia)) as (d & ED & RD).
  replace ((3 * M + 1) / 2 - (M + 1) / 2) with M in RD by lia.
  assert (U : (M + 1) / 2 = 1 + (M - 1) / 2) by lia.
  destruct (@sl_balance_right_ok V M HM d r (ent (seq ((M + 1) / 2) M)) (ent (seq 1 ((M - 1) / 2))) 0%Z) as (d' & r' & e1 & e2 & E & EC & L1 & R1 & R2).
  - exact RD.
  - split; [exact RR|]. intros Z. apply (f_equal (@length _)) in Z. rewrite ent_len, seq_length in Z. cbn in Z. lia.
  - rewrite <- ent_app, U, <- seq_app. apply ent_seq_sorted.
  - rewrite ent_keys. apply Forall_forall. intros x X. apply in_map_iff in X. destruct X as (y & <- & Y). apply in_seq in Y. lia.
  - rewrite !ent_len, !seq_length. lia.
  - rewrite ent_len, seq_length. lia.
  - rewrite !ent_len, !seq_length in L1.
    assert (L2 : length e1 = M - (M + (M - 1) / 2) / 2).
    { apply (f_equal (@length _)) in EC. rewrite ent_len, seq_length, app_length in EC. lia. }
    destruct (@seq_cut _ _ _ _ _ EC L2) as [-> ->].
    exists d, r, d', r'. unfold bb_prepare. rewrite ER. cbn [bind]. rewrite ED. cbn [bind].
    splits; try reflexivity; try assumption.
    + unfold bb_moves. replace (bb_balanced M) with ((M + (M - 1) / 2) / 2) by (unfold bb_balanced; lia).
      set (b := (M + (M - 1) / 2) / 2) in *. replace (M - (M - b)) with b in R1 by lia.
      replace ((M - 1) / 2 + M - b + 1) with ((M + 1) / 2 + (M - b)) by lia. exact R1.
    + rewrite <- ent_app in R2. unfold bb_moves. replace (bb_balanced M) with ((M + (M - 1) / 2) / 2) by (unfold bb_balanced; lia).
      set (b := (M + (M - 1) / 2) / 2) in *. replace ((M - 1) / 2 + M - b) with ((M - 1) / 2 + (M - b)) by lia.
      rewrite seq_app, <- U. exact R2.
Qed.

(** ** Erase *)
Lemma erase_bench : forall k, 1 <= k <= M -> exists l l', be_prepare M f = Ok l /\ sl_rep M l (ent (seq 1 M)) /\
  be_round (Z.of_nat k) l = Ok (true, l') /\ holds l' (ent (seq 1 (k - 1) ++ seq (k + 1) (M - k))).
Proof.
  intros k K. destruct (@prepare_ok 1 (M + 1) ltac:(lia)) as (l & E & R). replace (M + 1 - 1) with M in R by lia.
  assert (SP : ent (seq 1 M) = ent (seq 1 (k - 1)) ++ (Z.of_nat k, f k) :: ent (seq (k + 1) (M - k))).
  { replace M with ((k - 1) + S (M - k)) at 1 by lia. rewrite seq_app, ent_app. cbn [seq entries map].
    replace (1 + (k - 1)) with k by lia. replace (S k) with (k + 1) by lia. reflexivity. }
  assert (AL : alt (Z.of_nat k) (keys (ent (seq 1 (k - 1))))).
  { pose proof (ent_seq_alt (k - 1) 1) as A. replace (1 + (k - 1)) with k in A by lia. exact A. }
  destruct (@sl_erase_ok V M HM lp lp_ok l (ent (seq 1 M)) (Z.of_nat k) R) as (l' & EE & R' & _).
  { rewrite SP, get_old by exact AL. discriminate. }
  rewrite SP, del_old in R' by exact AL. rewrite <- ent_app in R'.
  exists l, l'. splits; [exact E|exact R|exact EE|exact (rep_holds R')].
Qed.
Lemma erase_frame : forall k l l' i, 1 <= k <= M -> sl_rep M l (ent (seq 1 M)) -> be_round (Z.of_nat k) l = Ok (true, l') ->
  changed l l' i -> k - 1 <= i < M - 1.
Proof.
  intros k l l' i K R E C. unfold be_round, sl_erase in E.
  assert (SP : ent (seq 1 M) = ent (seq 1 (k - 1)) ++ ent (seq k (M - k + 1))).
  { replace M with ((k - 1) + (M - k + 1)) at 1 by lia. rewrite seq_app, ent_app. replace (1 + (k - 1)) with k by lia. reflexivity. }
  rewrite (@lpos_rep V M lp lp_ok l _ _ _ (Z.of_nat k) R SP) in E.
  2:{ pose proof (ent_seq_alt (k - 1) 1) as A. replace (1 + (k - 1)) with k in A by lia. exact A. }
  2:{ rewrite ent_keys. apply Forall_forall. intros x X. apply in_map_iff in X. destruct X as (y & <- & Y). apply in_seq in Y. lia. }
  rewrite ent_len, seq_length in E. cbn [bind] in E. destruct R as (_ & N & _). rewrite ent_len, seq_length in N. rewrite N in E.
  destruct (aget (sk l) (k - 1)) as [x| |]; cbn [bind] in E; try discriminate. destruct (x =? Z.of_nat k)%Z; [|discriminate].
  destruct (M =? 0); [discriminate|].
  match type of E with bind ?r _ = _ => destruct r as [kv| |] eqn:F; cbn [bind] in E; try discriminate end. injection E as <-.
  destruct (Nat.lt_ge_cases i (k - 1)) as [LO|LO]; [exfalso|destruct (Nat.lt_ge_cases i (M - 1)) as [HI|HI]; [lia|exfalso]].
  all: assert (S : slot i kv = slot i (sk l, sv l));
    [refine (@for_up_frame _ _ (slot i) _ _ _ _ _ _ F); intros j s s' J; apply body_frame; lia|];
    unfold slot in S; cbn [fst snd] in S; injection S as S1 S2; destruct C as [C|C]; apply C; cbn [sk sv]; congruence.
Qed.

(** ** What the other operations write *)
Lemma balance_frame : forall (d r d' r' : sleaf V) a b, bb_round (d, r) = Ok (d', r') ->
  aget (sk d) 0 = Ok a -> aget (sk r) 0 = Ok b -> (a < b)%Z ->
  sk d' = sk d /\ sv d' = sv d /\ forall i, changed r r' i -> i < sn r + (sn d - (sn d + sn r) / 2).
Proof.
  intros d r d' r' a b E A B AB. unfold bb_round, sl_balance in E. cbn [fst snd] in E.
  set (bal := (sn d + sn r) / 2) in *. destruct (sn d <? bal); [discriminate|].
  destruct (Nat.eqb_spec (sn d - bal) 0) as [Z|NZ].
  { injection E as <- <-. splits; try reflexivity. intros i [C|C]; exfalso; apply C; reflexivity. }
  rewrite A, B in E. cbn [bind] in E. destruct (Z.ltb_spec a b); [|lia].
  match type of E with bind ?x _ = _ => destruct x as [kv| |] eqn:F; cbn [bind] in E; try discriminate end.
  match type of E with bind ?x _ = _ => destruct x as [kv'| |] eqn:G; cbn [bind] in E; try discriminate end.
  injection E as <- <-. cbn [sk sv]. splits; try reflexivity. intros i C.
  destruct (Nat.lt_ge_cases i (sn r + (sn d - bal))) as [|HI]; [assumption|exfalso].
  assert (S : slot i kv' = slot i (sk r, sv r)).
  { transitivity (slot i kv).
    - refine (@for_up_frame _ _ (slot i) _ _ _ _ _ _ G). intros j s s' J. apply body_frame. lia.
    - refine (@for_down_frame _ _ (slot i) _ _ _ _ _ _ _ F); [lia|]. intros j s s' J. apply body_frame. lia. }
  unfold slot in S; cbn [fst snd] in S; injection S as S1 S2; destruct C as [C|C]; apply C; cbn [sk sv]; congruence.
Qed.
Lemma split_frame : forall (l l1 l2 : sleaf V), sl_split M l = Ok (l1, l2) -> sn l = M ->
  sk l1 = sk l /\ sv l1 = sv l /\ forall i, changed (sl_new V M) l2 i -> i < M / 2.
Proof.
  intros l l1 l2 E N. unfold sl_split in E. destruct (sn l <? (M + 1) / 2); [discriminate|].
  match type of E with bind ?x _ = _ => destruct x as [kv| |] eqn:F; cbn [bind] in E; try discriminate end.
  injection E as <- <-. cbn [sk sv]. splits; try reflexivity. intros i C.
  destruct (Nat.lt_ge_cases i (M / 2)) as [|HI]; [assumption|exfalso].
  assert (S : slot i kv = slot i (anew M, anew M)).
  { refine (@for_up_frame _ _ (slot i) _ _ _ _ _ _ F). intros j s s' J. apply body_frame. lia. }
  unfold slot in S; cbn [fst snd] in S; injection S as S1 S2; destruct C as [C|C]; apply C; cbn [sl_new sk sv]; congruence.
Qed.

(** ** Split *)
Lemma split_full : forall l : sleaf V, sl_rep M l (ent (seq 1 M)) -> exists l1 l2, sl_split M l = Ok (l1, l2) /\
  sl_rep M l1 (ent (seq 1 ((M + 1) / 2))) /\ sl_rep M l2 (ent (seq ((M + 1) / 2 + 1) (M / 2))).
Proof.
  intros l R. replace M with ((M + 1) / 2 + M / 2) in R at 2 by lia. rewrite seq_app, ent_app in R.
  apply (sl_split_ok HM) in R; [|rewrite ent_len, seq_length; reflexivity|rewrite app_length, !ent_len, !seq_length; lia].
  destruct R as (l1 & l2 & E & R1 & R2). exists l1, l2. replace (1 + (M + 1) / 2) with ((M + 1) / 2 + 1) in R2 by lia.
  splits; assumption.
Qed.

Lemma split_rounds : forall n ps l m, sl_rep M l (ent (seq 1 M)) -> (forall p, In p ps -> 1 <= p <= n) ->
  (forall i, i <= n -> lcell m i = Some (l, None)) -> n < lfresh m ->
  exists m', bs_rounds M m ps = Ok m' /\ (forall i, i <= n -> lcell m' i = Some (l, None)) /\
  (forall i, n < i < lfresh m -> lcell m' i = lcell m i) /\
  (forall i, lfresh m <= i < lfresh m + length ps ->
     exists r, lcell m' i = Some (r, None) /\ holds r (ent (seq ((M + 1) / 2 + 1) (M / 2)))) /\
  (forall i, lfresh m + length ps <= i -> lcell m' i = lcell m i).
Proof.
  intros n. induction ps as [|p ps IH]; intros l m R P C F.
  - exists m. splits; try reflexivity; try assumption; cbn [length]; intros; try lia. 
  - cbn [bs_rounds]. pose proof (P p (or_introl eq_refl)) as PP. unfold bs_round. rewrite (C p ltac:(lia)). cbn [of_opt bind fst snd].
    destruct (split_full R) as (l1 & l2 & E & R1 & R2). rewrite E. cbn [bind fst snd].
    assert (K0 : aget (sk l2) 0 = Ok (Z.of_nat ((M + 1) / 2 + 1))).
    { destruct R2 as (_ & _ & _ & _ & _ & R2 & _). rewrite ent_keys in R2. replace (M / 2) with (S (M / 2 - 1)) in R2 by lia.
      cbn [seq map] in R2. exact (@pre_get _ _ [] _ _ 0 R2 eq_refl). }
    rewrite K0. cbn [bind].
    assert (L0 : lput (lput (lcell m) (lfresh m) (Some (l2, None))) p (Some (l1, Some (lfresh m))) 0 = Some (l, None)).
    { unfold lput. destruct (Nat.eqb_spec 0 p); [lia|]. destruct (Nat.eqb_spec 0 (lfresh m)); [lia|]. apply C. lia. }
    rewrite L0. cbn [of_opt bind snd].
    match goal with |- context [bs_rounds M ?x ps] => set (m1 := x) end.
    assert (C1 : forall i, i <= n -> lcell m1 i = Some (l, None)).
    { intros i I. subst m1. cbn [lcell]. unfold lput. destruct (Nat.eqb_spec i p); [reflexivity|].
      destruct (Nat.eqb_spec i (lfresh m)); [lia|]. apply C. exact I. }
    assert (O1 : forall i, n < i -> lcell m1 i = if i =? lfresh m then Some (l2, None) else lcell m i).
    { intros i I. subst m1. cbn [lcell]. unfold lput. destruct (Nat.eqb_spec i p); [lia|]. reflexivity. }
    destruct (IH l m1 R (fun q Q => P q (or_intror Q)) C1 ltac:(subst m1; cbn [lfresh]; lia)) as (m' & E' & A1 & A2 & A3 & A4).
    change (lfresh m1) with (S (lfresh m)) in *. cbn [length].
    exists m'. splits; [exact E'|exact A1| | |].
    + intros i I. rewrite A2, O1 by lia. destruct (Nat.eqb_spec i (lfresh m)); [lia|reflexivity].
    + intros i I. destruct (Nat.eq_dec i (lfresh m)) as [->|NE].
      * rewrite A2, O1, Nat.eqb_refl by lia. exists l2. split; [reflexivity|exact (rep_holds R2)].
      * apply A3. lia.
    + intros i I. rewrite A4, O1 by lia. destruct (Nat.eqb_spec i (lfresh m)); [lia|reflexivity].
Qed.
Lemma split_bench : forall n ps, (forall p, In p ps -> 1 <= p <= n) ->
  exists m0 m, bs_prepare M f n = Ok m0 /\ bs_rounds M m0 ps = Ok m /\
  (forall i, i <= n -> exists l, lcell m i = Some (l, None) /\ holds l (ent (seq 1 M))) /\
  (forall i, n < i <= n + length ps ->
     exists l, lcell m i = Some (l, None) /\ holds l (ent (seq ((M + 1) / 2 + 1) (M / 2)))) /\
  forall i, n + length ps < i -> lcell m i = None.
Proof.
  intros n ps P. destruct (@prepare_ok 1 (M + 1) ltac:(lia)) as (l & E & R). replace (M + 1 - 1) with M in R by lia.
  unfold bs_prepare. rewrite E. cbn [bind]. set (m0 := LMem _ _).
  assert (C0 : forall i, i <= n -> lcell m0 i = Some (l, None)).
  { intros i I. subst m0. cbn [lcell]. destruct (Nat.leb_spec i n); [reflexivity|lia]. }
  destruct (@split_rounds n ps l m0 R P C0 ltac:(subst m0; cbn [lfresh]; lia)) as (m & E' & A1 & A2 & A3 & A4).
  change (lfresh m0) with (S n) in *.
  exists m0, m. splits; [reflexivity|exact E'| | |].
  - intros i I. exists l. split; [exact (A1 i I)|exact (rep_holds R)].
  - intros i I. apply A3. lia.
  - intros i I. rewrite A4 by lia. subst m0. cbn [lcell]. destruct (Nat.leb_spec i n); [lia|reflexivity].
Qed.

(** ** Insert *)
Lemma asc_seq : forall n a, ssorted (map Z.of_nat (seq a n)).
Proof. intros n a. rewrite <- ent_keys. apply ent_seq_sorted. Qed.
Lemma fill_asc : forall js es (l : sleaf V), sl_rep M l (ent es) -> ssorted (map Z.of_nat (es ++ js)) -> length (es ++ js) <= M ->
  exists l', bl_fill M f l js = Ok l' /\ sl_rep M l' (ent (es ++ js)).
Proof.
  induction js as [|j js IH]; intros es l R S L.
  - exists l. rewrite app_nil_r. split; [reflexivity|exact R].
  - replace (es ++ j :: js) with ((es ++ [j]) ++ js) in * by (rewrite <- app_assoc; reflexivity).
    assert (SJ : sorted (ent es ++ [(Z.of_nat j, f j)])).
    { change [(Z.of_nat j, f j)] with (ent [j]). rewrite <- ent_app. unfold sorted. rewrite ent_keys.
      rewrite map_app in S. apply ssorted_app in S. apply S. }
    assert (LJ : length (ent es ++ []) < M).
    { rewrite app_nil_r, ent_len. rewrite !app_length in L. cbn in L. lia. }
    assert (RN : sl_rep M l (ent es ++ [])) by (rewrite app_nil_r; exact R).
    assert (AL : alt (Z.of_nat j) (keys (ent es))).
    { apply sorted_app in SJ. destruct SJ as (_ & _ & X). apply Forall_forall. intros x HX. apply X with (y := Z.of_nat j); [exact HX|left; reflexivity]. }
    destruct (@sl_insert_at_ok V M HM l (ent es) [] (Z.of_nat j) (f j) RN LJ SJ) as (l1 & E1 & R1).
    assert (I : sl_insert M lp l (Z.of_nat j) (f j) = Ok (LDone l1)).
    { unfold sl_insert. rewrite (@lpos_rep V M lp lp_ok l (ent es) (ent es) [] (Z.of_nat j) R); [|rewrite app_nil_r; reflexivity|exact AL|constructor].
      destruct R as (_ & N & _). cbn [bind]. rewrite N, Nat.ltb_irrefl. cbn [bind].
      rewrite app_nil_r in LJ. destruct (Nat.eqb_spec (length (ent es)) M); [lia|]. rewrite E1. reflexivity. }
    cbn [bl_fill]. rewrite I. cbn [bind].
    change [(Z.of_nat j, f j)] with (ent [j]) in R1. rewrite <- ent_app in R1. exact (IH _ l1 R1 S L).
Qed.

Lemma insert_raw : forall (l : sleaf V) a k b, sl_rep M l (ent (a ++ b)) -> ssorted (map Z.of_nat (a ++ k :: b)) -> length (a ++ b) < M ->
  exists l', bi_pos k l = Ok (length a) /\ bi_round f k l = Ok l' /\ sl_rep M l' (ent (a ++ k :: b)).
Proof.
  intros l a k b R S L. assert (SK := S). rewrite map_app in SK. cbn [map] in SK. apply ssorted_app in SK.
  destruct SK as (_ & SB & SX).
  assert (P : bi_pos k l = Ok (length (ent a))).
  { apply (@lpos_rep V M lp lp_ok l (ent (a ++ b)) (ent a) (ent b) (Z.of_nat k) R); [apply ent_app| |].
    - rewrite ent_keys. apply Forall_forall. intros x X. apply (SX x (Z.of_nat k) X). left. reflexivity.
    - rewrite ent_keys. inversion SB; subst. eapply Forall_impl; [|eassumption]. intros y Y. cbn in Y. lia. }
  rewrite ent_app in R.
  destruct (@sl_insert_at_ok V M HM l (ent a) (ent b) (Z.of_nat k) (f k) R) as (l' & E & R').
  - rewrite <- ent_app, ent_len. exact L.
  - change ((Z.of_nat k, f k) :: ent b) with (ent (k :: b)). rewrite <- ent_app. unfold sorted. rewrite ent_keys. exact S.
  - exists l'. rewrite P. unfold bi_round. rewrite P. cbn [bind]. rewrite ent_len in *. change ((Z.of_nat k, f k) :: ent b) with (ent (k :: b)) in R'.
    rewrite <- ent_app in R'. splits; [reflexivity|exact E|exact R'].
Qed.

Definition bi_fine (E k : nat) : Prop := k = 1 \/ (k = E /\ M <= E) \/ (k = (E + 1) / 2 /\ k <= M).
Definition bi_result (E k : nat) : list nat := if (k =? E) && negb (k =? 1) then seq 1 (M - 1) ++ [E] else seq 1 M.
Lemma insert_bench : forall E k, 1 <= k -> M <= E -> bi_fine E k -> exists a b l l', bi_prepare M f E k = Ok l /\
  bi_keys M E k = a ++ b /\ length (a ++ b) = M - 1 /\ sl_rep M l (ent (a ++ b)) /\ bi_pos k l = Ok (length a) /\
  bi_round f k l = Ok l' /\ sl_rep M l' (ent (a ++ k :: b)) /\ a ++ k :: b = bi_result E k.
Proof.
  intros E k K ME FI.
  assert (A : exists a b, bi_keys M E k = a ++ b /\ length (a ++ b) = M - 1 /\ a ++ k :: b = bi_result E k /\
    ssorted (map Z.of_nat (a ++ b)) /\ ssorted (map Z.of_nat (a ++ k :: b))).
  { unfold bi_keys, bl_loop, bi_result. destruct (Nat.eqb_spec k 1) as [->|N1].
    - exists [], (seq 2 (M - 1)). rewrite andb_false_r. replace (M + 1 - 2) with (M - 1) by lia. cbn [app].
      assert (EQ : 1 :: seq 2 (M - 1) = seq 1 M) by (replace M with (S (M - 1)) at 2 by lia; reflexivity).
      rewrite seq_length. splits; try reflexivity; try exact EQ; [apply asc_seq|rewrite EQ; apply asc_seq].
    - destruct (Nat.eqb_spec k E) as [->|NE].
      + exists (seq 1 (M - 1)), []. cbn [negb andb]. rewrite app_nil_r. replace (M - 1 + 1 - 1) with (M - 1) by lia.
        rewrite seq_length. splits; try reflexivity; [apply asc_seq|]. rewrite map_app. apply ssorted_app.
        splits; [apply asc_seq|repeat constructor|]. intros x y X [<-|[]]. apply in_map_iff in X. destruct X as (z & <- & Z).
        apply in_seq in Z. lia.
      + destruct FI as [?|[(? & _)|(EK & KM)]]; try contradiction. rewrite <- EK, Nat.eqb_refl. cbn [andb].
        exists (seq 1 (k - 1)), (seq (k + 1) (M - k)). replace (k - 1 + 1 - 1) with (k - 1) by lia.
        replace (M + 1 - (k + 1)) with (M - k) by lia. rewrite app_length, !seq_length.
        assert (EQ : seq 1 (k - 1) ++ k :: seq (k + 1) (M - k) = seq 1 M).
        { replace M with ((k - 1) + S (M - k)) at 2 by lia. rewrite seq_app. cbn [seq]. replace (1 + (k - 1)) with k by lia.
          replace (S k) with (k + 1) by lia. reflexivity. }
        splits; try reflexivity; try lia; try exact EQ; [|rewrite EQ; apply asc_seq]. rewrite map_app. apply ssorted_app.
        splits; [apply asc_seq|apply asc_seq|]. intros x y X Y. apply in_map_iff in X, Y.
        destruct X as (z & <- & Z), Y as (u & <- & U). apply in_seq in Z, U. lia. }
  destruct A as (a & b & EK & LN & RS & S1 & S2).
  destruct (@fill_asc (a ++ b) [] (sl_new V M) (@sl_new_ok V M HM) S1) as (l & EP & R); [cbn [app]; lia|]. cbn [app] in R.
  destruct (@insert_raw l a k b R S2 ltac:(lia)) as (l' & P & EI & R').
  exists a, b, l, l'. unfold bi_prepare. rewrite EK. splits; try assumption; reflexivity.
Qed.
Lemma insert_frame : forall k p (l l' : sleaf V) i, bi_pos k l = Ok p -> bi_round f k l = Ok l' -> p <= sn l ->
  changed l l' i -> p <= i <= sn l.
Proof.
  intros k p l l' i P E L C. unfold bi_round in E. rewrite P in E. cbn [bind] in E. unfold sl_insert_at in E.
  match type of E with bind ?x _ = _ => destruct x as [kv| |] eqn:F; cbn [bind] in E; try discriminate end.
  destruct (aset (fst kv) p (Z.of_nat k)) as [ks| |] eqn:E1; cbn [bind] in E; try discriminate.
  destruct (aset (snd kv) p (f k)) as [vs| |] eqn:E2; cbn [bind] in E; try discriminate. injection E as <-.
  destruct (Nat.lt_ge_cases i p) as [LO|LO]; [exfalso|destruct (Nat.le_gt_cases i (sn l)) as [HI|HI]; [lia|exfalso]].
  all: assert (S : slot i kv = slot i (sk l, sv l));
    [refine (@for_down_frame _ _ (slot i) _ _ _ _ _ _ _ F); [lia|]; intros j s s' J; apply body_frame; lia|];
    unfold slot in S; cbn [fst snd] in S; injection S as S1 S2; destruct C as [C|C]; apply C; cbn [sk sv];
    [rewrite (aset_nth i E1)|rewrite (aset_nth i E2)]; destruct (Nat.eqb_spec i p); try lia; congruence.
Qed.
End BenchLP.
