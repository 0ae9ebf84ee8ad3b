From Coq Require Import NArith Nnat.
From Verif Require Import Base BdccModel BdccSpec.
Open Scope nat_scope.

Definition owned (own : nat -> nat) (i b n : nat) : nat :=
  length (filter (fun j => own j =? i) (seq b n)).

Lemma num_bins_total ds : num_bins ds = total (map d_bits ds).
Proof.
  unfold num_bins, total.
  assert (H : forall s, fold_left (fun s d => s + d_bits d) ds s = s + fold_right Nat.add 0 (map d_bits ds)).
  { induction ds as [|d r IH]; intros s; cbn [fold_left map fold_right]; [lia|]. rewrite IH. lia. }
  rewrite H. reflexivity.
Qed.

(** The masks [ms] belong to dimensions i0, i0+1, ...; bits b .. t-1 are assigned by [own]. *)
Definition assigned (own : nat -> nat) (b t i0 : nat) (ms : list N) : Prop :=
  forall i m, nth_error ms i = Some m ->
  forall j, N.testbit m (N.of_nat j) = (b <=? j) && (j <? t) && (own j =? i0 + i).

Lemma assigned_cons own b t i0 m ms : assigned own b t i0 (m :: ms) <->
  (forall j, N.testbit m (N.of_nat j) = (b <=? j) && (j <? t) && (own j =? i0)) /\ assigned own b t (S i0) ms.
Proof.
  split.
  - intros H. split.
    + intros j. specialize (H 0 m eq_refl j). now rewrite Nat.add_0_r in H.
    + intros i m' E j. specialize (H (S i) m' E j). now rewrite Nat.add_succ_r in H.
  - intros (H1 & H2) [|i] m' E j.
    + cbn in E. injection E as <-. now rewrite Nat.add_0_r.
    + cbn in E. rewrite Nat.add_succ_r. exact (H2 i m' E j).
Qed.

(** Remaining width + bits already assigned. *)
Definition counted (own : nat -> nat) (b t i0 : nat) (ws : list nat) (full : list nat) : Prop :=
  length ws = length full /\
  forall i w f, nth_error ws i = Some w -> nth_error full i = Some f -> w + owned own (i0 + i) b (t - b) = f.

Lemma counted_cons own b t i0 w ws f full : counted own b t i0 (w :: ws) (f :: full) <->
  w + owned own i0 b (t - b) = f /\ counted own b t (S i0) ws full.
Proof.
  split.
  - intros (L & H). split.
    + specialize (H 0 w f eq_refl eq_refl). now rewrite Nat.add_0_r in H.
    + split; [now injection L|]. intros i w' f' E1 E2. specialize (H (S i) w' f' E1 E2).
      now rewrite Nat.add_succ_r in H.
  - intros (H1 & L & H2). split; [cbn [length]; congruence|].
    intros [|i] w' f' E1 E2.
    + cbn in E1, E2. injection E1 as <-. injection E2 as <-. now rewrite Nat.add_0_r.
    + cbn in E1, E2. rewrite Nat.add_succ_r. exact (H2 i w' f' E1 E2).
Qed.

Lemma owned_step own k b n i :
  owned (fun j => if j =? b then k else own j) i b (S n) = (if i =? k then 1 else 0) + owned own i (S b) n.
Proof.
  unfold owned. cbn [seq filter]. rewrite Nat.eqb_refl.
  assert (E : filter (fun j => (if j =? b then k else own j) =? i) (seq (S b) n)
              = filter (fun j => own j =? i) (seq (S b) n)).
  { apply filter_ext_in. intros j Hj. apply in_seq in Hj. destruct (Nat.eqb_spec j b); [lia|reflexivity]. }
  rewrite E. rewrite (Nat.eqb_sym k i). destruct (i =? k); reflexivity.
Qed.

Lemma testbit_set m s own b t k : b = S s -> b <= t ->
  (forall j, N.testbit m (N.of_nat j) = (b <=? j) && (j <? t) && (own j =? k)) ->
  forall j, N.testbit (N.setbit m (N.of_nat s)) (N.of_nat j)
            = (s <=? j) && (j <? t) && ((if j =? s then k else own j) =? k).
Proof.
  intros -> Ht H j. rewrite N.setbit_eqb, H.
  destruct (N.eqb_spec (N.of_nat s) (N.of_nat j)) as [E|E].
  - apply Nat2N.inj in E. subst j. rewrite !Nat.eqb_refl. cbn [orb].
    destruct (Nat.leb_spec s s), (Nat.ltb_spec s t); try lia; reflexivity.
  - assert (j <> s) by congruence. destruct (Nat.eqb_spec j s); [lia|]. cbn [orb].
    destruct (Nat.leb_spec (S s) j), (Nat.leb_spec s j); try lia; reflexivity.
Qed.

Lemma testbit_keep m s own b t k k' : b = S s -> k <> k' ->
  (forall j, N.testbit m (N.of_nat j) = (b <=? j) && (j <? t) && (own j =? k')) ->
  forall j, N.testbit m (N.of_nat j) = (s <=? j) && (j <? t) && ((if j =? s then k else own j) =? k').
Proof.
  intros -> Hk H j. rewrite H. destruct (Nat.eqb_spec j s) as [->|].
  - destruct (Nat.eqb_spec k k'); [lia|]. destruct (Nat.leb_spec (S s) s); [lia|]. now rewrite andb_false_r.
  - destruct (Nat.leb_spec (S s) j), (Nat.leb_spec s j); try lia; reflexivity.
Qed.

Lemma assigned_keep own s b t i0 k ms : b = S s -> (k < i0 \/ i0 + length ms <= k) ->
  assigned own b t i0 ms -> assigned (fun j => if j =? s then k else own j) s t i0 ms.
Proof.
  intros Hb Hk H i m E. apply testbit_keep with (b := b); [exact Hb| |exact (H i m E)].
  assert (i < length ms) by (apply nth_error_Some; congruence). lia.
Qed.

Lemma counted_keep own s b t i0 k ws full : b = S s -> b <= t -> (k < i0 \/ i0 + length ws <= k) ->
  counted own b t i0 ws full -> counted (fun j => if j =? s then k else own j) s t i0 ws full.
Proof.
  intros -> Ht Hk (L & H). split; [exact L|]. intros i w f E1 E2.
  replace (t - s) with (S (t - S s)) by lia. rewrite owned_step.
  assert (i < length ws) by (apply nth_error_Some; congruence).
  destruct (Nat.eqb_spec (i0 + i) k); [lia|]. cbn [Nat.add]. now apply H.
Qed.

(** One round: dimensions before i0 were already treated in this round (lists in front). *)
Lemma round_spec ws : forall ms own b t i0 full wp mp fp,
  length ms = length ws -> b <= t -> t <= 32 ->
  length wp = i0 -> length mp = i0 ->
  assigned own b t 0 (mp ++ ms) -> counted own b t 0 (wp ++ ws) (fp ++ full) -> length fp = i0 ->
  total (wp ++ ws) = b ->
  exists ws' ms' b' own', mask_round ws ms b = Ok (ws', ms', b') /\
    length ws' = length ws /\ length ms' = length ms /\
    assigned own' b' t 0 (mp ++ ms') /\ counted own' b' t 0 (wp ++ ws') (fp ++ full) /\
    total (wp ++ ws') = b' /\ b' <= b /\ (0 < total ws -> b' < b).
Proof.
  induction ws as [|w ws IH]; intros [|m ms] own b t i0 full wp mp fp Lm Hbt Ht Lw Lp Ha Hc Lf Hs;
    try discriminate; cbn [mask_round].
  - exists [], [], b, own. splits; auto. cbn. lia.
  - assert (Lm' : length ms = length ws) by (cbn [length] in Lm; lia).
    destruct full as [|f full].
    { destruct Hc as (L & _). rewrite !app_length in L. cbn [length] in L. lia. }
    destruct w as [|w].
    + destruct (IH ms own b t (S i0) full (wp ++ [0]) (mp ++ [m]) (fp ++ [f])) as
        (ws' & ms' & b' & own' & E & L1 & L2 & A' & C' & S' & Hle & Hlt); auto;
        try (rewrite ?app_length; cbn [length]; lia); try (rewrite <- ?app_assoc; assumption).
      rewrite E. cbn [bind]. rewrite <- !app_assoc in *.
      exists (0 :: ws'), (m :: ms'), b', own'. splits; cbn [length]; auto.
    + assert (Hb : exists s, b = S s).
      { destruct b; [|eauto]. exfalso. revert Hs. clear. unfold total.
        rewrite fold_right_app. cbn [fold_right].
        assert (forall l x, x <= fold_right Nat.add x l) as H
          by (clear; induction l as [|a l IHl]; intros x; cbn [fold_right]; [lia|specialize (IHl x); lia]).
        specialize (H wp (S w + fold_right Nat.add 0 ws)). lia. }
      destruct Hb as [s Eb]. rewrite Eb. unfold bs_set.
      destruct (Nat.ltb_spec s 32); [|lia]. cbn [bind].
      pose (own1 := fun j => if j =? s then i0 else own j).
      assert (Hsum : total ((wp ++ [w]) ++ ws) = s).
      { rewrite <- app_assoc. unfold total in *. rewrite fold_right_app in *. cbn [app fold_right] in *.
        assert (forall l x, fold_right Nat.add (S x) l = S (fold_right Nat.add x l)) as HH
          by (clear; induction l as [|a l IHl]; intros x; cbn [fold_right]; [reflexivity|rewrite IHl; lia]).
        cbn [Nat.add] in Hs. rewrite HH in Hs. lia. }
      destruct (IH ms own1 s t (S i0) full (wp ++ [w]) (mp ++ [N.setbit m (N.of_nat s)]) (fp ++ [f])) as
        (ws' & ms' & b' & own' & E & L1 & L2 & A' & C' & S' & Hle & Hlt); auto; try lia;
        try (rewrite ?app_length; cbn [length]; lia).
      * (* masks *)
        rewrite <- app_assoc. cbn [app]. intros i m' Ei.
        destruct (Nat.lt_trichotomy i i0) as [Hi|[Hi|Hi]].
        -- rewrite nth_error_app1 in Ei by lia.
           apply testbit_keep with (b := b); [exact Eb|lia|]. apply Ha. rewrite nth_error_app1 by lia. exact Ei.
        -- subst i. rewrite nth_error_app2 in Ei by lia. replace (i0 - length mp) with 0 in Ei by lia.
           cbn in Ei. injection Ei as <-. cbn [Nat.add].
           apply testbit_set with (b := b); [exact Eb|exact Hbt|].
           apply (Ha i0). rewrite nth_error_app2 by lia. replace (i0 - length mp) with 0 by lia. reflexivity.
        -- rewrite nth_error_app2 in Ei by lia. destruct (i - length mp) as [|d] eqn:Ed; [lia|]. cbn in Ei.
           apply testbit_keep with (b := b); [exact Eb|lia|]. apply Ha. rewrite nth_error_app2 by lia.
           rewrite Ed. exact Ei.
      * (* counts *)
        rewrite <- !app_assoc. cbn [app]. destruct Hc as (L & Hc).
        split; [rewrite !app_length in *; cbn [length] in *; lia|].
        intros i w' f' E1 E2. unfold own1. replace (t - s) with (S (t - S s)) by lia. rewrite owned_step.
        destruct (Nat.lt_trichotomy i i0) as [Hi|[Hi|Hi]].
        -- destruct (Nat.eqb_spec (0 + i) i0); [lia|]. cbn [Nat.add].
           rewrite nth_error_app1 in E1 by lia. rewrite nth_error_app1 in E2 by lia.
           specialize (Hc i w' f'). rewrite Eb in Hc. cbn [Nat.add] in Hc.
           apply Hc; rewrite nth_error_app1 by lia; assumption.
        -- subst i. cbn [Nat.add]. rewrite Nat.eqb_refl.
           rewrite nth_error_app2 in E1 by lia. rewrite nth_error_app2 in E2 by lia.
           replace (i0 - length wp) with 0 in E1 by lia. replace (i0 - length fp) with 0 in E2 by lia.
           cbn in E1, E2. injection E1 as <-. injection E2 as <-.
           specialize (Hc i0 (S w) f). rewrite Eb in Hc. cbn [Nat.add] in Hc.
           rewrite <- Hc; [lia| |].
           ++ rewrite nth_error_app2 by lia. replace (i0 - length wp) with 0 by lia. reflexivity.
           ++ rewrite nth_error_app2 by lia. replace (i0 - length fp) with 0 by lia. reflexivity.
        -- destruct (Nat.eqb_spec (0 + i) i0); [lia|]. cbn [Nat.add].
           rewrite nth_error_app2 in E1 by lia. rewrite nth_error_app2 in E2 by lia.
           specialize (Hc i w' f'). rewrite Eb in Hc. cbn [Nat.add] in Hc.
           apply Hc; rewrite nth_error_app2 by lia.
           ++ destruct (i - length wp) eqn:Ed; [lia|exact E1].
           ++ destruct (i - length fp) eqn:Ed; [lia|exact E2].
      * rewrite E. cbn [bind]. rewrite <- !app_assoc in *.
        exists (w :: ws'), (N.setbit m (N.of_nat s) :: ms'), b', own'. splits; cbn [length]; auto; lia.
Qed.

Lemma loop_spec fuel : forall ws ms own b t full,
  length ms = length ws -> b <= fuel -> b <= t -> t <= 32 ->
  assigned own b t 0 ms -> counted own b t 0 ws full -> total ws = b ->
  exists ms' own' ws', mask_loop fuel ws ms b = Ok ms' /\ length ms' = length full /\
    assigned own' 0 t 0 ms' /\ counted own' 0 t 0 ws' full /\ total ws' = 0.
Proof.
  induction fuel as [|fuel IH]; intros ws ms own b t full Lm Hf Hbt Ht Ha Hc Hs; cbn [mask_loop].
  - destruct b; [|lia]. exists ms, own, ws. splits; auto. destruct Hc; congruence.
  - destruct b as [|b'].
    + exists ms, own, ws. splits; auto. destruct Hc; congruence.
    + destruct (@round_spec ws ms own (S b') t 0 full [] [] []) as
        (ws' & ms' & c & own' & E & L1 & L2 & A' & C' & S' & Hle & Hlt); auto.
      rewrite E. cbn [bind]. cbn [app] in *.
      apply (IH ws' ms' own' c t full); auto; try lia; try congruence.
Qed.

Lemma total_zero ws : total ws = 0 -> forall i w, nth_error ws i = Some w -> w = 0.
Proof.
  unfold total. induction ws as [|x r IH]; intros H [|i] w E; cbn in *; try discriminate.
  - injection E as <-. lia.
  - eapply IH; eauto. lia.
Qed.

Lemma testbit_ext_nat (a b : N) : (forall j, N.testbit a (N.of_nat j) = N.testbit b (N.of_nat j)) -> a = b.
Proof.
  intros H. apply N.bits_inj. intros n. specialize (H (N.to_nat n)). now rewrite N2Nat.id in H.
Qed.

Lemma lor_testbit ms j : N.testbit (fold_right N.lor 0%N ms) j = existsb (fun m => N.testbit m j) ms.
Proof.
  induction ms as [|m r IH]; cbn [fold_right existsb]; [apply N.bits_0|]. now rewrite N.lor_spec, IH.
Qed.

Lemma owned_in own i b n j : b <= j < b + n -> own j = i -> 0 < owned own i b n.
Proof.
  intros Hj E. unfold owned.
  assert (H : In j (filter (fun j => own j =? i) (seq b n))).
  { apply filter_In. split; [apply in_seq; lia|]. subst i. apply Nat.eqb_refl. }
  destruct (filter (fun j => own j =? i) (seq b n)); [destruct H|cbn [length]; lia].
Qed.

(** Summing the counts over all dimensions: bits owned by some dimension below [k]. *)
Lemma owned_sum own k n : length (filter (fun j => own j <? k) (seq 0 n))
  = total (map (fun i => owned own i 0 n) (seq 0 k)).
Proof.
  induction k as [|k IH].
  - cbn. induction (seq 0 n) as [|a l IHl]; [reflexivity|]. exact IHl.
  - rewrite seq_S, map_app. unfold total in *. rewrite fold_right_app. cbn [map fold_right Nat.add].
    assert (H : forall l x, fold_right Nat.add x l = fold_right Nat.add 0 l + x)
      by (clear; induction l as [|a l IHl]; intros x; cbn [fold_right]; [lia|rewrite IHl; lia]).
    rewrite H, <- IH. unfold owned. rewrite Nat.add_0_r. clear.
    induction (seq 0 n) as [|a l IHl]; [reflexivity|]. cbn [filter].
    destruct (Nat.ltb_spec (own a) (S k)), (Nat.ltb_spec (own a) k), (Nat.eqb_spec (own a) k);
      cbn [length]; try lia.
Qed.

Lemma filter_all_length {A} (f : A -> bool) (l : list A) :
  length (filter f l) = length l -> forall x, In x l -> f x = true.
Proof.
  induction l as [|a r IH]; cbn [filter]; intros H x Hx; [destruct Hx|].
  assert (B : length (filter f r) <= length r)
    by (clear; induction r as [|b r IH]; cbn [filter]; [lia|destruct (f b); cbn [length]; lia]).
  destruct (f a) eqn:E; cbn [length] in H; [|lia].
  destruct Hx as [<-|Hx]; [exact E|]. apply IH; [lia|exact Hx].
Qed.

Theorem derive_masks_spec ds : total (map d_bits ds) <= 32 ->
  exists ms, derive_masks ds = Ok ms /\ length ms = length ds /\
    disjoint ms /\ covers (total (map d_bits ds)) ms /\ widths_ok (map d_bits ds) ms.
Proof.
  intros Ht. unfold derive_masks. rewrite num_bins_total.
  set (ws := map d_bits ds) in *. set (t := total ws) in *.
  destruct (@loop_spec t ws (map (fun _ => 0%N) ds) (fun _ => 0) t t ws) as
    (ms & own & ws' & E & Lm & Ha & Hc & Hz); auto.
  - unfold ws. now rewrite !map_length.
  - intros i m Ei j. apply nth_error_In in Ei. apply in_map_iff in Ei. destruct Ei as (d & <- & _).
    rewrite N.bits_0. destruct (Nat.leb_spec t j), (Nat.ltb_spec j t); try lia; reflexivity.
  - split; [reflexivity|]. intros i w f E1 E2. rewrite Nat.sub_diag. cbn. rewrite Nat.add_0_r. congruence.
  - rewrite E. exists ms. cbn in Lm. unfold ws in Lm. rewrite map_length in Lm.
    assert (Own : forall i f, nth_error ws i = Some f -> owned own i 0 t = f).
    { intros i f Ef. destruct Hc as (L & Hc).
      destruct (nth_error ws' i) as [w'|] eqn:Ew.
      - specialize (Hc i w' f Ew Ef). rewrite (total_zero Hz Ew) in Hc. cbn [Nat.add] in Hc.
        now rewrite Nat.sub_0_r in Hc.
      - apply nth_error_None in Ew. assert (i < length ws) by (apply nth_error_Some; congruence). lia. }
    assert (Sum : total (map (fun i => owned own i 0 t) (seq 0 (length ws))) = t).
    { unfold t. f_equal. apply nth_ext with (d := 0) (d' := 0); [now rewrite map_length, seq_length|].
      intros i Hi. rewrite map_length, seq_length in Hi.
      rewrite (nth_indep _ 0 (owned own (length ws) 0 t)) by (rewrite map_length, seq_length; lia).
      rewrite map_nth with (d := length ws). rewrite seq_nth by lia. cbn [Nat.add].
      fold t. apply Own. apply nth_error_nth'. lia. }
    rewrite <- owned_sum in Sum.
    assert (All : forall j, j < t -> own j < length ws).
    { intros j Hj. apply Nat.ltb_lt.
      apply (@filter_all_length _ (fun j => own j <? length ws) (seq 0 t)).
      - rewrite Sum. now rewrite seq_length.
      - apply in_seq. lia. }
    splits; [reflexivity|exact Lm| | |].
    + intros i j a b Hij Ea Eb. apply testbit_ext_nat. intros k. rewrite N.land_spec, N.bits_0.
      rewrite (Ha i a Ea), (Ha j b Eb). cbn [Nat.add].
      destruct (Nat.eqb_spec (own k) i), (Nat.eqb_spec (own k) j); try lia; rewrite ?andb_false_r; reflexivity.
    + apply testbit_ext_nat. intros k. rewrite lor_testbit.
      destruct (Nat.lt_ge_cases k t) as [Hk|Hk].
      * rewrite N.ones_spec_low by lia. apply existsb_exists.
        specialize (All k Hk). unfold ws in All. rewrite map_length, <- Lm in All.
        destruct (nth_error ms (own k)) as [m|] eqn:Em; [|apply nth_error_None in Em; lia].
        exists m. split; [eapply nth_error_In; eauto|]. rewrite (Ha _ m Em). cbn [Nat.add].
        rewrite Nat.eqb_refl. destruct (Nat.ltb_spec k t); [reflexivity|lia].
      * rewrite N.ones_spec_high by lia.
        destruct (existsb (fun m => N.testbit m (N.of_nat k)) ms) eqn:Ex; [|reflexivity].
        apply existsb_exists in Ex. destruct Ex as (m & Hm & Hb).
        apply In_nth_error in Hm. destruct Hm as (i & Ei). rewrite (Ha _ m Ei) in Hb.
        destruct (Nat.ltb_spec k t); [lia|]. now rewrite andb_false_r in Hb.
    + unfold widths_ok. apply nth_ext with (d := 0) (d' := 0); [unfold ws; rewrite !map_length; exact Lm|].
      intros i Hi. rewrite map_length in Hi.
      destruct (nth_error ms i) as [m|] eqn:Em; [|apply nth_error_None in Em; lia].
      rewrite (nth_indep _ 0 (bits_below 32 0%N)) by (rewrite map_length; lia).
      rewrite map_nth. rewrite (nth_error_nth _ _ _ Em).
      destruct (nth_error ws i) as [f|] eqn:Ef;
        [|apply nth_error_None in Ef; unfold ws in Ef; rewrite map_length in Ef; lia].
      fold ws. rewrite (nth_error_nth _ _ _ Ef). rewrite <- (Own i f Ef). unfold bits_below, owned.
      rewrite <- (firstn_skipn t (seq 0 32)), filter_app, app_length.
      assert (E1 : firstn t (seq 0 32) = seq 0 t).
      { replace (seq 0 32) with (seq 0 (t + (32 - t))) by (f_equal; lia). rewrite seq_app. rewrite firstn_app, seq_length.
        rewrite Nat.sub_diag. cbn [firstn]. rewrite app_nil_r. now rewrite firstn_all2 by (rewrite seq_length; lia). }
      assert (E2 : skipn t (seq 0 32) = seq t (32 - t)).
      { replace (seq 0 32) with (seq 0 (t + (32 - t))) by (f_equal; lia). rewrite seq_app. rewrite skipn_app, seq_length.
        rewrite Nat.sub_diag. rewrite skipn_all2 by (rewrite seq_length; lia). reflexivity. }
      rewrite E1, E2.
      assert (E3 : filter (fun j => N.testbit m (N.of_nat j)) (seq t (32 - t)) = []).
      { rewrite <- (filter_ext_in (fun _ => false)).
        - clear. induction (seq t (32 - t)) as [|a l IHl]; [reflexivity|exact IHl].
        - intros j Hj. apply in_seq in Hj. rewrite (Ha i m Em).
          destruct (Nat.ltb_spec j t); [lia|]. now rewrite andb_false_r. }
      rewrite E3. cbn [length]. rewrite Nat.add_0_r. f_equal.
      apply filter_ext_in. intros j Hj. apply in_seq in Hj. rewrite (Ha i m Em). cbn [Nat.add].
      destruct (Nat.ltb_spec j t); [reflexivity|lia].
Qed.

(** ** The clustering value *)

Lemma scatter_mask neg x mapping : forall i j acc y,
  scatter neg i x mapping j acc = Ok y ->
  forall k, N.testbit y (N.of_nat k) = true ->
  (k < i /\ N.testbit mapping (N.of_nat k) = true) \/ (i <= k /\ N.testbit acc (N.of_nat k) = true).
Proof.
  induction i as [|i IH]; intros j acc y E k Hk; cbn [scatter] in E.
  - injection E as <-. right. split; [lia|exact Hk].
  - destruct (shr neg x j) as [s| |]; try discriminate. cbn [bind] in E.
    specialize (IH _ _ _ E k Hk). destruct IH as [(H1 & H2)|(H1 & H2)]; [left; split; [lia|exact H2]|].
    destruct (Nat.eq_dec k i) as [->|Hn].
    + left. split; [lia|]. destruct (Z.odd s); cbn [andb] in H2.
      * destruct (N.testbit mapping (N.of_nat i)) eqn:Em; [reflexivity|].
        rewrite N.clearbit_eqb, N.eqb_refl in H2. cbn in H2. now rewrite andb_false_r in H2.
      * rewrite N.clearbit_eqb, N.eqb_refl in H2. cbn in H2. now rewrite andb_false_r in H2.
    + right. split; [lia|].
      assert (Hne : (N.of_nat i =? N.of_nat k)%N = false) by (apply N.eqb_neq; lia).
      destruct (Z.odd s && N.testbit mapping (N.of_nat i)).
      * now rewrite N.setbit_eqb, Hne in H2.
      * rewrite N.clearbit_eqb, Hne in H2. cbn [negb] in H2. now rewrite andb_true_r in H2.
Qed.

Lemma dim_value_mask neg d m v z : dim_value neg d m v = Ok z ->
  forall k, N.testbit z (N.of_nat k) = true -> N.testbit m (N.of_nat k) = true.
Proof.
  unfold dim_value.
  destruct ((Z.of_nat (d_bits d) <? 63)%Z && (0 <=? Z.of_nat (d_align d) - Z.of_nat (d_bits d))%Z &&
     (Z.of_nat (d_bits d) + (Z.of_nat (d_align d) - Z.of_nat (d_bits d)) <? 64)%Z); [|discriminate].
  generalize 32 as r. intros r.
  match goal with |- bind ?s _ = _ -> _ => destruct s as [x| |]; cbn [bind]; try discriminate end.
  intros Ez k Hk. destruct (scatter_mask Ez Hk) as [(_ & H)|(_ & H)]; exact H.
Qed.

Lemma dims_below neg ds : forall ms tuple xtr y n,
  bdcc_dims neg ds ms tuple xtr = Ok y ->
  (forall m k, In m ms -> N.testbit m (N.of_nat k) = true -> k < n) ->
  (forall k, N.testbit xtr (N.of_nat k) = true -> k < n) ->
  forall k, N.testbit y (N.of_nat k) = true -> k < n.
Proof.
  induction ds as [|d ds IH]; intros [|m ms] tuple xtr y n E Hm Hx; cbn [bdcc_dims] in E; try discriminate.
  - injection E as <-. exact Hx.
  - destruct (nth_error tuple (d_col d)) as [v|]; cbn [bind] in E.
    + destruct (dim_value neg d m v) as [z| |] eqn:Ez; cbn [bind] in E; try discriminate.
      refine (IH _ _ _ _ _ E _ _); [intros m' k H; apply Hm; now right|].
      intros k Hk. rewrite N.lor_spec in Hk. apply orb_prop in Hk. destruct Hk as [Hk|Hk]; [now apply Hx|].
      apply (Hm m k); [now left|]. exact (dim_value_mask Ez Hk).
    + refine (IH _ _ _ _ _ E _ Hx). intros m' k H; apply Hm; now right.
Qed.

Lemma below_pow y n : (forall k, N.testbit y (N.of_nat k) = true -> k < n) -> (y < 2 ^ N.of_nat n)%N.
Proof.
  intros H. destruct (N.lt_ge_cases y (2 ^ N.of_nat n)) as [|G]; [assumption|exfalso].
  assert (Hy : y <> 0%N).
  { intros ->. assert (2 ^ N.of_nat n <> 0)%N by (apply N.pow_nonzero; discriminate). lia. }
  specialize (H (N.to_nat (N.log2 y))). rewrite N2Nat.id, N.bit_log2 in H by exact Hy.
  specialize (H eq_refl). apply N.log2_le_mono in G. rewrite N.log2_pow2 in G by lia. lia.
Qed.

Theorem bdcc_below neg ds tuple y : total (map d_bits ds) <= 32 ->
  bdcc_value neg ds tuple = Ok y -> (y < 2 ^ N.of_nat (num_bins ds))%N.
Proof.
  intros Ht E. rewrite num_bins_total. unfold bdcc_value in E.
  destruct (derive_masks_spec Ht) as (ms & Em & L & _ & Hc & _). rewrite Em in E. cbn [bind] in E.
  apply below_pow. intros k. revert k. refine (dims_below E _ _).
  - intros m k Hm Hk.
    destruct (Nat.lt_ge_cases k (total (map d_bits ds))) as [|G]; [assumption|exfalso].
    assert (H : N.testbit (fold_right N.lor 0%N ms) (N.of_nat k) = true).
    { rewrite lor_testbit. apply existsb_exists. eauto. }
    unfold covers in Hc. rewrite Hc, N.ones_spec_high in H by lia. discriminate.
  - intros k Hk. rewrite N.bits_0 in Hk. discriminate.
Qed.

(** The value exists whenever the alignments make sense, whatever a negative shift yields. *)
Definition dim_ok (d : dim) : Prop := d_bits d <= d_align d /\ d_align d - d_bits d < 32.

Lemma scatter_some f x mapping : forall i j acc, exists y, scatter (Some f) i x mapping j acc = Ok y.
Proof.
  induction i as [|i IH]; intros j acc; cbn [scatter]; [eauto|].
  unfold shr. destruct ((0 <=? j)%Z && (j <? 32)%Z); cbn [bind]; apply IH.
Qed.

Theorem bdcc_exists f ds tuple : total (map d_bits ds) <= 32 -> Forall dim_ok ds ->
  exists y, bdcc_value (Some f) ds tuple = Ok y.
Proof.
  intros Ht Hd. unfold bdcc_value. destruct (derive_masks_spec Ht) as (ms & -> & L & _). cbn [bind].
  assert (Hw : Forall (fun d => d_bits d <= 32) ds).
  { apply Forall_forall. intros d Hin. revert Ht Hin. clear. unfold total.
    induction ds as [|a r IH]; cbn [map fold_right]; [intros _ []|]. intros Ht [->|H]; [lia|]. apply IH; [lia|exact H]. }
  generalize 0%N as xtr. revert ms L. induction Hd as [|d ds [H1 H2] Hd IH]; intros [|m ms] L xtr; try discriminate;
    cbn [bdcc_dims]; [eauto|].
  inversion Hw; subst.
  assert (Ht' : total (map d_bits ds) <= 32) by (unfold total in *; cbn [map fold_right] in Ht; lia).
  destruct (nth_error tuple (d_col d)) as [v|]; cbn [bind]; [|apply IH; auto].
  unfold dim_value.
  replace ((Z.of_nat (d_bits d) <? 63)%Z) with true by (symmetry; apply Z.ltb_lt; lia).
  replace ((0 <=? Z.of_nat (d_align d) - Z.of_nat (d_bits d))%Z) with true by (symmetry; apply Z.leb_le; lia).
  replace ((Z.of_nat (d_bits d) + (Z.of_nat (d_align d) - Z.of_nat (d_bits d)) <? 64)%Z) with true
    by (symmetry; apply Z.ltb_lt; lia).
  cbn [andb]. unfold shr at 1.
  replace ((0 <=? Z.of_nat (d_align d) - Z.of_nat (d_bits d))%Z) with true by (symmetry; apply Z.leb_le; lia).
  replace ((Z.of_nat (d_align d) - Z.of_nat (d_bits d) <? 32)%Z) with true by (symmetry; apply Z.ltb_lt; lia).
  cbn [andb bind].
  match goal with |- context [scatter (Some f) ?i ?x ?m ?j ?a] => destruct (scatter_some f x m i j a) as [y ->] end.
  cbn [bind]. apply IH; auto.
Qed.

(** With a single dimension no shift is out of range. *)
Lemma scatter_one x w : 1 <= w <= 32 -> forall i acc, i <= 32 ->
  exists y, scatter None i x (N.ones (N.of_nat w)) (Z.of_nat (Nat.min i w) - 1) acc = Ok y.
Proof.
  intros Hw. induction i as [|i IH]; intros acc Hi; cbn [scatter]; [eauto|].
  unfold shr at 1.
  replace ((0 <=? Z.of_nat (Nat.min (S i) w) - 1)%Z && (Z.of_nat (Nat.min (S i) w) - 1 <? 32)%Z) with true
    by (symmetry; apply andb_true_intro; split; [apply Z.leb_le|apply Z.ltb_lt]; lia).
  cbn [bind].
  assert (E : N.testbit (N.ones (N.of_nat w)) (N.of_nat i) = (i <? w)).
  { destruct (Nat.ltb_spec i w); [apply N.ones_spec_low|apply N.ones_spec_high]; lia. }
  rewrite E.
  replace (Z.of_nat (Nat.min (S i) w) - 1 - Z.b2z (i <? w)%nat)%Z with (Z.of_nat (Nat.min i w) - 1)%Z
    by (destruct (Nat.ltb_spec i w); cbn [Z.b2z]; lia).
  apply IH. lia.
Qed.

Theorem bdcc_one_dimension c w a tuple : 1 <= w <= 32 -> w <= a -> a - w < 32 ->
  exists y, bdcc_value None [(c, w, a)] tuple = Ok y /\ (y < 2 ^ N.of_nat w)%N.
Proof.
  intros Hw H1 H2. set (d := (c, w, a)).
  assert (Ht : total (map d_bits [d]) <= 32) by (cbn; lia).
  assert (X : exists y, bdcc_value None [d] tuple = Ok y).
  { unfold bdcc_value. destruct (derive_masks_spec Ht) as (ms & -> & L & _ & Hc & _). cbn [bind].
    destruct ms as [|m [|m' ms]]; try discriminate. unfold covers in Hc. cbn [fold_right map d_bits total] in Hc.
    rewrite N.lor_0_r in Hc. replace (d_bits d + 0) with w in Hc by (cbn; lia). subst m.
    cbn [bdcc_dims]. destruct (nth_error tuple (d_col d)) as [v|]; cbn [bind]; [|eauto].
    unfold dim_value. change (d_bits d) with w. change (d_align d) with a.
    replace ((Z.of_nat w <? 63)%Z) with true by (symmetry; apply Z.ltb_lt; lia).
    replace ((0 <=? Z.of_nat a - Z.of_nat w)%Z) with true by (symmetry; apply Z.leb_le; lia).
    replace ((Z.of_nat w + (Z.of_nat a - Z.of_nat w) <? 64)%Z) with true by (symmetry; apply Z.ltb_lt; lia).
    cbn [andb]. unfold shr at 1.
    replace ((0 <=? Z.of_nat a - Z.of_nat w)%Z) with true by (symmetry; apply Z.leb_le; lia).
    replace ((Z.of_nat a - Z.of_nat w <? 32)%Z) with true by (symmetry; apply Z.ltb_lt; lia).
    cbn [andb bind].
    assert (S1 := fun x => @scatter_one x w Hw 32 (N.ones (N.of_nat w)) (le_n 32)).
    replace (Nat.min 32 w) with w in S1 by lia.
    match goal with |- context [scatter None 32 ?x _ _ _] => destruct (S1 x) as [y Ey] end.
    rewrite Ey. cbn [bind]. eauto. }
  destruct X as [y E]. exists y. split; [exact E|].
  pose proof (bdcc_below Ht E) as B. replace (num_bins [d]) with w in B by reflexivity. exact B.
Qed.
