From Verif Require Import Base SerModel SerProofs BlockModel BlockSpec.
Open Scope Z_scope.

Lemma zsum_cons x l : zsum (x :: l) = x + zsum l.
Proof. reflexivity. Qed.

Definition weights (cust : nat -> option Z) (i : nat) (cs : list col) : list Z :=
  map (fun p => weight cust (fst p) (snd p)) (combine (seq i (length cs)) cs).

Lemma weights_cons cust i c cs : weights cust i (c :: cs) = weight cust i c :: weights cust (S i) cs.
Proof. reflexivity. Qed.

Lemma zsum_nonneg l : Forall (fun x => 0 <= x) l -> 0 <= zsum l.
Proof. induction 1; rewrite ?zsum_cons; [cbn; lia|lia]. Qed.

Definition cust_ok (cust : nat -> option Z) : Prop := forall i w, cust i = Some w -> 0 <= w < 65536.

Lemma weight_range cust i c : cust_ok cust -> 0 <= weight cust i c < 65536.
Proof. intros H. unfold weight. destruct (cust i) eqn:E; [eapply H; eauto|]. destruct c; cbn; lia. Qed.

Lemma weights_range cust cs : cust_ok cust -> forall i,
  Forall (fun x => 0 <= x) (weights cust i cs) /\ zsum (weights cust i cs) <= 65535 * Z.of_nat (length cs).
Proof.
  intros H. induction cs as [|c cs IH]; intros i.
  - split; [constructor|]. cbn. lia.
  - rewrite weights_cons. destruct (IH (S i)) as (A & B). pose proof (@weight_range cust i c H).
    split; [constructor; [lia|exact A]|]. rewrite zsum_cons. cbn [length]. lia.
Qed.

Lemma portions_spec cust cs : cust_ok cust -> forall i acc, 0 <= acc ->
  acc + zsum (weights cust i cs) < 4294967296 -> portions cust i cs acc = acc + zsum (weights cust i cs).
Proof.
  intros H. induction cs as [|c cs IH]; intros i acc Ha Hb; cbn [portions].
  - cbn. lia.
  - rewrite weights_cons, zsum_cons in *.
    pose proof (@weight_range cust i c H). destruct (@weights_range cust cs H (S i)) as (A & _).
    apply zsum_nonneg in A. unfold w32. rewrite Z.mod_small by lia. rewrite IH; lia.
Qed.

Lemma page_sizes_spec cust cs : cust_ok cust -> forall i total p sizes,
  0 <= total < 65536 -> zsum (weights cust i cs) <= p ->
  page_sizes cust i cs total p = Ok sizes ->
  length sizes = length cs /\ Forall (fun s => 0 <= s <= total) sizes /\
  p * zsum sizes <= zsum (weights cust i cs) * total.
Proof.
  intros H. induction cs as [|c cs IH]; intros i total p sizes Ht Hp E; cbn [page_sizes] in E.
  - injection E as <-. splits; [reflexivity|constructor|]. cbn. lia.
  - rewrite weights_cons, zsum_cons in Hp.
    pose proof (@weight_range cust i c H) as Hw. destruct (@weights_range cust cs H (S i)) as (A & _).
    apply zsum_nonneg in A.
    destruct (Z.leb_spec 2147483648 (weight cust i c * total)); [discriminate|].
    destruct (Z.eqb_spec p 0); [discriminate|]. cbn [orb] in E.
    destruct (page_sizes cust (S i) cs total p) as [l| |] eqn:El; cbn [bind] in E; try discriminate.
    injection E as <-. destruct (IH (S i) total p l Ht) as (L & F & S); [lia|exact El|].
    assert (Hq : 0 <= weight cust i c * total / p <= total).
    { split; [apply Z.div_pos; nia|]. apply Z.div_le_upper_bound; nia. }
    unfold w16. rewrite Z.mod_small by lia. splits.
    + cbn [length]. congruence.
    + constructor; [exact Hq|exact F].
    + rewrite weights_cons, !zsum_cons.
      assert (p * (weight cust i c * total / p) <= weight cust i c * total) by (apply Z.mul_div_le; lia).
      nia.
Qed.

Theorem minipage_sizes_fit cust cs total sizes : cust_ok cust -> Z.of_nat (length cs) <= 65535 ->
  0 <= total < 65536 -> calc_minipage_sizes cust cs total = Ok sizes ->
  length sizes = length cs /\ pages_fit total sizes.
Proof.
  intros H L Ht E. unfold calc_minipage_sizes in E.
  destruct (@weights_range cust cs H 0%nat) as (A & B). pose proof (zsum_nonneg A) as A0.
  rewrite portions_spec in E by (auto; lia). cbn [Z.add] in E.
  destruct (page_sizes_spec H Ht (Z.le_refl _) E) as (L1 & F & S).
  split; [exact L1|]. split; [exact F|].
  destruct (Z.eq_dec (zsum (weights cust 0 cs)) 0) as [Z0|Z0]; [|nia].
  destruct sizes as [|s sizes]; [cbn; lia|]. exfalso. destruct cs as [|c cs]; [discriminate|].
  cbn [page_sizes] in E. rewrite Z0 in E. rewrite orb_true_r in E. discriminate.
Qed.

(** Without weightings there is always a result. *)
Lemma page_sizes_some cs : forall i total p, 0 <= total < 65536 -> 0 < p ->
  exists sizes, page_sizes no_cust i cs total p = Ok sizes.
Proof.
  induction cs as [|c cs IH]; intros i total p Ht Hp; cbn [page_sizes]; [eauto|].
  destruct (Z.leb_spec 2147483648 (weight no_cust i c * total)) as [C|_].
  { change (weight no_cust i c) with (portion c) in C. destruct c; cbn [portion] in C; lia. }
  destruct (Z.eqb_spec p 0); [lia|]. cbn [orb]. destruct (IH (S i) total p Ht Hp) as [l ->]. cbn [bind]. eauto.
Qed.

Lemma page_sizes_some_cust cust cs : cust_ok cust -> forall i total p, 0 <= total <= block_size -> 0 < p ->
  exists sizes, page_sizes cust i cs total p = Ok sizes.
Proof.
  intros H. induction cs as [|c cs IH]; intros i total p Ht Hp; cbn [page_sizes]; [eauto|].
  pose proof (@weight_range cust i c H) as W. unfold block_size in *.
  destruct (Z.leb_spec 2147483648 (weight cust i c * total)) as [C|_]; [nia|].
  destruct (Z.eqb_spec p 0); [lia|]. cbn [orb]. destruct (IH (S i) total p Ht Hp) as [l ->]. cbn [bind]. eauto.
Qed.

(** With weightings there is a result unless all weights are zero. *)
Theorem minipage_sizes_weighted cust cs total : cust_ok cust -> Z.of_nat (length cs) <= 65535 ->
  0 <= total <= block_size -> 0 < zsum (weights cust 0 cs) ->
  exists sizes, calc_minipage_sizes cust cs total = Ok sizes.
Proof.
  intros H L Ht Hp. unfold calc_minipage_sizes.
  destruct (@weights_range cust cs H 0%nat) as (A & B).
  rewrite portions_spec by (auto; lia). apply page_sizes_some_cust; auto.
Qed.

Lemma no_cust_ok : cust_ok no_cust.
Proof. intros i w E. discriminate. Qed.

Lemma weights_default cs : forall i, weights no_cust i cs = map portion cs.
Proof. induction cs as [|c cs IH]; intros i; [reflexivity|]. rewrite weights_cons, IH. reflexivity. Qed.

Lemma portion_sum cs : Z.of_nat (length cs) <= zsum (map portion cs) <= 4 * Z.of_nat (length cs).
Proof.
  induction cs as [|c cs IH]; [cbn; lia|]. cbn [map length]. rewrite zsum_cons.
  destruct c; cbn [portion]; lia.
Qed.

Theorem minipage_sizes_default cs total : Z.of_nat (length cs) <= 65535 -> 0 <= total < 65536 ->
  exists sizes, calc_minipage_sizes no_cust cs total = Ok sizes.
Proof.
  intros L Ht. unfold calc_minipage_sizes. destruct cs as [|c cs].
  - cbn. eauto.
  - destruct (@weights_range no_cust (c :: cs) no_cust_ok 0%nat) as (A & B). pose proof (zsum_nonneg A) as A0.
    rewrite portions_spec by (auto using no_cust_ok; lia).
    apply page_sizes_some; [exact Ht|]. rewrite weights_default. pose proof (portion_sum (c :: cs)).
    cbn [length] in *. lia.
Qed.

(** Which sizes: the floor of the share of each column. *)
Lemma page_sizes_nth cs : forall i total p sizes, 0 <= total < 65536 -> 0 < p ->
  zsum (map portion cs) <= p ->
  page_sizes no_cust i cs total p = Ok sizes ->
  sizes = map (fun c => portion c * total / p) cs.
Proof.
  induction cs as [|c cs IH]; intros i total p sizes Ht Hp Hs E; cbn [page_sizes] in E.
  - now injection E as <-.
  - destruct (Z.leb_spec 2147483648 (weight no_cust i c * total)) as [C|_]; [discriminate|].
    destruct (Z.eqb_spec p 0); [lia|]. cbn [orb] in E.
    destruct (page_sizes no_cust (S i) cs total p) as [l| |] eqn:El; cbn [bind] in E; try discriminate.
    injection E as <-. cbn [map] in Hs. rewrite zsum_cons in Hs.
    pose proof (portion_sum cs) as Hps. cbn [map]. f_equal.
    + change (weight no_cust i c) with (portion c). unfold w16. apply Z.mod_small.
      assert (portion c <= p) by lia.
      assert (0 <= portion c) by (destruct c; cbn; lia).
      split; [apply Z.div_pos; nia|]. apply Z.div_lt_upper_bound; nia.
    + eapply IH; eauto. destruct c; cbn [portion] in Hs; lia.
Qed.

(** Up to 800 columns every minipage has room for the two summary values. *)
Theorem summary_fits cs total sizes : Z.of_nat (length cs) <= 800 ->
  total = block_size - (header_fixed + Z.of_nat (length cs) * 4) ->
  calc_minipage_sizes no_cust cs total = Ok sizes ->
  Forall2 (fun c s => sma_size c <= s) cs sizes.
Proof.
  intros L -> E. destruct cs as [|c0 cs0] eqn:Ecs; [cbn in E; injection E as <-; constructor|]. rewrite <- Ecs in *.
  assert (L1 : (1 <= length cs)%nat) by (rewrite Ecs; cbn [length]; lia). clear Ecs.
  set (T := block_size - (header_fixed + Z.of_nat (length cs) * 4)) in *.
  assert (HT : 29554 <= T < 65536) by (unfold T, block_size, header_fixed; lia).
  unfold calc_minipage_sizes in E.
  destruct (@weights_range no_cust cs no_cust_ok 0%nat) as (A & B). pose proof (zsum_nonneg A) as A0.
  rewrite portions_spec in E by (auto using no_cust_ok; lia). rewrite weights_default in E. cbn [Z.add] in E.
  pose proof (portion_sum cs) as Hs. set (p := zsum (map portion cs)) in *.
  apply page_sizes_nth in E; [|lia|lia|unfold p; lia]. subst sizes.
  assert (Hp : 0 < p <= 3200) by lia.
  clearbody T p. clear - HT Hp. induction cs as [|c cs IH]; cbn [map]; [constructor|]. constructor; [|exact IH].
  apply Z.div_le_lower_bound; [lia|]. destruct c; cbn [sma_size portion]; nia.
Qed.
