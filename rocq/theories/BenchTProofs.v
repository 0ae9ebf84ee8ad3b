(** The tree that the fill loops of the benchmarks build. *)
From Coq Require Import Permutation FinFun.
From Verif Require Import Base MapSpec BTreeModel BTreeSpec PathSpec SLeafModel BTreeMain BTreeErase PropPBPTree PropPath BenchModel BenchProofs BenchTSpec.
Open Scope nat_scope.

Definition fill_ops {V} (f : nat -> V) (l : list nat) : list (mop V) := map (fun x => OpInsert (Z.of_nat x) (f x)) l.

Lemma fill_run : forall V (f : nat -> V) l m k, fold_left (@m_step V) (fill_ops f l) m k =
  if existsb (fun x => (Z.of_nat x =? k)%Z) l then Some (f (Z.to_nat k)) else m k.
Proof.
  induction l as [|x l IH]; intros m k; [reflexivity|]. cbn [fill_ops map fold_left existsb]. rewrite IH.
  cbn [m_step]. unfold m_put. destruct (existsb _ l); [rewrite orb_true_r; reflexivity|]. rewrite orb_false_r.
  rewrite (Z.eqb_sym k). destruct (Z.eqb_spec (Z.of_nat x) k) as [<-|]; [rewrite Nat2Z.id|]; reflexivity.
Qed.
Lemma fill_hist : forall V (f : nat -> V) l m, hist_ok m (fill_ops f l).
Proof. induction l as [|x l IH]; intros m; cbn; [exact I|]. split; [exact I|apply IH]. Qed.
Lemma fill_path : forall L V N M (O : leafops L V) (f : nat -> V) l t, path_fine N M O t (map bop_of (fill_ops f l)) = true.
Proof.
  induction l as [|x l IH]; intros t; [reflexivity|]. cbn [fill_ops map bop_of path_fine andb].
  destruct (t_step _ _ _ _ _); [apply IH|reflexivity|reflexivity].
Qed.

Lemma sum_bound : forall c ns, (forall n, In n ns -> n <= c) -> list_sum ns <= length ns * c.
Proof.
  induction ns as [|n ns IH]; intros H; [cbn; lia|]. cbn [list_sum fold_right length].
  pose proof (H n (or_introl eq_refl)). specialize (IH (fun x X => H x (or_intror X))). unfold list_sum in IH. cbn. lia.
Qed.
Lemma sum_full : forall c ns, (forall n, In n ns -> n <= c) -> list_sum ns = length ns * c -> forall n, In n ns -> n = c.
Proof.
  induction ns as [|a ns IH]; intros H E n [].
  - subst a. pose proof (@sum_bound c ns (fun x X => H x (or_intror X))) as S. pose proof (H n (or_introl eq_refl)).
    change (list_sum (n :: ns)) with (n + list_sum ns) in E. cbn [length] in E. lia.
  - pose proof (@sum_bound c ns (fun x X => H x (or_intror X))) as S. pose proof (H a (or_introl eq_refl)).
    change (list_sum (a :: ns)) with (a + list_sum ns) in E. cbn [length] in E.
    apply IH; [intros x X; apply H; right; exact X|lia|assumption].
Qed.

Section Shape.
Context {L V : Type} (N M minL minB : nat) (O : leafops L V) (h : heap L).
Lemma pow_mono1 : forall d, 1 <= (N + 1) ^ d.
Proof. intros d. apply Nat.neq_0_lt_0, Nat.pow_nonzero. lia. Qed.

Lemma shape_size : forall d r i n, shape N M minL minB O h d r i n -> n <= M * (N + 1) ^ d.
Proof.
  induction d as [|d IH]; intros r i n S; inversion S; subst.
  - rewrite Nat.pow_0_r. lia.
  - match goal with H : forall j n, nth_error ns j = Some n -> _ |- _ => rename H into KID end.
    assert (B : forall x, In x ns -> x <= M * (N + 1) ^ d).
    { intros x X. apply In_nth_error in X. destruct X as (j & J). destruct (KID j x J) as (c & _ & C). exact (IH _ _ _ C). }
    pose proof (@sum_bound _ ns B) as SB. rewrite Nat.pow_succ_r'. nia.
Qed.
Lemma shape_full : forall d r i n, 1 <= M -> shape N M minL minB O h d r i n -> n = M * (N + 1) ^ d -> full N M O h d i.
Proof.
  induction d as [|d IH]; intros r i n HM S; inversion S; subst; intros E.
  - rewrite Nat.pow_0_r in E. econstructor; [eassumption|lia].
  - match goal with H : forall j n, nth_error ns j = Some n -> _ |- _ => rename H into KID end.
    assert (B : forall x, In x ns -> x <= M * (N + 1) ^ d).
    { intros x X. apply In_nth_error in X. destruct X as (j & J). destruct (KID j x J) as (c & _ & C). exact (shape_size C). }
    pose proof (@sum_bound _ ns B) as SB. rewrite Nat.pow_succ_r' in E. pose proof (pow_mono1 d) as P.
    assert (EN : bn b = N) by nia.
    assert (EL : list_sum ns = length ns * (M * (N + 1) ^ d)) by nia.
    apply (@full_branch _ _ N M O h d i b); [assumption|exact EN|]. intros j J.
    destruct (nth_error ns j) as [x|] eqn:X.
    + destruct (KID j x X) as (c & A & C). exists c. split; [exact A|]. apply (IH _ _ _ HM C).
      apply (@sum_full _ ns B EL). eapply nth_error_In. exact X.
    + apply nth_error_None in X. lia.
Qed.
End Shape.

Lemma listed_length : forall V (m : amap V) out E, lists m out ->
  (forall k, m k <> None <-> (1 <= k <= Z.of_nat E)%Z) -> length out = E.
Proof.
  intros V m out E [S I] D. rewrite <- (map_length fst).
  assert (ND : NoDup (map fst out)).
  { clear I. induction S as [|a l SS IH F]; constructor; [|exact IH]. intros X. rewrite Forall_forall in F. specialize (F _ X). lia. }
  assert (PE : Permutation (map fst out) (map Z.of_nat (seq 1 E))).
  { apply NoDup_Permutation; [exact ND| |].
    - apply FinFun.Injective_map_NoDup; [intros a b; apply Nat2Z.inj|apply seq_NoDup].
    - intros k. split.
      + intros X. apply in_map_iff in X. destruct X as ((k', v) & <- & X). apply I in X. cbn [fst].
        assert (K : (1 <= k' <= Z.of_nat E)%Z) by (apply D; congruence).
        apply in_map_iff. exists (Z.to_nat k'). split; [lia|]. apply in_seq. lia.
      + intros X. apply in_map_iff in X. destruct X as (x & <- & X). apply in_seq in X.
        destruct (m (Z.of_nat x)) as [v|] eqn:EV; [|exfalso; apply (proj2 (D (Z.of_nat x))); [lia|exact EV]].
        apply in_map_iff. exists (Z.of_nat x, v). split; [reflexivity|]. apply I. exact EV. }
  apply Permutation_length in PE. rewrite PE, map_length, seq_length. reflexivity.
Qed.

Lemma bench_tree : forall V N M td (f : nat -> V) (O := pbp_ops V M), 2 <= M -> 3 <= N ->
  exists l t, bench_insert M N td = Ok l /\ t_run N M O (t_new O) (map bop_of (fill_ops f l)) = Ok t /\
  (forall k, t_lookup O t k = Ok (if (1 <=? k)%Z && (k <=? Z.of_nat (M * (N + 1) ^ td))%Z then Some (f (Z.to_nat k)) else None)) /\
  td <= tdepth t /\ (tdepth t = td -> full N M O (th t) td (troot t)).
Proof.
  intros V N M td f O HM HN. destruct (@fill_total_cover M N td ltac:(lia)) as (l & E & C). exists l.
  destruct (@C05_pbptree_path_partial V N M (fill_ops f l) 0%Z 0%Z HM HN (fill_hist f l m_empty) (fill_path N M _ f l _))
    as (t & out & rng & R & LK & _ & LS & _ & _ & SH).
  exists t. split; [exact E|]. split; [exact R|].
  assert (RUN : forall k, m_run (fill_ops f l) k =
            if (1 <=? k)%Z && (k <=? Z.of_nat (M * (N + 1) ^ td))%Z then Some (f (Z.to_nat k)) else None).
  { intros k. unfold m_run. rewrite fill_run. change (@m_empty V k) with (@None V).
    destruct (existsb (fun x => (Z.of_nat x =? k)%Z) l) eqn:X.
    - apply existsb_exists in X. destruct X as (x & X & K). apply Z.eqb_eq in K. apply C in X. unfold elements, range in X.
      destruct (Z.leb_spec 1 k); destruct (Z.leb_spec k (Z.of_nat (M * (N + 1) ^ td))); try lia. reflexivity.
    - destruct (Z.leb_spec 1 k); destruct (Z.leb_spec k (Z.of_nat (M * (N + 1) ^ td))); try reflexivity. exfalso.
      assert (existsb (fun x => (Z.of_nat x =? k)%Z) l = true); [|congruence]. apply existsb_exists. exists (Z.to_nat k).
      split; [|apply Z.eqb_eq; lia]. apply C. unfold elements, range. lia. }
  split; [intros k; rewrite <- RUN; apply LK|].
  assert (LEN : length out = M * (N + 1) ^ td).
  { apply (listed_length LS). intros k. rewrite RUN.
    destruct (Z.leb_spec 1 k); destruct (Z.leb_spec k (Z.of_nat (M * (N + 1) ^ td))); cbn [andb]; split; intros; try lia; try congruence. }
  split.
  - pose proof (shape_size SH) as B. rewrite LEN in B. destruct (Nat.le_gt_cases td (tdepth t)) as [|G]; [assumption|]. exfalso.
    pose proof (Nat.pow_lt_mono_r (N + 1) (tdepth t) td ltac:(lia) G). nia.
  - intros D. rewrite <- D. eapply shape_full; [|exact SH|]; [lia|]. rewrite D. exact LEN.
Qed.
