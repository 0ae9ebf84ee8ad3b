(** UnsortedPBPTree and FPTree for any [N]: erases that meet both the condition on leaves and the one on branch nodes. *)
From Verif Require Import Base ArrLemmas MapSpec SortedList RankModel BitmapModel BTreeModel BTreeSpec BTreeLaws BTreeBranch BTreeGhost
  BTreeInsert EraseSpec PathSpec BTreeErase BTreeHist BTreeMain SLeafModel SLeafProofs ULeafModel ULeafProofs UTreeProofs FLeafModel FLeafProofs
  FTreeProofs EraseG.
Open Scope nat_scope.

Section Guarded.
Variables (L V : Type) (N M : nat) (O : leafops L V).
Variable lrep : L -> list (Z * V) -> Prop.
Variable lhint : L -> list (Z * V) -> Z -> Prop.
Variable side : bool -> L -> L -> Prop.
Variables minL minB : nat.
Variable kok : Z -> Prop.
Hypothesis LL : leaf_laws O M minL kok lrep.
Hypothesis EL : erase_core O M lrep lhint side.
Hypothesis HM : 1 <= M.
Hypothesis HmL : minL <= (M + 1) / 2.
Hypothesis HB : minB <= (N + 1) / 2 - 1.
Hypothesis HB1 : 1 <= minB.
Variable guard : heap L -> nat -> nat -> nat -> res bool.
Hypothesis Hg : forall h id pos c, guard h id pos c = Ok true -> good M O side h id pos c.
Notation tinv := (tinv N M lrep minL minB).
Notation absent_fine := (absent_fine O lrep lhint).
Notation may_erase t k := ((tdepth t <=? 1) || match path_ok N M O t (tdepth t) (troot t) k with Ok b => b | _ => false end).

Lemma erase_pg t es k : tinv t es -> get k es <> None \/ absent_fine -> leaf_guard M O guard (th t) (tdepth t) (troot t) k = Ok true -> may_erase t k = true ->
  exists t' b, t_erase N M O t k = Ok (t', b) /\ (b = true <-> get k es <> None) /\ tinv t' (del k es).
Proof.
  intros I HA EG HP. destruct (tinv_tinvf I) as (f & If).
  assert (HP' : (2 * ((N + 1) / 2) <= N /\ 2 <= minB) \/ path_ok N M O t (tdepth t) (troot t) k = Ok true \/ tdepth t <= 1).
  { right. apply orb_prop in HP as [HP|HP]; [right; now apply Nat.leb_le|left].
    destruct (path_ok N M O t (tdepth t) (troot t) k) as [[|]| |]; auto; discriminate. }
  destruct (get k es) as [v|] eqn:G.
  - destruct (@t_erase_genf_w L V N M O lrep lhint side minL minB kok LL EL HM HmL HB HB1 guard Hg f true t es k If) as (t' & E & I'); auto.
    + intros j l es' _ _ Hl _ E. apply (law_erase EL Hl). congruence.
    + exists t', true. splits; auto; [split; congruence|]. eapply tinvf_tinv; eauto.
  - destruct HA as [HA|HA]; [congruence|].
    destruct (@t_erase_genf_w L V N M O lrep lhint side minL minB kok LL EL HM HmL HB HB1 guard Hg f false t es k If) as (t' & E & I'); auto.
    + intros j l es' _ _ Hl _ E. rewrite G in E. destruct (HA l es' k Hl E) as [EE Hh]. exists l. split; auto. now rewrite (del_none E).
    + exists t', false. splits; auto; [split; congruence|]. eapply tinvf_tinv; eauto.
Qed.

Lemma hist_pg os : forall t es m, tinv t es -> (forall k, get k es = m k) -> hist_ok m os \/ absent_fine -> Forall (op_in kok) os ->
  fine N M O guard t (map bop_of os) = true -> path_fine N M O t (map bop_of os) = true ->
  exists t' es', t_run N M O t (map bop_of os) = Ok t' /\ tinv t' es' /\ forall k, get k es' = fold_left (@m_step V) os m k.
Proof.
  assert (HN2 : 2 <= N) by lia.
  induction os as [|o os IH]; intros t es m I E F FK FF FP; cbn [map t_run fold_left]; [eauto|].
  inversion FK as [|? ? Ko FK']; subst. cbn [hist_ok] in F.
  assert (F' : hist_ok (m_step m o) os \/ absent_fine) by tauto.
  cbn [map fine] in FF. apply andb_prop in FF as [FG FF]. cbn [map path_fine] in FP. apply andb_prop in FP as [FG2 FP]. destruct o as [k v|k].
  - cbn [op_in] in Ko. destruct (t_insert_ok LL HN2 HB (k := k) v Ko I) as (t1 & E1 & I1). cbn [bop_of t_step] in FF, FP |- *. rewrite E1 in FF, FP |- *. cbn [bind].
    apply (IH t1 _ (m_step m (OpInsert k v)) I1); auto. intros x. rewrite get_ins by (eapply tinv_sorted; eauto).
    cbn [m_step]. unfold m_put. destruct (x =? k)%Z; auto.
  - assert (Fo : get k es <> None \/ absent_fine) by (cbn [op_ok] in F; rewrite E; tauto). cbn [bop_of] in FG, FF, FG2, FP.
    destruct (leaf_guard M O guard (th t) (tdepth t) (troot t) k) as [[|]| |] eqn:EG; try discriminate.
    destruct (erase_pg I Fo EG FG2) as (t1 & b & E1 & _ & I1).
    cbn [bop_of t_step] in FF, FP |- *. rewrite E1 in FF, FP |- *. cbn [bind fst] in FF, FP |- *.
    apply (IH t1 _ (m_step m (OpErase _ k)) I1); auto. intros x. rewrite get_del by (eapply tinv_sorted; eauto).
    cbn [m_step]. unfold m_del. destruct (x =? k)%Z; auto.
Qed.

Lemma pg_all os : 1 <= minL -> hist_ok m_empty os \/ absent_fine -> Forall (op_in kok) os ->
  fine N M O guard (t_new O) (map bop_of os) = true -> path_fine N M O (t_new O) (map bop_of os) = true ->
  exists t es out, t_run N M O (t_new O) (map bop_of os) = Ok t /\ tinv t es /\ (forall k, get k es = m_run os k) /\
    (forall k, t_lookup O t k = Ok (m_run os k)) /\
    t_scan O t = Ok out /\ enumerates (m_run os) out /\ in_runs M out /\
    shape N M minL minB O (th t) (tdepth t) true (troot t) (length out) /\
    (forall k, m_run os k <> None \/ absent_fine -> leaf_guard M O guard (th t) (tdepth t) (troot t) k = Ok true -> may_erase t k = true ->
      exists t' b, t_erase N M O t k = Ok (t', b) /\ (b = true <-> m_run os k <> None) /\
        forall x, t_lookup O t' x = Ok (m_del (m_run os) k x)).
Proof.
  intros HL F FK FF FP. assert (HN2 : 2 <= N) by lia.
  destruct (@hist_pg os (t_new O) [] m_empty) as (t & es & E & I & G); auto.
  { eapply tinv_new; eauto; lia. }
  change (forall k, get k es = m_run os k) in G.
  destruct (t_scan_perm LL HN2 HB I) as (out & Eo & P & R). exists t, es, out. splits; auto.
  - intros k. rewrite (t_lookup_ok LL k I). now rewrite G.
  - eapply enumerates_ext; [exact G|]. apply perm_enumerates; auto. eapply tinv_sorted; eauto.
  - rewrite (Permutation_length P). eapply tinv_shape; eauto.
  - intros k Hk EG EP. rewrite <- G in Hk. destruct (erase_pg I Hk EG EP) as (t1 & b & E1 & Hb & I1). exists t1, b. splits; auto.
    + now rewrite <- G.
    + intros x. rewrite (t_lookup_ok LL x I1). rewrite get_del by (eapply tinv_sorted; eauto). unfold m_del. now rewrite G.
Qed.
End Guarded.

Section Classes.
Variables (V : Type) (t : ktype) (N M : nat).
Hypothesis HM : 2 <= M.
Hypothesis Ht : (1 <= kt_bits t <= 64)%Z.
Hypothesis HN : 3 <= N.

Lemma un_path os (O := un_ops V t M) : hist_ok m_empty os -> Forall (op_in (kt_in t)) os ->
  fine N M O (rm_ok M O) (t_new O) (map bop_of os) = true -> path_fine N M O (t_new O) (map bop_of os) = true ->
  exists tr out, t_run N M O (t_new O) (map bop_of os) = Ok tr /\
    (forall k, t_lookup O tr k = Ok (m_run os k)) /\
    t_scan O tr = Ok out /\ enumerates (m_run os) out /\ in_runs M out /\
    shape N M (M / 2) ((N + 1) / 2 - 1) O (th tr) (tdepth tr) true (troot tr) (length out).
Proof.
  intros F FK FF FP.
  destruct (@pg_all _ _ N M O _ _ _ (M / 2) ((N + 1) / 2 - 1) _ (ul_laws V HM Ht) (ul_core V t M) ltac:(lia) ltac:(lia) ltac:(lia) ltac:(lia)
    _ (@rm_good _ _ M O (fun _ _ _ => True) (fun _ _ _ => Logic.I)) os ltac:(lia) (or_introl F) FK FF FP) as (tr & es & out & R1 & _ & _ & R2 & R3 & R4 & R5 & R6 & _).
  exists tr, out. splits; auto.
Qed.

Lemma fp_path fp junk os (O := fp_ops V t fp junk M) : (N.of_nat M < W)%N -> Forall (op_in (fkok t)) os ->
  fine N M O (slots_ok M) (t_new O) (map bop_of os) = true -> path_fine N M O (t_new O) (map bop_of os) = true ->
  exists tr out, t_run N M O (t_new O) (map bop_of os) = Ok tr /\
    (forall k, t_lookup O tr k = Ok (m_run os k)) /\
    t_scan O tr = Ok out /\ enumerates (m_run os) out /\ in_runs M out /\
    (forall lo hi, exists rng, t_range O tr lo hi = Ok rng /\ enumerates_range (m_run os) lo hi rng) /\
    shape N M (M / 2) ((N + 1) / 2 - 1) O (th tr) (tdepth tr) true (troot tr) (length out).
Proof.
  intros HW FK FF FP.
  destruct (@pg_all _ _ N M O _ _ _ (M / 2) ((N + 1) / 2 - 1) _ (flm_laws V fp junk HM HW Ht) (fl_core V t fp junk HM HW (le_n 6)) ltac:(lia) ltac:(lia) ltac:(lia) ltac:(lia)
    _ (slots_good t fp junk HM HW (le_n 6)) os ltac:(lia) (or_intror (@fl_absent_fine V t fp junk M)) FK FF FP)
    as (tr & es & out & R1 & I & G & R2 & R3 & R4 & R5 & R6 & _).
  exists tr, out. splits; auto. intros lo hi.
  assert (RL : range_law O (fl_repm t fp M)) by (intros l es' lo' hi' [HR _]; exact (fl_range_ok lo' hi' HR)).
  destruct (@t_range_perm _ _ N M O _ (M / 2) ((N + 1) / 2 - 1) _ (flm_laws V fp junk HM HW Ht) ltac:(lia) ltac:(lia) RL tr es lo hi I) as (rng & Eo & P). exists rng. split; auto.
  eapply enumerates_range_ext; [exact G|]. apply perm_enumerates_range; auto. eapply tinv_sorted; eauto.
Qed.
End Classes.
