(** The tree results in terms of the abstract map, for any class that satisfies the leaf laws. *)
From Verif Require Import Base ArrLemmas MapSpec SortedList BTreeModel BTreeLaws BTreeBranch BTreeGhost BTreeInsert
  BTreeErase BTreeSpec BTreeHist SLeafModel SLeafProofs SIterModel SIterProofs.
Open Scope nat_scope.

Lemma even_half N : Nat.even N = true -> 2 * ((N + 1) / 2) = N /\ 2 * (N / 2) = N.
Proof. intros H. apply Nat.even_spec in H as (c & ->). lia. Qed.

Lemma lists_ext {V} (m m' : amap V) out : (forall k, m k = m' k) -> lists m out -> lists m' out.
Proof. intros E [H1 H2]. split; auto. intros k v. now rewrite <- E. Qed.
Lemma lists_range_ext {V} (m m' : amap V) lo hi out : (forall k, m k = m' k) -> lists_range m lo hi out -> lists_range m' lo hi out.
Proof. intros E [H1 H2]. split; auto. intros k v. now rewrite <- E. Qed.
Lemma enumerates_ext {V} (m m' : amap V) out : (forall k, m k = m' k) -> enumerates m out -> enumerates m' out.
Proof. intros E [H1 H2]. split; auto. intros k v. now rewrite <- E. Qed.

Lemma sorted_nodup {V} (es : list (Z * V)) : sorted es -> NoDup (map fst es).
Proof.
  unfold sorted. change (map fst es) with (keys es). generalize (keys es). clear. intros l H.
  induction H as [|x l _ IH F]; constructor; auto. rewrite Forall_forall in F.
  intros Hx. specialize (F x Hx). lia.
Qed.
Lemma perm_enumerates {V} (es out : list (Z * V)) : sorted es -> Permutation out es -> enumerates (fun k => get k es) out.
Proof.
  intros HS HP. split.
  - eapply Permutation_NoDup; [apply Permutation_map, Permutation_sym, HP|]. now apply sorted_nodup.
  - intros k v. rewrite <- get_in by assumption. split; apply Permutation_in; auto. now apply Permutation_sym.
Qed.

Lemma enumerates_range_ext {V} (m m' : amap V) lo hi out : (forall k, m k = m' k) -> enumerates_range m lo hi out -> enumerates_range m' lo hi out.
Proof. intros E [H1 H2]. split; auto. intros k v. now rewrite <- E. Qed.
Lemma perm_enumerates_range {V} (es out : list (Z * V)) lo hi : sorted es -> Permutation out (filter (in_range lo hi) es) ->
  enumerates_range (fun k => get k es) lo hi out.
Proof.
  intros HS HP. split.
  - eapply Permutation_NoDup; [apply Permutation_map, Permutation_sym, HP|]. apply sorted_nodup.
    exact (proj1 (sorted_lists_range lo hi HS)).
  - intros k v. rewrite <- get_in by assumption. transitivity (In (k, v) (filter (in_range lo hi) es)).
    + split; apply Permutation_in; auto. now apply Permutation_sym.
    + rewrite filter_In. unfold in_range. cbn [fst]. rewrite andb_true_iff, !Z.leb_le. tauto.
Qed.

(** ** Insert-only histories: any [N >= 2]. *)
Section InsertOnly.
Variables (L V : Type) (N M : nat) (O : leafops L V).
Variable lrep : L -> list (Z * V) -> Prop.
Variable minL : nat.
Variable kok : Z -> Prop.
Hypothesis LL : leaf_laws O M minL kok lrep.
Hypothesis HN : 2 <= N.

Lemma io_hist os : Forall (ins_ok kok) os -> exists t es, t_run N M O (t_new O) (map bop_of os) = Ok t /\
  tinv N M lrep minL ((N + 1) / 2 - 1) t es /\ forall k, get k es = m_run os k.
Proof. intros F. eapply hist_insert_new; eauto. Qed.

Lemma io_lookup os : Forall (ins_ok kok) os -> exists t, t_run N M O (t_new O) (map bop_of os) = Ok t /\
  forall k, t_lookup O t k = Ok (m_run os k).
Proof.
  intros F. destruct (io_hist F) as (t & es & E & I & G). exists t. split; auto. intros k.
  rewrite (t_lookup_ok LL k I). now rewrite G.
Qed.

Lemma io_scan_enum os : Forall (ins_ok kok) os -> exists t out, t_run N M O (t_new O) (map bop_of os) = Ok t /\
  t_scan O t = Ok out /\ enumerates (m_run os) out /\ in_runs M out.
Proof.
  intros F. destruct (io_hist F) as (t & es & E & I & G).
  destruct (t_scan_perm LL HN (le_n _) I) as (out & Eo & P & R). exists t, out. splits; auto.
  eapply enumerates_ext; [exact G|]. apply perm_enumerates; auto. eapply tinv_sorted; eauto.
Qed.

Lemma io_range_enum (RL : range_law O lrep) os lo hi : Forall (ins_ok kok) os ->
  exists t out, t_run N M O (t_new O) (map bop_of os) = Ok t /\
  t_range O t lo hi = Ok out /\ enumerates_range (m_run os) lo hi out.
Proof.
  intros F. destruct (io_hist F) as (t & es & E & I & G).
  destruct (t_range_perm LL HN (le_n _) RL lo hi I) as (out & Eo & P). exists t, out. splits; auto.
  eapply enumerates_range_ext; [exact G|]. apply perm_enumerates_range; auto. eapply tinv_sorted; eauto.
Qed.

Lemma io_scan_range (SL : scan_laws O lrep) os lo hi : Forall (ins_ok kok) os ->
  exists t out rng, t_run N M O (t_new O) (map bop_of os) = Ok t /\
  t_scan O t = Ok out /\ lists (m_run os) out /\
  t_range O t lo hi = Ok rng /\ lists_range (m_run os) lo hi rng.
Proof.
  intros F. destruct (io_hist F) as (t & es & E & I & G). pose proof (tinv_sorted I) as HS.
  exists t, es, (filter (in_range lo hi) es). splits; auto.
  - eapply t_scan_ok; eauto.
  - eapply lists_ext; [exact G|]. now apply sorted_lists.
  - eapply t_range_ok; eauto.
  - eapply lists_range_ext; [exact G|]. now apply sorted_lists_range.
Qed.

Lemma io_shape os : Forall (ins_ok kok) os -> exists t n, t_run N M O (t_new O) (map bop_of os) = Ok t /\
  shape N M minL ((N + 1) / 2 - 1) O (th t) (tdepth t) true (troot t) n.
Proof.
  intros F. destruct (io_hist F) as (t & es & E & I & G). exists t, (length es). split; auto.
  eapply tinv_shape; eauto.
Qed.
End InsertOnly.

(** ** Histories of insert and erase: even [N >= 6]. *)
Section All.
Variables (L V : Type) (N M : nat) (O : leafops L V).
Variable lrep : L -> list (Z * V) -> Prop.
Variable lhint : L -> list (Z * V) -> Z -> Prop.
Hypothesis LL : leaf_laws O M (M / 2) (fun _ => True) lrep.
Hypothesis SL : scan_laws O lrep.
Hypothesis EL : erase_laws O M lrep lhint.
Hypothesis HM : 2 <= M.
Hypothesis HN : 6 <= N.
Hypothesis HE : Nat.even N = true.
Notation tinv := (tinv N M lrep (M / 2) (N / 2 - 1)).

Lemma all_hist os : hist_ok m_empty os -> exists t es, t_run N M O (t_new O) (map bop_of os) = Ok t /\
  tinv t es /\ forall k, get k es = m_run os k.
Proof.
  intros F. destruct (even_half HE) as [H1 H2]. eapply hist_all_new; eauto; lia.
Qed.

Lemma all_lookup os : hist_ok m_empty os -> exists t, t_run N M O (t_new O) (map bop_of os) = Ok t /\
  forall k, t_lookup O t k = Ok (m_run os k).
Proof.
  intros F. destruct (even_half HE) as [H1 H2]. destruct (all_hist F) as (t & es & E & I & G). exists t. split; auto. intros k.
  rewrite (t_lookup_ok LL k I). now rewrite G.
Qed.

Lemma all_erase os k : hist_ok m_empty os -> m_run os k <> None ->
  exists t t', t_run N M O (t_new O) (map bop_of os) = Ok t /\ t_erase N M O t k = Ok (t', true) /\
  forall x, t_lookup O t' x = Ok (m_del (m_run os) k x).
Proof.
  intros F Hk. destruct (even_half HE) as [H1 H2]. destruct (all_hist F) as (t & es & E & I & G).
  rewrite <- G in Hk.
  assert (A1 : 1 <= M) by lia. assert (A2 : M / 2 <= (M + 1) / 2) by lia.
  assert (A3 : 2 * ((N + 1) / 2) <= N) by lia. assert (A4 : N / 2 - 1 <= (N + 1) / 2 - 1) by lia.
  assert (A5 : 2 <= N / 2 - 1) by lia.
  destruct (t_erase_ok LL EL A1 A2 A3 A4 A5 I Hk) as (t' & E' & I').
  exists t, t'. splits; auto. intros x. rewrite (t_lookup_ok LL x I').
  rewrite get_del by (eapply tinv_sorted; eauto). unfold m_del. now rewrite G.
Qed.

(** An absent key: the tree may be rearranged, but keeps its contents and stays usable. *)
Lemma all_absent os k t : hist_ok m_empty os -> t_run N M O (t_new O) (map bop_of os) = Ok t -> m_run os k = None ->
  (forall j l es, find_leaf O (th t) (tdepth t) (troot t) k = Ok j -> hl (th t) j = Some l -> lrep l es -> sorted es -> get k es = None ->
    lo_erase O l k = Ok (false, l) /\ lhint l es k) ->
  exists t', t_erase N M O t k = Ok (t', false) /\ (forall x, t_lookup O t' x = Ok (m_run os x)) /\
    (exists out, t_scan O t' = Ok out /\ lists (m_run os) out) /\
    forall os2, hist_ok (m_run os) os2 -> exists t2, t_run N M O t' (map bop_of os2) = Ok t2 /\
      forall x, t_lookup O t2 x = Ok (m_run (os ++ os2) x).
Proof.
  intros F ET Hk HL. destruct (even_half HE) as [H1 H2]. destruct (all_hist F) as (t0 & es & E & I & G). rewrite E in ET. injection ET as ->.
  rewrite <- G in Hk.
  assert (A1 : 1 <= M) by lia. assert (A2 : M / 2 <= (M + 1) / 2) by lia.
  assert (A3 : 2 * ((N + 1) / 2) <= N) by lia. assert (A4 : N / 2 - 1 <= (N + 1) / 2 - 1) by lia.
  assert (A5 : 2 <= N / 2 - 1) by lia.
  destruct (t_erase_absent LL EL A1 A2 A3 A4 A5 I Hk HL) as (t' & E' & I').
  exists t'. splits; auto.
  - intros x. now rewrite (t_lookup_ok LL x I'), G.
  - exists es. split; [eapply t_scan_ok; [| |exact SL|exact I']; lia|]. eapply lists_ext; [exact G|]. apply sorted_lists. eapply tinv_sorted; eauto.
  - intros os2 F2. destruct (@hist_all _ _ N M O lrep lhint (M / 2) (N / 2 - 1) LL EL) with (os := os2) (t := t') (es := es) (m := m_run os) as (t2 & es2 & E2 & I2 & G2); auto; try lia.
    exists t2. split; [assumption|]. intros x. rewrite (t_lookup_ok LL x I2), G2. unfold m_run. now rewrite fold_left_app.
Qed.

Lemma all_scan os : hist_ok m_empty os -> exists t out, t_run N M O (t_new O) (map bop_of os) = Ok t /\
  t_scan O t = Ok out /\ lists (m_run os) out.
Proof.
  intros F. destruct (even_half HE) as [H1 H2]. destruct (all_hist F) as (t & es & E & I & G).
  exists t, es. splits; auto.
  - eapply t_scan_ok; [| |exact SL|exact I]; lia.
  - eapply lists_ext; [exact G|]. apply sorted_lists. eapply tinv_sorted; eauto.
Qed.

Lemma all_range os lo hi : hist_ok m_empty os -> exists t out, t_run N M O (t_new O) (map bop_of os) = Ok t /\
  t_range O t lo hi = Ok out /\ lists_range (m_run os) lo hi out.
Proof.
  intros F. destruct (even_half HE) as [H1 H2]. destruct (all_hist F) as (t & es & E & I & G).
  exists t, (filter (in_range lo hi) es). splits; auto.
  - eapply t_range_ok; [exact LL| | |exact SL|exact I]; lia.
  - eapply lists_range_ext; [exact G|]. apply sorted_lists_range. eapply tinv_sorted; eauto.
Qed.

Lemma all_shape os : hist_ok m_empty os -> exists t out, t_run N M O (t_new O) (map bop_of os) = Ok t /\
  lists (m_run os) out /\
  shape N M (M / 2) (N / 2 - 1) O (th t) (tdepth t) true (troot t) (length out) /\
  forall d, tdepth t = S d -> 2 * ((N / 2) ^ d * (M / 2)) <= length out.
Proof.
  intros F. destruct (even_half HE) as [H1 H2]. destruct (all_hist F) as (t & es & E & I & G).
  pose proof (tinv_shape LL I) as HS.
  exists t, es. splits; auto.
  - eapply lists_ext; [exact G|]. apply sorted_lists. eapply tinv_sorted; eauto.
  - intros d Ed. rewrite Ed in HS. apply shape_root_low in HS.
    replace (N / 2) with (S (N / 2 - 1)) by lia. exact HS.
Qed.
End All.

(** ** Absent keys in the classes with sorted leaves. *)
(** The leaf that [k] belongs to is not empty, and the key slot erase compares with [k] is either live or holds another key. *)
Definition absent_ok {V} (O : leafops (sleaf V) V) (t : tree (sleaf V)) (k : Z) : Prop := forall j l, find_leaf O (th t) (tdepth t) (troot t) k = Ok j -> hl (th t) j = Some l ->
  sn l <> 0 /\ ((exists i x, i < sn l /\ aget (sk l) i = Ok x /\ (k < x)%Z) \/ (exists x, aget (sk l) (sn l) = Ok x /\ x <> k)).

Lemma sorted_absent V N M (O : leafops (sleaf V) V) : leaf_laws O M (M / 2) (fun _ => True) (sl_rep M) -> scan_laws O (sl_rep M) -> erase_laws O M (sl_rep M) (sl_hint M) ->
  absent_law M O -> 2 <= M -> 6 <= N -> Nat.even N = true -> forall os k t,
  hist_ok m_empty os -> t_run N M O (t_new O) (map bop_of os) = Ok t -> m_run os k = None -> absent_ok O t k ->
  exists t', t_erase N M O t k = Ok (t', false) /\ (forall x, t_lookup O t' x = Ok (m_run os x)) /\
    (exists out, t_scan O t' = Ok out /\ lists (m_run os) out) /\
    forall os2, hist_ok (m_run os) os2 -> exists t2, t_run N M O t' (map bop_of os2) = Ok t2 /\
      forall x, t_lookup O t2 x = Ok (m_run (os ++ os2) x).
Proof.
  intros LL SL EL AL HM HN HE os k t F ET Hk HA. apply (all_absent LL SL EL HM HN HE F ET Hk).
  intros j l es EF El Hl _ G. destruct (HA j l EF El) as [H1 H2]. apply AL; auto.
Qed.

(** ** Iterators of the classes with sorted leaves. *)
Section Iter.
Variables (V : Type) (N M : nat) (O : leafops (sleaf V) V).
Variable lhint : sleaf V -> list (Z * V) -> Z -> Prop.
Hypothesis LL : leaf_laws O M (M / 2) (fun _ => True) (sl_rep M).
Hypothesis EL : erase_laws O M (sl_rep M) lhint.
Hypothesis HM : 2 <= M.
Hypothesis HN : 6 <= N.
Hypothesis HE : Nat.even N = true.

Lemma all_iter os k : hist_ok m_empty os -> m_run os k <> None ->
  exists t out, t_run N M O (t_new O) (map bop_of os) = Ok t /\
  lists (m_run os) out /\ forall fuel, length out <= fuel -> it_all fuel t = Ok out.
Proof.
  intros F Hk. destruct (all_hist LL EL HM HN HE F) as (t & es & E & I & G).
  exists t, es. splits; auto.
  - eapply lists_ext; [exact G|]. apply sorted_lists. eapply tinv_sorted; eauto.
  - intros fuel Hf. eapply it_all_ok; eauto; [|lia]. intros ->. apply Hk. now rewrite <- G.
Qed.
End Iter.
