(** print in histories of BitPBPTree and BitHPBPTree. *)
From Coq Require Import Permutation.
From Verif Require Import Base ArrLemmas MapSpec SortedList RankModel BitmapModel SlotLemmas BTreeModel BTreeLaws BTreeInsert BTreeErase BTreeSpec BTreeMain
  FLeafModel FLeafProofs BitTreeModel InsSpec XTree BitProofs RecoverModel RecoverProofs RecSpec BitHModel BitHProofs BitHRec BitEModel BitEProofs PrintModel PrintSpec PrintProofs BPrintModel BPrintSpec BPrintProofs.
Open Scope nat_scope.

Section BhPrint.
Variables (V : Type) (t : ktype) (N M : nat).
Hypothesis Ht : (1 <= kt_bits t <= 64)%Z.
Hypothesis HN : 2 <= N.
Hypothesis H64 : N mod 64 <> 0.
Hypothesis HM : 2 <= M.
Hypothesis HW : (N.of_nat M < W)%N.
Notation nofp := (fun _ : Z => 0%Z).

Lemma f_PL (O : leafops (fleaf V) V) : (forall l, lo_scan O l = lo_scan (fp_ops V t nofp (fun _ => 0%Z) M) l) -> forall l es, fl_rep t nofp M l es ->
  exists ss o, fl_print M l = Ok ss /\ lo_scan O l = Ok o /\ shown ss = map fst o.
Proof.
  intros HO l es (_ & _ & sl & _ & HR). destruct (@fl_slots_ok V nofp M l sl HR M 0 eq_refl) as (ss & E1 & E2).
  exists ss, (somes sl). split; [exact E1|]. rewrite HO. split; [exact (fl_scan_ok HR)|exact E2].
Qed.
Lemma print_map (tr : btree V) O rep es m : leaf_laws O M (M / 2) (bkok t) rep -> (forall l, lo_scan O l = lo_scan (fp_ops V t nofp (fun _ => 0%Z) M) l) ->
  (forall l es, rep l es -> fl_rep t nofp M l es) -> btinv t N M rep tr es -> sorted es -> (forall k, get k es = m k) ->
  exists out o, bg_print N M tr = Ok out /\ bdrawing N tr out /\ lists m o /\ Permutation (shown_keys out) (map fst o).
Proof.
  intros LL HO HR HI HS HG.
  destruct (@b_print_ok V t N M (M / 2) O rep (fun l e H => f_PL HO (HR _ _ H))
    (fun l e o H E => match law_scan LL H with ex_intro _ o' (conj E' P) => eq_ind o' (fun o => Permutation o e) P o (f_equal (fun r => match r with Ok y => y | _ => o end) (eq_trans (eq_sym E') E)) end)
    tr es HI) as (out & P1 & P2 & P3).
  exists out, es. splits; auto. destruct (sorted_lists HS) as [L1 L2]. split; auto. intros k v. rewrite L2. now rewrite HG.
Qed.

Lemma bt_print_ok os : Forall (bkok t) (map fst os) ->
  exists tr out o, bt_run t N M (bt_new V t M) os = Ok tr /\ bg_print N M tr = Ok out /\ bdrawing N tr out /\
    lists (m_run (inserts os)) o /\ Permutation (shown_keys out) (map fst o).
Proof.
  intros HF. pose proof (bit_leaf_laws V Ht HM HW) as LL.
  destruct (bg_run_ok Ht HN H64 HM LL (@bit_rep_kok V t M) HF (btinvs_inv (bg_new_inv HN LL))) as (tr & E & HI).
  destruct (@print_map tr _ _ _ (m_run (inserts os)) LL (fun _ => eq_refl) (fun l es H => proj1 (proj1 H)) HI) as (out & o & H).
  - apply ins_all_sorted. constructor.
  - intros k. apply ins_all_run.
  - exists tr, out, o. split; [exact E|exact H].
Qed.
Lemma bh_print_ok os : M mod 64 <> 0 -> ops_in t os -> restarts_fit t N M os ->
  exists tr out o, bh_hist t N M (bh_new V t M) os = Ok tr /\ bg_print N M tr = Ok out /\ bdrawing N tr out /\
    lists (m_run (rops os)) o /\ Permutation (shown_keys out) (map fst o).
Proof.
  intros HM64 HF HR. pose proof (bh_leaf_laws V HM HW Ht HM64) as LL.
  destruct (bh_hist_ok Ht HN H64 HM HW HM64 HF HR) as (tr & es & E & HI & HG).
  destruct (@print_map tr _ _ es (m_run (rops os)) LL (fun _ => eq_refl) (fun l es H => proj1 H)) as (out & o & H).
  - exact (xinvf_xinv HI).
  - eapply bhinv_sorted; eauto.
  - exact HG.
  - exists tr, out, o. split; [exact E|exact H].
Qed.
End BhPrint.
