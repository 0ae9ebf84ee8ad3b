(** print after erases (wBPTree, wHBPTree) and restarts (wHBPTree). *)
From Verif Require Import Base ArrLemmas MapSpec SortedList BitmapModel BTreeModel BTreeInsert BTreeErase BTreeSpec BTreeMain BitTreeModel BitEProofs
  InsSpec RecoverModel RecoverProofs RecSpec XTree WbModel WbProofs WbTree WbEModel WbESpec WbEProofs WhModel WhRec WhTree WhESpec WhErase WhHist
  PrintModel PrintSpec WPrintModel WPrintSpec WPrintProofs.
Open Scope nat_scope.

Section WhPrint.
Variables (V : Type) (N M : nat).
Hypothesis HN : 2 <= N.

Lemma print_map (t : wtree V) es m : 2 <= M -> winv N M t es -> (forall k, get k es = m k) ->
  exists out o, wt_print N M t = Ok out /\ wdrawing N t out /\ all_set out /\ lists m o /\ shown_keys out = map fst o.
Proof.
  intros HM HI HG. destruct (w_print_ok HN HM HI) as (out & P1 & P2 & P3 & P4). exists out, es. splits; auto.
  destruct (sorted_lists (winv_sorted HI)) as [L1 L2]. split; auto. intros k v. rewrite L2. now rewrite HG.
Qed.
Lemma print_erase (os : list (mop V)) : 2 * ((N + 1) / 2) <= N -> 3 <= M -> wk_fine N M (wt_new V M) os = true ->
  exists t out o, we_run N M (wt_new V M) os = Ok t /\ wt_print N M t = Ok out /\ wdrawing N t out /\ all_set out /\
    lists (m_run os) o /\ shown_keys out = map fst o.
Proof.
  intros HE H3 CK. assert (HM : 2 <= M) by lia.
  destruct (@wk_run_ok V N M HN HE HM os _ [] H3 (winvs_inv (wt_new_inv V HN HM)) CK) as (t & E & HI).
  destruct (print_map HM HI (ops_run os)) as (out & o & H). exists t, out, o. split; [exact E|exact H].
Qed.
Lemma print_herase (os : list (mop V)) : 2 * ((N + 1) / 2) <= N -> 3 <= M -> wkh_fine N M (wt_new V M) os = true ->
  exists t out o, wh_run N M (wt_new V M) os = Ok t /\ wt_print N M t = Ok out /\ wdrawing N t out /\ all_set out /\
    lists (m_run os) o /\ shown_keys out = map fst o.
Proof. intros HE H3 CK. destruct (wh_run_same CK) as [H1 H2]. rewrite H2. now apply print_erase. Qed.
Lemma print_restart (os : list (rop V)) : 3 <= M -> outward m_empty (r_pairs os) -> restarts_fit N M os ->
  exists t out o, wh_hist N M (wt_new V M) os = Ok t /\ wt_print N M t = Ok out /\ wdrawing N t out /\ all_set out /\
    lists (m_run (rops os)) o /\ shown_keys out = map fst o.
Proof.
  intros H3 HO HF. destruct (hist_map HN H3 HO HF) as (t & es & E & HI & HG). assert (HM : 2 <= M) by lia.
  destruct (print_map HM (winvr_winv HI) HG) as (out & o & H). exists t, out, o. split; [exact E|exact H].
Qed.
End WhPrint.
