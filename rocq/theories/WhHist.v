(** Histories of wHBPTree. *)
From Verif Require Import Base ArrLemmas MapSpec SortedList SearchModel BitmapModel BTreeModel BTreeGhost BTreeInsert BTreeErase BTreeSpec BTreeMain BitTreeModel
  InsSpec XTree BitEProofs BitHRec RecoverModel RecoverProofs RecSpec WbModel WbProofs WbBranch WbTree WbEModel WbESpec WbEProofs WhModel WhRec WhTree WhESpec WhErase.
Open Scope nat_scope.

Section Hist.
Variables (V : Type) (N M : nat).
Hypothesis HN : 2 <= N.

(** The restarts in [os] find a number of leaves that recover gets right. *)
Definition restarts_fit (os : list (rop V)) : Prop :=
  forall p q t, os = p ++ RRestart :: q -> wh_hist N M (wt_new V M) p = Ok t -> rec_fits N (wh_leaves t).

Lemma hist_map os : 3 <= M -> outward m_empty (r_pairs os) -> restarts_fit os ->
  exists t es, wh_hist N M (wt_new V M) os = Ok t /\ winvr N M false t es /\ forall k, get k es = m_run (rops os) k.
Proof.
  intros H3 HO HF. assert (HM : 2 <= M) by lia.
  exact (@hist_out V N M HN HM os H3 (wt_new V M) [] m_empty (fun _ => eq_refl) HO (winvr_weak (winvr_new V HN HM)) HF).
Qed.
Lemma hist_at os : 3 <= M -> outward m_empty (r_pairs os) -> restarts_fit os ->
  exists t, wh_hist N M (wt_new V M) os = Ok t /\ forall k, we_at N t k = Ok (m_run (rops os) k).
Proof.
  intros H3 HO HF. destruct (hist_map H3 HO HF) as (t & es & E & HI & HG). exists t. split; auto.
  intros k. assert (HM : 2 <= M) by lia. rewrite (winvr_at HN HM k HI). now rewrite HG.
Qed.
Lemma hist_scan os : 2 <= M -> ascending (r_pairs os) -> restarts_fit os ->
  exists t out, wh_hist N M (wt_new V M) os = Ok t /\ wh_scan M t = Ok out /\ enumerates (m_run (rops os)) out /\ in_runs M out.
Proof.
  intros HM HA HF.
  destruct (@hist_asc V N M HN HM os (wt_new V M) [] HA (fun x (H : In x []) => match H with end) (winvr_new V HN HM) HF) as (t & E & HI).
  destruct (winvr_scan HN HM HI) as (out & ES & HP & HR). exists t, out. splits; auto.
  eapply enumerates_ext; [|apply perm_enumerates; [exact (winvr_sorted HI)|exact HP]].
  intros k. cbv beta. rewrite <- r_pairs_ops. apply ins_all_run.
Qed.

Lemma hist_reads os : 3 <= M -> outward m_empty (r_pairs os) -> restarts_fit os ->
  exists t t', wh_hist N M (wt_new V M) os = Ok t /\ wh_hist N M (wt_new V M) (os ++ [RRestart]) = Ok t' /\
  (exists out, wh_scan M t' = Ok out /\ enumerates (m_run (rops os)) out /\ in_runs M out) /\
  (forall k, wt_lookup t' k = UB \/ wt_lookup t' k = Ok (m_run (rops os) k)) /\
  (forall lo hi, wh_range M t' lo hi = UB \/ exists out, wh_range M t' lo hi = Ok out /\ enumerates_range (m_run (rops os)) lo hi out) /\
  (2 <= wh_leaves t -> forall k, (forall x, m_run (rops os) x <> None -> (x <= k)%Z) -> wt_lookup t' k = UB /\ forall hi, wh_range M t' k hi = UB) /\
  (~ rec_fits N (wh_leaves t) -> forall k v, (forall x, m_run (rops os) x <> None -> (x <= k)%Z) -> wt_insert N M t' k v = UB).
Proof.
  intros H3 HO HF. assert (HM : 2 <= M) by lia. destruct (hist_map H3 HO HF) as (t & es & E & HI & HG).
  pose proof (winvr_sorted HI) as HS.
  destruct (restart_reads HN HM HI) as (t' & E1 & (out & ES & HP & HR) & HL & HRG & HU & HX).
  assert (HB : forall k, (forall x, m_run (rops os) x <> None -> (x <= k)%Z) -> Forall (fun x => (x <= k)%Z) (keys es)).
  { intros k Hk. apply Forall_forall. intros x Hx. apply Hk. rewrite <- HG. now apply in_get. }
  exists t, t'. splits; auto.
  - rewrite wh_hist_app, E. cbn [bind wh_hist]. rewrite E1. reflexivity.
  - exists out. splits; auto. eapply enumerates_ext; [exact HG|]. now apply perm_enumerates.
  - intros k. rewrite <- HG. auto.
  - intros lo hi. destruct (HRG lo hi) as [|(o & Eo & Ho)]; auto. right. exists o. split; auto.
    destruct (perm_enumerates_range (lo := lo) (hi := hi) HS Ho) as [A B]. split; auto. intros k v. rewrite <- HG. apply B.
Qed.
End Hist.

Section Erase.
Variables (V : Type) (N M : nat).
Lemma wkh_hist (os : list (mop V)) : 2 <= N -> 2 * ((N + 1) / 2) <= N -> 3 <= M -> wkh_fine N M (wt_new V M) os = true -> exists t,
  wh_run N M (wt_new V M) os = Ok t /\ (forall k, we_at N t k = Ok (m_run os k)) /\
  (forall k v, wkh_ok N M t (OpInsert k v) = true -> exists t',
    wt_insert N M t k v = Ok t' /\ forall x, we_at N t' x = Ok (m_put (m_run os) k v x)) /\
  (forall k, wkh_ok N M t (OpErase V k) = true -> exists t' b,
    wh_erase N M t k = Ok (t', b) /\ (b = true <-> m_run os k <> None) /\
    forall x, we_at N t' x = Ok (m_del (m_run os) k x)).
Proof.
  intros HN HE HM H. destruct (wh_run_same H) as [H1 H2]. rewrite H2.
  assert (HY : 2 <= M) by lia. destruct (@wk_hist V N M HN HE HY os HM H1) as (t & E & P1 & P2 & P3).
  exists t. splits; auto.
  - intros k v C. apply P2. unfold wkh_ok in C. now apply andb_prop in C as [C _].
  - intros k C. rewrite (wh_erase_same C). apply P3. unfold wkh_ok in C. now apply andb_prop in C as [C _].
Qed.
End Erase.
