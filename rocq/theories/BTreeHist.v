(** Histories on [BTreeModel], and the shape of the resulting heaps. *)
From Verif Require Import Base ArrLemmas MapSpec SortedList BTreeModel BTreeLaws BTreeBranch BTreeGhost BTreeInsert
  BTreeErase BTreeSpec.
Open Scope nat_scope.

Section HistInsert.
Variables (L V : Type) (N M : nat) (O : leafops L V).
Variable lrep : L -> list (Z * V) -> Prop.
Variables minL minB : nat.
Variable kok : Z -> Prop.
Hypothesis LL : leaf_laws O M minL kok lrep.
Hypothesis HN : 2 <= N.
Hypothesis HB : minB <= (N + 1) / 2 - 1.
Notation tinv := (tinv N M lrep minL minB).

Lemma hist_insert os : forall t es m, tinv t es -> (forall k, get k es = m k) -> Forall (ins_ok kok) os ->
  exists t' es', t_run N M O t (map bop_of os) = Ok t' /\ tinv t' es' /\ forall k, get k es' = fold_left (@m_step V) os m k.
Proof.
  induction os as [|o os IH]; intros t es m I E F; cbn [map t_run fold_left].
  - eauto.
  - inversion F as [|? ? Fo F']; subst. destruct o as [k v|k]; [|contradiction]. cbn [ins_ok] in Fo.
    destruct (t_insert_ok LL HN HB v Fo I) as (t1 & E1 & I1). cbn [bop_of t_step]. rewrite E1. cbn [bind].
    apply (IH t1 _ (m_step m (OpInsert k v)) I1); auto. intros x. rewrite get_ins by (eapply tinv_sorted; eauto).
    cbn [m_step]. unfold m_put. destruct (x =? k)%Z; auto.
Qed.

Lemma hist_insert_first f os : forall t es m, tinvf N M lrep minL minB f t es -> (forall k, get k es = m k) -> Forall (ins_ok kok) os ->
  exists t' es', t_run N M O t (map bop_of os) = Ok t' /\ tinvf N M lrep minL minB f t' es' /\
    forall k, get k es' = fold_left (@m_step V) os m k.
Proof.
  induction os as [|o os IH]; intros t es m I E F; cbn [map t_run fold_left].
  - eauto.
  - inversion F as [|? ? Fo F']; subst. destruct o as [k v|k]; [|contradiction]. cbn [ins_ok] in Fo.
    destruct (t_insert_first LL HN HB v Fo I) as (t1 & E1 & I1). cbn [bop_of t_step]. rewrite E1. cbn [bind].
    apply (IH t1 _ (m_step m (OpInsert k v)) I1); auto. intros x. rewrite get_ins by (eapply tinv_sorted, tinvf_tinv; eauto).
    cbn [m_step]. unfold m_put. destruct (x =? k)%Z; auto.
Qed.

Lemma hist_insert_new os : Forall (ins_ok kok) os ->
  exists t es, t_run N M O (t_new O) (map bop_of os) = Ok t /\ tinv t es /\ forall k, get k es = m_run os k.
Proof.
  intros F. apply (@hist_insert os (t_new O) [] m_empty); auto. eapply tinv_new; eauto; lia.
Qed.
End HistInsert.

Section HistAll.
Variables (L V : Type) (N M : nat) (O : leafops L V).
Variable lrep : L -> list (Z * V) -> Prop.
Variable lhint : L -> list (Z * V) -> Z -> Prop.
Variables minL minB : nat.
Hypothesis LL : leaf_laws O M minL (fun _ => True) lrep.
Hypothesis EL : erase_laws O M lrep lhint.
Hypothesis HM : 1 <= M.
Hypothesis HmL : minL <= (M + 1) / 2.
Hypothesis HN : 2 * ((N + 1) / 2) <= N.
Hypothesis HB : minB <= (N + 1) / 2 - 1.
Hypothesis HB2 : 2 <= minB.
Notation tinv := (tinv N M lrep minL minB).

Lemma hist_all os : forall t es m, tinv t es -> (forall k, get k es = m k) -> hist_ok m os ->
  exists t' es', t_run N M O t (map bop_of os) = Ok t' /\ tinv t' es' /\ forall k, get k es' = fold_left (@m_step V) os m k.
Proof.
  assert (HN2 : 2 <= N) by lia.
  induction os as [|o os IH]; intros t es m I E F; cbn [map t_run fold_left].
  - eauto.
  - cbn [hist_ok] in F. destruct F as [Fo F']. destruct o as [k v|k].
    + destruct (t_insert_ok LL HN2 HB (k := k) v Logic.I I) as (t1 & E1 & I1). cbn [bop_of t_step]. rewrite E1. cbn [bind].
      apply (IH t1 _ (m_step m (OpInsert k v)) I1); auto. intros x. rewrite get_ins by (eapply tinv_sorted; eauto).
      cbn [m_step]. unfold m_put. destruct (x =? k)%Z; auto.
    + cbn [op_ok] in Fo. rewrite <- E in Fo.
      destruct (t_erase_ok LL EL HM HmL HN HB HB2 I Fo) as (t1 & E1 & I1). cbn [bop_of t_step]. rewrite E1. cbn [bind fst].
      apply (IH t1 _ (m_step m (OpErase _ k)) I1); auto. intros x. rewrite get_del by (eapply tinv_sorted; eauto).
      cbn [m_step]. unfold m_del. destruct (x =? k)%Z; auto.
Qed.

Lemma hist_all_first f os : forall t es m, tinvf N M lrep minL minB f t es -> (forall k, get k es = m k) -> hist_ok m os ->
  exists t' es', t_run N M O t (map bop_of os) = Ok t' /\ tinvf N M lrep minL minB f t' es' /\
    forall k, get k es' = fold_left (@m_step V) os m k.
Proof.
  assert (HN2 : 2 <= N) by lia.
  induction os as [|o os IH]; intros t es m I E F; cbn [map t_run fold_left].
  - eauto.
  - cbn [hist_ok] in F. destruct F as [Fo F']. destruct o as [k v|k].
    + destruct (t_insert_first LL HN2 HB (k := k) v Logic.I I) as (t1 & E1 & I1). cbn [bop_of t_step]. rewrite E1. cbn [bind].
      apply (IH t1 _ (m_step m (OpInsert k v)) I1); auto. intros x. rewrite get_ins by (eapply tinv_sorted, tinvf_tinv; eauto).
      cbn [m_step]. unfold m_put. destruct (x =? k)%Z; auto.
    + cbn [op_ok] in Fo. rewrite <- E in Fo.
      destruct (t_erase_okf LL EL HM HmL HN HB HB2 I Fo) as (t1 & E1 & I1). cbn [bop_of t_step]. rewrite E1. cbn [bind fst].
      apply (IH t1 _ (m_step m (OpErase _ k)) I1); auto. intros x. rewrite get_del by (eapply tinv_sorted, tinvf_tinv; eauto).
      cbn [m_step]. unfold m_del. destruct (x =? k)%Z; auto.
Qed.

Lemma hist_all_new os : hist_ok m_empty os ->
  exists t es, t_run N M O (t_new O) (map bop_of os) = Ok t /\ tinv t es /\ forall k, get k es = m_run os k.
Proof.
  intros F. apply (@hist_all os (t_new O) [] m_empty); auto. eapply tinv_new; eauto; lia.
Qed.
End HistAll.

(** ** Shape *)
Section ShapeProofs.
Variables (L V : Type) (N M minL minB : nat) (O : leafops L V).
Variable lrep : L -> list (Z * V) -> Prop.
Variable kok : Z -> Prop.
Hypothesis LL : leaf_laws O M minL kok lrep.
Notation gt := (gt V).
Notation wf := (wf N M minL minB).
Notation inv := (inv N lrep).
Notation shape h := (shape N M minL minB O h).

Lemma length_ents (cs : list gt) : length (ents cs) = list_sum (map (fun c => length (ents [c])) cs).
Proof.
  clear. induction cs as [|c cs IH]; [reflexivity|]. rewrite ents_cons, app_length, IH. reflexivity.
Qed.

Lemma wf_shape h d : forall m (r : bool) lo hi (g : gt) A B, wf m d lo hi g -> inv h A [g] B ->
  (if r then rmin d else mn minL minB d) <= m ->
  shape h d r (gid g) (length (ents [g])).
Proof.
  induction d as [|d IH]; intros m r lo hi g A B W I Hm.
  - destruct (wf0_leaf W) as (j & es & -> & _ & _ & C). rewrite ents_GL. cbn [gid].
    destruct (inv_GL I) as (l & El & Hl & _). rewrite <- (law_count LL Hl).
    rewrite <- (law_count LL Hl) in C. constructor; auto; [lia|]. intros ->. cbn [mn] in Hm. lia.
  - destruct (wfS_branch W) as (j & ks & cs & -> & C & KK). cbn [gid]. rewrite ents_GB, length_ents.
    apply inv_GB in I as (I & _ & _ & b & Eb & Rb). cbn [fst snd] in *.
    pose proof Rb as (Eb1 & _). pose proof (kids_length KK) as Lc.
    eapply shape_branch with (b := b); auto.
    + lia.
    + rewrite Eb1. cbn [rmin mn] in Hm. destruct r; lia.
    + rewrite map_length. lia.
    + intros i n En. rewrite nth_error_map in En. destruct (nth_error cs i) as [c|] eqn:Ec; [|discriminate].
      injection En as <-. exists (gid c). split.
      * eapply brep_kid; [exact Rb|]. now rewrite nth_error_map, Ec.
      * destruct (nth_error_split _ _ Ec) as (CA & CB & -> & _).
        apply (inv_sub (gs := [c])) in I.
        destruct (@kids_mono _ _ _ _ _ _ KK c) as (x & y & _ & Wc); [apply in_or_app; simpl; auto|].
        eapply (IH _ false x y c); eauto.
Qed.

Lemma tinv_shape t es : tinv N M lrep minL minB t es -> shape (th t) (tdepth t) true (troot t) (length es).
Proof.
  intros (g & E & W & I & <-). rewrite <- E. eapply (@wf_shape (th t) (tdepth t) _ true); eauto.
Qed.

Lemma list_sum_ge ns c : (forall j n, nth_error ns j = Some n -> c <= n) -> length ns * c <= list_sum ns.
Proof.
  clear. induction ns as [|n ns IH]; intros H; [simpl; lia|]. cbn [length list_sum fold_right].
  pose proof (H 0 n eq_refl). assert (length ns * c <= list_sum ns) by (apply IH; intros j; apply (H (S j))).
  unfold list_sum in *. lia.
Qed.

Lemma shape_low h d : forall i n, shape h d false i n -> S minB ^ d * minL <= n.
Proof.
  induction d as [|d IH]; intros i n HS; inversion HS; subst.
  - match goal with H : false = false -> _ |- _ => specialize (H eq_refl) end. simpl. lia.
  - assert (Hs : length ns * (S minB ^ d * minL) <= list_sum ns).
    { apply list_sum_ge. intros j n Hn. match goal with H : forall j n, nth_error ns j = _ -> _ |- _ => destruct (H j n Hn) as (c & _ & Hc) end. eauto. }
    cbn [Nat.pow]. nia.
Qed.

Lemma shape_root_low h d i n : shape h (S d) true i n -> 2 * (S minB ^ d * minL) <= n.
Proof.
  intros HS; inversion HS; subst.
  assert (Hs : length ns * (S minB ^ d * minL) <= list_sum ns).
  { apply list_sum_ge. intros j n Hn. match goal with H : forall j n, nth_error ns j = _ -> _ |- _ => destruct (H j n Hn) as (c & _ & Hc) end.
    eapply shape_low; eauto. }
  nia.
Qed.
End ShapeProofs.
