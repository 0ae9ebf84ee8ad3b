(** The iterator loop enumerates the leaf chain. *)
From Verif Require Import Base ArrLemmas MapSpec SortedList BTreeModel BTreeLaws BTreeBranch BTreeGhost BTreeInsert
  SLeafModel SLeafProofs SIterModel.
Open Scope nat_scope.

Section SIterProofs.
Variables (V : Type) (N M minL minB : nat) (O : leafops (sleaf V) V).
Variable kok : Z -> Prop.
Hypothesis LL : leaf_laws O M minL kok (sl_rep M).
Notation lrep := (sl_rep M).

(** From position [length a] of a leaf to its end. *)
Lemma it_leaf (t : tree (sleaf V)) i l out : hl (th t) i = Some l ->
  forall b a f, lrep l (a ++ b) -> b <> [] ->
  it_loop f t (Iter (hnx (th t) i) 0) = Ok out ->
  it_loop (length b + f) t (Iter (Some i) (length a)) = Ok (b ++ out).
Proof.
  intros El. induction b as [|[x v] b IH]; intros a f HR HN E; [congruence|].
  cbn [length Nat.add it_loop]. unfold it_eqb at 1. cbn [it_node it_end].
  destruct (sl_rep_key HR eq_refl) as [Ek Ev].
  unfold it_deref, it_next. cbn [it_node it_pos of_opt bind]. unfold getl. rewrite El. cbn [of_opt bind].
  rewrite Ek. cbn [bind]. rewrite Ev. cbn [bind].
  pose proof HR as (_ & Hn & _). rewrite Hn, app_length. cbn [length].
  replace (0 <? length a + S (length b)) with true by (symmetry; apply Nat.ltb_lt; lia). cbn [andb].
  destruct b as [|y b].
  - cbn [length]. replace (length a + 1 - 1 <=? length a) with true by (symmetry; apply Nat.leb_le; lia).
    cbn [bind length Nat.add]. rewrite E. reflexivity.
  - replace (length a + S (length (y :: b)) - 1 <=? length a) with false
      by (symmetry; apply Nat.leb_gt; cbn [length]; lia).
    cbn [bind]. replace (S (length a)) with (length (a ++ [(x, v)])) by (rewrite app_length; cbn [length]; lia).
    rewrite (IH (a ++ [(x, v)]) f); auto; [now rewrite <- app_assoc|congruence].
Qed.

Lemma it_chain (t : tree (sleaf V)) : forall ls p, Forall (lok lrep (th t)) ls -> seg (th t) p (map fst ls) None ->
  (forall q, In q ls -> snd q <> []) ->
  it_loop (length (flat_map snd ls)) t (Iter (hbd (map fst ls) None) 0) = Ok (flat_map snd ls).
Proof.
  induction ls as [|[i es] ls IH]; intros p F HS HE; [reflexivity|].
  inversion F as [|? ? Hi F']; subst. destruct Hi as (l & El & Hl).
  cbn [map seg fst snd] in *. destruct HS as (_ & Hn & HS).
  cbn [flat_map hbd hd map snd]. rewrite app_length.
  assert (Hes : es <> []) by (apply (HE (i, es)); simpl; auto).
  apply (@it_leaf t i l (flat_map snd ls) El es [] (length (flat_map snd ls))); auto.
  rewrite Hn. eapply IH; eauto. intros q Hq. apply HE. simpl; auto.
Qed.

Lemma it_loop_more (t : tree (sleaf V)) : forall f it out, it_loop f t it = Ok out -> forall f', f <= f' -> it_loop f' t it = Ok out.
Proof.
  induction f as [|f IH]; intros it out E f' Hf; cbn [it_loop] in E.
  - destruct f'; cbn [it_loop]; destruct (it_eqb it it_end); auto; discriminate.
  - destruct f' as [|f']; [lia|]. cbn [it_loop]. destruct (it_eqb it it_end); auto.
    destruct (it_deref t it) as [e| |]; try discriminate. cbn [bind] in *.
    destruct (it_next t it) as [it'| |]; try discriminate. cbn [bind] in *.
    destruct (it_loop f t it') as [r| |] eqn:Er; try discriminate. rewrite (IH _ _ Er f') by lia. exact E.
Qed.

Lemma wf_leaf_min d : forall m lo hi g, wf N M minL minB m d lo hi g -> 1 <= minL ->
  (d = 0 -> 1 <= m) -> forall q, In q (lvs [g : gt V]) -> snd q <> [].
Proof.
  clear LL O. induction d as [|d IH]; intros m lo hi g W H1 H0 q Hq.
  - destruct g as [j es|]; cbn [wf] in W; [|contradiction]. simpl in Hq. destruct Hq as [<-|[]].
    simpl. destruct W as (_ & _ & W). specialize (H0 eq_refl). destruct es; simpl in *; [lia|congruence].
  - destruct g as [|j ks cs]; cbn [wf] in W; [contradiction|]. destruct W as [_ KK]. rewrite lvs_GB in Hq.
    unfold lvs in Hq. apply in_flat_map in Hq as (c & Hc & Hq).
    destruct (@kids_mono _ _ _ _ _ _ KK c Hc) as (x & y & _ & Wc).
    eapply IH; eauto; [|unfold lvs; simpl; rewrite app_nil_r; exact Hq].
    intros ->. exact H1.
Qed.

Lemma it_all_ok (t : tree (sleaf V)) es fuel : tinv N M lrep minL minB t es -> es <> [] -> 1 <= minL -> length es <= fuel ->
  it_all fuel t = Ok es.
Proof.
  intros (g & E & W & I & <-) HE HM HF. unfold it_all, it_begin. rewrite <- E.
  destruct (leftmost_ok W I) as (i & es & LB & El & EL). rewrite El. cbn [bind].
  apply it_loop_more with (f := length (ents [g])); auto.
  pose proof (inv_seg I) as HS. cbn [app] in HS. rewrite app_nil_r in HS. unfold lids in HS.
  pose proof (@it_chain t (lvs [g]) None (inv_l I) HS) as HC.
  rewrite EL in HC at 2. cbn [map hbd hd fst] in HC. apply HC.
  destruct (tdepth t) as [|d] eqn:Ed.
  - destruct g as [j es'|]; cbn [wf] in W; [|contradiction]. rewrite ents_GL in HE.
    intros q Hq. simpl in Hq. destruct Hq as [<-|[]]. exact HE.
  - eapply (@wf_leaf_min (S d)); eauto.
Qed.
End SIterProofs.
