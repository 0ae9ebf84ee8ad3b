(** Iterating over a tree none of whose leaves is empty gives what scan gives; the trees of the map theorems have
    no empty leaf unless they are empty. *)
From Verif Require Import Base ArrLemmas BitmapModel BitmapProofs MapSpec SortedList RankModel BTreeModel BTreeSpec BTreeLaws BTreeBranch BTreeGhost BTreeInsert
  SLeafModel ULeafModel FLeafModel BitTreeModel WbModel SIterModel SIterProofs XTree WbProofs WbTree SearchModel SearchProofs WbBranch  BIterModel BIterProofs.
Open Scope nat_scope.

(** The first [fuel] leaves of the chain from [o] all hold an entry. *)
Fixpoint no_empty {L V} (O : leafops L V) (fuel : nat) (h : heap L) (o : option nat) : Prop :=
  match fuel, o with
  | S f, Some i => (exists l e r, hl h i = Some l /\ lo_scan O l = Ok (e :: r)) /\ no_empty O f h (hnx h i)
  | _, _ => True
  end.

Section Bitmap.
Variables (L V : Type) (M : nat).
Variables (tst : L -> nat -> res bool) (ent : L -> nat -> res (Z * V)) (O : leafops L V).
Hypothesis HM : 1 <= M.
Hypothesis HO : forall l, lo_scan O l = slots tst ent l 0 M.

Lemma scan_iter h : forall fuel o out, scan_chain O fuel h o = Ok out -> no_empty O fuel h o ->
  exists it, bi_enter M tst h o = Ok it /\ bi_loop M tst ent (length out) h it = Ok out.
Proof.
  induction fuel as [|fuel IH]; intros [i|] out E H; cbn [scan_chain no_empty] in *; try discriminate.
  - injection E as <-. exists it_end. split; reflexivity.
  - destruct H as [(l & e & r & El & Es) H]. unfold getl in E. rewrite El in E. cbn [of_opt bind] in E. rewrite Es in E. cbn [bind] in E.
    destruct (scan_chain O fuel h (hnx h i)) as [out'| |] eqn:E'; try discriminate. injection E as <-.
    destruct (IH _ _ E' H) as (it & E1 & E2). rewrite HO in Es.
    destruct (@seek_ok L V M tst ent HM l M 0 e r (S M) Es ltac:(lia)) as (q & m & E3 & _ & Hq & He & Hr). cbn [Nat.add] in Hq.
    exists (Iter (Some i) q). split.
    + cbn [bi_enter]. unfold getl. rewrite El. cbn [of_opt bind]. now rewrite E3.
    + cbn [length app]. rewrite app_length. exact (@loop_leaf L V M tst ent HM h i l it out' (length out') El E1 E2 r e q m Hq He Hr).
  - injection E as <-. exists it_end. split; reflexivity.
Qed.

Lemma scan_all h n first out : (do i <- first; scan_chain O n h (Some i)) = Ok out ->
  (forall i, first = Ok i -> no_empty O n h (Some i)) ->
  forall fuel, length out <= fuel -> bi_all M tst ent fuel h first = Ok out.
Proof.
  intros E H fuel Hf. destruct first as [i| |]; try discriminate. cbn [bind] in E.
  destruct (scan_iter E (H i eq_refl)) as (it & E1 & E2). unfold bi_all. cbn [bind]. rewrite E1. cbn [bind].
  eapply loop_more; eauto.
Qed.
End Bitmap.

Section Plain.
Variables (V : Type) (O : leafops (sleaf V) V).
Hypothesis HO : forall l, lo_scan O l = sl_scan l.

Lemma it_leaf_from (t : tree (sleaf V)) i l out f : hl (th t) i = Some l ->
  it_loop f t (Iter (hnx (th t) i) 0) = Ok out ->
  forall n p es, sl_scan_from n p l = Ok es -> p + n = sn l -> n <> 0 -> length es = n /\
  it_loop (length es + f) t (Iter (Some i) p) = Ok (es ++ out).
Proof.
  intros El E. induction n as [|n IH]; intros p es Es Hp Hn; [lia|]. cbn [sl_scan_from] in Es.
  destruct (aget (sk l) p) as [k| |] eqn:Ek; cbn [bind] in Es; try discriminate.
  destruct (aget (sv l) p) as [v| |] eqn:Ev; cbn [bind] in Es; try discriminate.
  destruct (sl_scan_from n (S p) l) as [r| |] eqn:Er; cbn [bind] in Es; try discriminate. injection Es as <-.
  cbn [length Nat.add app it_loop]. unfold it_eqb. cbn [it_node it_end].
  unfold it_deref, it_next. cbn [it_node it_pos of_opt bind]. unfold getl. rewrite El. cbn [of_opt bind]. rewrite Ek, Ev. cbn [bind].
  replace (0 <? sn l) with true by (symmetry; apply Nat.ltb_lt; lia). cbn [andb].
  destruct n as [|n].
  - cbn [sl_scan_from] in Er. injection Er as <-. rewrite (proj2 (Nat.leb_le _ _)) by lia. cbn [bind length Nat.add app]. rewrite E. split; reflexivity.
  - rewrite (proj2 (Nat.leb_gt _ _)) by lia. cbn [bind]. destruct (IH (S p) r Er ltac:(lia) ltac:(lia)) as [Hl ->]. split; [lia|reflexivity].
Qed.

Lemma scan_it (t : tree (sleaf V)) : forall fuel o out, scan_chain O fuel (th t) o = Ok out -> no_empty O fuel (th t) o ->
  it_loop (length out) t (Iter o 0) = Ok out.
Proof.
  induction fuel as [|fuel IH]; intros [i|] out E H; cbn [scan_chain no_empty] in *; try discriminate.
  - injection E as <-. reflexivity.
  - destruct H as [(l & e & r & El & Es) H]. unfold getl in E. rewrite El in E. cbn [of_opt bind] in E. rewrite Es in E. cbn [bind] in E.
    destruct (scan_chain O fuel (th t) (hnx (th t) i)) as [out'| |] eqn:E'; try discriminate. injection E as <-.
    rewrite HO in Es. change (e :: r ++ out') with ((e :: r) ++ out'). rewrite app_length.
    refine (proj2 (@it_leaf_from t i l out' (length out') El (IH _ _ E' H) (sn l) 0 (e :: r) Es eq_refl _)).
    intros E0. unfold sl_scan in Es. rewrite E0 in Es. discriminate.
  - injection E as <-. reflexivity.
Qed.

Lemma scan_it_all (t : tree (sleaf V)) out : t_scan O t = Ok out ->
  (forall i, leftmost (th t) (tdepth t) (troot t) = Ok i -> no_empty O (S (hfresh (th t))) (th t) (Some i)) ->
  forall fuel, length out <= fuel -> it_all fuel t = Ok out.
Proof.
  intros E H fuel Hf. unfold t_scan in E. unfold it_all, it_begin.
  destruct (leftmost (th t) (tdepth t) (troot t)) as [i| |]; try discriminate. cbn [bind] in *.
  eapply it_loop_more; [|exact Hf]. eapply scan_it; eauto.
Qed.
End Plain.

(** ** No leaf of the trees of the map theorems is empty *)
Lemma chain_full {L V} (O : leafops L V) (lrep : L -> list (Z * V) -> Prop) (h : heap L) :
  (forall l es, lrep l es -> exists out, lo_scan O l = Ok out /\ Permutation out es) ->
  forall ls p fuel, Forall (lok lrep h) ls -> seg h p (map fst ls) None -> (forall q, In q ls -> snd q <> []) ->
  no_empty O fuel h (hbd (map fst ls) None).
Proof.
  intros HS. induction ls as [|[i es] ls IH]; intros p fuel F Hs HE; destruct fuel as [|fuel]; cbn [map fst hbd hd no_empty]; auto.
  inversion_clear F as [|? ? Hi F']. destruct Hi as (l & El & Hl). cbn [fst snd] in *. cbn [map fst seg] in Hs. destruct Hs as (_ & Hn & Hs).
  split.
  - destruct (HS l es Hl) as (out & Eo & P). destruct out as [|e r]; [|exists l, e, r; auto].
    apply Permutation_nil in P. exfalso. exact (HE (i, es) (or_introl eq_refl) P).
  - rewrite Hn. eapply IH; eauto. intros q Hq. apply HE. now right.
Qed.

Lemma wf_full {V} N M minL minB d (g : gt V) : wf N M minL minB (match d with 0 => 0 | S _ => 1 end) d None None g -> 1 <= minL -> ents [g] <> [] ->
  forall q, In q (lvs [g]) -> snd q <> [].
Proof.
  intros W H1 HE. destruct d as [|d].
  - destruct g as [j es|]; cbn [wf] in W; [|contradiction]. rewrite ents_GL in HE.
    intros q Hq. simpl in Hq. destruct Hq as [<-|[]]. exact HE.
  - eapply (@wf_leaf_min V N M minL minB (S d)); eauto; discriminate.
Qed.

Lemma tinv_full {L V} (O : leafops L V) N M minL minB kok lrep (LL : leaf_laws O M minL kok lrep) t es :
  tinv N M lrep minL minB t es -> es <> [] -> 1 <= minL ->
  forall i, leftmost (th t) (tdepth t) (troot t) = Ok i -> no_empty O (S (hfresh (th t))) (th t) (Some i).
Proof.
  intros (g & E & W & I & <-) HE HL i Ei. rewrite <- E in Ei.
  destruct (leftmost_ok W I) as (j & es & LB & El & EL). rewrite El in Ei. injection Ei as <-.
  pose proof (inv_seg I) as HS. cbn [app] in HS. rewrite app_nil_r in HS. unfold lids in HS.
  replace (Some j) with (hbd (map fst (lvs [g])) None) by (rewrite EL; reflexivity).
  apply (@chain_full L V O lrep (th t) (law_scan LL) (lvs [g]) None); auto; [apply (inv_l I)|].
  apply (wf_full W); auto.
Qed.

Lemma xinvs_full {L V BR} (O : leafops L V) (Q : brops BR) N M minL kok lrep brepx bsp bk (LL : leaf_laws O M minL kok lrep)
  (BL : br_laws N Q bk brepx bsp) (x : xtree L BR) es :
  xinvs N M lrep minL brepx bsp x es -> es <> [] -> 1 <= minL -> forall n i,
  x_first Q (xtb x) (xdepth x) (xroot x) = Ok i -> no_empty O n (xth x) (Some i).
Proof.
  intros (G & g & E & W & I & _ & <- & Sp) HE HL n i Ei. rewrite <- E in Ei.
  destruct (x_first_ok BL W Sp) as (j & es & LB & El & EL). rewrite El in Ei. injection Ei as <-.
  pose proof (inv_seg I) as HS. cbn [app] in HS. rewrite app_nil_r in HS. unfold lids in HS.
  replace (Some j) with (hbd (map fst (lvs [g])) None) by (rewrite EL; reflexivity).
  apply (@chain_full L V O lrep (xth x) (law_scan LL) (lvs [g]) None); auto; [apply (inv_l I)| |].
  - clear -HS. revert HS. generalize (map fst (lvs [g])). generalize (@None nat) at 1 3. intros o l. revert o.
    induction l as [|a l IH]; intros o H; cbn [seg] in *; auto. destruct H as (H1 & H2 & H3). splits; auto.
  - apply (wf_full W); auto.
Qed.

(** ** FPTree, BitPBPTree, BitHPBPTree: the scan of a leaf goes through its slots *)
Lemma fl_scan_slots {V} M (l : fleaf V) : fl_scan M l = slots (fl_tst M) fl_ent l 0 M.
Proof.
  unfold fl_scan. transitivity (do r <- slots (fl_tst M) fl_ent l 0 M; Ok ([] ++ r)).
  - rewrite <- slots_for. apply for_up_ext. intros i out _. unfold fl_tst, fl_ent. destruct (bm_test M (fb l) i) as [[]| |]; cbn [bind]; auto.
    destruct (aget (fk l) i); cbn [bind]; auto. destruct (aget (fv l) i); auto.
  - destruct (slots (fl_tst M) fl_ent l 0 M); reflexivity.
Qed.

Section FP.
Variables (V : Type) (N M minL minB : nat) (O : leafops (fleaf V) V) (kok : Z -> Prop) (lrep : fleaf V -> list (Z * V) -> Prop).
Hypothesis HO : forall l, lo_scan O l = fl_scan M l.
Hypothesis LL : leaf_laws O M minL kok lrep.
Hypothesis HL : 1 <= minL.
Hypothesis HM : 1 <= M.

(** Any tree whose scan ends and whose leaves are not empty. *)
Lemma fp_iter_scan t out : t_scan O t = Ok out ->
  (forall i, leftmost (th t) (tdepth t) (troot t) = Ok i -> no_empty O (S (hfresh (th t))) (th t) (Some i)) ->
  forall fuel, length out <= fuel -> fp_iter M fuel t = Ok out.
Proof.
  intros E H. exact (@scan_all _ V M (fl_tst M) fl_ent O HM (fun l => eq_trans (HO l) (fl_scan_slots M l)) (th t) _ _ out E H).
Qed.
Lemma bit_iter_scan (t : btree V) out : bg_scan O t = Ok out ->
  (forall i, bt_first (btb t) (bdepth t) (broot t) = Ok i -> no_empty O (S (hfresh (bth t))) (bth t) (Some i)) ->
  forall fuel, length out <= fuel -> bit_iter M fuel t = Ok out.
Proof.
  intros E H. exact (@scan_all _ V M (fl_tst M) fl_ent O HM (fun l => eq_trans (HO l) (fl_scan_slots M l)) (bth t) _ _ out E H).
Qed.

Lemma fp_iter_ok t es out : tinv N M lrep minL minB t es -> es <> [] -> t_scan O t = Ok out ->
  forall fuel, length out <= fuel -> fp_iter M fuel t = Ok out.
Proof. intros I HE E. apply (fp_iter_scan E). exact (tinv_full LL I HE HL). Qed.
End FP.

(** ** wBPTree: the scan of a leaf follows its slot array, the iterator its bitmap *)
Section WB.
Variables (V : Type) (N M : nat).
Hypothesis HN : 2 <= N.
Hypothesis HM : 2 <= M.

Lemma w_slots l : forall (n p : nat), bm_ok M (wb l) -> p + n <= M ->
  (forall i, bit (wb l) i = true -> exists e, WbProofs.ent (V := V) (wk l) (wv l) i e) ->
  exists out, slots (w_tst M) w_ent l p n = Ok out /\ Forall2 (WbProofs.ent (wk l) (wv l)) (filter (bit (wb l)) (seq p n)) out.
Proof.
  induction n as [|n IH]; intros p HB Hp HE; cbn [slots seq filter]; [eauto|].
  unfold w_tst at 1. rewrite (bm_test_ok HB) by lia. cbn [bind]. destruct (IH (S p) HB ltac:(lia) HE) as (out & E & F).
  destruct (bit (wb l) p) eqn:Ebit; [|eauto]. destruct (HE p Ebit) as ([k v] & Ek & Ev). cbn [fst snd] in *.
  unfold w_ent at 1. rewrite Ek. cbn [bind]. rewrite Ev. cbn [bind]. rewrite E. cbn [bind].
  exists ((k, v) :: out). split; auto. constructor; auto. split; auto.
Qed.

Lemma Forall2_perm {A B} (R : A -> B -> Prop) a a' : Permutation a a' -> forall b, Forall2 R a b ->
  exists b', Forall2 R a' b' /\ Permutation b b'.
Proof.
  intros P. induction P; intros c F.
  - inversion F; subst. eauto.
  - inversion_clear F as [|? y ? b H F']. destruct (IHP _ F') as (b' & F2 & P2). exists (y :: b'). split; auto.
  - inversion_clear F as [|? u ? b H F']. inversion_clear F' as [|? w ? b' H' F2]. exists (w :: u :: b'). split; auto. apply perm_swap.
  - destruct (IHP1 _ F) as (b' & F2 & Q2). destruct (IHP2 _ F2) as (b2 & F3 & Q3). exists b2. split; auto. eapply Permutation_trans; eauto.
Qed.

Lemma w_slots_perm l es : WbProofs.wrep M l es -> exists out, slots (w_tst (V := V) M) w_ent l 0 M = Ok out /\ Permutation out es.
Proof.
  intros H. assert (HS : exists sl, WbProofs.store M (wb l) (wk l) (wv l) sl es) by (destruct H as (sl & R & H); exists sl; tauto).
  destruct HS as (sl & HB & Hk & Hv & ND & HI & F).
  destruct (@w_slots l M 0 HB ltac:(lia)) as (out & E & F2).
  - intros i Hi. apply HI in Hi. clear -Hi F. induction F; [contradiction|]. destruct Hi as [<-|Hi]; eauto.
  - exists out. split; auto.
    assert (P : Permutation (filter (bit (wb l)) (seq 0 M)) sl).
    { apply NoDup_Permutation; auto; [apply NoDup_filter, seq_NoDup|]. intros i. rewrite filter_In, in_seq, HI. split; [tauto|].
      intros Hi. split; auto. split; [lia|]. destruct (Nat.ltb_spec i M) as [|Hge]; [lia|].
      exfalso. clear -Hi F Hk Hge. induction F as [|x y ? ? He F IH]; [contradiction|]. destruct Hi as [->|Hi]; auto.
      destruct He as [He _]. unfold aget in He. destruct (nth_error (wk l) i) eqn:En; [|discriminate]. assert (nth_error (wk l) i <> None) as En2 by congruence. apply nth_error_Some in En2. lia. }
    destruct (Forall2_perm P F2) as (es' & F3 & P3). replace es with es'; auto.
    clear -F F3. revert es' F3. induction F as [|x y ? ? He F IH]; intros es' F3; inversion_clear F3 as [|? z ? ? Hz F4]; auto.
    f_equal; auto. destruct He as [H1 H2], Hz as [H3 H4]. destruct y, z. cbn [fst snd] in *. congruence.
Qed.

Definition wso : leafops (wleaf V) V :=
  LeafOps (w_new V M) (lo_count (WbTree.wo V M)) (@w_lookup V) (w_insert M) (w_erase M)
    (w_merge M) (w_balance M) (fun _ => UB) (fun l => slots (w_tst M) w_ent l 0 M) (fun _ _ _ => UB) (bsearch_pos true) false.
Lemma wso_laws : leaf_laws wso M 1 (fun _ => False) (WbProofs.wrep M).
Proof.
  constructor; cbn [wso lo_new lo_count lo_lookup lo_insert lo_scan lo_bpos].
  - apply WbProofs.w_new_rep.
  - intros l e R. exact (WbProofs.wrep_sorted R).
  - intros l e R. exact (WbProofs.wrep_len R).
  - intros l e R. cbn [WbTree.wo lo_count]. now rewrite (WbProofs.w_count_ok R).
  - intros l e x R. exact (WbProofs.w_lookup_ok x R).
  - intros l e x w [].
  - exact w_slots_perm.
  - intros a b R key HO Ha Hb. apply bsearch_pos_correct; auto. split; auto.
Qed.

Lemma w_iter_ok (t : wtree V) es : WbTree.winvs N M t es -> es <> [] ->
  exists out, Permutation out es /\ forall fuel, length out <= fuel -> w_iter M fuel t = Ok out.
Proof.
  intros I HE.
  destruct (@x_scan_ok (wleaf V) V wbranch N M wso (wbq N) (WbProofs.wrep M) 1 (fun _ => True) (wbrep N) wbsp (fun _ => False) wso_laws
    (fun k (H : False) => match H with end) WbTree.trivial_mid ltac:(intros; apply Forall_forall; auto) HN (wb_laws HN) (WbTree.to_x t) es I) as (out & E & P & _).
  exists out. split; auto.
  apply (@scan_all _ V M (w_tst M) w_ent wso ltac:(lia) (fun l => eq_refl) (wth t) _ _ out E).
  intros i Ei. exact (xinvs_full wso_laws (wb_laws HN) I HE (le_n 1) _ Ei).
Qed.
End WB.
