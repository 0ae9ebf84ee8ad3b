(** Proofs about the printing functions. *)
From Verif Require Import Base ArrLemmas MapSpec SortedList BTreeModel BTreeSpec BTreeLaws BTreeBranch BTreeGhost BTreeInsert BTreeErase BTreeHist BTreeMain
  SLeafModel SLeafProofs SearchModel RankModel ULeafModel ULeafProofs BitmapModel BitmapProofs SlotLemmas FLeafModel FLeafProofs PrintModel PrintSpec.
Open Scope nat_scope.

Lemma at_app d a b : at_depth d (a ++ b) = at_depth d a + at_depth d b.
Proof. unfold at_depth. rewrite filter_app, app_length. reflexivity. Qed.
Lemma ann_app d a b : announced d (a ++ b) = announced d a + announced d b.
Proof. unfold announced. rewrite map_app, list_sum_app. reflexivity. Qed.
Lemma at_cons d x a : at_depth d (x :: a) = (if ldepth x =? d then 1 else 0) + at_depth d a.
Proof. unfold at_depth. cbn [filter]. destruct (ldepth x =? d); reflexivity. Qed.
Lemma at_none d e a : Forall (fun y => e <= ldepth y) a -> d < e -> at_depth d a = 0.
Proof. intros F H. induction F as [|x a Hx _ IH]; [reflexivity|]. rewrite at_cons, IH. destruct (Nat.eqb_spec (ldepth x) d); lia. Qed.

Lemma concat_split {A} (outs : list (list A)) : forall a y b, concat outs = a ++ y :: b ->
  exists o1 a1 b1 o2, outs = o1 ++ (a1 ++ y :: b1) :: o2 /\ a = concat o1 ++ a1.
Proof.
  induction outs as [|o outs IH]; intros a y b E; cbn [concat] in E.
  - destruct a; discriminate.
  - apply app_eq_app in E. destruct E as (l & [(E1 & E2)|(E1 & E2)]).
    + destruct l as [|z l].
      * rewrite app_nil_r in E1. subst o. cbn [app] in E2. destruct (IH [] y b (eq_sym E2)) as (o1 & a1 & b1 & o2 & -> & Ea).
        exists (a :: o1), a1, b1, o2. split; [reflexivity|]. cbn [concat]. rewrite <- app_assoc, <- Ea, app_nil_r. reflexivity.
      * cbn [app] in E2. injection E2 as <- E2. exists [], a, l, outs. subst o. split; reflexivity.
    + destruct (IH l y b E2) as (o1 & a1 & b1 & o2 & -> & Ea). exists (o :: o1), a1, b1, o2. split; [reflexivity|].
      cbn [concat]. rewrite <- app_assoc, <- Ea. exact E1.
Qed.

Lemma F2_length {A B} (R : A -> B -> Prop) a b : Forall2 R a b -> length a = length b.
Proof. induction 1; cbn; congruence. Qed.

Lemma pr_keys_ok : forall xs (a : arr Z) k n, n = length xs -> (forall j x, nth_error xs j = Some x -> aget a (k + j) = Ok x) -> pr_keys a k n = Ok xs.
Proof.
  induction xs as [|x xs IH]; intros a k n -> H; [reflexivity|]. cbn [length pr_keys].
  pose proof (H 0 x eq_refl) as H0. rewrite Nat.add_0_r in H0. rewrite H0. cbn [bind].
  rewrite (IH a (S k) _ eq_refl); [reflexivity|]. intros j y E. replace (S k + j) with (k + S j) by lia. apply H. exact E.
Qed.

Section PrintProofs.
Variables (L V : Type) (N M minL minB : nat) (O : leafops L V).
Variable lrep : L -> list (Z * V) -> Prop.
Variable pl : L -> res (list (bool * option Z)).
(** A leaf shows the keys that its scan reports. *)
Hypothesis PL : forall l es, lrep l es -> exists ss o, pl l = Ok ss /\ lo_scan O l = Ok o /\ shown ss = map fst o.
Notation gt := (gt V).
Notation wf := (wf N M minL minB).
Notation inv := (inv N lrep).
Variable h : heap L.

Definition kf (i : nat) : list Z :=
  match hl h i with Some l => match lo_scan O l with Ok o => map fst o | _ => [] end | None => [] end.

Definition node_ok (r d : nat) (g : gt) (out : list line) : Prop :=
  exists x rest, out = x :: rest /\ ldepth x = d /\ lnode x = gid g /\ Forall (fun y => S d <= ldepth y) rest /\
    Forall (true_line h (d + r)) out /\
    (forall a y b, rest = a ++ y :: b -> below_parent h (x :: a) y) /\
    (forall e, at_depth (S e) rest = announced e out) /\
    leaf_nodes out = lids [g] /\ branch_nodes out = bids [g] /\ shown_keys out = flat_map kf (lids [g]).

Definition pn (r d i : nat) : res (list line) :=
  match r with 0 => pr_leaf pl h d i | S _ => pr_branch pl r h (d + r) d i end.

Lemma parent_prefix p a y : below_parent h a y -> below_parent h (p ++ a) y.
Proof.
  intros (a0 & d & i & ks & c & b & -> & H). exists (p ++ a0), d, i, ks, c, b. rewrite <- app_assoc. split; [reflexivity|exact H].
Qed.

Lemma kids_ok r d : forall (cs : list gt) (a : arr nat) k,
  (forall c, In c cs -> exists o, pn r (S d) (gid c) = Ok o /\ node_ok r (S d) c o) ->
  (forall j c, nth_error (map (@gid V) cs) j = Some c -> aget a (k + j) = Ok c) ->
  exists outs, pr_kids (pn r (S d)) a k (length cs) = Ok (concat outs) /\ Forall2 (node_ok r (S d)) cs outs.
Proof.
  induction cs as [|c cs IH]; intros a k HC HA.
  - exists []. split; [reflexivity|constructor].
  - cbn [length pr_kids]. pose proof (HA 0 (gid c) eq_refl) as H0. rewrite Nat.add_0_r in H0. rewrite H0. cbn [bind].
    destruct (HC c (or_introl eq_refl)) as (o & E & NO). rewrite E. cbn [bind].
    destruct (IH a (S k)) as (outs & E2 & F2).
    { intros c' I. apply HC. right. exact I. }
    { intros j c' Ej. replace (S k + j) with (k + S j) by lia. apply HA. exact Ej. }
    rewrite E2. cbn [bind]. exists (o :: outs). split; [reflexivity|constructor; assumption].
Qed.

Lemma forest_sums r d cs outs : Forall2 (node_ok r d) cs outs ->
  Forall (fun y => d <= ldepth y) (concat outs) /\ Forall (true_line h (d + r)) (concat outs) /\
  (forall e, at_depth (S e) (concat outs) = (if d =? S e then length outs else 0) + announced e (concat outs)) /\
  at_depth d (concat outs) = length outs /\
  leaf_nodes (concat outs) = lids cs /\ branch_nodes (concat outs) = bids cs /\ shown_keys (concat outs) = flat_map kf (lids cs).
Proof.
  induction 1 as [|c o cs outs (x & rest & E & A1 & A2 & A3 & A4 & A5 & A6 & A7 & A8 & A9) F (I1 & I2 & I3 & I4 & I5 & I6 & I7)].
  - cbn. splits; try constructor; try reflexivity. intros e. destruct (d =? S e); reflexivity.
  - cbn [concat length]. change (c :: cs) with ([c] ++ cs). rewrite lids_app, bids_app, flat_map_app.
    unfold leaf_nodes, branch_nodes, shown_keys in *. rewrite !flat_map_app. rewrite A7, A8, A9, I5, I6, I7.
    splits; try reflexivity.
    + apply Forall_app. split; [|exact I1]. rewrite E. constructor; [lia|]. eapply Forall_impl; [|exact A3]. cbn. lia.
    + apply Forall_app. split; assumption.
    + intros e. rewrite at_app, ann_app, I3, <- A6, E, at_cons, A1. destruct (Nat.eqb_spec d (S e)); lia.
    + rewrite at_app, I4, E, at_cons, A1, Nat.eqb_refl, (at_none A3) by lia. lia.
Qed.

Lemma branch_ok r d i b ks (cs : list gt) outs : hb h i = Some b -> brep N b ks (map (@gid V) cs) ->
  length cs = S (length ks) -> Forall2 (node_ok r (S d)) cs outs ->
  node_ok (S r) d (GB i ks cs) (LBranch d i ks :: concat outs).
Proof.
  intros Hb HR HL F. destruct (forest_sums F) as (S1 & S2 & S3 & S4 & S5 & S6 & S7).
  exists (LBranch d i ks), (concat outs). cbn [ldepth lnode gid]. rewrite lids_GB, bids_GB.
  assert (LO : length outs = length cs) by (symmetry; eapply F2_length; exact F).
  splits; try reflexivity.
  - exact S1.
  - constructor.
    + cbn. split; [lia|]. exists b. destruct HR as (E1 & _ & _ & PK & _). splits; [exact Hb|symmetry; exact E1|]. intros j k. now apply pre_get_nth.
    + replace (d + S r) with (S d + r) by lia. exact S2.
  - intros a y b' E. destruct (concat_split E) as (o1 & a1 & b1 & o2 & -> & ->).
    apply Forall2_app_inv_r in F. destruct F as (c1 & c2 & F1 & F2 & ->). inversion F2 as [|c o c2' o2' HN F2' E1 E2]; subst.
    destruct HN as (x & rest & E3 & B1 & B2 & _ & _ & B5 & _).
    destruct a1 as [|x1 a1].
    + cbn [app] in E3. injection E3 as -> <-. rewrite app_nil_r.
      destruct (forest_sums F1) as (T1 & _ & _ & T4 & _).
      exists [], d, i, ks, (concat o1), b. splits; try reflexivity; try assumption.
      rewrite T4, B2. eapply brep_kid; [exact HR|]. rewrite nth_error_map.
      rewrite <- (F2_length F1). rewrite nth_error_app2 by lia. rewrite Nat.sub_diag. reflexivity.
    + cbn [app] in E3. injection E3 as -> <-. rewrite app_comm_cons. apply parent_prefix. eapply B5. reflexivity.
  - intros e. rewrite S3. unfold announced at 2. cbn [map list_sum fold_right]. fold (announced e (concat outs)).
    change (fold_right Init.Nat.add 0) with list_sum. fold (announced e (concat outs)).
    rewrite LO, HL. cbn [Nat.eqb]. destruct (d =? e); reflexivity.
  - exact S5.
  - unfold branch_nodes in *. cbn [flat_map app]. rewrite S6. reflexivity.
  - exact S7.
Qed.

Lemma node_print r : forall d m lo hi (g : gt) A B, wf m r lo hi g -> inv h A [g] B ->
  exists o, pn r d (gid g) = Ok o /\ node_ok r d g o.
Proof.
  induction r as [|r IH]; intros d m lo hi g A B W I.
  - destruct (wf0_leaf W) as (j & es & -> & _ & _ & _). destruct (inv_GL I) as (l & El & Hl & _).
    destruct (PL Hl) as (ss & o & P1 & P2 & P3). cbn [pn gid]. unfold pr_leaf, getl. rewrite El. cbn [of_opt bind]. rewrite P1. cbn [bind].
    eexists. split; [reflexivity|]. exists (LLeaf d j ss), []. cbn [ldepth lnode gid]. splits; try reflexivity; try constructor.
    + cbn. split; [lia|]. exists l. exact El.
    + constructor.
    + intros a y b E. destruct a; discriminate.
    + cbn. unfold kf. rewrite El, P2, P3. rewrite app_nil_r. reflexivity.
  - destruct (wfS_branch W) as (j & ks & cs & -> & _ & KK). cbn [gid].
    apply inv_GB in I. destruct I as (I & _ & _ & b & Eb & Rb). cbn [fst snd] in *.
    pose proof (kids_length KK) as Lc.
    destruct (@kids_ok r d cs (bc b) 0) as (outs & E & F).
    { intros c Ic. apply in_split in Ic. destruct Ic as (CA & CB & Ecs). 
      destruct (@kids_mono _ _ _ _ _ _ KK c) as (x & y & _ & Wc); [rewrite Ecs; apply in_or_app; simpl; auto|].
      rewrite Ecs in I. apply (inv_sub (gs := [c])) in I. eapply IH; eauto. }
    { intros k c Ek. eapply brep_kid; eauto. }
    pose proof Rb as (Eb1 & _ & _ & PK & _).
    exists (LBranch d j ks :: concat outs). split.
    + cbn [pn pr_branch]. unfold getb. rewrite Eb. cbn [of_opt bind]. rewrite (@pr_keys_ok ks); [|exact Eb1|intros k x Ek; eapply pre_get_nth; eauto]. cbn [bind].
      rewrite Eb1, <- Lc.
      assert (EK : forall n k, pr_kids (fun c => if S d <? d + S r then pr_branch pl r h (d + S r) (S d) c else pr_leaf pl h (S d) c) (bc b) k n =
        pr_kids (pn r (S d)) (bc b) k n).
      { induction n as [|n IHn]; intros k; [reflexivity|]. cbn [pr_kids]. destruct (aget (bc b) k) as [c| |]; cbn [bind]; try reflexivity. rewrite IHn.
        destruct r as [|r']; cbn [pn].
        - destruct (Nat.ltb_spec (S d) (d + 1)); [lia|]. reflexivity.
        - destruct (Nat.ltb_spec (S d) (d + S (S r'))); [|lia]. replace (S d + S r') with (d + S (S r')) by lia. reflexivity. }
      rewrite EK, E. reflexivity.
    + eapply branch_ok; eauto.
Qed.

Lemma chain_keys : forall fuel ls p o, Forall (lok lrep h) ls -> seg h p (map fst ls) None ->
  scan_chain O fuel h (hd_error (map fst ls)) = Ok o -> map fst o = flat_map kf (map fst ls).
Proof.
  induction fuel as [|f IH]; intros [|[i es] ls] p o F S E; cbn [map hd_error scan_chain fst] in E; try discriminate;
    try (injection E as <-; reflexivity).
  inversion F as [|? ? (l & El & Hl) F']; subst. cbn [fst] in El. cbn [map seg fst] in S. destruct S as (_ & S2 & S3).
  unfold getl in E. rewrite El in E. cbn [of_opt bind] in E.
  destruct (PL Hl) as (ss & o1 & _ & P2 & _). rewrite P2 in E. cbn [bind] in E.
  rewrite S2 in E. replace (hbd (map fst ls) None) with (hd_error (map fst ls)) in E by (destruct ls; reflexivity).
  destruct (scan_chain O f h (hd_error (map fst ls))) as [r| |] eqn:E2; cbn [bind] in E; try discriminate.
  injection E as <-. rewrite map_app. rewrite (IH ls _ r F' S3 E2). cbn [map flat_map fst]. unfold kf at 2. rewrite El, P2. reflexivity.
Qed.

Lemma list_print : forall fuel ls p, Forall (lok lrep h) ls -> seg h p (map fst ls) None -> length ls <= fuel ->
  exists out, pr_list pl fuel h (hd_error (map fst ls)) = Ok out /\ Forall (fun x => ldepth x = 0) out /\
    leaf_nodes out = map fst ls /\ branch_nodes out = [] /\ shown_keys out = flat_map kf (map fst ls).
Proof.
  induction fuel as [|f IH]; intros [|[i es] ls] p F S HL; cbn [length] in HL; try lia;
    try (exists []; splits; try reflexivity; constructor).
  inversion F as [|? ? (l & El & Hl) F']; subst. cbn [fst] in El. cbn [map seg fst] in S. destruct S as (_ & S2 & S3).
  cbn [map hd_error pr_list fst]. unfold pr_leaf, getl. rewrite El. cbn [of_opt bind].
  destruct (PL Hl) as (ss & o1 & P1 & P2 & P3). rewrite P1. cbn [bind].
  rewrite S2. replace (hbd (map fst ls) None) with (hd_error (map fst ls)) by (destruct ls; reflexivity).
  destruct (IH ls _ F' S3 ltac:(lia)) as (out & E & A1 & A2 & A3 & A4). rewrite E. cbn [bind app].
  eexists. split; [reflexivity|]. unfold leaf_nodes, branch_nodes, shown_keys in *. cbn [flat_map app ldepth]. rewrite A2, A3, A4.
  splits; try reflexivity; [constructor; [reflexivity|exact A1]|]. f_equal. unfold kf. rewrite El, P2. exact P3.
Qed.
End PrintProofs.

Section Top.
Variables (L V : Type) (N M minL minB : nat) (O : leafops L V).
Variable lrep : L -> list (Z * V) -> Prop.
Variable pl : L -> res (list (bool * option Z)).
Hypothesis PL : forall l es, lrep l es -> exists ss o, pl l = Ok ss /\ lo_scan O l = Ok o /\ shown ss = map fst o.
Variable kok : Z -> Prop.
Hypothesis LL : leaf_laws O M minL kok lrep.
Hypothesis HN : 2 <= N.
Hypothesis HB : minB <= (N + 1) / 2 - 1.

Lemma tree_print t es : tinv N M lrep minL minB t es ->
  exists out o, t_print pl t = Ok out /\ drawing (th t) (tdepth t) (troot t) out /\ t_scan O t = Ok o /\ shown_keys out = map fst o /\
    exists f lines, leftmost (th t) (tdepth t) (troot t) = Ok f /\ pr_list pl (S (hfresh (th t))) (th t) (Some f) = Ok lines /\
      Forall (fun x => ldepth x = 0) lines /\ leaf_nodes lines = leaf_nodes out /\ branch_nodes lines = [] /\ shown_keys lines = map fst o.
Proof.
  intros T. pose proof (@t_scan_perm _ _ N M O lrep minL minB kok LL) as SP.
  destruct (SP HN HB t es T) as (o & Eo & _).
  destruct T as (g & E & W & I & _).
  destruct (@node_print L V N M minL minB O lrep pl PL (th t) (tdepth t) 0 _ _ _ g _ _ W I) as (out & P & x & rest & E1 & A1 & A2 & A3 & A4 & A5 & A6 & A7 & A8 & A9).
  exists out, o. rewrite E in P.
  pose proof (inv_seg I) as HS. cbn [app] in HS. rewrite app_nil_r in HS.
  destruct (leftmost_ok W I) as (i & e0 & LB & El & EL). rewrite E in El.
  assert (HD : Some i = hd_error (map fst (lvs [g]))) by (rewrite EL; reflexivity).
  assert (KO : map fst o = flat_map (kf O (th t)) (lids [g])).
  { unfold t_scan in Eo. rewrite El in Eo. cbn [bind] in Eo. rewrite HD in Eo.
    eapply chain_keys; [exact PL|exact (inv_l I)|exact HS|exact Eo]. }
  assert (LE : length (lvs [g]) <= S (hfresh (th t))).
  { pose proof (inv_nd I) as ND. pose proof (inv_lt I) as LT. cbn [app] in ND, LT. rewrite app_nil_r in ND, LT.
    assert (length (lids [g]) <= length (seq 0 (hfresh (th t)))) as H.
    { apply NoDup_incl_length; [exact ND|]. intros j J. apply in_seq. specialize (LT j J). lia. }
    rewrite seq_length in H. unfold lids in H. rewrite map_length in H. lia. }
  splits.
  - unfold t_print. unfold pn in P. destruct (tdepth t); exact P.
  - constructor.
    + exists x, rest. splits; [exact E1|exact A1|congruence].
    + exact A4.
    + intros a y b Ea NE. destruct a as [|x0 a]; [contradiction|]. rewrite E1 in Ea. injection Ea as <- Ea. eapply A5. exact Ea.
    + intros d. rewrite <- A6, E1, at_cons, A1. reflexivity.
    + rewrite A7, A8. pose proof (inv_nd I) as ND. cbn [app] in ND. rewrite app_nil_r in ND. split; [exact ND|exact (inv_ndb I)].
  - exact Eo.
  - congruence.
  - destruct (@list_print L V O lrep pl PL (th t) (S (hfresh (th t))) (lvs [g]) None (inv_l I) HS LE) as (lines & P1 & P2 & P3 & P4 & P5).
    exists i, lines. splits; try assumption.
    + rewrite HD. exact P1.
    + rewrite A7. exact P3.
    + rewrite P5. symmetry. exact KO.
Qed.
End Top.

(** ** The leaves *)
Lemma sl_keys_scan V (l : sleaf V) : forall n i o, sl_scan_from n i l = Ok o -> pr_keys (sk l) i n = Ok (map fst o).
Proof.
  induction n as [|n IH]; intros i o E; cbn [sl_scan_from pr_keys] in *; [injection E as <-; reflexivity|].
  destruct (aget (sk l) i) as [k| |]; cbn [bind] in *; try discriminate.
  destruct (aget (sv l) i) as [v| |]; cbn [bind] in *; try discriminate.
  destruct (sl_scan_from n (S i) l) as [r| |] eqn:Er; cbn [bind] in *; try discriminate. injection E as <-.
  rewrite (IH _ _ Er). reflexivity.
Qed.
Lemma shown_used ks : shown (map (fun k => (true, Some k)) ks) = ks.
Proof. unfold shown. induction ks as [|k ks IH]; cbn; [reflexivity|]. rewrite IH. reflexivity. Qed.
Lemma sl_print_ok V (l : sleaf V) o : sl_scan l = Ok o -> exists ss, sl_print l = Ok ss /\ shown ss = map fst o.
Proof.
  intros E. unfold sl_print. rewrite (sl_keys_scan E). cbn [bind]. eexists. split; [reflexivity|]. apply shown_used.
Qed.

Lemma fl_slots_ok V fp M (l : fleaf V) sl : fa_rep fp M l sl -> forall n i, i + n = M ->
  exists ss, fl_slots M l i n = Ok ss /\ shown ss = map fst (somes (skipn i sl)).
Proof.
  intros (LS & BO & _ & LK & _ & HC). induction n as [|n IH]; intros i E; cbn [fl_slots].
  - exists []. split; [reflexivity|]. rewrite skipn_all2 by lia. reflexivity.
  - rewrite (bm_test_ok BO) by lia. cbn [bind].
    destruct (nth_error (fk l) i) as [s|] eqn:Es; [|apply nth_error_None in Es; lia]. cbn [of_opt bind].
    destruct (IH (S i) ltac:(lia)) as (ss & E2 & E3). rewrite E2. cbn [bind]. eexists. split; [reflexivity|].
    destruct (nth_error sl i) as [o|] eqn:Eo; [|apply nth_error_None in Eo; lia].
    specialize (HC i o Eo). destruct (nth_error_split _ _ Eo) as (s1 & s2 & Esl & Ei).
    assert (K1 : skipn i sl = o :: s2) by (rewrite Esl, <- Ei, skipn_app, skipn_all, Nat.sub_diag; reflexivity).
    assert (K2 : skipn (S i) sl = s2).
    { rewrite Esl, <- Ei. rewrite skipn_app, skipn_all2 by lia. replace (S (length s1) - length s1) with 1 by lia. reflexivity. }
    rewrite K1. rewrite K2 in E3. destruct o as [[k v]|]; cbn [cell] in HC.
    + destruct HC as (B & K & _). rewrite B. unfold aget in K. rewrite Es in K. destruct s as [k'|]; [|discriminate]. injection K as ->.
      unfold shown in *. cbn. rewrite E3. reflexivity.
    + rewrite HC. exact E3.
Qed.

(** ** The classes *)
Lemma sl_PL V M (HM : 2 <= M) (O : leafops (sleaf V) V) : (forall l, lo_scan O l = sl_scan l) ->
  forall l es, sl_rep M l es -> exists ss o, sl_print l = Ok ss /\ lo_scan O l = Ok o /\ shown ss = map fst o.
Proof.
  intros HO l es H. pose proof (sl_scan_ok HM H) as E. destruct (sl_print_ok E) as (ss & E1 & E2). exists ss, es.
  rewrite HO. split; [exact E1|]. split; [exact E|exact E2].
Qed.
Lemma ul_PL V t M : 2 <= M -> (1 <= kt_bits t <= 64)%Z ->
  forall l es, ul_rep t M l es -> exists ss o, sl_print l = Ok ss /\ lo_scan (un_ops V t M) l = Ok o /\ shown ss = map fst o.
Proof.
  intros HM Ht l es H. destruct (law_scan (ul_laws V HM Ht) H) as (o & E & _). destruct (sl_print_ok E) as (ss & E1 & E2). exists ss, o.
  split; [exact E1|]. split; [exact E|exact E2].
Qed.
Lemma fl_PL V t fp junk M : forall l es, fl_repz t fp M l es ->
  exists ss o, fl_print M l = Ok ss /\ lo_scan (fp_ops V t fp junk M) l = Ok o /\ shown ss = map fst o.
Proof.
  intros l es [(_ & _ & sl & _ & HR) _]. destruct (@fl_slots_ok V fp M l sl HR M 0 eq_refl) as (ss & E1 & E2).
  exists ss, (somes sl). split; [exact E1|]. split; [exact (fl_scan_ok HR)|exact E2].
Qed.

Definition printed {L V} (O : leafops L V) (pl : L -> res (list (bool * option Z))) (t : tree L) (o : list (Z * V)) : Prop :=
  exists out f ls, t_print pl t = Ok out /\ drawing (th t) (tdepth t) (troot t) out /\ t_scan O t = Ok o /\ shown_keys out = map fst o /\
    leftmost (th t) (tdepth t) (troot t) = Ok f /\ pr_list pl (S (hfresh (th t))) (th t) (Some f) = Ok ls /\
    Forall (fun x => ldepth x = 0) ls /\ leaf_nodes ls = leaf_nodes out /\ branch_nodes ls = [] /\ shown_keys ls = map fst o.

Section Runs.
Variables (L V : Type) (N M : nat) (O : leafops L V).
Variable lrep : L -> list (Z * V) -> Prop.
Variable pl : L -> res (list (bool * option Z)).
Hypothesis PL : forall l es, lrep l es -> exists ss o, pl l = Ok ss /\ lo_scan O l = Ok o /\ shown ss = map fst o.
Hypothesis HM : 2 <= M.

Lemma io_print kok (LL : leaf_laws O M (M / 2) kok lrep) (HN : 2 <= N) os : Forall (ins_ok kok) os ->
  exists t o, t_run N M O (t_new O) (map bop_of os) = Ok t /\ printed O pl t o /\ enumerates (m_run os) o.
Proof.
  intros F. destruct (io_hist LL HN F) as (t & es & E & I & _).
  destruct (io_scan_enum LL HN F) as (t' & o' & E' & S' & EN & _).
  destruct (tree_print PL LL HN (le_n _) I) as (out & o & A1 & A2 & A3 & A4 & f & ls & A5 & A6 & A7 & A8 & A9 & A10).
  exists t, o. split; [exact E|]. assert (t = t') as -> by (rewrite E in E'; injection E' as ->; reflexivity).
  assert (o = o') as -> by (rewrite A3 in S'; injection S' as ->; reflexivity).
  split; [|exact EN]. exists out, f, ls. splits; assumption.
Qed.

Lemma all_print lhint (LL : leaf_laws O M (M / 2) (fun _ => True) lrep) (SL : scan_laws O lrep) (EL : erase_laws O M lrep lhint) (HN : 6 <= N) (HE : Nat.even N = true) os :
  hist_ok m_empty os ->
  exists t o, t_run N M O (t_new O) (map bop_of os) = Ok t /\ printed O pl t o /\ lists (m_run os) o.
Proof.
  intros F. destruct (all_hist LL EL HM HN HE F) as (t & es & E & I & _).
  destruct (all_scan LL SL EL HM HN HE F) as (t' & o' & E' & S' & EN).
  destruct (even_half HE) as [H1 H2]. assert (K1 : 2 <= N) by lia. assert (K2 : N / 2 - 1 <= (N + 1) / 2 - 1) by lia.
  destruct (tree_print PL LL K1 K2 I) as (out & o & A1 & A2 & A3 & A4 & f & ls & A5 & A6 & A7 & A8 & A9 & A10).
  exists t, o. split; [exact E|]. assert (t = t') as -> by (rewrite E in E'; injection E' as ->; reflexivity).
  assert (o = o') as -> by (rewrite A3 in S'; injection S' as ->; reflexivity).
  split; [|exact EN]. exists out, f, ls. splits; assumption.
Qed.
End Runs.
