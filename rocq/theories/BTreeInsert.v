(** Descent, lookup, scans and insertion of [BTreeModel] on heaps holding a well-formed tree. *)
From Verif Require Import Base ArrLemmas MapSpec SortedList BTreeModel BTreeLaws BTreeBranch BTreeGhost BTreeSpec.
Open Scope nat_scope.

Section Insert.
Variables (L V : Type) (N M : nat) (O : leafops L V).
Variable lrep : L -> list (Z * V) -> Prop.
Variables minL minB : nat.
Variable kok : Z -> Prop.
Hypothesis LL : leaf_laws O M minL kok lrep.
Hypothesis HN : 2 <= N.
Hypothesis HB : minB <= (N + 1) / 2 - 1.
Notation hp := (heap L).
Notation gt := (gt V).
Notation wf := (wf N M minL minB).
Notation inv := (inv N lrep).
Notation upd_ok := (upd_ok N lrep).

(** Where a key is routed in a branch node. *)
Lemma route (R : option Z -> option Z -> gt -> Prop) lo ks cs hi k :
  kids R lo ks cs hi -> inb lo hi k ->
  exists a b CA c CB, ks = a ++ b /\ cs = CA ++ c :: CB /\ length CA = length a /\ length CB = length b /\
    ale k a /\ agt k b /\ kl R lo a CA /\ R (lb lo a) (hbd b hi) c /\ bl (lb lo a) (hbd b hi) /\ kr R b CB hi /\
    inb (lb lo a) (hbd b hi) k.
Proof.
  clear LL kok HN HB. intros H Hk. pose proof (kids_length H) as HL. destruct (kids_sorted H) as [HS _].
  destruct (split_le k HS) as (a & b & E & Ha & Hb). subst ks. rewrite app_length in HL.
  destruct (@split_at _ cs (length a)) as (CA & q & E & L1); [lia|]. subst cs. rewrite app_length in HL.
  destruct q as [|c CB]; [simpl in HL; lia|]. cbn [length] in HL.
  pose proof (@kids_ctx _ R a CA b CB lo hi [] [c] L1 ltac:(lia)) as E. simpl in E. rewrite E in H. clear E.
  destruct H as (H1 & [H2 H2'] & H3).
  exists a, b, CA, c, CB. splits; auto; try lia. now apply inb_ctx.
Qed.

Lemma bpos_ok b a bb cs k : brep N b (a ++ bb) cs -> ssorted (a ++ bb) -> ale k a -> agt k bb ->
  lo_bpos O (bk b) (bn b) k = Ok (length a).
Proof.
  intros (Hn & _ & _ & [R HK] & _) HS Ha Hb. rewrite HK, Hn. now apply (law_bpos LL).
Qed.

Lemma kid_at b ks (CA : list gt) c CB i : brep N b ks (map (@gid V) (CA ++ c :: CB)) -> i = length CA ->
  aget (bc b) i = Ok (gid c).
Proof.
  intros H ->. eapply brep_kid; [exact H|]. rewrite map_app. simpl. apply nth_error_mid. now rewrite map_length.
Qed.

Lemma lvs_cons_cut (CA : list gt) c CB : lvs (CA ++ c :: CB) = lvs CA ++ lvs [c] ++ lvs CB.
Proof. rewrite <- lvs_app, <- lvs_app. reflexivity. Qed.

(** findLeafNode reaches the leaf responsible for the key. *)
Lemma find_leaf_ok d : forall m h A g B lo hi k, wf m d lo hi g -> inv h A [g] B -> inb lo hi k ->
  exists LA i es LB, find_leaf O h d (gid g) k = Ok i /\ lvs [g] = LA ++ (i, es) :: LB /\
    alt k (keys (flat_map snd LA)) /\ agt k (keys (flat_map snd LB)).
Proof.
  induction d as [|d IH]; intros m h A [i es|i ks cs] B lo hi k HW HI Hk; cbn [BTreeGhost.wf] in HW; try tauto.
  - exists [], i, es, []. cbn [find_leaf gid]. splits; auto; constructor.
  - destruct HW as [HC HK]. apply inv_GB in HI as (HI & _ & _ & (b & Eb & Hb)). cbn [fst snd] in *.
    destruct (route HK Hk) as (a & bb & CA & c & CB & -> & -> & LA & LB & Ha & Hbb & KL & Rc & Bc & KR & Hkc).
    destruct (kids_sorted HK) as [HS _].
    change (CA ++ c :: CB) with (CA ++ [c] ++ CB) in HI.
    apply inv_sub in HI.
    destruct (IH _ _ _ _ _ _ _ _ Rc HI Hkc) as (lA & j & es & lB & E & EL & H1 & H2).
    exists (lvs CA ++ lA), j, es, (lB ++ lvs CB). cbn [find_leaf gid]. unfold getb. rewrite Eb. cbn [of_opt bind].
    rewrite (bpos_ok Hb HS Ha Hbb). cbn [bind]. rewrite (kid_at Hb) by auto. cbn [bind].
    destruct (ctx_ents (wf_okc (m := mn minL minB d) (d := d)) KL KR Hkc) as [HA HBB]. unfold ents in HA, HBB.
    splits; auto.
    + rewrite lvs_GB, lvs_cons_cut, EL. rewrite <- !app_assoc. reflexivity.
    + rewrite flat_map_app, keys_app. apply Forall_app. auto.
    + rewrite flat_map_app, keys_app. apply Forall_app. auto.
Qed.

Lemma leaf_of h A gs B i es : inv h A gs B -> In (i, es) (lvs gs) -> exists l, hl h i = Some l /\ lrep l es.
Proof. intros I H. pose proof (inv_l I) as F. rewrite Forall_forall in F. apply (F _ H). Qed.

Lemma ents_sorted m d lo hi (g : gt) : wf m d lo hi g -> sorted (ents [g]).
Proof. intros H. now apply wf_okc in H. Qed.

Lemma lookup_ok h d g m k r : wf m d None None g -> inv h [] [g] [] -> r = gid g ->
  t_lookup O (Tree h r d) k = Ok (get k (ents [g])).
Proof.
  intros HW HI ->. unfold t_lookup. cbn [th troot tdepth].
  destruct (@find_leaf_ok d m h [] g [] None None k HW HI) as (LA & i & es & LB & E & EL & H1 & H2); [split; exact I|].
  rewrite E. cbn [bind].
  destruct (@leaf_of h [] [g] [] i es HI) as (l & El & Hl). { rewrite EL. apply in_or_app; simpl; auto. }
  unfold getl. rewrite El. cbn [of_opt bind]. rewrite (law_lookup LL k Hl).
  f_equal. unfold ents. rewrite EL, flat_map_app. cbn [flat_map].
  rewrite get_app_lt by assumption. now rewrite get_app_gt.
Qed.

(** ** Scans *)
Lemma leftmost_ok d : forall m h A g B lo hi, wf m d lo hi g -> inv h A [g] B ->
  exists i es LB, leftmost h d (gid g) = Ok i /\ lvs [g] = (i, es) :: LB.
Proof.
  induction d as [|d IH]; intros m h A [i es|i ks cs] B lo hi HW HI; cbn [BTreeGhost.wf] in HW; try tauto.
  - exists i, es, []. split; reflexivity.
  - destruct HW as [HC HK]. apply inv_GB in HI as (HI & _ & _ & (b & Eb & Hb)). cbn [fst snd] in *.
    destruct cs as [|c cs]; [apply kids_length in HK; discriminate|].
    assert (Rc : exists hi', wf (mn minL minB d) d lo hi' c).
    { destruct ks; cbn [kids] in HK; [destruct cs|]; try tauto.
      - exists hi; tauto.
      - exists (Some z); tauto. }
    destruct Rc as [hi' Rc].
    apply (@inv_sub _ _ _ _ h A [] [c] cs B) in HI.
    destruct (IH _ _ _ _ _ _ _ Rc HI) as (j & es & LB & E & EL).
    exists j, es, (LB ++ lvs cs). cbn [leftmost gid]. unfold getb. rewrite Eb. cbn [of_opt bind].
    rewrite (@kid_at b ks [] c cs 0 Hb eq_refl). cbn [bind]. split; auto.
    rewrite lvs_GB. change (c :: cs) with ([c] ++ cs). rewrite lvs_app, EL. reflexivity.
Qed.

Lemma scan_chain_ok h : forall ls p fuel, Forall (lok lrep h) ls -> seg h p (map fst ls) None -> length ls <= fuel ->
  exists outs, scan_chain O fuel h (hbd (map fst ls) None) = Ok (concat outs) /\ Forall2 (@Permutation _) outs (map snd ls).
Proof.
  induction ls as [|[i es] ls IH]; intros p fuel F HS Hf.
  - exists []. destruct fuel; split; constructor.
  - destruct fuel as [|fuel]; [simpl in Hf; lia|]. inversion F as [|? ? Hi F']; subst.
    cbn [map seg fst] in HS. destruct HS as (_ & Hn & HS).
    destruct (IH (Some i) fuel F' HS) as (outs & E & P); [simpl in Hf; lia|].
    destruct Hi as (l & El & Hl). cbn [fst snd] in *.
    destruct (law_scan LL Hl) as (o1 & E1 & P1).
    exists (o1 :: outs). cbn [map hbd hd fst scan_chain]. unfold getl. rewrite El. cbn [of_opt bind].
    rewrite E1. cbn [bind]. rewrite Hn, E. cbn [bind concat snd]. split; auto.
Qed.

Lemma perm_concat {T} (a b : list (list T)) : Forall2 (@Permutation _) a b -> Permutation (concat a) (concat b).
Proof. induction 1; cbn [concat]; [constructor|now apply Permutation_app]. Qed.

(** Leaf by leaf, a scan reports ascending ranges. *)
Lemma runs_ok h : forall ls outs, Forall (lok lrep h) ls -> sorted (flat_map snd ls) ->
  Forall2 (@Permutation (Z * V)) outs (map snd ls) -> in_runs M (concat outs).
Proof.
  intros ls outs HL HS HP. exists outs. split; auto. revert outs HP.
  induction ls as [|[i es] ls IH]; intros outs HP; inversion HP as [|o ? outs' ? P1 P2]; subst; [split; constructor|].
  inversion HL as [|? ? Hi HL']; subst. cbn [flat_map snd] in *. apply sorted_app in HS as (S1 & S2 & S12).
  destruct (IH HL' S2 _ P2) as [IH1 IH2]. destruct Hi as (l & _ & Hl). cbn [snd] in Hl. split.
  - constructor; auto. rewrite (Permutation_length P1). exact (law_cap LL Hl).
  - constructor; auto. apply Forall_forall. intros s Hs x y Hx Hy.
    apply S12.
    + eapply Permutation_in; [apply Permutation_map, P1|exact Hx].
    + assert (Hc : In y (map fst (concat outs'))).
      { apply in_map_iff in Hy as (q & <- & Hq). apply in_map. apply in_concat. eauto. }
      rewrite flat_map_concat_map. eapply Permutation_in; [apply Permutation_map, perm_concat, P2|exact Hc].
Qed.

Lemma NoDup_bound (ids : list nat) n : NoDup ids -> (forall i, In i ids -> i < n) -> length ids <= n.
Proof.
  intros ND H. rewrite <- (seq_length n 0). apply NoDup_incl_length; auto.
  intros i Hi. apply in_seq. specialize (H i Hi). lia.
Qed.

Lemma chain_fuel h g : inv h [] [g] [] -> length (lvs [g]) <= hfresh h.
Proof.
  intros HI. rewrite <- (map_length fst). fold (lids [g]). apply NoDup_bound.
  - pose proof (inv_nd HI) as ND. simpl in ND. now rewrite app_nil_r in ND.
  - intros i Hi. apply (inv_lt HI). simpl. now rewrite app_nil_r.
Qed.

Lemma scan_ok h d g m r : wf m d None None g -> inv h [] [g] [] -> r = gid g ->
  exists out, t_scan O (Tree h r d) = Ok out /\ Permutation out (ents [g]) /\ in_runs M out.
Proof.
  intros HW HI ->. unfold t_scan. cbn [th troot tdepth].
  destruct (leftmost_ok HW HI) as (i & es & LB & E & EL). rewrite E. cbn [bind].
  pose proof (inv_seg HI) as HS. cbn [app] in HS. rewrite app_nil_r in HS. unfold lids in HS.
  destruct (@scan_chain_ok h (lvs [g]) None (S (hfresh h)) (inv_l HI) HS) as (outs & E2 & P).
  { pose proof (chain_fuel HI). lia. }
  pose proof (runs_ok (inv_l HI) (ents_sorted HW) P) as HR.
  pose proof (perm_concat P) as PC. rewrite <- flat_map_concat_map in PC.
  rewrite EL in E2. cbn [map hbd hd fst] in E2. eauto.
Qed.

(** ** Insertion *)

(** insert_leaf or insert_branch, by depth, as the callers choose. *)
Definition ins_any (h : hp) (d id : nat) (k : Z) (v : V) :=
  match d with 0 => insert_leaf O h id k v | S _ => insert_branch N O h d id k v end.

Lemma inv_GL h A i es B : inv h A [GL i es] B ->
  exists l, hl h i = Some l /\ lrep l es /\ i < hfresh h /\ ~ In i A /\ ~ In i B /\ NoDup (A ++ B).
Proof.
  intros I. destruct (@leaf_of h A [GL i es] B i es I) as (l & El & Hl); [simpl; auto|].
  exists l. pose proof (inv_nd I) as ND. unfold lids, lvs in ND. simpl in ND.
  apply NoDup_remove in ND as [ND1 ND2]. rewrite in_app_iff in ND2.
  splits; auto; try tauto. apply (inv_lt I). rewrite !in_app_iff. simpl. auto.
Qed.

Lemma set_leaf_upd h A i es B l' es' : inv h A [GL i es] B -> lrep l' es' ->
  upd_ok h A [GL i es] B (set_leaf h i l') [GL i es'].
Proof.
  intros I Hl. destruct (inv_GL I) as (l & El & Hle & Hi & HA & HBn & ND).
  pose proof I as [I1 I2 I3 I4 I5 I6 I7 I8]. constructor.
  - constructor; auto.
    + constructor; [|constructor]. exists l'. simpl. now rewrite upd_same'.
    + intros j Hj. destruct (I7 j Hj) as [lj Ej]. exists lj. simpl. rewrite upd_other; auto.
      intros ->. rewrite in_app_iff in Hj. tauto.
    + eapply seg_frame; [|exact I8]. simpl. auto.
  - constructor; simpl; auto. intros j Hj Hn. apply upd_other. intros ->. auto.
  - simpl. auto.
  - simpl. auto.
  - reflexivity.
Qed.

Lemma split_leaf_upd h A i es B l1 l2 e1 e2 : inv h A [GL i es] B -> lrep l1 e1 -> lrep l2 e2 ->
  let s := hfresh h in
  exists h4,
    (do h3 <- (match hnx (set_leaf (snd (new_leaf h l2)) i l1) i with
               | Some n => set_pv_chk (set_nx (set_leaf (snd (new_leaf h l2)) i l1) s (Some n)) n (Some s)
               | None => Ok (set_leaf (snd (new_leaf h l2)) i l1)
               end);
     Ok (set_pv (set_nx h3 i (Some s)) s (Some i))) = Ok h4 /\
    upd_ok h A [GL i es] B h4 [GL i e1; GL s e2].
Proof.
  intros I H1 H2 s. destruct (inv_GL I) as (l & El & Hle & Hi & HA & HBn & ND).
  pose proof I as [I1 I2 I3 I4 I5 I6 I7 I8].
  assert (His : i <> s) by (unfold s; lia).
  assert (HsA : ~ In s A). { intros Hc. specialize (I5 s). rewrite in_app_iff in I5. specialize (I5 (or_introl Hc)). unfold s in I5; lia. }
  assert (HsB : ~ In s B). { intros Hc. specialize (I5 s). rewrite !in_app_iff in I5. specialize (I5 (or_intror (or_intror Hc))). unfold s in I5; lia. }
  unfold lids, lvs in I8. cbn [map flat_map leaves app fst] in I8.
  rewrite seg_app in I8. destruct I8 as [SA SB]. cbn [app seg hbd hd map] in SA, SB. destruct SB as (Epv & Enx & SB).
  assert (NDB : NoDup B) by (apply NoDup_app_inv in ND; tauto).
  assert (E2 : hnx (set_leaf (snd (new_leaf h l2)) i l1) i = hbd B None).
  { simpl. fold s. rewrite upd_other by auto. exact Enx. }
  rewrite E2. clear E2.
  assert (Hfin : forall hB : hp,
     hl hB = upd (upd (hl h) s (Some l2)) i (Some l1) -> hb hB = hb h -> hfresh hB = S s ->
     (forall j, hnx hB j = upd (upd (hnx h) s (hbd B None)) i (Some s) j) ->
     (forall j, j <> s -> hbd B None <> Some j -> hpv hB j = hpv h j) ->
     hpv hB s = Some i -> (forall j, hbd B None = Some j -> hpv hB j = Some s) ->
     upd_ok h A [GL i es] B hB [GL i e1; GL s e2]).
  { intros hB El' Eb' Ef' En' Ep1 Ep2 Ep3. constructor.
    - constructor.
      + unfold lvs. simpl. constructor; [|constructor; [|constructor]].
        * exists l1. rewrite El'. simpl. now rewrite upd_same'.
        * exists l2. rewrite El'. simpl. rewrite upd_other by auto. now rewrite upd_same'.
      + constructor.
      + unfold lids, lvs. simpl. apply NoDup_app_inv in ND as (NA & _ & NAB). apply NoDup_app_mk; auto.
        * constructor; [simpl; intuition congruence|]. constructor; auto.
        * simpl. intros x Hx [<-|[<-|Hx']]; auto. eauto.
      + constructor.
      + unfold lids, lvs. simpl. rewrite Ef'. intros j Hj. apply in_app_or in Hj as [Hj|[<-|[<-|Hj]]]; try (unfold s in *; lia).
        * assert (j < hfresh h) by (apply I5; rewrite in_app_iff; auto). unfold s; lia.
        * assert (j < hfresh h) by (apply I5; rewrite !in_app_iff; auto). unfold s; lia.
      + simpl. tauto.
      + intros j Hj. destruct (I7 j Hj) as [lj Ej]. exists lj. rewrite El'. rewrite in_app_iff in Hj.
        rewrite !upd_other; auto; intros ->; tauto.
      + unfold lids, lvs. cbn [map flat_map leaves app fst]. rewrite seg_app. cbn [seg hbd hd map app].
        assert (HBi : hbd B None <> Some i). { destruct B; simpl; [discriminate|]. intros [= ->]. simpl in HBn; tauto. }
        splits.
        * eapply seg_frame; [|exact SA]. intros j Hj. rewrite En'. rewrite !upd_other by (intros ->; tauto). split; auto.
          apply Ep1; [intros ->; tauto|]. destruct B as [|z B]; simpl; [discriminate|]. intros [= ->].
          apply NoDup_app_inv in ND as (_ & _ & NAB). eapply NAB; [exact Hj|simpl; auto].
        * rewrite Ep1 by auto. exact Epv.
        * rewrite En'. now rewrite upd_same'.
        * exact Ep2.
        * rewrite En'. rewrite upd_other by auto. now rewrite upd_same'.
        * destruct B as [|z B]; [exact Logic.I|]. cbn [seg] in SB |- *. destruct SB as (SB1 & SB2 & SB3).
          inversion NDB; subst. simpl in HsB, HBn. splits.
          -- now apply Ep3.
          -- rewrite En'. rewrite !upd_other by (intros ->; tauto). exact SB2.
          -- eapply seg_frame; [|exact SB3]. intros j Hj. rewrite En'. rewrite !upd_other by (intros ->; tauto). split; auto.
             apply Ep1; [intros ->; tauto|]. simpl. intros [= ->]. tauto.
    - constructor.
      + rewrite Ef'. unfold s. lia.
      + intros j Hj Hn. rewrite El'. simpl in Hn. rewrite !upd_other; auto; intros ->; try tauto; unfold s in Hj; lia.
      + intros j Hj _. now rewrite Eb'.
    - unfold lids, lvs. simpl. intros j [<-|[<-|[]]]; auto.
    - simpl. tauto.
    - reflexivity. }
  destruct B as [|n B].
  - cbn [hbd hd map bind]. eexists. split; [reflexivity|]. apply Hfin; try reflexivity; simpl; fold s.
    + intros j Hj _. rewrite !upd_other; auto.
    + now rewrite upd_same'.
    + discriminate.
  - cbn [hbd hd map]. unfold set_pv_chk, getl. 
    assert (Hn : exists ln, hl (set_nx (set_leaf (snd (new_leaf h l2)) i l1) s (Some n)) n = Some ln).
    { simpl. destruct (I7 n) as [ln En]; [rewrite in_app_iff; simpl; auto|]. exists ln.
      rewrite !upd_other; auto; fold s; intros ->; simpl in *; tauto. }
    destruct Hn as [ln Eln]. rewrite Eln. cbn [of_opt bind]. eexists. split; [reflexivity|].
    simpl in HsB, HBn.
    apply Hfin; try reflexivity; simpl; fold s.
    + intros j. unfold upd. destruct (j =? i); auto. destruct (j =? s); auto.
    + intros j Hj Hz. rewrite !upd_other; auto. intros ->. now apply Hz.
    + now rewrite upd_same'.
    + intros j [= <-]. rewrite upd_other by (intros ->; tauto). now rewrite upd_same'.
Qed.

(** Postcondition of an insertion below the root. *)
Definition ins_post (m d : nat) (lo hi : option Z) (h : hp) A (g : gt) B (k : Z) (v : V)
    (h' : hp) (r : option split) : Prop :=
  exists gs', upd_ok h A [g] B h' gs' /\
    (ents gs' = ins k v (ents [g]) /\ hd_error (lids gs') = hd_error (lids [g])) /\
    match r with
    | None => exists g', gs' = [g'] /\ gid g' = gid g /\ wf m d lo hi g'
    | Some sp => exists g1 g2, gs' = [g1; g2] /\ gid g1 = gid g /\ sleft sp = gid g1 /\ sright sp = gid g2 /\
        wf (mn minL minB d) d lo (Some (skey sp)) g1 /\ wf (mn minL minB d) d (Some (skey sp)) hi g2 /\
        bl lo (Some (skey sp)) /\ bl (Some (skey sp)) hi
    end.

Lemma ents_two i1 e1 i2 e2 : ents [GL i1 e1; GL i2 e2 : gt] = e1 ++ e2.
Proof. unfold ents, lvs. simpl. now rewrite app_nil_r. Qed.

Lemma insert_leaf_ok m h A i es B lo hi k v : kok k -> wf m 0 lo hi (GL i es) -> inb lo hi k -> inv h A [GL i es] B ->
  exists h' r, insert_leaf O h i k v = Ok (h', r) /\ ins_post m 0 lo hi h A (GL i es) B k v h' r.
Proof.
  intros Kk (HS & HF & HC) Hk HI. destruct (inv_GL HI) as (l & El & Hl & _).
  assert (HF' : Forall (inb lo hi) (keys (ins k v es))).
  { rewrite Forall_forall in *. intros x Hx. apply ins_in_keys in Hx as [->|Hx]; auto. }
  unfold insert_leaf, getl. rewrite El. cbn [of_opt bind].
  destruct (law_insert LL v Kk Hl) as [(l' & E & Hl')|(l1 & l2 & sk & e1 & e2 & E & Ei & H1 & H2 & M1 & M2 & NE1 & NE2 & K1 & K2)].
  - rewrite E. cbn [bind]. eexists _, None. split; [reflexivity|].
    exists [GL i (ins k v es)]. split; [now apply set_leaf_upd|]. rewrite !ents_GL. split; auto.
    eexists. splits; [reflexivity|reflexivity|]. cbn [BTreeGhost.wf]. splits; auto.
    + now apply sorted_ins.
    + assert (length es <= length (ins k v es)); [|lia].
      destruct (get k es) as [w|] eqn:G.
      * rewrite length_ins_old by congruence || auto. lia.
      * rewrite length_ins_new by auto. lia.
    + eapply (law_cap LL); eauto.
  - rewrite E. cbn [bind]. unfold new_leaf.
    destruct (split_leaf_upd HI H1 H2) as (h4 & E4 & U). unfold new_leaf in E4. cbn [snd] in E4.
    destruct (match hnx _ i with Some n => _ | None => _ end) as [h3| |]; cbn [bind] in *; try discriminate.
    injection E4 as E4. rewrite E4. eexists _, (Some _). split; [reflexivity|].
    exists [GL i e1; GL (hfresh h) e2]. rewrite ents_two, ents_GL. splits; auto.
    exists (GL i e1), (GL (hfresh h) e2). cbn [skey sleft sright gid mn BTreeGhost.wf].
    pose proof (law_sorted LL H1) as S1. pose proof (law_sorted LL H2) as S2.
    pose proof (law_cap LL H1) as C1. pose proof (law_cap LL H2) as C2.
    rewrite Ei, keys_app, Forall_app in HF'. destruct HF' as [F1 F2].
    rewrite alt_in in K1. rewrite age_in in K2.
    splits; auto.
    + rewrite Forall_forall in *. intros x Hx. split; [apply F1; auto|]. simpl. auto.
    + rewrite Forall_forall in *. intros x Hx. split; [|apply F2; auto]. simpl. auto.
    + destruct e1 as [|[x w] e1]; [congruence|]. inversion F1 as [|? ? [Fx _] ?]; subst.
      specialize (K1 x ltac:(simpl; auto)). destruct lo; simpl in *; auto; lia.
    + destruct e2 as [|[x w] e2]; [congruence|]. inversion F2 as [|? ? [_ Fx] ?]; subst.
      specialize (K2 x ltac:(simpl; auto)). destruct hi; simpl in *; auto; lia.
Qed.

Lemma split_node_upd h A i ks cs B h1 X Y h3 b1 b2 x y :
  inv h A [GB i ks cs] B -> upd_ok h A cs B h1 (X ++ Y) ->
  hl h3 = hl h1 -> hnx h3 = hnx h1 -> hpv h3 = hpv h1 -> hfresh h3 = S (hfresh h1) ->
  hb h3 i = Some b1 -> hb h3 (hfresh h1) = Some b2 ->
  (forall j, j <> i -> j <> hfresh h1 -> hb h3 j = hb h1 j) ->
  brep N b1 x (map (@gid V) X) -> brep N b2 y (map (@gid V) Y) ->
  upd_ok h A [GB i ks cs] B h3 [GB i x X; GB (hfresh h1) y Y].
Proof.
  intros I [J [F1 F2 F3] U1 U2 U3] El En Ep Ef E1 E2 Eo R1 R2. apply inv_GB in I as (I & Hi & Hni & _).
  pose proof J as [J1 J2 J3 J4 J5 J6 J7 J8].
  assert (Hni1 : ~ In i (bids (X ++ Y))).
  { intros Hc. destruct (U2 i Hc); [tauto|lia]. }
  assert (Hns : ~ In (hfresh h1) (bids (X ++ Y))).
  { intros Hc. apply J6 in Hc. lia. }
  assert (EL : lvs [GB i x X; GB (hfresh h1) y Y] = lvs (X ++ Y)).
  { change [GB i x X; GB (hfresh h1) y Y] with ([GB i x X] ++ [GB (hfresh h1) y Y]).
    now rewrite !lvs_app, !lvs_GB. }
  assert (EI : lids [GB i x X; GB (hfresh h1) y Y] = lids (X ++ Y)) by (unfold lids; now rewrite EL).
  assert (EN : nds [GB i x X; GB (hfresh h1) y Y] = (i, (x, map (@gid V) X)) :: nds X ++ (hfresh h1, (y, map (@gid V) Y)) :: nds Y).
  { change [GB i x X; GB (hfresh h1) y Y] with ([GB i x X] ++ [GB (hfresh h1) y Y]).
    now rewrite !nds_app, !nds_GB. }
  assert (EB : bids [GB i x X; GB (hfresh h1) y Y] = i :: bids X ++ hfresh h1 :: bids Y).
  { unfold bids. rewrite EN. simpl. now rewrite map_app. }
  rewrite bids_app in Hni1, Hns, J4, J6. rewrite in_app_iff in Hni1, Hns.
  rewrite nds_app, Forall_app in J2.
  constructor.
  - constructor; rewrite ?EL, ?EI, ?EN, ?EB; auto.
    + eapply lok_frame; [|exact J1]. intros j _. now rewrite El.
    + constructor; [exists b1; auto|]. apply Forall_app. split; [|constructor; [exists b2; auto|]].
      * eapply bok_frame; [|apply J2]. intros j Hj. fold (bids X) in Hj. apply Eo; intros ->; tauto.
      * eapply bok_frame; [|apply J2]. intros j Hj. fold (bids Y) in Hj. apply Eo; intros ->; tauto.
    + apply NoDup_app_inv in J4 as (NX & NY & NXY). constructor.
      * rewrite in_app_iff. simpl. intros [?|[?|?]]; try tauto. lia.
      * apply NoDup_app_mk; auto; [constructor; tauto|]. intros z Hz [<-|Hz']; [tauto|]. eauto.
    + intros j Hj. rewrite Ef. apply J5 in Hj. lia.
    + intros j Hj. rewrite Ef. simpl in Hj. rewrite in_app_iff in Hj. simpl in Hj.
      destruct Hj as [<-|[Hj|[<-|Hj]]]; try lia.
      * assert (j < hfresh h1) by (apply J6; rewrite in_app_iff; auto). lia.
      * assert (j < hfresh h1) by (apply J6; rewrite in_app_iff; auto). lia.
    + intros j Hj. destruct (J7 j Hj) as [l Hl]. exists l. now rewrite El.
    + eapply seg_frame; [|exact J8]. intros j _. now rewrite En, Ep.
  - constructor.
    + lia.
    + intros j Hj. rewrite lids_GB. rewrite El. auto.
    + intros j Hj Hn. rewrite bids_GB in Hn. simpl in Hn. rewrite Eo; [apply F3; tauto|intros ->; tauto|lia].
  - intros j. rewrite EI, lids_GB. auto.
  - intros j. rewrite EB, bids_GB. simpl. rewrite in_app_iff. simpl. rewrite bids_app in U2.
    intros [<-|[Hj|[<-|Hj]]]; auto.
    + destruct (U2 j); auto. rewrite in_app_iff; auto.
    + destruct (U2 j); auto. rewrite in_app_iff; auto.
  - rewrite EI, lids_GB. exact U3.
Qed.

Lemma app_cons_split {T} (a b a' b' : list T) x : a ++ b = a' ++ x :: b' ->
  (exists b1, a' = a ++ b1 /\ b = b1 ++ x :: b') \/ (exists a2, a = a' ++ x :: a2 /\ b' = a2 ++ b).
Proof.
  revert a'; induction a as [|y a IH]; intros a' E.
  - left. exists a'. split; [reflexivity|exact E].
  - destruct a' as [|z a']; simpl in E; injection E as -> E.
    + right. exists a. split; [reflexivity|auto].
    + destruct (IH _ E) as [(b1 & -> & ->)|(a2 & -> & ->)]; [left; exists b1|right; exists a2]; auto.
Qed.

Lemma split_at_app {T} (l p q : list T) n : l = p ++ q -> length p = n -> forall p' q', l = p' ++ q' -> length p' = n -> p' = p /\ q' = q.
Proof.
  intros -> Hp p' q' E Hp'. revert p' n E Hp Hp'. induction p as [|x p IH]; intros [|y p'] n E Hp Hp'; simpl in *; subst; try discriminate; auto.
  injection E as -> E. injection Hp' as Hp'. destruct (IH _ _ E eq_refl Hp') as [-> ->]. auto.
Qed.

Lemma insert_any_ok d : forall m h A g B lo hi k v, kok k -> wf m d lo hi g -> inb lo hi k -> inv h A [g] B ->
  exists h' r, ins_any h d (gid g) k v = Ok (h', r) /\ ins_post m d lo hi h A g B k v h' r.
Proof.
  induction d as [|d IH]; intros m h A [i es|i ks cs] B lo hi k v Kk HW Hk HI; try (cbn [BTreeGhost.wf] in HW; tauto).
  - now apply insert_leaf_ok.
  - cbn [BTreeGhost.wf] in HW. destruct HW as [HC HK]. pose proof HI as HI0.
    apply inv_GB in HI as (HI & Hfi & Hni & (b & Eb & Hb)). cbn [fst snd] in *.
    destruct (route HK Hk) as (a & bb & CA & c & CB & -> & -> & LA & LB & Ha & Hbb & KL & Rc & Bc & KR & Hkc).
    destruct (kids_sorted HK) as [HS HKb].
    change (CA ++ c :: CB) with (CA ++ [c] ++ CB) in HI.
    pose proof (inv_sub HI) as HIc.
    destruct (IH _ _ _ _ _ _ _ k v Kk Rc Hkc HIc) as (h1 & r & E & gs' & U & (EE & EH) & HR).
    pose proof (upd_ctx HI U) as UC.
    destruct (ctx_ents (wf_okc (m := mn minL minB d) (d := d)) KL KR Hkc) as [HA HBB].
    assert (EN : ents (CA ++ gs' ++ CB) = ins k v (ents (CA ++ c :: CB))).
    { change (CA ++ c :: CB) with (CA ++ [c] ++ CB). rewrite !ents_app, EE.
      rewrite ins_app_lt by assumption. now rewrite ins_app_gt. }
    assert (EHN : hd_error (lids (CA ++ gs' ++ CB)) = hd_error (lids (CA ++ c :: CB))).
    { change (CA ++ c :: CB) with (CA ++ [c] ++ CB). rewrite !lids_app. now apply hd_ctx. }
    cbn [ins_any insert_branch gid]. unfold getb at 1. rewrite Eb. cbn [of_opt bind].
    rewrite (bpos_ok Hb HS Ha Hbb). cbn [bind]. rewrite (kid_at Hb) by auto. cbn [bind].
    change (match d with 0 => insert_leaf O h (gid c) k v | S _ => insert_branch N O h d (gid c) k v end)
      with (ins_any h d (gid c) k v).
    rewrite E. cbn [bind].
    assert (Eb1 : hb h1 i = Some b).
    { rewrite (fr_b (uo_fr UC)); auto. }
    destruct r as [sp|].
    + destruct HR as (g1 & g2 & -> & Eg1 & El & Er & W1 & W2 & B1 & B2).
      unfold getb. rewrite Eb1. cbn [of_opt bind].
      assert (Hbn : bn b = length (a ++ bb)) by apply Hb.
      assert (HKN : kids (wf (mn minL minB d) d) lo (a ++ [skey sp] ++ bb) (CA ++ [g1; g2] ++ CB) hi).
      { apply kids_ctx; auto. splits; auto. cbn [kids]. auto. }
      destruct sp as [s sl sr]. cbn [skey sleft sright] in *. subst sl sr.
      rewrite Hbn. destruct (Nat.eqb_spec (length (a ++ bb)) N) as [EQ|NE].
      * (* the branch node is full: split it *)
        destruct (@split_branch_ok L N h1 i b (a ++ bb) (map (@gid V) (CA ++ c :: CB)) s Eb1 Hb EQ) as
          (km & a' & sk & b' & ca & cb & b1 & b2 & Ekm & Eks & Ecs & La' & Lca & R1 & R2 & ES); auto.
        { rewrite map_length, (kids_length HK). lia. }
        rewrite ES. cbn [bind skey sleft sright].
        apply map_eq_app in Ecs as (X0 & Y0 & EXY & <- & <-). rewrite map_length in Lca.
        assert (His : i <> hfresh h1). { pose proof (fr_fresh (uo_fr UC)). lia. }
        assert (Hss : ssorted (a ++ [s] ++ bb)) by (apply (kids_sorted HKN)).
        destruct (app_cons_split Eks) as [(b1' & -> & ->)|(a2 & -> & ->)].
        -- (* key < sk: host is the left node *)
           assert (Hlt : (k < sk)%Z). { rewrite agt_in in Hbb. apply Hbb. apply in_or_app; simpl; auto. }
           destruct (Z.ltb_spec k sk); [|lia].
           (* children *)
           assert (exists CB1, X0 = CA ++ c :: CB1 /\ CB = CB1 ++ Y0) as (CB1 & -> & ->).
           { rewrite app_length in Lca.
             exists (skipn (S (length CA)) X0).
             assert (EX : X0 = (CA ++ [c]) ++ skipn (S (length CA)) X0 /\ CB = skipn (S (length CA)) X0 ++ Y0).
             { rewrite <- (firstn_skipn (S (length CA)) X0), <- app_assoc in EXY.
               replace (CA ++ c :: CB) with ((CA ++ [c]) ++ CB) in EXY by (rewrite <- app_assoc; reflexivity).
               destruct (@split_at_app _ _ (CA ++ [c]) CB (S (length CA)) eq_refl ltac:(rewrite app_length; simpl; lia) _ _ EXY) as [E1 E2].
               - rewrite firstn_length. lia.
               - split; [|auto]. rewrite <- E1. symmetry. apply firstn_skipn. }
             rewrite <- app_assoc in EX. exact EX. }
           assert (HKN' : kids (wf (mn minL minB d) d) lo ((a ++ s :: b1') ++ sk :: b') ((CA ++ g1 :: g2 :: CB1) ++ Y0) hi).
           { clear - HKN. rewrite <- !app_assoc. exact HKN. }
           apply kids_cut in HKN'; [|rewrite !app_length in *; cbn [length] in *; lia]. destruct HKN' as [K1 K2].
           assert (Hs : (s < sk)%Z).
           { clear - Hss. apply ssorted_app in Hss as (_ & Hss & _). cbn [app] in Hss. apply ssorted_cons in Hss as [_ Hss].
             rewrite agt_in in Hss. apply Hss. apply in_or_app; simpl; auto. }
           assert (Em0 : length (a ++ b1') = (N + 1) / 2 - 1).
           { rewrite La'. destruct (Z.gtb_spec s km) as [Hg|Hg]; [|reflexivity]. exfalso.
             rewrite app_assoc in Ekm. rewrite nth_error_app2 in Ekm by lia. rewrite La', Nat.sub_diag in Ekm.
             simpl in Ekm. injection Ekm as ->. lia. }
           assert (Cnt1 : minB <= length (a ++ s :: b1') <= N).
           { rewrite !app_length in *. cbn [length] in *. lia. }
           assert (Cnt2 : minB <= length b' <= N).
           { rewrite !app_length in *. cbn [length] in *. lia. }
           cbn [set_branch hb]. rewrite upd_same. cbn [of_opt bind].
           assert (HSa : ssorted (a ++ b1')) by (rewrite app_assoc in HS; now apply ssorted_app in HS as (? & _)).
           assert (Hb1 : agt k b1') by (unfold agt in *; now apply Forall_app in Hbb as [? _]).
           rewrite (bpos_ok R1 HSa Ha Hb1). cbn [bind].
           assert (LCB1 : length CB1 = length b1').
           { rewrite !app_length in Lca. simpl in Lca. lia. }
           rewrite map_app in R1. cbn [map] in R1.
           destruct (@insert_entry_ok L N (set_branch (set_branch (snd (new_branch N h1)) (hfresh h1) b2) i b1) i b1 a b1'
                       (map (@gid V) CA) (gid c) (map (@gid V) CB1) s (gid g1) (gid g2)) as (b1n & EI & R1n).
           { simpl. now rewrite upd_same. }
           { exact R1. }
           { now rewrite map_length. }
           { now rewrite map_length. }
           { rewrite !app_length in *. simpl in *. lia. }
           rewrite EI. cbn [bind]. eexists _, (Some _). split; [reflexivity|].
           exists [GB i (a ++ s :: b1') (CA ++ g1 :: g2 :: CB1); GB (hfresh h1) b' Y0].
           split.
           { eapply (@split_node_upd h A i _ _ B h1 (CA ++ g1 :: g2 :: CB1) Y0 _ b1n b2); eauto; try reflexivity.
             - replace ((CA ++ g1 :: g2 :: CB1) ++ Y0) with (CA ++ [g1; g2] ++ CB1 ++ Y0) by (rewrite <- app_assoc; reflexivity).
               exact UC.
             - simpl. now rewrite upd_same.
             - simpl. rewrite !upd_other by auto. now rewrite upd_same.
             - intros j Hj1 Hj2. simpl. now rewrite !upd_other by auto.
             - rewrite map_app. exact R1n. }
           replace (ents [GB i (a ++ s :: b1') (CA ++ g1 :: g2 :: CB1); GB (hfresh h1) b' Y0])
             with (ents ((CA ++ g1 :: g2 :: CB1) ++ Y0)).
           2:{ change [GB i (a ++ s :: b1') (CA ++ g1 :: g2 :: CB1); GB (hfresh h1) b' Y0]
                 with ([GB i (a ++ s :: b1') (CA ++ g1 :: g2 :: CB1)] ++ [GB (hfresh h1) b' Y0]).
               now rewrite (ents_app [_] [_]), !ents_GB, <- ents_app. }
           rewrite ents_GB. split.
           { split; [rewrite <- EN; now rewrite <- app_assoc|]. rewrite lids_GB, <- EHN.
             change (lids (?x :: ?y :: [])) with (lids ([x] ++ [y])). rewrite lids_app, !lids_GB, <- lids_app. now rewrite <- app_assoc. }
           eexists _, _. cbn [skey sleft sright gid]. splits; try reflexivity.
           ++ exact (conj Cnt1 K1).
           ++ exact (conj Cnt2 K2).
           ++ exact (kids_bl K1).
           ++ exact (kids_bl K2).
        -- (* sk <= key: host is the right node *)
           assert (Hge : (sk <= k)%Z). { rewrite ale_in in Ha. apply Ha. apply in_or_app; simpl; auto. }
           destruct (Z.ltb_spec k sk); [lia|].
           assert (exists CA2, CA = X0 ++ CA2 /\ Y0 = CA2 ++ c :: CB /\ length CA2 = length a2) as (CA2 & -> & -> & LCA2).
           { rewrite app_length in LA. cbn [length] in LA.
             rewrite <- (firstn_skipn (S (length a')) CA), <- app_assoc in EXY.
             destruct (@split_at_app _ _ (firstn (S (length a')) CA) (skipn (S (length a')) CA ++ c :: CB) (S (length a')) eq_refl ltac:(rewrite firstn_length; lia) _ _ EXY Lca) as [E1 E2].
             exists (skipn (S (length a')) CA). splits; auto.
             - rewrite E1. symmetry. apply firstn_skipn.
             - rewrite skipn_length. lia. }
           assert (HKN' : kids (wf (mn minL minB d) d) lo (a' ++ sk :: (a2 ++ s :: bb)) (X0 ++ (CA2 ++ g1 :: g2 :: CB)) hi).
           { clear - HKN. rewrite <- !app_assoc in HKN. exact HKN. }
           apply kids_cut in HKN'; [|exact Lca]. destruct HKN' as [K1 K2].
           assert (Cnt1 : minB <= length a' <= N).
           { rewrite !app_length in EQ. cbn [length] in EQ. destruct (s >? km)%Z; lia. }
           assert (Cnt2 : minB <= length (a2 ++ s :: bb) <= N).
           { rewrite !app_length in EQ. rewrite !app_length. cbn [length] in EQ |- *. destruct (s >? km)%Z; lia. }
           cbn [set_branch hb]. rewrite upd_other by auto. rewrite upd_same. cbn [of_opt bind].
           assert (HSa : ssorted (a2 ++ bb)).
           { rewrite <- app_assoc in HS. apply ssorted_app in HS as (_ & HS & _). cbn [app] in HS. now apply ssorted_cons in HS. }
           assert (Ha2 : ale k a2).
           { rewrite ale_in in *. intros z Hz. apply Ha. apply in_or_app; simpl; auto. }
           rewrite (bpos_ok R2 HSa Ha2 Hbb). cbn [bind].
           rewrite map_app in R2. cbn [map] in R2.
           destruct (@insert_entry_ok L N (set_branch (set_branch (snd (new_branch N h1)) (hfresh h1) b2) i b1) (hfresh h1) b2 a2 bb
                       (map (@gid V) CA2) (gid c) (map (@gid V) CB) s (gid g1) (gid g2)) as (b2n & EI & R2n).
           { simpl. rewrite upd_other by auto. now rewrite upd_same. }
           { exact R2. }
           { now rewrite map_length. }
           { now rewrite map_length. }
           { rewrite !app_length in *. cbn [length] in *. lia. }
           rewrite EI. cbn [bind]. eexists _, (Some _). split; [reflexivity|].
           exists [GB i a' X0; GB (hfresh h1) (a2 ++ s :: bb) (CA2 ++ g1 :: g2 :: CB)].
           split.
           { eapply (@split_node_upd h A i _ _ B h1 X0 (CA2 ++ g1 :: g2 :: CB) _ b1 b2n); eauto; try reflexivity.
             - clear - UC. rewrite <- !app_assoc in UC. rewrite <- app_assoc. exact UC.
             - simpl. rewrite !upd_other by auto. now rewrite upd_same.
             - simpl. now rewrite upd_same.
             - intros j Hj1 Hj2. simpl. now rewrite !upd_other by auto.
             - rewrite map_app. exact R2n. }
           replace (ents [GB i a' X0; GB (hfresh h1) (a2 ++ s :: bb) (CA2 ++ g1 :: g2 :: CB)])
             with (ents (X0 ++ CA2 ++ g1 :: g2 :: CB)).
           2:{ change [GB i a' X0; GB (hfresh h1) (a2 ++ s :: bb) (CA2 ++ g1 :: g2 :: CB)]
                 with ([GB i a' X0] ++ [GB (hfresh h1) (a2 ++ s :: bb) (CA2 ++ g1 :: g2 :: CB)]).
               now rewrite (ents_app [_] [_]), !ents_GB, <- ents_app. }
           rewrite ents_GB. split.
           { split; [rewrite <- EN; now rewrite <- app_assoc|]. rewrite lids_GB, <- EHN.
             change (lids (?x :: ?y :: [])) with (lids ([x] ++ [y])). rewrite lids_app, !lids_GB, <- lids_app. now rewrite <- app_assoc. }
           eexists _, _. cbn [skey sleft sright gid]. splits; try reflexivity.
           ++ exact (conj Cnt1 K1).
           ++ exact (conj Cnt2 K2).
           ++ exact (kids_bl K1).
           ++ exact (kids_bl K2).
      * (* room in this node *)
        destruct (@insert_entry_ok L N h1 i b a bb (map (@gid V) CA) (gid c) (map (@gid V) CB) s (gid g1) (gid g2)) as (b' & EI & Rb'); auto.
        { rewrite map_app in Hb. exact Hb. }
        { now rewrite map_length. }
        { now rewrite map_length. }
        { lia. }
        rewrite EI. cbn [bind]. eexists _, None. split; [reflexivity|].
        exists [GB i (a ++ s :: bb) (CA ++ [g1; g2] ++ CB)]. split.
        { eapply upd_node; eauto. rewrite !map_app. exact Rb'. }
        rewrite !ents_GB, !lids_GB. split; [exact (conj EN EHN)|].
        eexists. splits; [reflexivity|reflexivity|]. cbn [BTreeGhost.wf]. split; [|exact HKN].
        rewrite app_length in *. simpl. lia.
    + destruct HR as (g' & -> & Eg & W). eexists _, None. split; [reflexivity|].
      exists [GB i (a ++ bb) (CA ++ [g'] ++ CB)]. split.
      { eapply upd_node_same; eauto. rewrite !map_app. simpl. now rewrite Eg. }
      rewrite !ents_GB, !lids_GB. split; [exact (conj EN EHN)|].
      eexists. splits; [reflexivity|reflexivity|]. cbn [BTreeGhost.wf]. split; [exact HC|].
      pose proof (@kids_ctx _ (wf (mn minL minB d) d) a CA bb CB lo hi [] [g'] LA LB) as EK. cbn [app] in EK.
      apply EK. splits; auto. cbn [kids]. auto.
Qed.

(** ** The whole tree *)

(** Smallest number of entries/keys in the root. *)
Definition rmin (d : nat) := match d with 0 => 0 | S _ => 1 end.

(** The tree object holds a well-formed tree with the (sorted) entries [es]. *)
Definition tinv (t : tree L) (es : list (Z * V)) : Prop :=
  exists g : gt, gid g = troot t /\ wf (rmin (tdepth t)) (tdepth t) None None g /\
    inv (th t) [] [g] [] /\ ents [g] = es.

Lemma tinv_new : tinv (t_new O) [].
Proof.
  exists (GL 0 []). cbn [t_new new_leaf empty_heap troot tdepth th hfresh]. splits; auto.
  - cbn [rmin BTreeGhost.wf]. splits; auto; [constructor|constructor|cbn [length]; lia].
  - constructor; simpl.
    + constructor; [|constructor]. exists (lo_new O). split; [reflexivity|apply (law_new LL)].
    + constructor.
    + constructor; [simpl; tauto|constructor].
    + constructor.
    + intros i [<-|[]]. lia.
    + tauto.
    + tauto.
    + auto.
Qed.

Lemma tinv_sorted t es : tinv t es -> sorted es.
Proof. intros (g & _ & W & _ & <-). eapply ents_sorted; eauto. Qed.

Lemma t_lookup_ok t es k : tinv t es -> t_lookup O t k = Ok (get k es).
Proof.
  intros (g & E & W & I & <-). destruct t as [h r d]. cbn [troot tdepth th] in *. eapply lookup_ok; eauto.
Qed.

Lemma t_scan_perm t es : tinv t es -> exists out, t_scan O t = Ok out /\ Permutation out es /\ in_runs M out.
Proof.
  intros (g & E & W & I & <-). destruct t as [h r d]. cbn [troot tdepth th] in *. eapply scan_ok; eauto.
Qed.

(** Same, and the leftmost leaf is node [f]. *)
Definition tinvf (f : nat) (t : tree L) (es : list (Z * V)) : Prop :=
  exists g : gt, gid g = troot t /\ wf (rmin (tdepth t)) (tdepth t) None None g /\
    inv (th t) [] [g] [] /\ ents [g] = es /\ hd_error (lids [g]) = Some f.

Lemma tinvf_tinv f t es : tinvf f t es -> tinv t es.
Proof. intros (g & H1 & H2 & H3 & H4 & _). exists g. auto. Qed.
Lemma tinv_tinvf t es : tinv t es -> exists f, tinvf f t es.
Proof.
  intros (g & E & W & I & <-). destruct (leftmost_ok W I) as (i & e0 & LB & _ & EL).
  exists i, g. splits; auto. unfold lids. rewrite EL. reflexivity.
Qed.
Lemma tinvf_new : tinvf 0 (t_new O) [].
Proof.
  destruct tinv_new as (g & H1 & H2 & H3 & H4). exists g. splits; auto.
  cbn [t_new new_leaf empty_heap troot tdepth th hfresh] in *. destruct g as [i es|]; cbn [BTreeGhost.wf] in H2; [|tauto].
  cbn [gid] in H1. subst i. reflexivity.
Qed.

Lemma t_insert_first f t es k v : kok k -> tinvf f t es -> exists t', t_insert N O t k v = Ok t' /\ tinvf f t' (ins k v es).
Proof.
  intros Kk (g & E & W & I & <- & HF). destruct t as [h r d]. cbn [troot tdepth th] in *. subst r.
  destruct (@insert_any_ok d _ h [] g [] None None k v Kk W ltac:(split; exact Logic.I) I) as (h1 & r & E & gs' & U & (EE & EH) & HR).
  rewrite HF in EH. unfold t_insert. cbn [troot tdepth th].
  change (match d with 0 => insert_leaf O h (gid g) k v | S _ => insert_branch N O h d (gid g) k v end)
    with (ins_any h d (gid g) k v).
  rewrite E. cbn [bind]. destruct r as [[s sl sr]|].
  - destruct HR as (g1 & g2 & -> & Eg & E1 & E2 & W1 & W2 & _ & _). cbn [skey sleft sright] in *. subst sl sr.
    cbn [new_branch].
    assert (exists ks cs cs', aset (bk (empty_branch N)) 0 s = Ok ks /\
       aset (bc (empty_branch N)) 0 (gid g1) = Ok cs /\ aset cs 1 (gid g2) = Ok cs' /\
       brep N (Branch 1 ks cs') [s] [gid g1; gid g2]) as (ks & cs & cs' & H1 & H2 & H3 & H4).
    { destruct (@empty_brep N) as (_ & LK & LC & PK & PC).
      destruct (@pre_set_end Z (bk (empty_branch N)) [] 0 s) as (ks & A1 & A2 & A3); auto; [cbn [length]; lia|].
      destruct (@pre_set_end nat (bc (empty_branch N)) [] 0 (gid g1)) as (cs & B1 & B2 & B3); auto; [cbn [length]; lia|].
      destruct (@pre_set_end nat cs [gid g1] 1 (gid g2)) as (cs' & C1 & C2 & C3); auto; [cbn [length]; lia|].
      exists ks, cs, cs'. splits; auto. unfold brep. cbn [bn bk bc]. splits; auto; lia. }
    rewrite H1. cbn [bind]. rewrite H2. cbn [bind]. rewrite H3. cbn [bind].
    eexists. split; [reflexivity|].
    exists (GB (hfresh h1) [s] [g1; g2]). cbn [troot tdepth th gid]. splits; auto.
    + cbn [rmin BTreeGhost.wf kids bl]. splits; auto; cbn [length]; lia.
    + pose proof (uo_inv U) as J. apply inv_GB. splits.
      * apply inv_set_branch.
        -- eapply inv_frame; [exact J|..]; cbn [hl hb hnx hpv hfresh]; auto.
           ++ intros j Hj. apply upd_other. apply (inv_ltb J) in Hj. lia.
           ++ simpl. tauto.
        -- intros Hc. apply (inv_ltb J) in Hc. lia.
      * simpl. lia.
      * intros Hc. apply (inv_ltb J) in Hc. lia.
      * eexists. cbn [fst snd hb set_branch]. rewrite upd_same. split; [reflexivity|exact H4].
    + rewrite ents_GB. exact EE.
    + rewrite lids_GB. exact EH.
  - destruct HR as (g' & -> & Eg & W'). eexists. split; [reflexivity|]. exists g'. cbn [troot tdepth th]. splits; auto.
    exact (uo_inv U).
Qed.

Lemma t_insert_ok t es k v : kok k -> tinv t es -> exists t', t_insert N O t k v = Ok t' /\ tinv t' (ins k v es).
Proof.
  intros Kk H. destruct (tinv_tinvf H) as (f & Hf). destruct (t_insert_first v Kk Hf) as (t' & E & H').
  exists t'. split; auto. eapply tinvf_tinv; eauto.
Qed.

(** ** Ordered scan and range scan, for classes with sorted leaves *)
Section Scan.
Hypothesis SL : scan_laws O lrep.

Lemma scan_chain_sorted h : forall ls p fuel, Forall (lok lrep h) ls -> seg h p (map fst ls) None -> length ls <= fuel ->
  scan_chain O fuel h (hbd (map fst ls) None) = Ok (flat_map snd ls).
Proof.
  induction ls as [|[i es] ls IH]; intros p fuel F HS Hf.
  - destruct fuel; auto.
  - destruct fuel as [|fuel]; [simpl in Hf; lia|]. inversion F as [|? ? Hi F']; subst.
    cbn [map seg fst] in HS. destruct HS as (_ & Hn & HS).
    destruct Hi as (l & El & Hl). cbn [fst snd] in *.
    cbn [map hbd hd fst scan_chain]. unfold getl. rewrite El. cbn [of_opt bind].
    rewrite (law_scan_sorted SL Hl). cbn [bind]. rewrite Hn, (IH (Some i) fuel F' HS); [reflexivity|simpl in Hf; lia].
Qed.

Lemma t_scan_ok t es : tinv t es -> t_scan O t = Ok es.
Proof.
  intros (g & E & W & I & <-). destruct t as [h r d]. cbn [troot tdepth th] in *. subst r.
  unfold t_scan. cbn [th troot tdepth].
  destruct (leftmost_ok W I) as (i & es & LB & E & EL). rewrite E. cbn [bind].
  pose proof (inv_seg I) as HS. cbn [app] in HS. rewrite app_nil_r in HS. unfold lids in HS.
  pose proof (@scan_chain_sorted h (lvs [g]) None (S (hfresh h)) (inv_l I) HS) as E2.
  rewrite EL in E2 at 2. cbn [map hbd hd fst] in E2. apply E2. pose proof (chain_fuel I). lia.
Qed.

Lemma filter_none lo hi (es : list (Z * V)) : (forall x, In x (keys es) -> (hi < x)%Z) -> filter (in_range lo hi) es = [].
Proof.
  induction es as [|[x v] es IH]; intros H; [reflexivity|]. cbn [filter]. unfold in_range at 1. cbn [fst].
  assert (hi < x)%Z by (apply H; simpl; auto).
  destruct (Z.leb_spec lo x), (Z.leb_spec x hi); try lia; cbn [andb]; apply IH; intros; apply H; simpl; auto.
Qed.

Lemma range_chain_ok lo hi h : forall ls p fuel, Forall (lok lrep h) ls -> seg h p (map fst ls) None -> length ls <= fuel ->
  sorted (flat_map snd ls) ->
  range_chain O fuel h (hbd (map fst ls) None) lo hi = Ok (filter (in_range lo hi) (flat_map snd ls)).
Proof.
  induction ls as [|[i es] ls IH]; intros p fuel F HS Hf HO.
  - destruct fuel; auto.
  - destruct fuel as [|fuel]; [simpl in Hf; lia|]. inversion F as [|? ? Hi F']; subst.
    cbn [map seg fst] in HS. destruct HS as (_ & Hn & HS).
    destruct Hi as (l & El & Hl). cbn [fst snd] in *.
    cbn [map hbd hd fst range_chain flat_map snd] in *. unfold getl. rewrite El. cbn [of_opt bind].
    destruct (law_range SL lo hi Hl) as (out & stop & -> & -> & Hstop). cbn [bind fst snd].
    apply sorted_app in HO as (O1 & O2 & O3). rewrite filter_app. destruct stop.
    + destruct (Hstop eq_refl) as (x & Hx & Hhi). rewrite (@filter_none lo hi (flat_map snd ls)), app_nil_r; auto.
      intros y Hy. specialize (O3 x y Hx Hy). lia.
    + rewrite Hn, (IH (Some i) fuel F' HS); auto. simpl in Hf; lia.
Qed.

Lemma filter_low lo hi (es : list (Z * V)) : alt lo (keys es) -> filter (in_range lo hi) es = [].
Proof.
  rewrite alt_in. induction es as [|[x v] es IH]; intros H; [reflexivity|]. cbn [filter]. unfold in_range at 1. cbn [fst].
  assert (x < lo)%Z by (apply H; simpl; auto).
  destruct (Z.leb_spec lo x); try lia; cbn [andb]; apply IH; intros; apply H; simpl; auto.
Qed.

Lemma t_range_ok t es lo hi : tinv t es -> t_range O t lo hi = Ok (filter (in_range lo hi) es).
Proof.
  intros (g & E & W & I & <-). destruct t as [h r d]. cbn [troot tdepth th] in *. subst r.
  unfold t_range. cbn [th troot tdepth].
  destruct (@find_leaf_ok d _ h [] g [] None None lo W I) as (LA & i & es & LB & E & EL & H1 & H2); [split; exact Logic.I|].
  rewrite E. cbn [bind].
  pose proof (inv_seg I) as HS. cbn [app] in HS. rewrite app_nil_r in HS. unfold lids in HS.
  pose proof (ents_sorted W) as HO. pose proof (inv_l I) as HF. pose proof (chain_fuel I) as HC.
  unfold ents in *. rewrite EL in *. rewrite map_app, seg_app in HS. destruct HS as [_ HS].
  rewrite flat_map_app in *. apply sorted_app in HO as (_ & HO & _). apply Forall_app in HF as [_ HF].
  pose proof (@range_chain_ok lo hi h _ _ (S (hfresh h)) HF HS) as ER. cbn [map hbd hd fst] in ER.
  rewrite ER; auto.
  - rewrite filter_app. rewrite (@filter_low lo hi (flat_map snd LA)); auto.
  - rewrite app_length in HC. lia.
Qed.
End Scan.

(** ** Range scan of classes with unsorted leaves *)
Section RangePerm.
Hypothesis RL : range_law O lrep.

Lemma range_chain_perm lo hi h : forall ls p fuel, Forall (lok lrep h) ls -> seg h p (map fst ls) None -> length ls <= fuel ->
  sorted (flat_map snd ls) ->
  exists out, range_chain O fuel h (hbd (map fst ls) None) lo hi = Ok out /\
    Permutation out (filter (in_range lo hi) (flat_map snd ls)).
Proof.
  induction ls as [|[i es] ls IH]; intros p fuel F HS Hf HO.
  - destruct fuel; exists []; auto.
  - destruct fuel as [|fuel]; [simpl in Hf; lia|]. inversion F as [|? ? Hi F']; subst.
    cbn [map seg fst] in HS. destruct HS as (_ & Hn & HS).
    destruct Hi as (l & El & Hl). cbn [fst snd] in *.
    cbn [map hbd hd fst range_chain flat_map snd] in *. unfold getl. rewrite El. cbn [of_opt bind].
    destruct (RL lo hi Hl) as (out & stop & -> & HP & Hstop). cbn [bind fst snd].
    apply sorted_app in HO as (O1 & O2 & O3). rewrite filter_app. destruct stop.
    + destruct (Hstop eq_refl) as (x & Hx & Hhi). rewrite (@filter_none lo hi (flat_map snd ls)), app_nil_r; eauto.
      intros y Hy. specialize (O3 x y Hx Hy). lia.
    + rewrite Hn. destruct (IH (Some i) fuel F' HS) as (out' & -> & HP'); auto; [simpl in Hf; lia|].
      cbn [bind]. eexists. split; [reflexivity|]. now apply Permutation_app.
Qed.

Lemma t_range_perm t es lo hi : tinv t es -> exists out, t_range O t lo hi = Ok out /\
  Permutation out (filter (in_range lo hi) es).
Proof.
  intros (g & E & W & I & <-). destruct t as [h r d]. cbn [troot tdepth th] in *. subst r.
  unfold t_range. cbn [th troot tdepth].
  destruct (@find_leaf_ok d _ h [] g [] None None lo W I) as (LA & i & es & LB & E & EL & H1 & H2); [split; exact Logic.I|].
  rewrite E. cbn [bind].
  pose proof (inv_seg I) as HS. cbn [app] in HS. rewrite app_nil_r in HS. unfold lids in HS.
  pose proof (ents_sorted W) as HO. pose proof (inv_l I) as HF. pose proof (chain_fuel I) as HC.
  unfold ents in *. rewrite EL in *. rewrite map_app, seg_app in HS. destruct HS as [_ HS].
  rewrite flat_map_app in *. apply sorted_app in HO as (_ & HO & _). apply Forall_app in HF as [_ HF].
  destruct (@range_chain_perm lo hi h _ _ (S (hfresh h)) HF HS) as (out & ER & HP); auto.
  - rewrite app_length in HC. lia.
  - cbn [map hbd hd fst] in ER. exists out. split; auto.
    rewrite filter_app. rewrite (@filter_low lo hi (flat_map snd LA)); auto.
Qed.
End RangePerm.

End Insert.
