(** Insert and erase of wBPTree where WbESpec lets them through. *)
From Verif Require Import Base ArrLemmas MapSpec SortedList SearchModel SearchProofs BitmapModel BTreeModel BTreeLaws BTreeBranch
  BTreeGhost BTreeInsert BTreeErase BTreeSpec BitTreeModel InsSpec XTree BTreeMain BitEProofs
  WbModel WbProofs WbMove WbMain WbBranch WbTree WbEModel WbESpec WbEBranch.
Open Scope nat_scope.

(** ** Merging two branch nodes of the ghost tree *)
Section Regroup.
Variables (L V : Type) (N : nat) (lrep : L -> list (Z * V) -> Prop).
Notation hp := (heap L).
Notation inv := (inv N lrep).
Notation upd_ok := (upd_ok N lrep).

Lemma regroup (h : hp) A gs B h' gs' : inv h A gs B ->
  lvs gs' = lvs gs -> Forall (bok N h') (nds gs') -> NoDup (bids gs') -> incl (bids gs') (bids gs) ->
  hl h' = hl h -> hnx h' = hnx h -> hpv h' = hpv h -> hfresh h' = hfresh h ->
  (forall j, ~ In j (bids gs) -> hb h' j = hb h j) ->
  upd_ok h A gs B h' gs'.
Proof.
  intros [I1 I2 I3 I4 I5 I6 I7 I8] EL' FB ND IN El En Ep Ef Eo.
  assert (EI : lids gs' = lids gs) by (unfold lids; now rewrite EL').
  constructor.
  - constructor; rewrite ?EI, ?EL'; auto.
    + eapply lok_frame; [|exact I1]. intros j _. now rewrite El.
    + rewrite Ef. exact I5.
    + intros j Hj. rewrite Ef. auto.
    + intros j Hj. destruct (I7 j Hj) as [l E]. exists l. now rewrite El.
    + eapply seg_frame; [|exact I8]. intros j _. now rewrite En, Ep.
  - constructor; [lia| |].
    + intros j _ _. now rewrite El.
    + intros j _ Hj. auto.
  - intros j. rewrite EI. auto.
  - intros j Hj. left. auto.
  - now rewrite EI.
Qed.

Lemma bmerge_up (h : hp) A i1 k1 c1 i2 k2 c2 B h' b1 k1' :
  inv h A [GB i1 k1 c1; GB i2 k2 c2] B ->
  hl h' = hl h -> hnx h' = hnx h -> hpv h' = hpv h -> hfresh h' = hfresh h ->
  hb h' i1 = Some b1 -> (forall j, j <> i1 -> j <> i2 -> hb h' j = hb h j) ->
  brep N b1 k1' (map (@gid V) (c1 ++ c2)) ->
  upd_ok h A [GB i1 k1 c1; GB i2 k2 c2] B h' [GB i1 k1' (c1 ++ c2)].
Proof.
  intros I El En Ep Ef E1 Eo R1.
  destruct (inv_bpair I) as (Hne & H1 & H2 & ND & FB & _ & _).
  apply regroup; auto.
  - now rewrite !bpair_lvs, lvs_GB.
  - rewrite nds_GB. constructor; [exists b1; auto|].
    eapply bok_frame; [|exact FB]. intros j Hj. fold (bids (c1 ++ c2)) in Hj. apply Eo; intros ->; tauto.
  - rewrite bids_GB. constructor; auto.
  - rewrite bids_GB, bpair_bids. intros j. rewrite bids_app. cbn [In]. rewrite !in_app_iff. cbn [In]. tauto.
  - intros j. rewrite bpair_bids. cbn [In]. rewrite in_app_iff. cbn [In]. intros Hj. apply Eo; intros ->; tauto.
Qed.
End Regroup.

Section WErase.
Variables (V : Type) (N M : nat).
Hypothesis HN : 2 <= N.
Hypothesis HE : 2 * ((N + 1) / 2) <= N.
Hypothesis HM : 2 <= M.
Notation leaf := (wleaf V).
Notation O := (w_ops V M).
Notation rep := (wrep M).
Notation gt := (gt V).
Notation wf := (wf N M 1 0).
Notation inv := (inv N rep).
Notation upd_ok := (upd_ok N rep).
Notation nok := (nok (V := V) (wbrep N)).

Lemma mid_le : (M + 1) / 2 + (M + 1) / 2 <= S M.
Proof. pose proof (Nat.div_mod (M + 1) 2 ltac:(lia)). lia. Qed.

Lemma wl_merge (l1 l2 : leaf) e1 e2 : rep l1 e1 -> rep l2 e2 -> sorted (e1 ++ e2) -> length e1 + length e2 <= M ->
  exists l, lo_merge O l1 l2 = Ok l /\ rep l (e1 ++ e2).
Proof. intros H1 H2 HS HL. apply sorted_app in HS as (_ & _ & HS). now apply w_merge_ok. Qed.

Lemma w_cnt (l : leaf) es : rep l es -> w_count l = Ok (length es).
Proof. exact (@w_count_ok V M l es). Qed.

Lemma w_key1 (l : leaf) z w es : rep l ((z, w) :: es) -> w_key l 1 = Ok z.
Proof. intros H. destruct (@w_entry_ok V M l [] _ _ H) as (p & E1 & E2 & _). unfold w_key. cbn [length] in E1. rewrite E1. exact E2. Qed.

Lemma w_merge_gh (h : heap leaf) G i j : merge_leaf O (gh h G) i j = do h1 <- merge_leaf O h i j; Ok (gh h1 G).
Proof.
  unfold merge_leaf, getl. cbn [gh hl]. destruct (hl h i); cbn [of_opt bind]; auto. destruct (hl h j) as [w0|]; cbn [of_opt bind]; auto.
  destruct (lo_merge O w w0) as [x| |]; cbn [bind]; auto. cbn [gh hnx]. destruct (hnx h j) as [n|]; cbn [bind]; auto.
  unfold set_pv_chk, getl, set_nx, set_leaf. cbn [gh hl]. destruct (upd (hl h) i (Some x) n); cbn [of_opt bind]; auto.
Qed.

Definition same_post (dr : nat) (tr : wtree V) G A i (ks : list Z) (cs : list gt) Bc lo hi (tr' : wtree V) : Prop :=
  wroot tr' = wroot tr /\ wdepth tr' = wdepth tr /\
  exists b' ks' cs', wtb tr' = upd (wtb tr) i (Some b') /\ upd_ok (gh (wth tr) G) A cs Bc (gh (wth tr') G) cs' /\
    wbrep N b' ks' (map (@gid V) cs') /\ kids (wf 1 0) lo ks' cs' hi /\ ents cs' = ents cs /\ 1 <= length ks' /\ length ks = length ks' + dr.
Definition root_post (tr : wtree V) G A (ks : list Z) (cs : list gt) Bc lo hi (tr' : wtree V) : Prop :=
  wdepth tr = 1 /\ wdepth tr' = 0 /\ length ks = 1 /\
  exists g' : gt, wtb tr' = wtb tr /\ gid g' = wroot tr' /\
    upd_ok (gh (wth tr) G) A cs Bc (gh (wth tr') G) [g'] /\ wf 1 0 lo hi g' /\ ents [g'] = ents cs.

Lemma fin_setkey (tr : wtree V) G A i b a y bb CA i1 e1 i2 e2 CB Bc lo hi h1 z (w : V) e1' e2' :
  inv (gh (wth tr) G) A (CA ++ [GL i1 e1; GL i2 e2] ++ CB) Bc ->
  wbrep N b (a ++ y :: bb) (map (@gid V) (CA ++ [GL i1 e1; GL i2 e2] ++ CB)) ->
  length CA = length a -> length CB = length bb ->
  kl (wf 1 0) lo a CA -> kr (wf 1 0) bb CB hi ->
  Forall (inb (lb lo a) (Some y)) (keys e1) -> Forall (inb (Some y) (hbd bb hi)) (keys e2) ->
  bl (lb lo a) (Some y) -> bl (Some y) (hbd bb hi) ->
  sorted (e1 ++ e2) -> e1 ++ e2 = e1' ++ (z, w) :: e2' -> e1' <> [] ->
  1 <= length e1' <= M -> 1 <= S (length e2') <= M ->
  upd_ok (gh (wth tr) G) (A ++ lids CA) [GL i1 e1; GL i2 e2] (lids CB ++ Bc) (gh h1 G) [GL i1 e1'; GL i2 ((z, w) :: e2')] ->
  exists b', wb_setkey b (S (length a)) z = Ok b' /\
    same_post 0 tr G A i (a ++ y :: bb) (CA ++ [GL i1 e1; GL i2 e2] ++ CB) Bc lo hi
      (WTree h1 (upd (wtb tr) i (Some b')) (wroot tr) (wdepth tr)).
Proof.
  intros I HR LA LB KL KR F1 F2 B1 B2 HS E NE C1 C2 U.
  assert (HK : kids (wf 1 0) lo (a ++ [z] ++ bb) (CA ++ [GL i1 e1'; GL i2 ((z, w) :: e2')] ++ CB) hi).
  { apply kids_ctx; auto. splits; auto. eapply (@bal_kids V N M 1 0); eauto. }
  destruct (wb_setkey_ok (z := z) HN HR) as (b' & Ek & Rk); [apply (kids_sorted HK)|].
  exists b'. split; auto. unfold same_post. cbn [wroot wdepth wth wtb]. splits; auto.
  eexists _, (a ++ z :: bb), (CA ++ [GL i1 e1'; GL i2 ((z, w) :: e2')] ++ CB). splits; [reflexivity|..]; auto.
  - now apply upd_ctx.
  - rewrite !map_app in *. exact Rk.
  - rewrite !ents_app. rewrite !(ents_two i1 _ i2). now rewrite E.
  - rewrite !app_length. cbn [length]. lia.
  - rewrite !app_length. cbn [length]. lia.
Qed.

Lemma fin_drop (tr : wtree V) G A i b a y bb CA i1 e1 i2 e2 CB Bc lo hi h2 n :
  inv (gh (wth tr) G) A (CA ++ [GL i1 e1; GL i2 e2] ++ CB) Bc ->
  wbrep N b (a ++ y :: bb) (map (@gid V) (CA ++ [GL i1 e1; GL i2 e2] ++ CB)) ->
  length CA = length a -> length CB = length bb ->
  kl (wf 1 0) lo a CA -> kr (wf 1 0) bb CB hi ->
  Forall (inb (lb lo a) (Some y)) (keys e1) -> Forall (inb (Some y) (hbd bb hi)) (keys e2) ->
  bl (lb lo a) (Some y) -> bl (Some y) (hbd bb hi) ->
  sorted (e1 ++ e2) -> 1 <= length e1 + length e2 <= M ->
  upd_ok (gh (wth tr) G) (A ++ lids CA) [GL i1 e1; GL i2 e2] (lids CB ++ Bc) (gh h2 G) [GL i1 (e1 ++ e2)] ->
  n = length (a ++ y :: bb) -> (2 <= n \/ (n = 1 /\ wdepth tr = 1)) ->
  exists tr', (if 1 <? n then do b' <- wb_drop N b (S (length a)) i1; Ok (WTree h2 (upd (wtb tr) i (Some b')) (wroot tr) (wdepth tr))
       else Ok (WTree h2 (wtb tr) i1 (wdepth tr - 1))) = Ok tr' /\
    (same_post 1 tr G A i (a ++ y :: bb) (CA ++ [GL i1 e1; GL i2 e2] ++ CB) Bc lo hi tr' \/
     root_post tr G A (a ++ y :: bb) (CA ++ [GL i1 e1; GL i2 e2] ++ CB) Bc lo hi tr').
Proof.
  intros I HR LA LB KL KR F1 F2 B1 B2 HS HC U En HD.
  assert (FA : Forall (inb (lb lo a) (hbd bb hi)) (keys (e1 ++ e2))).
  { rewrite keys_app, Forall_app. split.
    - rewrite Forall_forall in *. intros z Hz. apply F1 in Hz. eapply inb_weak; eauto. intros q. now apply bl_hib.
    - rewrite Forall_forall in *. intros z Hz. apply F2 in Hz. eapply inb_weak; eauto. intros q. now apply bl_lob. }
  assert (HW : wf 1 0 (lb lo a) (hbd bb hi) (GL i1 (e1 ++ e2))).
  { cbn [BTreeGhost.wf]. rewrite app_length. auto. }
  pose proof (upd_ctx I U) as UC.
  assert (EE : ents (CA ++ [GL i1 (e1 ++ e2)] ++ CB) = ents (CA ++ [GL i1 e1; GL i2 e2] ++ CB)).
  { rewrite !ents_app. now rewrite (ents_two i1 _ i2), ents_GL. }
  assert (HK : kids (wf 1 0) lo (a ++ bb) (CA ++ [GL i1 (e1 ++ e2)] ++ CB) hi).
  { apply (@kids_ctx _ (wf 1 0) a CA bb CB lo hi [] [GL i1 (e1 ++ e2)]); auto. splits; auto.
    cbn [kids]. split; auto. eapply bl_trans; eauto. }
  assert (EN : n = length a + S (length bb)) by (rewrite En, app_length; reflexivity).
  destruct (Nat.ltb_spec 1 n) as [H1|H1].
  - rewrite map_app in HR. cbn [map gid app] in HR.
    destruct (@wb_drop_ok N HN b a y bb (map (@gid V) CA) i1 i2 (map (@gid V) CB) i1 HR) as (b' & -> & Rb); [now rewrite map_length|].
    cbn [bind]. eexists. split; [reflexivity|]. left. unfold same_post. cbn [wroot wdepth wth wtb]. splits; auto.
    exists b', (a ++ bb), (CA ++ [GL i1 (e1 ++ e2)] ++ CB). splits; auto.
    + rewrite !map_app in *. exact Rb.
    + rewrite app_length. lia.
    + rewrite !app_length. cbn [length]. lia.
  - eexists. split; [reflexivity|]. right. destruct a; [|cbn [length] in EN; lia]. destruct bb; [|cbn [length] in EN; lia].
    destruct CA; [|discriminate LA]. destruct CB; [|discriminate LB]. unfold root_post. cbn [wroot wdepth wth wtb app] in *.
    splits; auto; try (cbn [length] in *; lia).
    exists (GL i1 (e1 ++ e2)). splits; auto.
Qed.

Lemma wk_fix_ok (tr : wtree V) G A i b a bb CA c ec CB Bc lo hi l mg :
  inv (gh (wth tr) G) A (CA ++ [GL c ec] ++ CB) Bc ->
  wtb tr i = Some b -> wbrep N b (a ++ bb) (map (@gid V) (CA ++ [GL c ec] ++ CB)) ->
  length CA = length a -> length CB = length bb ->
  kl (wf 1 0) lo a CA -> kr (wf 1 0) bb CB hi -> bl (lb lo a) (hbd bb hi) ->
  sorted ec -> Forall (inb (lb lo a) (hbd bb hi)) (keys ec) -> length ec < (M + 1) / 2 ->
  hl (wth tr) c = Some l -> rep l ec ->
  wk_fix M tr i (S (length a)) c = Ok mg ->
  exists tr', we_underflow_leaf N M tr i (S (length a)) c = Ok tr' /\
    (same_post (if mg then 1 else 0) tr G A i (a ++ bb) (CA ++ [GL c ec] ++ CB) Bc lo hi tr' \/
     root_post tr G A (a ++ bb) (CA ++ [GL c ec] ++ CB) Bc lo hi tr').
Proof.
  intros I Eb HR LA LB KL KR BLC HS HF HC El Hl CK.
  pose proof (wb_n_ok HR) as En. pose proof mid_le as HML.
  unfold we_underflow_leaf. unfold wk_fix in CK. cbn zeta in *.
  unfold getwb in *. rewrite Eb in *. cbn [of_opt bind] in *. rewrite En in *. cbn [bind] in *.
  unfold getl at 1 in CK. rewrite El in CK. cbn [of_opt bind] in CK. rewrite (w_cnt Hl) in CK. cbn [bind] in CK.
  destruct (rev_case a) as [->|(a0 & x & ->)].
  - (* first child: merge with the right neighbour *)
    destruct CA; [|discriminate LA]. cbn [app length] in *. change (1 <? 1) with false in *. cbn [bind andb] in *.
    destruct bb as [|y b0].
    { cbn [length] in *. change (1 <=? 0) with false in *. cbn [bind andb] in *. discriminate CK. }
    cbn [length] in *. change (1 <=? S (length b0)) with true in *.
    destruct CB as [|g CB0]; [discriminate|]. cbn [kr] in KR. destruct KR as (By & Wg & KR).
    apply wf0_leaf in Wg as (n & en & -> & Sn & Fn & Cn).
    change (GL c ec :: GL n en :: CB0) with ([] ++ [GL c ec; GL n en] ++ CB0) in I, HR. pose proof (inv_sub I) as IP.
    destruct (inv_pair IP) as (l1 & l2 & El1 & Hl1 & El2 & Hl2 & Hne & _ & _ & _ & _ & _ & _ & _ & _ & P1 & N1 & P2 & N2 & _).
    cbn [gh hl hnx hpv] in El1, El2, N1, P1, P2, N2. rewrite N1 in *. cbn [of_opt bind] in *. unfold getl in CK |- *. rewrite El2 in *. cbn [of_opt bind] in *.
    rewrite (w_cnt Hl2) in *. cbn [bind andb] in *.
    destruct (Nat.ltb_spec ((M + 1) / 2) (length en)) as [|HU]; [discriminate CK|].
    rewrite (proj2 (Nat.leb_le _ _) HU).
    assert (HD : 2 <= S (length b0) \/ (S (length b0) = 1 /\ wdepth tr = 1)).
    { destruct ((2 <=? S (length b0)) || ((S (length b0) =? 1) && (wdepth tr =? 1))) eqn:EC3; [|discriminate CK].
      apply orb_true_iff in EC3 as [E3|E3].
      - left. now apply Nat.leb_le.
      - right. apply andb_prop in E3 as [E3 E4]. apply Nat.eqb_eq in E3, E4. auto. }
    destruct ((2 <=? S (length b0)) || ((S (length b0) =? 1) && (wdepth tr =? 1))); [|discriminate CK]. injection CK as <-.
    cbn [hbd hd map] in HF, BLC.
    assert (SS : sorted (ec ++ en)) by (eapply sorted_pair; eauto).
    destruct (@merge_upd_gen _ _ N M O rep (gh (wth tr) G) _ c ec n en _ wl_merge IP SS ltac:(lia)) as (h1 & E1 & EB & EX & (l3 & EL2) & U).
    rewrite w_merge_gh in E1. destruct (merge_leaf O (wth tr) c n) as [h1'| |] eqn:EM; cbn [bind] in E1; try discriminate E1.
    injection E1 as <-. cbn [bind]. cbn [gh hl] in EL2. cbn [free_leaf]. unfold getl at 1. rewrite EL2. cbn [of_opt bind].
    change 1 with (S (length (@nil Z))) at 2.
    apply (@fin_drop tr G A i b [] y b0 [] c ec n en CB0 Bc lo hi); auto; try lia.
    apply U; cbn [gh del_leaf hl hb hnx hpv hfresh]; auto. intros j J. now rewrite upd_other by auto.
  - (* there is a left neighbour *)
    rewrite app_length in LA. cbn [length] in LA.
    destruct (rev_case CA) as [->|(CA0 & g & ->)]; [cbn [length] in LA; lia|].
    rewrite app_length in LA. cbn [length] in LA. assert (LA0 : length CA0 = length a0) by lia.
    apply kl_snoc in KL; [|exact LA0]. destruct KL as (KL & Bx & Wg).
    apply wf0_leaf in Wg as (p & ep & -> & Sp & Fp & Cp). rewrite lb_snoc in *.
    rewrite <- !app_assoc in *. cbn [app] in *.
    change (CA0 ++ GL p ep :: GL c ec :: CB) with (CA0 ++ [GL p ep; GL c ec] ++ CB) in *.
    pose proof (inv_sub I) as IP.
    destruct (inv_pair IP) as (lp & l2 & Elp & Hlp & El2 & Hl2 & Hne & _ & _ & _ & _ & _ & _ & _ & _ & P1 & N1 & P2 & N2 & _).
    cbn [gh hpv hnx hl] in P1, N1, P2, N2, Elp, El2. rewrite El in El2. injection El2 as <-.
    assert (SS : sorted (ep ++ ec)) by (eapply sorted_pair; eauto).
    rewrite !app_length in *. cbn [length] in *.
    assert (E1 : 1 <? S (length a0 + 1) = true) by (apply Nat.ltb_lt; lia). rewrite E1 in *.
    rewrite P2 in *. cbn [of_opt bind] in *. unfold getl at 1 in CK. unfold getl at 1. rewrite Elp in *. cbn [of_opt bind] in *.
    rewrite (w_cnt Hlp) in *. cbn [bind andb] in *.
    destruct (Nat.ltb_spec ((M + 1) / 2) (length ep)) as [HU|HU].
    + (* entries from the left neighbour *)
      destruct ((S (length a0 + 1) =? length a0 + S (length bb) + 1) && (0 <? length ec)) eqn:EC; [|discriminate CK].
      injection CK as <-. apply andb_prop in EC as [EC1 EC2]. rewrite EC1. apply Nat.eqb_eq in EC1. apply Nat.ltb_lt in EC2.
      assert (Ebb : bb = []) by (destruct bb; auto; cbn [length] in EC1; lia). subst bb. destruct CB; [|discriminate LB].
      cbn [length] in *.
      assert (HB2 : (length ep + length ec) / 2 < length ep /\ 1 <= (length ep + length ec) / 2).
      { split; [apply Nat.div_lt_upper_bound; lia|]. apply (Nat.div_le_mono 2 _ 2); lia. }
      destruct (@split_at _ ep ((length ep + length ec) / 2)) as (ea & eb & Ep & La); [lia|].
      assert (Leb : length eb = length ep - (length ep + length ec) / 2) by (apply (f_equal (@length _)) in Ep; rewrite app_length in Ep; lia).
      destruct eb as [|[z w] eb]; [cbn [length] in Leb; lia|]. rewrite Ep in Hlp, HU, La.
      assert (NE : ec <> []) by (intros ->; cbn [length] in EC2; lia).
      destruct (@w_balance_left V M lp l ea ((z, w) :: eb) ec Hlp Hl NE) as (d' & r' & EBal & Rd & Rr).
      { lia. }
      { exact La. }
      { rewrite Ep in SS. now apply sorted_app in SS as (_ & _ & SS). }
      rewrite <- Ep in La.
      unfold balance_leaf, getl at 1 2. rewrite Elp, El. cbn [of_opt bind]. cbn [lo_balance w_ops]. rewrite EBal. cbn [bind fst snd].
      unfold getl at 1. cbn [set_leaf hl]. rewrite upd_same'. cbn [of_opt bind]. cbn [app] in Rr.
      rewrite (w_key1 Rr). cbn [bind].
      assert (U : upd_ok (gh (wth tr) G) (A ++ lids CA0) [GL p ep; GL c ec] (lids (@nil gt) ++ Bc) (gh (set_leaf (set_leaf (wth tr) p d') c r') G)
                  [GL p ea; GL c ((z, w) :: eb ++ ec)]).
      { eapply pair_upd; eauto; cbn [gh set_leaf hl].
        - rewrite upd_other by auto. now rewrite upd_same'.
        - now rewrite upd_same'.
        - intros j J1 J2. now rewrite !upd_other by auto. }
      destruct (@fin_setkey tr G A i b a0 x [] CA0 p ep c ec [] Bc lo hi (set_leaf (set_leaf (wth tr) p d') c r') z w ea (eb ++ ec) I HR)
        as (b' & EK & FIN); auto.
      * rewrite Ep, <- app_assoc. reflexivity.
      * intros ->. cbn [length] in La. lia.
      * lia.
      * pose proof (wrep_len Rr). cbn [length] in *. lia.
      * replace (length a0 + 1) with (S (length a0)) by lia. rewrite EK. cbn [bind]. eexists. split; [reflexivity|]. left. exact FIN.
    + (* merge with the left neighbour *)
      destruct (if S (length a0 + 1) <=? length a0 + S (length bb) then do x0 <- of_opt (hnx (wth tr) c); do nl <- getl (wth tr) x0; w_count nl else Ok 0)
        as [nn| |]; cbn [bind] in *; try discriminate CK.
      destruct ((S (length a0 + 1) <=? length a0 + S (length bb)) && ((M + 1) / 2 <? nn)); [discriminate CK|].
      rewrite (proj2 (Nat.leb_le _ _) HU). cbn [andb].
      set (n := length a0 + S (length bb)) in *.
      assert (HD : 2 <= n \/ (n = 1 /\ wdepth tr = 1)).
      { destruct ((2 <=? n) || ((n =? 1) && (wdepth tr =? 1))) eqn:EC3; [|discriminate CK].
        apply orb_true_iff in EC3 as [E3|E3].
        - left. now apply Nat.leb_le.
        - right. apply andb_prop in E3 as [E3 E4]. apply Nat.eqb_eq in E3, E4. auto. }
      destruct ((2 <=? n) || ((n =? 1) && (wdepth tr =? 1))); [|discriminate CK]. injection CK as <-.
      destruct (@merge_upd_gen _ _ N M O rep (gh (wth tr) G) _ p ep c ec _ wl_merge IP SS ltac:(lia)) as (h1 & E2 & EB & EX & (l3 & EL2) & U).
      rewrite w_merge_gh in E2. destruct (merge_leaf O (wth tr) p c) as [h1'| |] eqn:EM; cbn [bind] in E2; try discriminate E2.
      injection E2 as <-. cbn [bind]. cbn [gh hl] in EL2. cbn [free_leaf]. unfold getl at 1. rewrite EL2. cbn [of_opt bind].
      replace (S (length a0 + 1) - 1) with (S (length a0)) by lia.
      apply (@fin_drop tr G A i b a0 x bb CA0 p ep c ec CB Bc lo hi); auto; try lia.
      * apply U; cbn [gh del_leaf hl hb hnx hpv hfresh]; auto. intros j J. now rewrite upd_other by auto.
      * unfold n. rewrite app_length. reflexivity.
Qed.

(** ** The descent *)
Notation had := (@had V).

Lemma wk_leaf_ok (l : leaf) es k u : rep l es -> wk_leaf M l k = Ok u -> exists l', lo_erase O l k = Ok (had k es, l') /\ rep l' (del k es).
Proof.
  intros H CK. unfold wk_leaf in CK. rewrite (w_cnt H) in CK. cbn [bind] in CK.
  destruct (locate k (wrep_sorted H)) as [(a & b & -> & Ha & Hb)|(a & w & b & -> & Ha & Hb)].
  - rewrite (w_pos_ok H (pos_alt_agt Ha Hb)) in CK. cbn [bind] in CK. rewrite app_length in CK.
    destruct b as [|e b].
    { cbn [length] in CK. rewrite (proj2 (Nat.ltb_lt (length a + 0) (S (length a))) ltac:(lia)) in CK. discriminate CK. }
    assert (EN : get k (a ++ e :: b) = None) by (apply get_new; auto).
    exists l. unfold BitEProofs.had. rewrite EN, (del_none EN). split; auto. cbn [w_ops lo_erase].
    apply (w_erase_absent H Ha). unfold agt in Hb. cbn [keys map] in Hb. now inversion Hb.
  - assert (HG : get k (a ++ (k, w) :: b) = Some w) by (apply get_old; auto).
    rewrite (w_pos_ok H (pos_alt_eq w Ha Hb)) in CK. cbn [bind] in CK. rewrite app_length in CK. cbn [length] in CK.
    rewrite (proj2 (Nat.ltb_ge (length a + S (length b)) (S (length a))) ltac:(lia)) in CK.
    destruct (w_entry_ok H) as (p & E1 & E2 & _). unfold w_key in CK. rewrite E1 in CK. cbn [bind] in CK. rewrite E2 in CK. cbn [bind fst] in CK.
    rewrite Z.eqb_refl in CK. cbn [andb] in CK. destruct (Nat.eqb_spec (length a + S (length b)) M) as [|NE]; [discriminate CK|].
    unfold BitEProofs.had. rewrite HG. cbn [w_ops lo_erase]. apply w_erase_ok; auto; [|congruence].
    pose proof (wrep_len H) as HL. rewrite app_length in *. cbn [length] in *. lia.
Qed.

Definition er_same (n m d : nat) lo hi (tr : wtree V) G A (g : gt) Bc k (tr' : wtree V) : Prop :=
  wroot tr' = wroot tr /\ wdepth tr' = wdepth tr /\
  exists G' g' b', gid g' = gid g /\ wtb tr' (gid g) = Some b' /\ aget (bs b') 0 = Ok n /\ upd_ok (gh (wth tr) G) A [g] Bc (gh (wth tr') G') [g'] /\ nok (wtb tr') [g'] /\
    (forall j, ~ In j (bids [g]) -> wtb tr' j = wtb tr j) /\ wf m (S d) lo hi g' /\ ents [g'] = del k (ents [g]).
Definition er_root d lo hi (tr : wtree V) G A (g : gt) Bc k (tr' : wtree V) : Prop :=
  wdepth tr = S d /\ wdepth tr' = d /\
  exists G' g', gid g' = wroot tr' /\ upd_ok (gh (wth tr) G) A [g] Bc (gh (wth tr') G') [g'] /\ nok (wtb tr') [g'] /\
    wf (rmin d) d lo hi g' /\ ents [g'] = del k (ents [g]).

Lemma wk_SS (tr : wtree V) d id k : wk_keys N M tr (S (S d)) id k =
  do b <- getwb (wtb tr) id; do n <- aget (bs b) 0; do pos <- wb_pos b k; do c <- wb_child N b pos;
  do m <- wk_keys N M tr (S d) c k;
  if m <? (N + 1) / 2 then
    if (S (S d) =? wdepth tr) && (n =? 1) && (pos =? 2) then
      do c1 <- wb_child N b 1; do b1 <- getwb (wtb tr) c1; do p <- aget (bs b1) 0;
      if (0 <? p) && (p <=? (N + 1) / 2) then Ok 0 else UB
    else UB
  else Ok n.
Proof. reflexivity. Qed.
Lemma we_SS (tr : wtree V) d id k : we_erase_branch N M tr (S (S d)) id k =
  do b <- getwb (wtb tr) id; do pos <- wb_pos b k; do c <- wb_child N b pos;
  do r <- we_erase_branch N M tr (S d) c k;
  let '(t1, deleted) := r in
  do b1 <- getwb (wtb t1) id; do pos1 <- wb_pos b1 k; do cb <- getwb (wtb t1) c; do m <- aget (bs cb) 0;
  if m <? (N + 1) / 2 then
    do r2 <- we_underflow_branch N (wtb t1) id pos1 c;
    let '(B2, c') := r2 in
    do b2 <- getwb B2 id; do n <- aget (bs b2) 0;
    if (S (S d) =? wdepth t1) && (n =? 0) then Ok (WTree (wth t1) B2 c' (wdepth t1 - 1), deleted)
    else Ok (WTree (wth t1) B2 (wroot t1) (wdepth t1), deleted)
  else Ok (t1, deleted).
Proof. reflexivity. Qed.

(** The second child of a root with one key is merged into the first. *)
Lemma root_merge_ok (B : nat -> option wbranch) i b x c1 c2 b1 b2 k1 ch1 k2 ch2 :
  B i = Some b -> wbrep N b [x] [c1; c2] -> B c1 = Some b1 -> B c2 = Some b2 -> wbrep N b1 k1 ch1 -> wbrep N b2 k2 ch2 ->
  1 <= length k1 <= (N + 1) / 2 -> length k2 < (N + 1) / 2 -> ssorted (k1 ++ x :: k2) ->
  exists m b', we_underflow_branch N B i 2 c2 = Ok (upd (upd (upd B c1 (Some m)) c2 None) i (Some b'), c1) /\
    wbrep N m (k1 ++ x :: k2) (ch1 ++ ch2) /\ aget (bs b') 0 = Ok 0.
Proof.
  intros Eb HR E1 E2 R1 R2 L1 L2 HS.
  destruct (@wb_slot N HN b [] x [] _ HR) as (ea & c & eb & last & s1 & p & s2 & R & c0 & Ka & Kb & Ec & Es & EL & Ew & LS1 & LS2 & HSt & HO).
  destruct ea; [|discriminate Ka]. destruct eb; [|discriminate Kb]. destruct s1; [|discriminate LS1]. destruct s2; [|discriminate LS2].
  cbn [app map length] in *. injection Ec as <- <-.
  assert (HL : length k1 + 1 + length k2 <= N) by lia.
  destruct (wb_merge_ok HN R1 R2 HL HS) as (m & Em & Rm).
  destruct (@store_mid _ N _ _ _ [] p [] [] (x, c1) [] eq_refl HSt) as [Kx Vx]. cbn [fst snd] in *.
  unfold we_underflow_branch, getwb. rewrite Eb, E2. cbn [of_opt bind]. rewrite Es. cbn [aget nth_error bind].
  change (1 <? 2) with true. change (2 - 1) with 1. cbn [aget nth_error bind].
  rewrite Ew, (aget_app_l [Some c2] Vx). cbn [bind]. rewrite E1. cbn [of_opt bind]. rewrite (wb_n_ok R1). cbn [bind fst snd].
  rewrite (proj2 (Nat.ltb_ge _ _) (proj2 L1)). cbn [andb]. change (2 <? 1) with false. change (2 <=? 1) with false. cbn [bind andb fst snd].
  rewrite (proj2 (Nat.ltb_lt 0 (length k1)) ltac:(lia)). rewrite E1. cbn [of_opt bind].
  pose proof (@wb_key_ok N HN b [] x [] _ HR) as EKx. cbn [length] in EKx. rewrite EKx. cbn [bind]. rewrite Em. cbn [bind].
  unfold wb_shift. rewrite Es. cbn [aget nth_error bind]. change (1 - 1 - 1) with 0. cbn [for_up bind aset lset of_opt].
  eexists _, _. splits; [reflexivity|exact Rm|reflexivity].
Qed.

Lemma leaves_nok (B : nat -> option wbranch) (cs : list gt) : forall lo ks hi, kids (wf 1 0) lo ks cs hi -> nok B cs.
Proof.
  intros lo ks hi H. unfold XTree.nok. enough (nds cs = []) as -> by constructor.
  revert lo ks H. induction cs as [|g cs IHc]; intros lo ks HK; [reflexivity|].
  destruct ks as [|y ks]; cbn [kids] in HK.
  - destruct cs; [|tauto]. destruct HK as [_ HK]. apply wf0_leaf in HK as (? & ? & -> & _). reflexivity.
  - destruct HK as (_ & HW & HK). apply wf0_leaf in HW as (? & ? & -> & _). change (GL x x0 :: cs) with ([GL x x0] ++ cs). rewrite nds_app.
    cbn [app]. eapply IHc; eauto.
Qed.

Lemma wk_branch_ok d : forall m (tr : wtree V) G A g Bc lo hi k n, m <= 1 -> wf m (S d) lo hi g -> inb lo hi k ->
  inv (gh (wth tr) G) A [g] Bc -> nok (wtb tr) [g] -> S d <= wdepth tr ->
  wk_keys N M tr (S d) (gid g) k = Ok n -> exists r,
  we_erase_branch N M tr (S d) (gid g) k = Ok r /\ snd r = had k (ents [g]) /\
  (er_same n m d lo hi tr G A g Bc k (fst r) \/ er_root d lo hi tr G A g Bc k (fst r)).
Proof.
  induction d as [|d IH]; intros m tr G A [i es|i ks cs] Bc lo hi k n Hm HW Hk HI HX HD CK; try (cbn [BTreeGhost.wf] in HW; tauto).
  - (* above the leafs *)
    change (m <= length ks <= N /\ kids (wf 1 0) lo ks cs hi) in HW. destruct HW as [HC HK]. pose proof HI as HI0.
    apply inv_GB in HI as (HI & Hfi & Hni & _). apply nok_GB in HX as [(b & Eb & Hb) HX]. cbn [fst snd] in *.
    destruct (route HK Hk) as (a & bb & CA & c & CB & -> & -> & LA & LB & Ha & Hbb & KL & Rc & Bd & KR & Hkc).
    destruct (ctx_ents (wf_okc (m := 1) (d := 0)) KL KR Hkc) as [HA HBB].
    apply wf0_leaf in Rc as (j & es & -> & Ss & Fs & Cs).
    pose proof (wb_pos_ok Hb Ha Hbb) as Ep.
    assert (Ecp : wb_child N b (S (length a)) = Ok j).
    { rewrite map_app in Hb. cbn [map gid] in Hb. apply (wb_child_ok HN Hb); now rewrite map_length. }
    change (CA ++ GL j es :: CB) with (CA ++ [GL j es] ++ CB) in *.
    destruct (@leaf_of _ _ N rep (gh (wth tr) G) A _ Bc j es HI) as (l & El & Hl).
    { rewrite !lvs_app. apply in_or_app. right. simpl. auto. }
    cbn [gh hl] in El.
    cbn [gid] in *. cbn [wk_keys] in CK. cbn [we_erase_branch].
    unfold getwb in *. rewrite Eb in *. cbn [of_opt bind] in *. rewrite (wb_n_ok Hb) in CK. cbn [bind] in CK.
    rewrite Ep in *. cbn [bind] in *. rewrite Ecp in *. cbn [bind] in *.
    unfold erase_leaf in *. unfold getl at 1 2 in CK. unfold getl at 1. rewrite El in *. cbn [of_opt bind] in *.
    destruct (wk_leaf M l k) as [u| |] eqn:EU; cbn [bind] in CK; try discriminate CK.
    destruct (wk_leaf_ok Hl EU) as (l' & EE & Hl').
    rewrite EE in *. cbn [bind fst snd] in *. unfold getl at 1 in CK. unfold getl at 1. cbn [set_leaf hl] in CK |- *. rewrite upd_same' in *. cbn [of_opt bind] in *.
    pose proof (inv_sub HI) as HIc. pose proof (set_leaf_upd HIc Hl') as U0. pose proof (upd_ctx HI U0) as U1.
    assert (EN : ents (CA ++ [GL j (del k es)] ++ CB) = del k (ents (CA ++ [GL j es] ++ CB))).
    { rewrite !ents_app, !ents_GL. rewrite del_app_lt by assumption. now rewrite del_app_gt. }
    assert (HH : had k (ents [GB i (a ++ bb) (CA ++ [GL j es] ++ CB)]) = had k es).
    { rewrite ents_GB. cbn [app]. rewrite had_mid by assumption. now rewrite ents_GL. }
    assert (SD : sorted (del k es)) by now apply sorted_del.
    assert (FD : Forall (inb (lb lo a) (hbd bb hi)) (keys (del k es))).
    { rewrite Forall_forall in *. intros z Hz. apply Fs. eapply del_in_keys; eauto. }
    pose proof (length_del_le k Ss) as LD. assert (HMB : 1 <= (M + 1) / 2) by (apply Nat.div_le_lower_bound; lia).
    rewrite (w_cnt Hl') in *. cbn [bind] in *.
    destruct (Nat.ltb_spec (length (del k es)) ((M + 1) / 2)) as [HU|HU].
    + match type of CK with context [wk_fix M ?x ?i ?p ?c] => set (t1 := x) in * end.
      destruct (wk_fix M t1 i (S (length a)) j) as [mg| |] eqn:ECK; cbn [bind] in CK; try discriminate CK.
      destruct (@wk_fix_ok t1 G A i b a bb CA j (del k es) CB Bc lo hi l' mg) as (tr' & E2 & HP); auto.
      { exact (uo_inv U1). }
      { rewrite !map_app in *. exact Hb. }
      { unfold t1. cbn [wth set_leaf hl]. apply upd_same'. }
      rewrite E2. cbn [bind]. injection CK as <-. eexists. split; [reflexivity|]. cbn [fst snd]. split; [now rewrite HH|].
      destruct HP as [(P1 & P2 & b' & ks' & cs' & P3 & P4 & P5 & P6 & P7 & P8 & P9) | (P1 & P2 & P3 & g' & P4 & P5 & P6 & P7 & P8)].
      * left. split; [exact P1|]. split; [exact P2|].
        assert (UC : upd_ok (gh (wth tr) G) A (CA ++ [GL j es] ++ CB) Bc (gh (wth tr') G) cs') by (eapply upd_trans; [exact U1|exact P4]).
        exists (upd G i (Some (canon N ks' (map (@gid V) cs')))), (GB i ks' cs'), b'.
        splits; auto.
        -- rewrite P3. unfold t1. cbn [wtb gid]. apply upd_same'.
        -- rewrite (wb_n_ok P5). f_equal. destruct mg; lia.
        -- apply (@upd_node _ _ _ _ (gh (wth tr) G) A i (a ++ bb) _ Bc (gh (wth tr') G) _ (canon N ks' (map (@gid V) cs')) _ _ HI0 UC eq_refl).
           apply canon_brep; [exact (wb_len HN P5)|]. rewrite map_length. eapply kids_length; eauto.
        -- apply nok_GB. split; [|eapply leaves_nok; eauto]. exists b'. cbn [fst snd]. rewrite P3. rewrite upd_same'. auto.
        -- intros z Hz. rewrite P3. unfold t1. cbn [wtb]. apply upd_other. intros ->. apply Hz. rewrite bids_GB. simpl; auto.
        -- cbn [BTreeGhost.wf]. split; auto. pose proof (wb_len HN P5). lia.
        -- rewrite !ents_GB. now rewrite P7.
      * right. split; [exact P1|]. split; [exact P2|]. exists G, g'. splits; auto.
        -- apply upd_drop. eapply upd_trans; [exact U1|exact P6].
        -- apply wf0_leaf in P7 as (? & ? & -> & _). constructor.
        -- apply wf0_leaf in P7 as (? & ? & -> & Q1 & Q2 & Q3). cbn [rmin BTreeGhost.wf]. splits; auto; lia.
        -- rewrite ents_GB. now rewrite P8.
    + injection CK as <-. eexists. split; [reflexivity|]. cbn [fst snd]. split; [now rewrite HH|]. left. unfold er_same. cbn [wroot wdepth wth wtb].
      splits; auto. exists G, (GB i (a ++ bb) (CA ++ [GL j (del k es)] ++ CB)), b.
      assert (EM : map (@gid V) (CA ++ [GL j (del k es)] ++ CB) = map (@gid V) (CA ++ [GL j es] ++ CB)) by now rewrite !map_app.
      splits; auto.
      * exact (wb_n_ok Hb).
      * exact (upd_node_same HI0 U1 EM).
      * apply nok_GB. split; [exists b; cbn [fst snd]; split; auto; rewrite EM; exact Hb|].
        apply nok_app in HX as [X1 X2]. apply nok_app in X2 as [_ X2]. apply nok_app. split; auto.
      * cbn [BTreeGhost.wf]. split; auto.
        pose proof (@kids_ctx _ (wf 1 0) a CA bb CB lo hi [] [GL j (del k es)] LA LB) as EK. cbn [app mn] in EK |- *.
        apply EK. splits; auto. cbn [kids BTreeGhost.wf]. splits; auto; lia.
      * rewrite !ents_GB. exact EN.
  - (* higher up *)
    cbn [BTreeGhost.wf] in HW. destruct HW as [HC HK]. pose proof HI as HI0.
    apply inv_GB in HI as (HI & Hfi & Hni & _). apply nok_GB in HX as [(b & Eb & Hb) HX]. cbn [fst snd] in *.
    destruct (route HK Hk) as (a & bb & CA & c & CB & -> & -> & LA & LB & Ha & Hbb & KL & Rc & Bd & KR & Hkc).
    destruct (ctx_ents (wf_okc (m := mn 1 0 (S d)) (d := S d)) KL KR Hkc) as [HA HBB].
    pose proof (wb_pos_ok Hb Ha Hbb) as Ep.
    assert (Ecp : wb_child N b (S (length a)) = Ok (gid c)).
    { pose proof Hb as Hb'. rewrite map_app in Hb'. cbn [map] in Hb'. apply (wb_child_ok HN Hb'); now rewrite map_length. }
    change (CA ++ c :: CB) with (CA ++ [c] ++ CB) in HI, HX. pose proof (inv_sub HI) as HIc.
    apply nok_app in HX as [XA HX]. apply nok_app in HX as [Xc XB].
    cbn [gid] in *. rewrite wk_SS in CK. rewrite we_SS.
    unfold getwb at 1 in CK. unfold getwb at 1. rewrite Eb in *. cbn [of_opt bind] in *. rewrite (wb_n_ok Hb) in CK. cbn [bind] in CK.
    rewrite Ep in *. cbn [bind] in *. rewrite Ecp in *. cbn [bind] in *.
    destruct (wk_keys N M tr (S d) (gid c) k) as [n'| |] eqn:ECK; cbn [bind] in CK; try discriminate CK.
    destruct (IH (mn 1 0 (S d)) tr G _ c _ _ _ k n' ltac:(cbn [mn]; lia) Rc Hkc HIc Xc ltac:(lia) ECK) as ([t1 dl] & E1 & E2 & HP).
    rewrite E1. cbn [bind fst snd] in *.
    destruct HP as [(P1 & P2 & G' & g' & cb & P3 & Ecb & Ccb & P4 & P5 & P6 & P7 & P8) | (P1 & _)]; [|lia].
    assert (Hnc : ~ In i (bids [c])). { intros Hc. apply Hni. apply in_bids_mid. auto. }
    unfold getwb at 1. rewrite (P6 i Hnc), Eb. cbn [of_opt bind].
    rewrite Ep. cbn [bind]. unfold getwb at 1. rewrite Ecb. cbn [of_opt bind]. rewrite Ccb. cbn [bind].
    pose proof (upd_ctx HI P4) as UC.
    assert (NDB : NoDup (bids (CA ++ [c] ++ CB))) by apply (inv_ndb HI).
    rewrite !bids_app in NDB. apply NoDup_app_inv in NDB as (_ & NDB & ND1). apply NoDup_app_inv in NDB as (_ & _ & ND2).
    assert (HH : dl = had k (ents [GB i (a ++ bb) (CA ++ c :: CB)])).
    { rewrite E2. rewrite ents_GB. now rewrite had_mid by assumption. }
    assert (EE : ents (CA ++ [g'] ++ CB) = del k (ents (CA ++ c :: CB))).
    { change (CA ++ c :: CB) with (CA ++ [c] ++ CB). rewrite !ents_app, P8.
      rewrite del_app_lt by assumption. now rewrite del_app_gt. }
    destruct (Nat.ltb_spec n' ((N + 1) / 2)) as [HU|HU].
    + (* the root is merged away *)
      destruct ((S (S d) =? wdepth tr) && (length (a ++ bb) =? 1) && (S (length a) =? 2)) eqn:EC; [|discriminate CK].
      apply andb_prop in EC as [EC C3]. apply andb_prop in EC as [C1 C2]. apply Nat.eqb_eq in C1, C2, C3.
      rewrite app_length in C2. destruct a as [|x [|]]; cbn [length] in C2, C3; try lia. destruct bb; [|cbn [length] in C2; lia].
      destruct CB; [|discriminate LB]. destruct CA as [|gp [|]]; cbn [length] in LA; try lia. clear LA LB C2 C3.
      cbn [app kl kr lb hbd hd map last] in *. cbn [kids] in HK. destruct HK as (Bx1 & Wp & Bx2 & Wc).
      destruct (wfS_branch Wp) as (ip & kp & cp & -> & Cp & Kp).
      destruct (wfS_branch P7) as (ic & kc & cc & -> & Cc & Kc). cbn [gid] in P3. rewrite <- P3 in *. cbn [gid] in *.
      assert (E1c : wb_child N b 1 = Ok ip).
      { apply (@wb_child_ok N HN b [] [x] [] ip [ic]); auto. }
      rewrite E1c in CK. cbn [bind] in CK.
      assert (Hpt : wtb t1 ip = wtb tr ip).
      { apply P6. intros Hc. eapply ND1; [rewrite bids_GB; simpl; auto|]. rewrite app_nil_r. exact Hc. }
      apply nok_GB in XA as [(bp & Ebp & Hbp) XA]. cbn [fst snd] in *.
      unfold getwb in CK. rewrite Ebp in CK. cbn [of_opt bind] in CK. rewrite (wb_n_ok Hbp) in CK. cbn [bind] in CK.
      destruct ((0 <? length kp) && (length kp <=? (N + 1) / 2)) eqn:EC; [|discriminate CK].
      apply andb_prop in EC as [C2 C3]. apply Nat.ltb_lt in C2. apply Nat.leb_le in C3. injection CK as <-.
      pose proof P5 as P5'. apply nok_GB in P5 as [(cb' & Ecb' & Hcb) Xcc]. cbn [fst snd] in *. rewrite Ecb in Ecb'. injection Ecb' as <-.
      rewrite (wb_n_ok Hcb) in Ccb. injection Ccb as Ccb.
      assert (HKM : kids (wf (mn 1 0 d) d) lo (kp ++ x :: kc) (cp ++ cc) hi).
      { apply kids_cut; [eapply kids_length; eauto|]. split; auto. }
      destruct (kids_sorted HKM) as [HSM _].
      rewrite <- Hpt in Ebp.
      assert (Ei : wtb t1 i = Some b) by now rewrite (P6 i Hnc).
      change (S (length [x])) with 2.
      destruct (@root_merge_ok (wtb t1) i b x ip ic bp cb kp (map (@gid V) cp) kc (map (@gid V) cc) Ei Hb Ebp Ecb Hbp Hcb) as (mb & b' & -> & Rm & Eb0); auto; try lia.
      cbn [bind]. unfold getwb. rewrite upd_same'. cbn [of_opt bind]. rewrite Eb0. cbn [bind].
      rewrite P2, C1, Nat.eqb_refl. change (0 =? 0) with true. cbn [andb].
      eexists. split; [reflexivity|]. cbn [fst snd]. split; [exact HH|]. right. unfold er_root. cbn [wroot wdepth wth wtb].
      split; [auto|]. split; [lia|].
      pose proof (uo_inv UC) as IM. change ([GB ip kp cp] ++ [GB ic kc cc] ++ []) with [GB ip kp cp; GB ic kc cc] in IM.
      destruct (inv_bpair IM) as (Hne & Hip & Hic & NDc & _ & _ & _).
      assert (LM : length (map (@gid V) (cp ++ cc)) = S (length (kp ++ x :: kc))).
      { rewrite map_length. eapply kids_length; eauto. }
      assert (LN : length (kp ++ x :: kc) <= N) by (rewrite app_length; cbn [length]; lia).
      exists (upd G' ip (Some (canon N (kp ++ x :: kc) (map (@gid V) (cp ++ cc))))), (GB ip (kp ++ x :: kc) (cp ++ cc)).
      assert (UM : upd_ok (gh (wth t1) G') A [GB ip kp cp; GB ic kc cc] Bc
                 (gh (wth t1) (upd G' ip (Some (canon N (kp ++ x :: kc) (map (@gid V) (cp ++ cc)))))) [GB ip (kp ++ x :: kc) (cp ++ cc)]).
      { eapply (@bmerge_up _ V N rep); [exact IM|..]; cbn [gh hl hnx hpv hfresh hb]; auto.
        - apply upd_same'.
        - intros j J1 J2. now apply upd_other.
        - now apply canon_brep. }
      assert (Hin : forall z, In z (bids (cp ++ cc)) -> z <> ip /\ z <> ic /\ z <> i).
      { intros z Hz. splits; [congruence|congruence|]. intros ->. rewrite bids_app in Hz. apply in_app_or in Hz as [Hz|Hz].
        - apply Hni. change [GB ip kp cp; c] with ([GB ip kp cp] ++ [c]). rewrite bids_app, bids_GB. apply in_or_app. simpl. auto.
        - destruct (uo_b P4 (i := i)) as [Hc|Hc].
          + rewrite bids_GB. simpl. auto.
          + now apply Hnc.
          + cbn [gh hfresh] in *. lia. }
      splits; auto.
      * apply upd_drop. eapply upd_trans; [exact UC|exact UM].
      * apply nok_GB. split.
        -- exists mb. cbn [fst snd]. split; [|rewrite map_app; exact Rm].
           assert (ip <> i). { intros ->. apply Hni. change [GB i kp cp; c] with ([GB i kp cp] ++ [c]). rewrite bids_app, bids_GB. simpl. auto. }
           rewrite upd_other by auto. rewrite upd_other by auto. apply upd_same'.
        -- apply nok_app. split.
           ++ eapply nok_frame; [|exact XA]. intros z Hz. destruct (Hin z) as (Z1 & Z2 & Z3); [rewrite bids_app; apply in_or_app; auto|].
              rewrite !upd_other by auto. apply P6. intros Hc. eapply ND1; [rewrite bids_GB; simpl; right; exact Hz|]. rewrite app_nil_r. exact Hc.
           ++ eapply nok_frame; [|exact Xcc]. intros z Hz. destruct (Hin z) as (Z1 & Z2 & Z3); [rewrite bids_app; apply in_or_app; auto|].
              now rewrite !upd_other by auto.
      * cbn [rmin BTreeGhost.wf]. split; [rewrite app_length in *; cbn [length] in *; lia|exact HKM].
      * rewrite !ents_GB. rewrite <- EE. change ([GB ip kp cp] ++ [GB ic kc cc] ++ []) with [GB ip kp cp; GB ic kc cc]. now rewrite bpair_ents.
    + injection CK as <-. eexists. split; [reflexivity|]. cbn [fst snd]. split; [exact HH|].
      left. unfold er_same. splits; auto. exists G', (GB i (a ++ bb) (CA ++ [g'] ++ CB)), b.
      assert (EM : map (@gid V) (CA ++ [g'] ++ CB) = map (@gid V) (CA ++ c :: CB)).
      { rewrite !map_app. cbn [map app]. now rewrite P3. }
      splits; auto.
      * cbn [gid]. rewrite P6; auto.
      * exact (wb_n_ok Hb).
      * exact (upd_node_same HI0 UC EM).
      * apply nok_GB. split; [exists b; cbn [fst snd]; split; [rewrite P6; auto|]; rewrite EM; exact Hb|].
        apply nok_app. split; [|apply nok_app; split; auto].
        -- eapply nok_frame; [|exact XA]. intros z Hz. apply P6. intros Hc. eapply ND1; [exact Hz|]. apply in_or_app; auto.
        -- eapply nok_frame; [|exact XB]. intros z Hz. apply P6. intros Hc. eapply ND2; [exact Hc|exact Hz].
      * intros z Hz. apply P6. intros Hc. apply Hz. rewrite bids_GB. right. apply in_bids_mid. auto.
      * cbn [BTreeGhost.wf]. split; auto.
        pose proof (@kids_ctx _ (wf (mn 1 0 (S d)) (S d)) a CA bb CB lo hi [] [g'] LA LB) as EK. cbn [app] in EK |- *.
        apply EK. splits; auto. cbn [kids]. auto.
      * rewrite !ents_GB. exact EE.
Qed.

(** ** The whole tree *)
Notation winv := (@winv V N M).

Lemma wk_erase_ok (tr : wtree V) es k u : winv tr es -> wk_erase N M tr k = Ok u -> exists r,
  we_erase N M tr k = Ok r /\ snd r = had k es /\ winv (fst r) (del k es).
Proof.
  intros (G & g & Eg & HW & HI & HX & <-) CK. destruct tr as [h B r0 d]. cbn [to_x xroot xdepth xth xtb wroot wdepth wth wtb] in *. subst r0.
  unfold wk_erase in CK. unfold we_erase. cbn [wdepth wroot wth wtb] in *. destruct d as [|d].
  - destruct g as [i es|i ks cs]; [|cbn [rmin BTreeGhost.wf] in HW; tauto]. cbn [gid] in *.
    destruct (inv_GL HI) as (l & El & Hl & _). cbn [gh hl] in El. unfold getl in CK. rewrite El in CK. cbn [of_opt bind] in CK.
    destruct (wk_leaf_ok Hl CK) as (l' & EE & Hl').
    unfold erase_leaf, getl. rewrite El. cbn [of_opt bind]. rewrite EE. cbn [bind fst snd].
    eexists. split; [reflexivity|]. cbn [fst snd]. rewrite ents_GL. splits; auto.
    exists G, (GL i (del k es)). cbn [to_x xroot xdepth xth xtb wroot wdepth wth wtb gid].
    pose proof (set_leaf_upd HI Hl') as U. cbn [rmin BTreeGhost.wf] in *. destruct HW as (W1 & W2 & W3).
    splits; auto.
    + now apply sorted_del.
    + rewrite Forall_forall in *. intros z Hz. apply W2. eapply del_in_keys; eauto.
    + lia.
    + pose proof (length_del_le k W1). lia.
    + exact (uo_inv U).
    + apply ents_GL.
  - destruct (wk_keys N M (WTree h B (gid g) (S d)) (S d) (gid g) k) as [n| |] eqn:EK; try discriminate CK.
    destruct (@wk_branch_ok d (rmin (S d)) (WTree h B (gid g) (S d)) G [] g [] None None k n (le_n 1) HW ltac:(split; exact Logic.I) HI HX (le_n _) EK) as (r & E1 & E2 & HP).
    exists r. split; [exact E1|]. split; [exact E2|]. destruct HP as [(P1 & P2 & G' & g' & _ & P3 & _ & _ & P4 & P5 & P6 & P7 & P8) | (P1 & P2 & G' & g' & P3 & P4 & P5 & P6 & P7)].
    + cbn [wroot wdepth] in P1, P2. exists G', g'. cbn [to_x xroot xdepth xth xtb]. rewrite P1, P2. splits; auto. exact (uo_inv P4).
    + exists G', g'. cbn [to_x xroot xdepth xth xtb]. rewrite P2. splits; auto. exact (uo_inv P4).
Qed.

(** ** Insert *)
Lemma route_leaf d : forall m g lo hi A Bc h G (B : nat -> option wbranch) k, wf m d lo hi g -> inb lo hi k ->
  inv (gh h G) A [g] Bc -> nok B [g] ->
  exists i e, wt_route N B d (gid g) k = Ok i /\ In (i, e) (lvs [g]) /\
    forall p, In p (lvs [g]) -> p = (i, e) \/ alt k (keys (snd p)) \/ agt k (keys (snd p)).
Proof.
  induction d as [|d IH]; intros m g lo hi A Bc h G B k HW Hk HI HX.
  - apply wf0_leaf in HW as (j & es & -> & _). exists j, es. cbn. splits; auto. intros p [<-|[]]. auto.
  - destruct g as [i es|i ks cs]; [cbn [BTreeGhost.wf] in HW; tauto|]. cbn [BTreeGhost.wf] in HW. destruct HW as [HC HK].
    apply inv_GB in HI as (HI & Hfi & Hni & _). apply nok_GB in HX as [(b & Eb & Hb) HX]. cbn [fst snd] in *.
    destruct (route HK Hk) as (a & bb & CA & c & CB & -> & -> & LA & LB & Ha & Hbb & KL & Rc & Bd & KR & Hkc).
    destruct (ctx_ents (wf_okc (m := mn 1 0 d) (d := d)) KL KR Hkc) as [HA HBB].
    change (CA ++ c :: CB) with (CA ++ [c] ++ CB) in HI, HX. pose proof (inv_sub HI) as HIc.
    apply nok_app in HX as [XA HX]. apply nok_app in HX as [Xc XB].
    destruct (IH _ c _ _ _ _ _ _ B k Rc Hkc HIc Xc) as (j & e & Er & Hin & Hall).
    exists j, e. rewrite lvs_GB. change (CA ++ c :: CB) with (CA ++ [c] ++ CB). rewrite !lvs_app.
    cbn [gid wt_route]. unfold getwb. rewrite Eb. cbn [of_opt bind]. rewrite (wb_pos_ok Hb Ha Hbb). cbn [bind].
    rewrite map_app in Hb. cbn [map] in Hb. rewrite (wb_child_ok HN Hb) by now rewrite map_length. cbn [bind].
    splits; auto.
    + apply in_or_app. right. apply in_or_app. auto.
    + intros p Hp. apply in_app_or in Hp as [Hp|Hp]; [|apply in_app_or in Hp as [Hp|Hp]]; auto.
      * right. left. destruct p as [q es]. apply lvs_seg in Hp as (x & y & E). rewrite E, !keys_app in HA. unfold alt in *.
        rewrite !Forall_app in HA. tauto.
      * right. right. destruct p as [q es]. apply lvs_seg in Hp as (x & y & E). rewrite E, !keys_app in HBB. unfold agt in *.
        rewrite !Forall_app in HBB. tauto.
Qed.

Lemma wk_insert_ok (tr : wtree V) es k v u : 3 <= M -> winv tr es -> wk_insert N M tr k = Ok u ->
  exists t', wt_insert N M tr k v = Ok t' /\ winv t' (ins k v es).
Proof.
  intros H3 (G & g & Eg & HW & HI & HX & Ee) CK.
  cbn [to_x xroot xdepth xth xtb] in *.
  destruct (@route_leaf _ _ g None None [] [] (wth tr) G (wtb tr) k HW ltac:(split; exact Logic.I) HI HX) as (i & e & Er & Hin & Hall).
  assert (HRM : room M k e).
  { unfold wk_insert in CK. rewrite <- Eg, Er in CK. cbn [bind] in CK.
    destruct (@leaf_of _ _ N rep (gh (wth tr) G) [] _ [] i e HI Hin) as (l & El & Hl). cbn [gh hl] in El.
    unfold getl in CK. rewrite El in CK. cbn [of_opt bind] in CK. rewrite (w_cnt Hl) in CK. cbn [bind] in CK.
    destruct (Nat.ltb_spec (length e) M) as [HL|HL]; [left; auto|]. right.
    rewrite (w_lookup_ok k Hl) in CK. cbn [bind] in CK. destruct (get k e) as [w|] eqn:E.
    - left. apply get_in in E; [|exact (wrep_sorted Hl)]. apply (in_map fst) in E. exact E.
    - right. destruct (locate k (wrep_sorted Hl)) as [(a & b & -> & Ha & Hb)|(a & w & b & -> & Ha & Hb)].
      + exists a, b. splits; auto. rewrite (w_pos_ok Hl (pos_alt_agt Ha Hb)) in CK. cbn [bind] in CK.
        destruct (Nat.eqb_spec (S (length a)) ((M + 1) / 2)); [discriminate CK|auto].
      + rewrite get_old in E by auto. discriminate E. }
  assert (H' : xinv N M (wrk M k) 1 (wbrep N) (to_x tr) es).
  { exists G, g. cbn [to_x xroot xdepth xth xtb]. splits; auto. eapply inv_weaken; [|exact HI].
    intros l j e2 Hj R. split; auto. destruct (Hall _ Hj) as [E|[E|E]].
    - injection E as -> ->. exact HRM.
    - cbn [snd] in E. apply (@room_max V N M HN HM k e2) with (a := []) (b := []); [|exact (wrep_sorted R)|now rewrite app_nil_r].
      eapply Forall_impl; [|exact E]. cbv beta. intros; lia.
    - cbn [snd] in E. apply (@room_min V N M HN HM k e2 H3 E) with (a := []) (b := []). now rewrite app_nil_r. }
  exact (wt_insert_rk HN HM v H').
Qed.

(** ** Histories *)
Lemma wk_step_ok (tr : wtree V) es o : 3 <= M -> winv tr es -> wk_ok N M tr o = true ->
  exists tr', we_step N M tr o = Ok tr' /\ winv tr' (apply_op (bop_of o) es).
Proof.
  intros H3 HI CK. unfold wk_ok in CK. destruct o as [k v|k]; cbn [we_step bop_of apply_op].
  - destruct (wk_insert N M tr k) eqn:E; try discriminate CK. eapply wk_insert_ok; eauto.
  - destruct (wk_erase N M tr k) eqn:E; try discriminate CK. destruct (wk_erase_ok HI E) as (r & -> & _ & HI'). cbn [bind]. eauto.
Qed.
Lemma wk_run_ok os : forall (tr : wtree V) es, 3 <= M -> winv tr es -> wk_fine N M tr os = true ->
  exists tr', we_run N M tr os = Ok tr' /\ winv tr' (fold_left (fun es o => apply_op o es) (map bop_of os) es).
Proof.
  induction os as [|o os IH]; intros tr es H3 HI CK; cbn [wk_fine we_run map fold_left] in *; [eauto|].
  apply andb_prop in CK as [C1 C2]. destruct (wk_step_ok H3 HI C1) as (t' & E & HI'). rewrite E in *. cbn [bind]. eauto.
Qed.

Lemma wk_hist os : 3 <= M -> wk_fine N M (wt_new V M) os = true -> exists tr,
  we_run N M (wt_new V M) os = Ok tr /\ (forall k, we_at N tr k = Ok (m_run os k)) /\
  (forall k v, wk_ok N M tr (OpInsert k v) = true -> exists tr',
    wt_insert N M tr k v = Ok tr' /\ forall x, we_at N tr' x = Ok (m_put (m_run os) k v x)) /\
  (forall k, wk_ok N M tr (OpErase V k) = true -> exists tr' b,
    we_erase N M tr k = Ok (tr', b) /\ (b = true <-> m_run os k <> None) /\
    forall x, we_at N tr' x = Ok (m_del (m_run os) k x)).
Proof.
  intros H3 CK. destruct (wk_run_ok (es := []) (os := os) H3 (winvs_inv (wt_new_inv V HN HM)) CK) as (tr & E & HI).
  set (es := fold_left (fun es o => apply_op o es) (map bop_of os) []) in *.
  pose proof (winv_sorted HI) as HS.
  assert (HG : forall x, get x es = m_run os x) by (intros; apply ops_run). clearbody es.
  exists tr. split; [exact E|]. split; [|split].
  - intros k. unfold we_at. rewrite (wt_route_ok HN HM k HI). now rewrite HG.
  - intros k v C. unfold wk_ok in C. destruct (wk_insert N M tr k) eqn:EI; try discriminate C.
    destruct (wk_insert_ok v H3 HI EI) as (t' & -> & HI'). exists t'. split; auto. intros x. unfold we_at.
    rewrite (wt_route_ok HN HM x HI'). f_equal. rewrite get_ins by auto. unfold m_put. now rewrite HG.
  - intros k C. unfold wk_ok in C. destruct (wk_erase N M tr k) eqn:EI; try discriminate C.
    destruct (wk_erase_ok HI EI) as ([t' b] & -> & EB & HI'). cbn [fst snd] in *. exists t', b. split; auto. split.
    + rewrite EB. unfold BitEProofs.had. rewrite HG. destruct (m_run os k); split; congruence.
    + intros x. unfold we_at. rewrite (wt_route_ok HN HM x HI'). f_equal. rewrite get_del by auto. unfold m_del. now rewrite HG.
Qed.
End WErase.
