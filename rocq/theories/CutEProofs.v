(** Interrupted erase: the leaves left behind, and recovery from them. *)
From Verif Require Import Base ArrLemmas MapSpec SortedList BTreeModel BTreeLaws BTreeBranch BTreeGhost BTreeSpec BTreeInsert BTreeErase
  BTreeHist BTreeMain RecoverModel RecoverProofs CutModel CutSpec CutProofs.
Open Scope nat_scope.

Ltac bnd H := match type of H with
  | bind ?e _ = Ok _ => let x := fresh "x" in let E := fresh "E" in destruct e as [x| |] eqn:E; cbn [bind] in H; [|discriminate H|discriminate H]
  | (if ?e then _ else _) = Ok _ => let E := fresh "E" in destruct e eqn:E
  | UB = Ok _ => discriminate H
  end.
Ltac bnds H := repeat bnd H.

Section E.
Variables (L V : Type) (N M : nat) (O : leafops L V).
Notation hp := (heap L).

(** Same leaves and links. *)
Definition sl (h h' : hp) : Prop := hl h' = hl h /\ hnx h' = hnx h /\ hpv h' = hpv h /\ hfresh h' = hfresh h.
Lemma sl_refl h : sl h h. Proof. repeat split. Qed.
Lemma sl_trans a b c : sl a b -> sl b c -> sl a c.
Proof. unfold sl. intros (A1 & A2 & A3 & A4) (B1 & B2 & B3 & B4). repeat split; congruence. Qed.

Lemma merge_branch_sl (h : hp) a k b h' : merge_branch h a k b = Ok h' -> sl h h'.
Proof. unfold merge_branch. intros H. bnds H. injection H as <-. repeat split. Qed.
Lemma free_branch_sl (h : hp) a h' : free_branch h a = Ok h' -> sl h h'.
Proof. unfold free_branch. intros H. bnds H. injection H as <-. repeat split. Qed.
Lemma remove_branch_child_sl (h : hp) a p q h' : remove_branch_child h a p q = Ok h' -> sl h h'.
Proof. unfold remove_branch_child. intros H. bnds H. injection H as <-. repeat split. Qed.
Lemma balance_branch_sl (h : hp) a b p q h' : balance_branch h a b p q = Ok h' -> sl h h'.
Proof. unfold balance_branch. cbv zeta. intros H. bnds H; injection H as <-; repeat split. Qed.
Lemma underflow_branch_sl (h : hp) id pos c h' c' : underflow_branch N h id pos c = Ok (h', c') -> sl h h'.
Proof.
  unfold underflow_branch. cbv zeta. intros H. bnds H; injection H as <- _;
  repeat match goal with E : balance_branch _ _ _ _ _ = Ok _ |- _ => apply balance_branch_sl in E
    | E : merge_branch _ _ _ _ = Ok _ |- _ => apply merge_branch_sl in E | E : free_branch _ _ = Ok _ |- _ => apply free_branch_sl in E
    | E : remove_branch_child _ _ _ _ = Ok _ |- _ => apply remove_branch_child_sl in E end; eauto using sl_trans.
Qed.

Lemma erase_branch_2 (t : tree L) d id key : erase_branch N M O t (S (S d)) id key =
  (do b <- getb (th t) id;
   do pos <- lo_bpos O (bk b) (bn b) key;
   do c <- aget (bc b) pos;
   do r <- erase_branch N M O t (S d) c key;
   let '(t1, deleted) := r in
   do b1 <- getb (th t1) id;
   do pos1 <- lo_bpos O (bk b1) (bn b1) key;
   do cb <- getb (th t1) c;
   if bn cb <? (N + 1) / 2 then
     do r2 <- underflow_branch N (th t1) id pos1 c;
     let '(h2, c') := r2 in
     do b2 <- getb h2 id;
     if (S (S d) =? tdepth t1) && (bn b2 =? 0) then
       Ok (Tree h2 c' (tdepth t1 - 1), deleted)
     else Ok (Tree h2 (troot t1) (tdepth t1), deleted)
   else Ok (t1, deleted)).
Proof. reflexivity. Qed.

Lemma erase_cut_sl c d : forall t id key t' b, erase_branch N M O t d id key = Ok (t', b) ->
  exists t2, erase_cut N M O c t d id key = Ok t2 /\ sl (th t2) (th t').
Proof.
  induction d as [|d IH]; intros t id key t' b H; [discriminate H|].
  cbn [erase_cut]. destruct (Nat.leb_spec (S d) c) as [Hc|Hc].
  { rewrite H. cbn [bind fst]. eexists. split; [reflexivity|]. cbn [th]. apply sl_refl. }
  destruct d as [|d].
  { rewrite H. cbn [bind fst]. eexists. split; [reflexivity|]. repeat split. }
  rewrite erase_branch_2 in H. destruct (getb (th t) id) as [b0| |]; cbn [bind] in H |- *; try discriminate H.
  destruct (lo_bpos O (bk b0) (bn b0) key) as [pos| |]; cbn [bind] in H |- *; try discriminate H.
  destruct (aget (bc b0) pos) as [ch| |]; cbn [bind] in H |- *; try discriminate H.
  destruct (erase_branch N M O t (S d) ch key) as [[t1 del]| |] eqn:E1; cbn [bind] in H; try discriminate H.
  destruct (IH _ _ _ _ _ E1) as (t2 & E2 & S2). exists t2. split; [exact E2|]. eapply sl_trans; [exact S2|]. clear E2 S2 IH E1.
  bnds H.
  - match goal with E : underflow_branch _ _ _ _ _ = Ok ?y |- _ => destruct y as [h2 c'']; apply underflow_branch_sl in E; rename E into EU end.
    bnds H; injection H as <- _; cbn [th]; exact EU.
  - injection H as <- _. apply sl_refl.
Qed.
End E.

(** ** The first step: the entry has left its leaf *)
Lemma wf_weakL {V} N M minL minL' minB : minL' <= minL -> forall d m m' lo hi (g : gt V), m' <= m -> wf N M minL minB m d lo hi g -> wf N M minL' minB m' d lo hi g.
Proof.
  intros HL. induction d as [|d IH]; intros m m' lo hi [i es|i ks cs] Hm W; try contradiction W.
  - cbn [wf] in *. intuition lia.
  - cbn [wf] in *. destruct W as [W K]. split; [lia|]. eapply kids_impl; [|exact K]. intros x y c _. apply IH.
    destruct d; cbn [mn]; lia.
Qed.
Lemma leaf_laws_weak {L V} (O : leafops L V) M minL kok lrep : leaf_laws O M minL kok lrep -> leaf_laws O M (minL - 1) kok lrep.
Proof.
  intros LL. constructor; try apply LL. intros l es k v Hk Hl. destruct (law_insert LL v Hk Hl) as [H|(l1 & l2 & sk & e1 & e2 & H)]; [left; exact H|].
  right. exists l1, l2, sk, e1, e2. intuition lia.
Qed.

Section First.
Variables (L V : Type) (N M : nat) (O : leafops L V).
Variable lrep : L -> list (Z * V) -> Prop.
Variable lhint : L -> list (Z * V) -> Z -> Prop.
Variables minL minB : nat.
Variable kok : Z -> Prop.
Hypothesis LL : leaf_laws O M minL kok lrep.
Notation hp := (heap L).
Notation gt := (gt V).
Notation wf := (wf N M minL minB).
Notation wf1 := (BTreeGhost.wf N M (minL - 1) minB).
Notation inv := (inv N lrep).
Notation upd_ok := (upd_ok N lrep).

Lemma leaf_upd d : forall m h A (g : gt) B lo hi k, wf m d lo hi g -> inb lo hi k -> inv h A [g] B ->
  exists i l es, find_leaf O h d (gid g) k = Ok i /\ hl h i = Some l /\ lrep l es /\ get k es = get k (ents [g]) /\
    forall l', lrep l' (del k es) -> exists g', upd_ok h A [g] B (set_leaf h i l') [g'] /\ gid g' = gid g /\
      wf1 (match d with 0 => m - 1 | S _ => m end) d lo hi g' /\ ents [g'] = del k (ents [g]).
Proof.
  induction d as [|d IH]; intros m h A g B lo hi k W Hk I.
  - destruct g as [i es|]; [|contradiction W]. cbn [BTreeGhost.wf] in W. destruct W as (Ss & Fs & Cs).
    destruct (inv_GL I) as (l & El & Hl & _). exists i, l, es. rewrite ents_GL. cbn [gid find_leaf]. splits; auto.
    intros l' Hl'. exists (GL i (del k es)). cbn [gid BTreeGhost.wf]. rewrite ents_GL. pose proof (length_del_le k Ss). splits; auto.
    + now apply set_leaf_upd.
    + now apply sorted_del.
    + rewrite Forall_forall in *. intros z Hz. apply Fs. eapply del_in_keys; eauto.
    + lia.
    + lia.
  - destruct g as [|i ks cs]; [contradiction W|]. cbn [BTreeGhost.wf] in W. destruct W as [HC HK]. pose proof I as I0.
    apply inv_GB in I as (I & Hfi & Hni & (b & Eb & Hb)). cbn [fst snd] in *.
    destruct (route HK Hk) as (a & bb & CA & c & CB & -> & -> & LA & LB & Ha & Hbb & KL & Rc & Bc & KR & Hkc).
    destruct (kids_sorted HK) as [HS _]. change (CA ++ c :: CB) with (CA ++ [c] ++ CB) in *.
    pose proof (inv_sub I) as Ic.
    destruct (ctx_ents (@wf_okc V N M minL minB (mn minL minB d) d) KL KR Hkc) as [HA HBB].
    destruct (IH (mn minL minB d) h _ c _ _ _ k Rc Hkc Ic) as (j & l & es & EF & El & Hl & EG & HU).
    exists j, l, es. cbn [gid find_leaf]. unfold getb at 1. rewrite Eb. cbn [of_opt bind].
    rewrite (@bpos_ok L V N M O lrep minL kok LL b a bb _ k Hb HS Ha Hbb). cbn [bind].
    rewrite (@kid_at V N b _ CA c CB (length a) Hb) by auto. cbn [bind]. rewrite ents_GB. splits; auto.
    + rewrite EG, !ents_app. rewrite get_app_lt by assumption. now rewrite get_app_gt.
    + intros l' Hl'. destruct (HU l' Hl') as (g' & U & Eg & W' & EE).
      exists (GB i (a ++ bb) (CA ++ [g'] ++ CB)). cbn [gid]. splits; auto.
      * eapply upd_node_same; [exact I0|apply upd_ctx; [exact I|exact U]|]. rewrite !map_app. cbn [map]. now rewrite Eg.
      * cbn [BTreeGhost.wf]. split; [lia|].
        assert (HK' : kids (wf1 (mn (minL - 1) minB d) d) lo (a ++ bb) (CA ++ [c] ++ CB) hi).
        { eapply kids_impl; [|exact HK]. intros x y q _. apply wf_weakL; [lia|]. destruct d; cbn [mn]; lia. }
        pose proof (@kids_ctx _ (wf1 (mn (minL - 1) minB d) d) a CA bb CB lo hi [] [c] LA LB) as EK. cbn [app] in EK. apply EK in HK' as (K1 & _ & K2).
        pose proof (@kids_ctx _ (wf1 (mn (minL - 1) minB d) d) a CA bb CB lo hi [] [g'] LA LB) as EK'. cbn [app] in EK'.
        apply EK'. splits; auto. cbn [kids]. split; auto. destruct d; exact W'.
      * rewrite !ents_GB, !ents_app, EE. rewrite del_app_lt by assumption. now rewrite del_app_gt.
Qed.

Lemma erase_first_ok (EL : erase_laws O M lrep lhint) f t es k : tinvf N M lrep minL minB f t es -> get k es <> None ->
  exists t', t_erase_first O t k = Ok t' /\ tinvf N M lrep (minL - 1) minB f t' (del k es).
Proof.
  intros (g & Eg & W & I & <- & Ef) Hk.
  destruct (@leaf_upd (tdepth t) (rmin (tdepth t)) (th t) [] g [] None None k) as (i & l & es & EF & El & Hl & EG & HU); auto.
  - split; exact Logic.I.
  - unfold t_erase_first. rewrite <- Eg, EF. cbn [bind]. unfold erase_leaf, getl. rewrite El. cbn [of_opt bind].
    rewrite <- EG in Hk. destruct (law_erase EL Hl Hk) as (l' & EE & Hh). rewrite EE. cbn [bind fst snd].
    eexists. split; [reflexivity|]. destruct (HU l' (law_hint EL Hh)) as (g' & U & Eg' & W' & EE').
    exists g'. cbn [troot tdepth th]. splits; auto.
    + destruct (tdepth t); exact W'.
    + exact (uo_inv U).
    + now rewrite (uo_hd U).
Qed.
End First.

(** ** Recovery of a hybrid tree after the interrupted erase *)
Section Rec.
Variables (L V : Type) (N M : nat) (O : leafops L V).
Variable lrep : L -> list (Z * V) -> Prop.
Variable minL minB : nat.
Variable kok : Z -> Prop.
Hypothesis LL : leaf_laws O M minL kok lrep.
Hypothesis MK : forall l es x (v : V), lrep l ((x, v) :: es) -> lo_minkey O l = Ok x.
Hypothesis HN : 2 <= N.
Hypothesis HL : 1 <= minL.

Lemma recover_hyb_sl f t es h : tinvf N M lrep minL minB f t es -> sl (th t) h ->
  exists t', recover N O true h f = Ok t' /\ (forall k, t_lookup O t' k = Ok (get k es)) /\
    leftmost (th t') (tdepth t') (troot t') = Ok f /\ same_leaves (th t) (th t').
Proof.
  intros (g & Eg & W & I & Ee & Ef) (S1 & S2 & S3 & S4). rewrite <- Ee.
  apply (@wf_weak V N M minL minB 0 (Nat.le_0_l _) _ _ _ _ _ _ (le_n _)) in W.
  pose proof (inv_nd I) as ND. pose proof (inv_lt I) as LT. pose proof (inv_seg I) as IS. rewrite app_nil_r in ND, LT, IS. cbn [app] in ND, LT, IS.
  destruct (@recover_hyb_list L V N M O lrep minL kok LL MK HN HL f h (lvs [g])) as (t' & E & LK & LM & SL); auto.
  - eapply lok_frame; [|exact (inv_l I)]. intros i _. now rewrite S1.
  - intros i Hi. rewrite S4. now apply LT.
  - eapply seg_frame; [|exact IS]. intros j _. now rewrite S2, S3.
  - exact (ents_sorted W).
  - destruct (tdepth t) as [|d]; destruct g as [i es1|]; try contradiction W.
    + constructor; [|constructor]. cbn [snd]. apply W.
    + eapply Forall_impl; [|exact (wf_leaf_sizes W (or_intror (Nat.neq_succ_0 d)))]. cbn beta. intros q Hq. lia.
  - intros H. destruct (tdepth t) as [|d]; destruct g as [i es1|]; try contradiction W.
    + cbn in H. lia.
    + eapply Forall_impl; [|exact (wf_leaf_sizes W (or_intror (Nat.neq_succ_0 d)))]. cbn beta. intros q Hq. lia.
  - exists t'. splits; auto. unfold same_leaves in *. rewrite S1, S2, S3, S4 in SL. exact SL.
Qed.
End Rec.

Section Hyb.
Variables (L V : Type) (N M : nat) (O : leafops L V).
Variable lrep : L -> list (Z * V) -> Prop.
Variable lhint : L -> list (Z * V) -> Z -> Prop.
Hypothesis LL : leaf_laws O M (M / 2) (fun _ => True) lrep.
Hypothesis SL : scan_laws O lrep.
Hypothesis EL : erase_laws O M lrep lhint.
Hypothesis HM : 2 <= M.
Hypothesis HN : 6 <= N.
Hypothesis HE : Nat.even N = true.
Notation tinvf := (tinvf N M lrep (M / 2) (N / 2 - 1)).

Lemma all_first os : hist_ok m_empty os -> exists t es, t_run N M O (t_new O) (map bop_of os) = Ok t /\
  tinvf 0 t es /\ forall k, get k es = m_run os k.
Proof.
  intros F. destruct (even_half HE) as [H1 H2].
  destruct (@hist_all_first L V N M O lrep lhint (M / 2) (N / 2 - 1) LL EL ltac:(lia) ltac:(lia) ltac:(lia) ltac:(lia) ltac:(lia) 0 os (t_new O) [] m_empty)
    as (t & es & H); auto; [|eauto]. eapply tinvf_new; eauto; lia.
Qed.

Lemma tinvf_weak mL f t es : BTreeInsert.tinvf N M lrep mL (N / 2 - 1) f t es -> BTreeInsert.tinvf N M lrep mL 0 f t es.
Proof.
  intros (g & H1 & H2 & H3 & H4 & H5). exists g. splits; auto. eapply wf_weak; [|apply le_n|exact H2]. lia.
Qed.

Lemma hyb_rest mL f t es h m : leaf_laws O M mL (fun _ => True) lrep -> 1 <= mL -> BTreeInsert.tinvf N M lrep mL (N / 2 - 1) f t es ->
  sl (th t) h -> (forall k, get k es = m k) ->
  exists t' out, recover N O true h f = Ok t' /\ (forall k, t_lookup O t' k = Ok (m k)) /\ t_scan O t' = Ok out /\ lists m out.
Proof.
  intros LL1 H1 I S G.
  destruct (@recover_hyb_sl L V N M O lrep mL (N / 2 - 1) (fun _ => True) LL1 (law_minkey EL) ltac:(lia) H1 f t es h I S)
    as (t' & E & LK & LM & S'). exists t', es. splits; auto.
  - intros k. now rewrite LK, G.
  - eapply (@scan_same L V N M O lrep mL (law_minkey EL) ltac:(lia) H1 SL f t t'); auto. now apply tinvf_weak.
  - eapply lists_ext; [exact G|]. apply sorted_lists. eapply tinv_sorted, tinvf_tinv; eauto.
Qed.

(** Restart after any history. *)
Lemma hyb_all os : hist_ok m_empty os -> exists t t' out, t_run N M O (t_new O) (map bop_of os) = Ok t /\
  recover N O true (th t) 0 = Ok t' /\ (forall k, t_lookup O t' k = Ok (m_run os k)) /\ t_scan O t' = Ok out /\ lists (m_run os) out.
Proof.
  intros F. destruct (all_first F) as (t & es & E & I & G). destruct (@hyb_rest (M / 2) 0 t es (th t) (m_run os) LL (div2_pos HM) I (sl_refl _) G) as (t' & out & H). eauto.
Qed.

(** Restart after an interrupted erase. *)
Lemma hyb_erase_cut c os k : hist_ok m_empty os -> m_run os k <> None ->
  exists t t1 t2 out, t_run N M O (t_new O) (map bop_of os) = Ok t /\ t_erase_cut N M O c t k = Ok t1 /\
    recover N O true (th t1) 0 = Ok t2 /\ (forall x, t_lookup O t2 x = Ok (m_del (m_run os) k x)) /\
    t_scan O t2 = Ok out /\ lists (m_del (m_run os) k) out.
Proof.
  intros F Hk. destruct (even_half HE) as [H1 H2]. destruct (all_first F) as (t & es & E & I & G). exists t.
  rewrite <- G in Hk.
  destruct (@t_erase_okf L V N M O lrep lhint (M / 2) (N / 2 - 1) (fun _ => True) LL EL ltac:(lia) ltac:(lia) ltac:(lia) ltac:(lia) ltac:(lia) 0 t es k I Hk) as (t' & E' & I').
  assert (GD : forall x, get x (del k es) = m_del (m_run os) k x).
  { intros x. rewrite get_del by (eapply tinv_sorted, tinvf_tinv; eauto). unfold m_del. now rewrite G. }
  assert (C : exists t1, t_erase_cut N M O c t k = Ok t1 /\ sl (th t') (th t1)).
  { unfold t_erase_cut. unfold t_erase in E'. destruct (tdepth t) as [|d] eqn:ED.
    - unfold t_erase. rewrite ED, E'. cbn [bind fst]. exists t'. split; [reflexivity|apply sl_refl].
    - destruct (@erase_cut_sl L V N M O c _ _ _ _ _ _ E') as (t1 & E1 & S1). exists t1. split; [exact E1|].
      destruct S1 as (S1 & S2 & S3 & S4). repeat split; congruence. }
  destruct C as (t1 & E1 & S1). destruct (@hyb_rest (M / 2) 0 t' _ (th t1) _ LL (div2_pos HM) I' S1 GD) as (t2 & out & H). exists t1, t2, out. auto.
Qed.

(** Restart after an interrupted insert. *)
Lemma hyb_insert_cut c os k v : hist_ok m_empty os ->
  exists t t1 t2 out, t_run N M O (t_new O) (map bop_of os) = Ok t /\ t_insert_cut N O c t k v = Ok t1 /\
    recover N O true (th t1) 0 = Ok t2 /\ (forall x, t_lookup O t2 x = Ok (m_put (m_run os) k v x)) /\
    t_scan O t2 = Ok out /\ lists (m_put (m_run os) k v) out.
Proof.
  intros F. destruct (all_first F) as (t & es & E & I & G). exists t. apply tinvf_weak in I.
  assert (HN2 : 2 <= N) by lia.
  pose proof (tinv_sorted (tinvf_tinv I)) as SO0. pose proof (sorted_ins k v SO0) as SO.
  assert (GI : forall x, get x (ins k v es) = m_put (m_run os) k v x). { intros x. rewrite get_ins by auto. unfold m_put. now rewrite G. }
  destruct (@cut_tree L V N M O lrep (M / 2) (fun _ => True) LL HN2 c 0 t es k v Logic.I I) as (t1 & gs' & g' & E1 & J & EE & HF & _ & _ & _ & _ & S1 & S2).
  pose proof (inv_seg J) as IS. pose proof (inv_nd J) as ND. pose proof (inv_lt J) as LT. rewrite app_nil_r in IS, ND, LT. cbn [app] in IS, ND, LT.
  rewrite <- EE in SO.
  destruct (@recover_hyb_list L V N M O lrep (M / 2) (fun _ => True) LL (law_minkey EL) HN2 (div2_pos HM) 0 (th t1) (lvs gs')) as (t2 & E2 & LK & LM & (T1 & T2 & T3 & T4)); auto.
  { apply (inv_l J). }
  { intros H. eapply Forall_impl; [|exact (S2 H)]. cbn beta. intros q Hq. lia. }
  exists t1, t2, (ents gs'). splits; auto.
  - intros x. rewrite LK. fold (ents gs'). now rewrite EE, GI.
  - unfold t_scan. rewrite LM. cbn [bind].
    replace (Some 0) with (hbd (lids gs') None) by (destruct (lids gs'); [discriminate HF|]; cbn in HF |- *; congruence).
    eapply scan_chain_sorted; [exact HN2|apply Nat.le_0_l|exact SL| | |].
    + eapply lok_frame; [|exact (inv_l J)]. intros i _. now rewrite T1.
    + eapply seg_frame; [|exact IS]. intros j _. now rewrite T2, T3.
    + pose proof (NoDup_bound HN2 (Nat.le_0_l _) ND LT) as Q. unfold lids in Q. rewrite map_length in Q. lia.
  - rewrite EE. eapply lists_ext; [exact GI|]. apply sorted_lists. now rewrite <- EE.
Qed.

(** A persistent tree after an erase that was interrupted before the underflow was handled. *)
Lemma erase_first_hist os k os2 : hist_ok m_empty os -> m_run os k <> None -> Forall (ins_ok (fun _ => True)) os2 ->
  exists t t1 t2 out, t_run N M O (t_new O) (map bop_of os) = Ok t /\ t_erase_first O t k = Ok t1 /\
    (forall x, t_lookup O t1 x = Ok (m_del (m_run os) k x)) /\
    t_run N M O t1 (map bop_of os2) = Ok t2 /\
    (forall x, t_lookup O t2 x = Ok (fold_left (@m_step V) os2 (m_del (m_run os) k) x)) /\
    t_scan O t2 = Ok out /\ lists (fold_left (@m_step V) os2 (m_del (m_run os) k)) out.
Proof.
  intros F Hk F2. destruct (even_half HE) as [H1 H2]. destruct (all_first F) as (t & es & E & I & G). exists t. rewrite <- G in Hk.
  destruct (erase_first_ok LL EL I Hk) as (t1 & E1 & I1).
  assert (GD : forall x, get x (del k es) = m_del (m_run os) k x).
  { intros x. rewrite get_del by (eapply tinv_sorted, tinvf_tinv; eauto). unfold m_del. now rewrite G. }
  pose proof (leaf_laws_weak LL) as LL0.
  destruct (@hist_insert_first L V N M O lrep (M / 2 - 1) (N / 2 - 1) (fun _ => True) LL0 ltac:(lia) ltac:(lia) 0 os2 t1 _ _ I1 GD F2) as (t2 & es2 & E2 & I2 & G2).
  exists t1, t2, es2. splits; auto.
  - intros x. rewrite (t_lookup_ok LL0 x (tinvf_tinv I1)). now rewrite GD.
  - intros x. rewrite (t_lookup_ok LL0 x (tinvf_tinv I2)). now rewrite G2.
  - eapply t_scan_ok; [| |exact SL|eapply tinvf_tinv; exact I2]; lia.
  - eapply lists_ext; [exact G2|]. apply sorted_lists. eapply tinv_sorted, tinvf_tinv; eauto.
Qed.

(** The same for a hybrid tree, which is rebuilt first; with [M >= 4] no leaf is empty then. *)
Lemma hyb_erase_first os k : 4 <= M -> hist_ok m_empty os -> m_run os k <> None ->
  exists t t1 t2 out, t_run N M O (t_new O) (map bop_of os) = Ok t /\ t_erase_first O t k = Ok t1 /\
    recover N O true (th t1) 0 = Ok t2 /\ (forall x, t_lookup O t2 x = Ok (m_del (m_run os) k x)) /\
    t_scan O t2 = Ok out /\ lists (m_del (m_run os) k) out.
Proof.
  intros H4 F Hk. destruct (all_first F) as (t & es & E & I & G). exists t. rewrite <- G in Hk.
  destruct (erase_first_ok LL EL I Hk) as (t1 & E1 & I1).
  assert (GD : forall x, get x (del k es) = m_del (m_run os) k x).
  { intros x. rewrite get_del by (eapply tinv_sorted, tinvf_tinv; eauto). unfold m_del. now rewrite G. }
  destruct (@hyb_rest (M / 2 - 1) 0 t1 _ (th t1) _ (leaf_laws_weak LL) ltac:(lia) I1 (sl_refl _) GD) as (t2 & out & H). exists t1, t2, out. auto.
Qed.
End Hyb.
