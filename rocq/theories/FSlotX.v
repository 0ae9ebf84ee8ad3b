(** FPTree: the slots 0 compared by [slots_ok] have been written, so the condition is always decided. *)
From Verif Require Import Base ArrLemmas MapSpec SortedList SearchModel SearchProofs RankModel RankProofs BitmapModel BitmapProofs BTreeModel BTreeSpec BTreeLaws BTreeBranch
  BTreeGhost BTreeInsert EraseSpec PathSpec BTreeErase BTreeHist BTreeMain SLeafModel SLeafProofs ULeafModel ULeafProofs UTreeProofs SlotLemmas FLeafModel FLeafProofs
  FTreeProofs EraseG CutModel CutSpec CutProofs CutEProofs PathProofs PathG EraseX PathX FEraseX.
Open Scope nat_scope.

Section FS.
Variables (V : Type) (t : ktype) (fp : Z -> Z) (junk : nat -> Z) (N M : nat).
Hypothesis HM : 2 <= M.
Hypothesis HW : (N.of_nat M < W)%N.
Hypothesis Ht : (1 <= kt_bits t <= 64)%Z.
Notation leaf := (fleaf V).
Notation O := (fp_ops V t fp junk M).
Notation fl_repm := (fl_repm (V := V) t fp M).
Implicit Types l : leaf.

(** slot 0 has been written *)
Definition W0 l : Prop := exists x, aget (fk l) 0 = Ok x.
Definition J0 l : Prop := bm_ok M (fb l) /\ (bit (fb l) 0 = true -> W0 l).
Definition rep0 l (es : list (Z * V)) : Prop := fl_repm l es /\ (es = [] \/ W0 l).

Lemma rep_J l es : fl_repm l es -> J0 l.
Proof.
  clear HW Ht. intros [(_ & _ & sl & _ & HR) _]. pose proof HR as (_ & HB & _). split; auto. intros Hb.
  destruct (@fa_at V fp M l sl 0 HR ltac:(lia)) as ([[k v]|] & _ & C); cbn [cell] in C; [|congruence]. exists k. apply C.
Qed.
Lemma new_J : J0 (fl_new V junk M).
Proof. clear. split; [apply bm_new_ok|]. cbn [fl_new fb]. rewrite bit_new. discriminate. Qed.

Lemma put_J l p k v h l' : J0 l -> fl_put M l p k v h = Ok l' -> J0 l' /\ (W0 l -> W0 l') /\ (p = 0 -> W0 l').
Proof.
  clear. intros [HB HJ] E. unfold fl_put in E. bnd E. bnd E. bnd E. bnd E. injection E as <-. rename E0 into Ek. rename x into ks.
  assert (Hp : p < M) by (unfold bm_set in *; destruct (Nat.ltb_spec p M); [auto|discriminate]).
  destruct (bm_set_ok true HB Hp) as (b & Eb & HB' & Hb). rewrite Eb in *. match goal with X : Ok b = Ok _ |- _ => injection X as <- end.
  unfold J0, W0. cbn [fb fk]. rewrite (aget_aset 0 Ek), Hb. splits; auto; destruct (0 =? p) eqn:Ep; eauto.
  apply Nat.eqb_neq in Ep. intros ->. congruence.
Qed.
Lemma clear_J l p l' : J0 l -> fl_clear M l p = Ok l' -> J0 l' /\ fk l' = fk l.
Proof.
  clear. intros [HB HJ] E. unfold fl_clear in E. bnd E. injection E as <-.
  assert (Hp : p < M) by (unfold bm_reset in *; destruct (Nat.ltb_spec p M); [auto|discriminate]).
  destruct (bm_reset_ok HB Hp) as (b & Eb & HB' & Hb). rewrite Eb in *. match goal with X : Ok b = Ok _ |- _ => injection X as <- end.
  unfold J0, W0. cbn [fb fk]. rewrite Hb. splits; auto. destruct (0 =? p); [discriminate|exact HJ].
Qed.
Lemma free_put_W l p k v h l' : J0 l -> getFreeZero (fb l) = Ok p -> fl_put M l p k v h = Ok l' -> J0 l' /\ W0 l'.
Proof.
  clear. intros HJ Ef E. destruct (put_J HJ E) as (H1 & H2 & H3). split; auto. destruct p as [|p]; auto. apply H2, HJ.
  destruct (getFreeZero_ok (proj1 HJ)) as (r & Er & _ & Hr & _). rewrite Ef in Er. injection Er as <-. apply Hr. lia.
Qed.
Lemma add_W l k v l' : J0 l -> fl_add fp M l k v = Ok l' -> J0 l' /\ W0 l'.
Proof. clear. intros HJ E. unfold fl_add in E. bnd E. unfold fl_insert_at in E. eapply free_put_W; eauto. Qed.

(** ** Loops *)
Lemma for_up_inv {S} (P : S -> Prop) f : forall n lo s r, (forall i x y, P x -> f i x = Ok y -> P y) -> P s -> for_up lo n f s = Ok r -> P r.
Proof.
  clear. induction n as [|n IH]; intros lo s r H Hs E; cbn [for_up] in *; [injection E as <-; exact Hs|].
  bnd E. apply (IH _ _ _ H (H _ _ _ Hs E0) E).
Qed.

Lemma split_W l l1 l2 sk : fl_split t junk M l = Ok (l1, l2, sk) -> J0 l -> J0 l1 /\ W0 l1 /\ J0 l2 /\ (W0 l2 \/ l2 = fl_new V junk M).
Proof.
  clear HW Ht. intros E HJ. unfold fl_split in E. bnd E. bnd E. bnd E. bnd E. injection E as Q1 Q2 Q3.
  assert (HW0 : W0 l). { unfold read_all in *. destruct M as [|m]; [lia|]. match goal with X : _ = Ok x |- _ => bnd X end. unfold W0. eauto. }
  match goal with X : for_up _ _ _ _ = Ok _ |- _ => rename X into EL end.
  assert (P : let '(node, sib, j) := x2 in J0 node /\ W0 node /\ J0 sib /\ ((j = 0 /\ sib = fl_new V junk M) \/ W0 sib)).
  { revert EL. eapply (@for_up_inv _ (fun s : leaf * leaf * nat => let '(node, sib, j) := s in J0 node /\ W0 node /\ J0 sib /\ ((j = 0 /\ sib = fl_new V junk M) \/ W0 sib))).
    - intros i [[node sib] j] [[node' sib'] j'] (H1 & H2 & H3 & H4) E. unfold fl_split_step in E. bnd E. bnd E; [|injection E as <- <- <-; auto].
      bnd E. bnd E. bnd E. bnd E. injection E as <- <- <-.
      match goal with X : fl_put _ sib _ _ _ _ = Ok _ |- _ => destruct (put_J H3 X) as (P1 & P2 & P3) end.
      match goal with X : fl_clear _ node _ = Ok _ |- _ => destruct (clear_J H1 X) as (C1 & C2) end.
      splits; auto; [unfold W0 in *; now rewrite C2|]. right. destruct H4 as [[-> _]|H4]; auto.
    - splits; auto; apply new_J. }
  destruct x2 as [[node sib] j]. cbn [fst snd] in *. subst. tauto.
Qed.

Lemma insert_W l k v : J0 l ->
  (forall l', fl_insert t fp junk M l k v = Ok (LDone l') -> W0 l' \/ (fk l' = fk l /\ exists p, fl_pos fp M l k = Ok p /\ p < M)) /\
  (forall l1 l2 sk, fl_insert t fp junk M l k v = Ok (LSplit l1 l2 sk) -> W0 l1 /\ (W0 l2 \/ l2 = fl_new V junk M)).
Proof.
  clear HW Ht. intros HJ. split.
  - intros l' E. unfold fl_insert in E. bnd E. bnd E.
    + bnd E. injection E as <-. right. cbn [fk]. split; auto. exists x. split; auto. now apply Nat.ltb_lt.
    + bnd E. bnd E.
      * bnd E. destruct x1 as [[node sib] sk]. bnd E; [bnd E; discriminate|]. bnd E. bnd E. bnd E; bnd E; discriminate.
      * bnd E. injection E as <-. left. eapply free_put_W; eauto.
  - intros l1 l2 sk E. unfold fl_insert in E. bnd E. bnd E; [bnd E; discriminate|]. bnd E. bnd E; [|bnd E; discriminate].
    bnd E. destruct x1 as [[node sib] sk0]. match goal with X : fl_split _ _ _ _ = Ok _ |- _ => destruct (split_W X HJ) as (A1 & A2 & A3 & A4) end.
    bnd E.
    + bnd E. injection E as <- <- <-. split; auto. left. eapply add_W; [exact A3|eassumption].
    + bnd E. bnd E. bnd E; bnd E; injection E as <- <- <-.
      * split; auto. left. eapply add_W; [exact A3|eassumption].
      * split; auto. eapply add_W; [exact A1|eassumption].
Qed.

Lemma merge_W l1 l2 l : J0 l1 -> fl_merge M l1 l2 = Ok l -> W0 l \/ l = l1.
Proof.
  clear. intros HJ E. unfold fl_merge in E.
  assert (P : J0 l /\ (W0 l \/ l = l1)); [|tauto]. revert E.
  refine (@for_up_inv _ (fun l => J0 l /\ (W0 l \/ l = l1)) _ _ _ _ _ _ _); auto.
  intros i x y [Hx Hx2] E. bnd E. bnd E; [|injection E as <-; auto]. bnd E. bnd E. bnd E. bnd E.
  match goal with X : getFreeZero _ = Ok _ |- _ => destruct (free_put_W Hx X E) end. auto.
Qed.

Lemma balance_W dl rl d' r' : J0 dl -> J0 rl -> fl_balance t fp M dl rl = Ok (d', r') -> (d' = dl /\ r' = rl) \/ (W0 d' /\ W0 r').
Proof.
  clear. intros Hd Hr E. unfold fl_balance in E. bnd E; [discriminate E|]. bnd E; [injection E as <- <-; auto|]. bnd E. bnd E. right.
  assert (P : J0 (fst (d', r')) /\ J0 (snd (d', r')) /\ W0 (fst (d', r')) /\ W0 (snd (d', r'))); [|cbn [fst snd] in P; tauto]. revert E.
  refine (@for_up_inv _ (fun s : leaf * leaf => J0 (fst s) /\ J0 (snd s) /\ W0 (fst s) /\ W0 (snd s)) _ _ _ _ _ _ _); [|unfold W0; cbn [fst snd]; splits; eauto].
  intros i [d r] y (H1 & H2 & H3 & H4) E. cbn [fst snd] in *. unfold fl_move in E. bnd E. bnd E. bnd E. bnd E. bnd E. bnd E. injection E as <-. cbn [fst snd].
  match goal with X : fl_put _ r _ _ _ _ = Ok _ |- _ => destruct (put_J H2 X) as (P1 & P2 & P3) end.
  match goal with X : fl_clear _ d _ = Ok _ |- _ => destruct (clear_J H1 X) as (C1 & C2) end.
  splits; auto. unfold W0 in *. now rewrite C2.
Qed.

(** ** The laws with the written slots *)
Notation LM := (flm_laws V fp junk HM HW Ht).
Notation EM := (fl_core V t fp junk HM HW (le_n 6)).

Lemma rep0_m l es : rep0 l es -> fl_repm l es. Proof. intros [H _]; exact H. Qed.

Lemma rep0_laws : leaf_laws O M (M / 2) (fkok t) rep0.
Proof.
  constructor.
  - split; [apply (law_new LM)|now left].
  - intros l es [H _]. exact (law_sorted LM H).
  - intros l es [H _]. exact (law_cap LM H).
  - intros l es [H _]. exact (law_count LM H).
  - intros l es k [H _]. exact (law_lookup LM k H).
  - intros l es k v Hk [HR HZ]. destruct (insert_W k v (rep_J HR)) as [I1 I2].
    destruct (law_insert LM v Hk HR) as [(l' & E & R)|(l1 & l2 & sk & e1 & e2 & E & Es & R1 & R2 & R)].
    + left. exists l'. split; [exact E|]. split; auto. right. destruct (I1 _ E) as [X|(X & p & Ep & Hp)]; auto.
      destruct HZ as [->|HZ]; [|unfold W0 in *; now rewrite X].
      exfalso. destruct HR as [(_ & _ & sl & HP & HR) _]. apply Permutation_sym, Permutation_nil in HP.
      destruct (fl_pos_ok k HR) as (r & Er & C). rewrite Ep in Er. injection Er as <-. destruct C as [[-> _]|[_ (w & Ew)]]; [lia|].
      assert (X2 : In (k, w) (somes sl)) by (apply in_somes; eauto). rewrite HP in X2. destruct X2.
    + right. exists l1, l2, sk, e1, e2. destruct (I2 _ _ _ E) as [X1 X2]. destruct R as (Q1 & Q2 & Q3 & Q4 & Q5 & Q6).
      splits; auto; split; auto. right. destruct X2 as [X2| ->]; auto. exfalso.
      pose proof (law_count LM R2) as C2. pose proof (law_count LM (law_new LM)) as C0. cbn [fp_ops lo_new] in C0. rewrite C0 in C2. destruct e2; [congruence|discriminate C2].
  - intros l es [H _]. exact (law_scan LM H).
  - exact (law_bpos LM).
Qed.

Lemma rep0_core : erase_core O M rep0 (fun l es _ => rep0 l es) (@fside V).
Proof.
  constructor.
  - auto.
  - intros l es k [HR HZ] HG. destruct (law_erase EM HR HG) as (l' & E & R). exists l'. split; auto. split; auto. right.
    destruct HZ as [->|HZ]; [now destruct HG|]. cbn [fp_ops lo_erase] in E. unfold fl_erase in E. bnd E. bnd E; [|discriminate E]. bnd E. injection E as <-.
    match goal with X : fl_clear _ l _ = Ok _ |- _ => destruct (clear_J (rep_J HR) X) as (C1 & C2) end. unfold W0 in *. now rewrite C2.
  - intros l1 l2 e1 e2 [R1 Z1] [R2 Z2] HS HL. destruct (law_merge EM R1 R2 HS HL) as (l & E & R). exists l. split; auto. split; auto.
    destruct (merge_W (rep_J R1) E) as [X| ->]; auto. destruct Z1 as [->|Z1]; auto. cbn [app] in *.
    pose proof (law_count LM R1) as C1. pose proof (law_count LM R) as C2. left. destruct e2; auto. rewrite C1 in C2. discriminate C2.
  - intros dl rl ed er k HSd [R1 Z1] [R2 Z2] HS Ha HL H1. destruct (law_balance_left EM HSd R1 R2 HS Ha HL H1) as (d' & r' & e1 & e2 & E & -> & Hl & Rd & Rr).
    exists d', r', e1, e2. unfold rep0. destruct (balance_W (rep_J R1) (rep_J R2) E) as [[-> ->]|[X1 X2]]; [|splits; auto].
    pose proof (law_count LM R1) as C1. pose proof (law_count LM Rd) as C2. pose proof (law_count LM R2) as C3. pose proof (law_count LM Rr) as C4.
    rewrite C1 in C2. rewrite C3 in C4. rewrite app_length in C2, C4. destruct e2; [|cbn [length] in C2; lia]. rewrite app_nil_r in *. splits; auto.
  - intros dl rl ed er k HSd [R1 Z1] [R2 Z2] HS Ha HL H1. destruct (law_balance_right EM HSd R1 R2 HS Ha HL H1) as (d' & r' & e1 & e2 & E & -> & Hl & Rd & Rr).
    exists d', r', e1, e2. unfold rep0. destruct (balance_W (rep_J R1) (rep_J R2) E) as [[-> ->]|[X1 X2]]; [|splits; auto].
    pose proof (law_count LM R1) as C1. pose proof (law_count LM Rd) as C2. pose proof (law_count LM R2) as C3. pose proof (law_count LM Rr) as C4.
    rewrite C1 in C2. rewrite C3 in C4. rewrite app_length in C2, C4. destruct e1; [|cbn [length] in C2; lia]. rewrite app_nil_r in *. splits; auto.
  - intros l es x v [HR _]. exact (law_minkey EM HR).
Qed.

Lemma rep0_absent : absent_fine O rep0 (fun l es _ => rep0 l es).
Proof. intros l es k [HR HZ] HG. destruct (fl_absent_fine junk HR HG) as [X1 X2]. split; auto. split; auto. Qed.

(** ** The condition is decided *)
Hypothesis HN : 5 <= N.
Notation minL := (M / 2).
Notation minB := ((N + 1) / 2 - 1).
Notation wf := (@wf V N M minL minB).
Notation inv := (inv N rep0).
Notation tinv := (tinv N M rep0 minL minB).
Notation L0 := rep0_laws.

Lemma erase_any l es k : rep0 l es -> es <> [] -> exists b l', lo_erase O l k = Ok (b, l') /\ W0 l'.
Proof.
  intros [HR HZ] NE. destruct HZ as [->|HZ]; [congruence|]. destruct (get k es) as [v|] eqn:E.
  - destruct (law_erase EM (k := k) HR) as (l' & Ee & _); [congruence|]. exists true, l'. split; auto.
    cbn [fp_ops lo_erase] in Ee. unfold fl_erase in Ee. bnd Ee. bnd Ee; [|discriminate Ee]. bnd Ee. injection Ee as <-.
    match goal with X : fl_clear _ l _ = Ok _ |- _ => destruct (clear_J (rep_J HR) X) as (C1 & C2) end. unfold W0 in *. now rewrite C2.
  - destruct (fl_absent_fine junk HR E) as [X1 X2]. exists false, l. auto.
Qed.

Lemma slots_dec d : forall (h : heap leaf) A i ks (cs : list (gt V)) B m lo hi k,
  wf m (S d) lo hi (GB i ks cs) -> inb lo hi k -> inv h A [GB i ks cs] B ->
  exists c, leaf_guard M O (slots_ok M) h (S d) i k = Ok c.
Proof.
  assert (HL1 : 1 <= minL) by (apply (Nat.div_le_lower_bound M 2 1); lia).
  induction d as [|d IH]; intros h A i ks cs B m lo hi k HWf Hk HI.
  - destruct HWf as [HC HK]. cbn [mn] in HK.
    apply inv_GB in HI as (HI & Hfi & Hni & (b & Eb & Hb)). cbn [fst snd] in *.
    destruct (route HK Hk) as (a & bb & CA & c & CB & -> & -> & LA & LB & Ha & Hbb & KL & Rc & Bc & KR & Hkc).
    destruct (kids_sorted HK) as [HS _].
    destruct (@wf0_leaf V N M minL minB _ _ _ _ Rc) as (j & es & -> & Ss & Fs & Cs).
    change (CA ++ GL j es :: CB) with (CA ++ [GL j es] ++ CB) in *.
    pose proof (inv_sub HI) as HIc. destruct (inv_GL HIc) as (l & El & Hl & _).
    destruct (erase_any k Hl) as (r & l' & EE & (r0 & Er0)); [destruct es; [cbn [length] in Cs; lia|discriminate]|].
    assert (Hbn : bn b = length (a ++ bb)) by apply Hb.
    cbn [leaf_guard]. unfold getb at 1. rewrite Eb. cbn [of_opt bind].
    rewrite (@bpos_ok _ V N M O rep0 minL _ L0 b a bb _ k Hb HS Ha Hbb). cbn [bind].
    rewrite (@kid_at V N b _ CA (GL j es) CB (length a) Hb) by auto. cbn [bind gid].
    unfold erase_leaf, getl at 1. rewrite El. cbn [of_opt bind]. rewrite EE. cbn [bind fst snd].
    set (h1 := set_leaf h j l').
    assert (EJ : getl h1 j = Ok l') by (unfold getl, h1; cbn [set_leaf hl]; unfold upd; now rewrite Nat.eqb_refl).
    rewrite EJ. cbn [bind]. destruct (_ <? _); [|eauto]. unfold slots_ok.
    assert (Eb1 : getb h1 i = Ok b) by (unfold getb, h1; cbn [set_leaf hb]; now rewrite Eb).
    rewrite Eb1, EJ. cbn [bind].
    (* a neighbour with more than half has slot 0 written *)
    assert (NB : forall n en ln, n <> j -> hl h n = Some ln -> rep0 ln en -> getl h1 n = Ok ln /\ ((M + 1) / 2 <? fl_count ln = true -> exists d0, aget (fk ln) 0 = Ok d0)).
    { intros n en ln Hn En Rn. split.
      - unfold getl, h1. cbn [set_leaf hl]. unfold upd. destruct (Nat.eqb_spec n j); [congruence|]. now rewrite En.
      - intros X. apply Nat.ltb_lt in X. pose proof (law_count L0 Rn) as Q. cbn [fp_ops lo_count] in Q. destruct Rn as [_ [->|Wn]]; [cbn [length] in Q; lia|exact Wn]. }
    assert (NR : exists c, (if length a <? bn b then do n <- of_opt (hnx h1 j); do nl <- getl h1 n;
        if (M + 1) / 2 <? fl_count nl then do d0 <- aget (fk nl) 0; do r0 <- aget (fk l') 0; Ok (negb (d0 <? r0)%Z) else Ok true else Ok true) = Ok c).
    { destruct (Nat.ltb_spec (length a) (bn b)) as [Hab|]; [|eauto]. rewrite Hbn, app_length in Hab.
      destruct bb as [|y b0]; [cbn [length] in Hab; lia|]. destruct CB as [|g CB0]; [discriminate LB|]. cbn [kr] in KR. destruct KR as (_ & Wg & _).
      apply (@wf0_leaf V N M minL minB) in Wg as (n & en & -> & _).
      change ([GL j es] ++ GL n en :: CB0) with ([GL j es; GL n en] ++ CB0) in HI. apply inv_sub in HI.
      destruct (inv_pair HI) as (u1 & u2 & El1 & Hl1 & El2 & Hl2 & Hne & _ & _ & _ & _ & _ & _ & _ & _ & P1 & N1 & _).
      destruct (NB n en u2 ltac:(congruence) ltac:(eassumption) ltac:(eassumption)) as [G1 G2].
      replace (hnx h1 j) with (Some n) by (symmetry; exact N1). cbn [of_opt bind]. rewrite G1. cbn [bind].
      destruct (_ <? fl_count u2) eqn:EC; [|eauto]. destruct (G2 eq_refl) as (d0 & ->). cbn [bind]. rewrite Er0. cbn [bind]. eauto. }
    destruct (rev_case a) as [->|(a0 & x & ->)].
    + cbn [length] in NR |- *. replace (0 <? 0) with false by reflexivity. cbn [bind]. exact NR.
    + rewrite app_length in NR |- *. cbn [length] in NR |- *. destruct (Nat.ltb_spec 0 (length a0 + 1)) as [_|X]; [|lia].
      rewrite app_length in LA. cbn [length] in LA.
      destruct (rev_case CA) as [->|(CA0 & g & ->)]; [cbn [length] in LA; lia|].
      rewrite app_length in LA. cbn [length] in LA. apply kl_snoc in KL; [|lia]. destruct KL as (_ & _ & Wg).
      apply (@wf0_leaf V N M minL minB) in Wg as (n & en & -> & _).
      assert (I2 : inv h A (CA0 ++ [GL n en; GL j es] ++ CB) B) by (rewrite <- app_assoc in HI; exact HI). clear HI. rename I2 into HI. apply inv_sub in HI.
      destruct (inv_pair HI) as (u1 & u2 & El1 & Hl1 & El2 & Hl2 & Hne & _ & _ & _ & _ & _ & _ & _ & _ & P1 & N1 & P2 & N2 & _).
      destruct (NB n en u1 ltac:(congruence) ltac:(eassumption) ltac:(eassumption)) as [G1 G2].
      replace (hpv h1 j) with (Some n) by (symmetry; exact P2). cbn [of_opt bind]. rewrite G1. cbn [bind].
      destruct (_ <? fl_count u1) eqn:EC; [|exact NR]. destruct (G2 eq_refl) as (d0 & ->). cbn [bind]. rewrite Er0. cbn [bind]. eauto.
  - destruct HWf as [HC HK]. cbn [mn] in HK.
    apply inv_GB in HI as (HI & Hfi & Hni & (b & Eb & Hb)). cbn [fst snd] in *.
    destruct (route HK Hk) as (a & bb & CA & c & CB & -> & -> & LA & LB & Ha & Hbb & KL & Rc & Bc & KR & Hkc).
    destruct (kids_sorted HK) as [HS _].
    destruct (wfS_branch Rc) as (j & kc & cc & -> & Cc & Kc).
    change (CA ++ GB j kc cc :: CB) with (CA ++ [GB j kc cc] ++ CB) in *.
    pose proof (inv_sub HI) as HIc.
    rewrite leaf_guard_S.
    unfold getb at 1. rewrite Eb. cbn [of_opt bind].
    rewrite (@bpos_ok _ V N M O rep0 minL _ L0 b a bb _ k Hb HS Ha Hbb). cbn [bind].
    rewrite (@kid_at V N b _ CA (GB j kc cc) CB (length a) Hb) by auto. cbn [bind gid].
    eapply IH; eauto.
Qed.

Lemma t_slots_dec (tr : tree leaf) es k : tinv tr es -> exists c, leaf_guard M O (slots_ok M) (th tr) (tdepth tr) (troot tr) k = Ok c.
Proof.
  intros (g & Eg & Wg & I & <-). destruct (tdepth tr) as [|d]; [exists true; reflexivity|].
  destruct (wfS_branch Wg) as (j & ks & cs & -> & Cs & KK). cbn [gid rmin] in *. rewrite <- Eg.
  eapply slots_dec; eauto. split; exact Logic.I.
Qed.

Lemma fp_exact_dec os : 6 <= N -> Nat.even N = true -> Forall (op_in (fkok t)) os -> fine N M O (slots_ok M) (t_new O) (map bop_of os) = true ->
  exists tr, t_run N M O (t_new O) (map bop_of os) = Ok tr /\
    forall k, exists c tr' b, leaf_guard M O (slots_ok M) (th tr) (tdepth tr) (troot tr) k = Ok c /\
      t_erase N M O tr k = Ok (tr', b) /\ (b = true <-> m_run os k <> None) /\
      if c then forall x, t_lookup O tr' x = Ok (m_del (m_run os) k x)
      else exists x, x <> k /\ m_run os x <> None /\ t_lookup O tr' x = Ok None.
Proof.
  intros HN6 HE FK FF. destruct (even_half HE) as [HE1 HE2].
  destruct (fp_exact HM HW Ht HN6 HE FK FF) as (tr & R1 & R2).
  destruct (@hist_guard_new _ _ N M O _ _ _ (M / 2) ((N + 1) / 2 - 1) _ L0 rep0_core ltac:(lia) ltac:(lia) ltac:(lia) ltac:(lia) ltac:(lia)
    _ (@slots_good V t fp junk N M HM HW HN6) os (or_intror rep0_absent) FK FF) as (tr1 & es & E1 & I & _).
  rewrite R1 in E1. injection E1 as <-. exists tr. split; auto. intros k. destruct (t_slots_dec k I) as (c & Ec).
  destruct (R2 k c Ec) as (tr' & b & X). exists c, tr', b. auto.
Qed.

(** Any N from 5 on, with the condition on branch nodes. *)
Lemma fp_path_exact_dec os : Forall (op_in (fkok t)) os -> fine N M O (slots_ok M) (t_new O) (map bop_of os) = true -> path_fine N M O (t_new O) (map bop_of os) = true ->
  exists tr, t_run N M O (t_new O) (map bop_of os) = Ok tr /\
    forall k, exists g c, leaf_guard M O (slots_ok M) (th tr) (tdepth tr) (troot tr) k = Ok g /\ path_ok N M O tr (tdepth tr) (troot tr) k = Ok c /\
      if c then exists tr' b, t_erase N M O tr k = Ok (tr', b) /\ (b = true <-> m_run os k <> None) /\
        if g then forall x, t_lookup O tr' x = Ok (m_del (m_run os) k x)
        else exists x, x <> k /\ m_run os x <> None /\ t_lookup O tr' x = Ok None
      else t_erase N M O tr k = UB.
Proof.
  intros FK FF FP.
  destruct (@fp_path_exact V t N M HM Ht HN fp junk os HW FK FF FP) as (tr & R1 & R2).
  destruct (@pg_all _ _ N M O _ _ _ (M / 2) ((N + 1) / 2 - 1) _ L0 rep0_core ltac:(lia) ltac:(lia) ltac:(lia) ltac:(lia)
    _ (slots_good t fp junk HM HW (le_n 6)) os ltac:(lia) (or_intror rep0_absent) FK FF FP) as (tr1 & es1 & out1 & E1 & I1 & _).
  destruct (@pg_all _ _ N M O _ _ _ (M / 2) ((N + 1) / 2 - 1) _ (flm_laws V fp junk HM HW Ht) (fl_core V t fp junk HM HW (le_n 6)) ltac:(lia) ltac:(lia) ltac:(lia) ltac:(lia)
    _ (slots_good t fp junk HM HW (le_n 6)) os ltac:(lia) (or_intror (@fl_absent_fine V t fp junk M)) FK FF FP) as (tr2 & es & out & E2 & I2 & G & _).
  rewrite R1 in E1, E2. injection E1 as <-. injection E2 as <-. exists tr. split; auto. intros k. destruct (t_slots_dec k I1) as (g & Eg).
  destruct g.
  - destruct (R2 k Eg) as (c & Ec & Hc). exists true, c. splits; auto.
  - destruct (fl_damage_w HM HW Ht HN I2 Eg) as (c & Ec & _ & Hc). exists false, c. splits; auto. destruct c; auto.
    destruct Hc as (t2 & b & y & X1 & X2 & X3 & X4 & X5). exists t2, b. rewrite <- !G. splits; auto. exists y. rewrite <- G. auto.
Qed.
End FS.
