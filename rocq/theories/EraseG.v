(** Histories whose erases meet the conditions of EraseSpec. *)
From Verif Require Import Base ArrLemmas MapSpec SortedList RankModel BitmapModel BTreeModel BTreeSpec BTreeLaws BTreeBranch BTreeGhost
  BTreeInsert EraseSpec BTreeErase BTreeHist BTreeMain SLeafModel SLeafProofs ULeafModel ULeafProofs UTreeProofs FLeafModel FLeafProofs
  FTreeProofs.
Open Scope nat_scope.

Definition op_in {V} (kok : Z -> Prop) (o : mop V) : Prop := match o with OpInsert k _ => kok k | OpErase _ _ => True end.

Lemma bind_ok {A B} (m : res A) (f : A -> res B) b : (do x <- m; f x) = Ok b -> exists x, m = Ok x /\ f x = Ok b.
Proof. destruct m; cbn [bind]; [eauto|discriminate|discriminate]. Qed.

Section Guarded.
Variables (L V : Type) (N M : nat) (O : leafops L V).
Variable lrep : L -> list (Z * V) -> Prop.
Variable lhint : L -> list (Z * V) -> Z -> Prop.
Variable side : bool -> L -> L -> Prop.
Variables minL minB : nat.
Variable kok : Z -> Prop.
Hypothesis LL : leaf_laws O M minL kok lrep.
Hypothesis EL : erase_core O M lrep lhint side.
Hypothesis HM : 1 <= M.
Hypothesis HmL : minL <= (M + 1) / 2.
Hypothesis HN : 2 * ((N + 1) / 2) <= N.
Hypothesis HB : minB <= (N + 1) / 2 - 1.
Hypothesis HB2 : 2 <= minB.
Variable guard : heap L -> nat -> nat -> nat -> res bool.
Hypothesis Hg : forall h id pos c, guard h id pos c = Ok true -> good M O side h id pos c.
Notation tinv := (tinv N M lrep minL minB).


(** Erasing an absent key reports [false] and leaves the leaf alone. *)
Definition absent_fine : Prop := forall l es k, lrep l es -> get k es = None -> lo_erase O l k = Ok (false, l) /\ lhint l es k.

Lemma erase_guard t es k : tinv t es -> get k es <> None \/ absent_fine -> leaf_guard M O guard (th t) (tdepth t) (troot t) k = Ok true ->
  exists t' b, t_erase N M O t k = Ok (t', b) /\ (b = true <-> get k es <> None) /\ tinv t' (del k es).
Proof.
  intros I HA EG. destruct (get k es) as [v|] eqn:G.
  - assert (HG : get k es <> None) by congruence. destruct (t_erase_okg LL EL HM HmL HN HB HB2 Hg I HG (or_intror EG)) as (t1 & E1 & I1).
    exists t1, true. splits; auto. split; congruence.
  - destruct HA as [HA|HA]; [congruence|].
    destruct (t_erase_absentg LL EL HM HmL HN HB HB2 Hg I G (fun j l es' _ _ HR _ G' => HA l es' k HR G') (or_intror EG)) as (t1 & E1 & I1).
    exists t1, false. rewrite (del_none G). splits; auto. split; congruence.
Qed.

Lemma hist_guard os : forall t es m, tinv t es -> (forall k, get k es = m k) -> hist_ok m os \/ absent_fine -> Forall (op_in kok) os ->
  fine N M O guard t (map bop_of os) = true ->
  exists t' es', t_run N M O t (map bop_of os) = Ok t' /\ tinv t' es' /\ forall k, get k es' = fold_left (@m_step V) os m k.
Proof.
  assert (HN2 : 2 <= N) by lia.
  induction os as [|o os IH]; intros t es m I E F FK FF; cbn [map t_run fold_left].
  - eauto.
  - inversion FK as [|? ? Ko FK']; subst. cbn [hist_ok] in F.
    assert (F' : hist_ok (m_step m o) os \/ absent_fine) by tauto.
    cbn [map fine] in FF. apply andb_prop in FF as [FG FF]. destruct o as [k v|k].
    + cbn [op_in] in Ko. destruct (t_insert_ok LL HN2 HB (k := k) v Ko I) as (t1 & E1 & I1). cbn [bop_of t_step] in FF |- *. rewrite E1 in FF |- *. cbn [bind].
      apply (IH t1 _ (m_step m (OpInsert k v)) I1); auto. intros x. rewrite get_ins by (eapply tinv_sorted; eauto).
      cbn [m_step]. unfold m_put. destruct (x =? k)%Z; auto.
    + assert (Fo : get k es <> None \/ absent_fine) by (cbn [op_ok] in F; rewrite E; tauto). cbn [bop_of] in FG, FF.
      destruct (leaf_guard M O guard (th t) (tdepth t) (troot t) k) as [[|]| |] eqn:EG; try discriminate.
      destruct (erase_guard I Fo EG) as (t1 & b & E1 & _ & I1).
      cbn [bop_of t_step] in FF |- *. rewrite E1 in FF |- *. cbn [bind fst] in FF |- *.
      apply (IH t1 _ (m_step m (OpErase _ k)) I1); auto. intros x. rewrite get_del by (eapply tinv_sorted; eauto).
      cbn [m_step]. unfold m_del. destruct (x =? k)%Z; auto.
Qed.

Lemma hist_guard_new os : hist_ok m_empty os \/ absent_fine -> Forall (op_in kok) os -> fine N M O guard (t_new O) (map bop_of os) = true ->
  exists t es, t_run N M O (t_new O) (map bop_of os) = Ok t /\ tinv t es /\ forall k, get k es = m_run os k.
Proof.
  intros F FK FF. apply (@hist_guard os (t_new O) [] m_empty); auto. eapply tinv_new; eauto; lia.
Qed.

(** Everything that follows from the invariant. *)
Lemma guard_all os : 1 <= minL -> hist_ok m_empty os \/ absent_fine -> Forall (op_in kok) os -> fine N M O guard (t_new O) (map bop_of os) = true ->
  exists t out, t_run N M O (t_new O) (map bop_of os) = Ok t /\
    (forall k, t_lookup O t k = Ok (m_run os k)) /\
    t_scan O t = Ok out /\ enumerates (m_run os) out /\ in_runs M out /\
    shape N M minL minB O (th t) (tdepth t) true (troot t) (length out) /\
    (forall k, m_run os k <> None \/ absent_fine -> leaf_guard M O guard (th t) (tdepth t) (troot t) k = Ok true ->
      exists t' b, t_erase N M O t k = Ok (t', b) /\ (b = true <-> m_run os k <> None) /\
        forall x, t_lookup O t' x = Ok (m_del (m_run os) k x)).
Proof.
  intros HL F FK FF. destruct (hist_guard_new F FK FF) as (t & es & E & I & G).
  assert (HN2 : 2 <= N) by lia.
  destruct (t_scan_perm LL HN2 HB I) as (out & Eo & P & R). exists t, out. splits; auto.
  - intros k. rewrite (t_lookup_ok LL k I). now rewrite G.
  - eapply enumerates_ext; [exact G|]. apply perm_enumerates; auto. eapply tinv_sorted; eauto.
  - rewrite (Permutation_length P). eapply tinv_shape; eauto.
  - intros k Hk EG. rewrite <- G in Hk. destruct (erase_guard I Hk EG) as (t1 & b & E1 & Hb & I1). exists t1, b. splits; auto.
    + now rewrite <- G.
    + intros x. rewrite (t_lookup_ok LL x I1). rewrite get_del by (eapply tinv_sorted; eauto). unfold m_del. now rewrite G.
Qed.
End Guarded.

(** ** Erasing the largest key never merges with a right neighbour *)
Section Largest.
Variables (L V : Type) (N M : nat) (O : leafops L V).
Variable lrep : L -> list (Z * V) -> Prop.
Variable lhint : L -> list (Z * V) -> Z -> Prop.
Variable side : bool -> L -> L -> Prop.
Variables minL minB : nat.
Variable kok : Z -> Prop.
Hypothesis LL : leaf_laws O M minL kok lrep.
Hypothesis EL : erase_core O M lrep lhint side.
Hypothesis HmL : 1 <= minL.
Hypothesis HmB : 1 <= minB.
Notation wf := (wf N M minL minB).
Notation inv := (inv N lrep).
Notation wf0_leaf := (@wf0_leaf V N M minL minB _ _ _ _).
Notation gt := (gt V).

Lemma wf_ne d : forall m lo hi (g : gt), 1 <= m \/ 1 <= d -> wf m d lo hi g -> ents [g] <> [].
Proof.
  induction d as [|d IH]; intros m lo hi g Hm W.
  - destruct g as [i es|]; [|contradiction]. destruct W as (_ & _ & H). rewrite ents_GL. intros ->. cbn [length] in H. lia.
  - destruct g as [|i ks cs]; [contradiction|]. destruct W as [H K]. pose proof (kids_length K) as HL.
    destruct cs as [|c cs]; [cbn [length] in HL; lia|]. rewrite ents_GB, ents_cons.
    assert (Hc : exists x y, wf (mn minL minB d) d x y c).
    { destruct ks as [|k0 ks]; cbn [kids] in K.
      - destruct cs; [|contradiction]. destruct K as [_ K]. eauto.
      - destruct K as (_ & K & _). eauto. }
    destruct Hc as (x & y & Hc). apply IH in Hc; [|destruct d; cbn [mn]; lia].
    intros E. apply app_eq_nil in E as [E _]. contradiction.
Qed.

Lemma max_guard d : forall (h : heap L) A i ks cs B m lo hi k,
  wf m (S d) lo hi (GB i ks cs) -> inb lo hi k -> inv h A [GB i ks cs] B ->
  get k (ents cs) <> None -> (forall x, In x (keys (ents cs)) -> (x <= k)%Z) -> 1 <= length ks ->
  leaf_guard M O (rm_ok M O) h (S d) i k = Ok true.
Proof.
  induction d as [|d IH]; intros h A i ks cs B m lo hi k HW Hk HI HG HX H1.
  - cbn [BTreeGhost.wf] in HW. destruct HW as [HC HK]. cbn [mn] in HK.
    apply inv_GB in HI as (HI & Hfi & Hni & (b & Eb & Hb)). cbn [fst snd] in *.
    destruct (route HK Hk) as (a & bb & CA & c & CB & -> & -> & LA & LB & Ha & Hbb & KL & Rc & Bc & KR & Hkc).
    destruct (kids_sorted HK) as [HS _].
    destruct (wf0_leaf Rc) as (j & es & -> & Ss & Fs & Cs).
    change (CA ++ GL j es :: CB) with (CA ++ [GL j es] ++ CB) in *.
    pose proof (inv_sub HI) as HIc.
    destruct (ctx_ents (@wf_okc V N M minL minB minL 0) KL KR Hkc) as [HA HBB].
    destruct (inv_GL HIc) as (l & El & Hl & _).
    rewrite !ents_app, ents_GL, get_app_lt, get_app_gt in HG by assumption.
    assert (bb = []) as ->.
    { destruct CB as [|g CB]; [destruct bb; auto; discriminate|]. exfalso. destruct bb as [|y bb]; [discriminate|].
      cbn [kr] in KR. destruct KR as (_ & Wg & _). pose proof (@wf_ne 0 minL _ _ g (or_introl HmL) Wg) as NE.
      rewrite ents_cons in HBB. destruct (ents [g]) as [|[x v] es'] eqn:Eg; [congruence|].
      rewrite agt_in in HBB. specialize (HBB x ltac:(cbn [app keys map fst In]; auto)).
      specialize (HX x). rewrite !ents_app, (ents_cons g), Eg in HX. rewrite !keys_app, !in_app_iff in HX. cbn [keys map fst In] in HX.
      specialize (HX ltac:(tauto)). lia. }
    destruct (law_erase EL Hl HG) as (l' & EE & Hh). pose proof (law_hint EL Hh) as Hl'.
    cbn [leaf_guard]. unfold getb. rewrite Eb. cbn [of_opt bind].
    rewrite (@bpos_ok L V N M O lrep minL kok LL b a [] _ k Hb HS Ha Hbb). cbn [bind].
    rewrite (@kid_at V N b _ CA (GL j es) CB (length a) Hb) by auto. cbn [bind gid].
    unfold erase_leaf, getl at 1. rewrite El. cbn [of_opt bind]. rewrite EE. cbn [bind fst snd].
    unfold getl. cbn [set_leaf hl]. unfold upd. rewrite Nat.eqb_refl. cbn [of_opt bind].
    rewrite app_nil_r in H1. unfold rm_ok. destruct (Nat.ltb_spec 0 (length a)); [|lia].
    destruct (_ <? _); reflexivity.
  - cbn [BTreeGhost.wf] in HW. destruct HW as [HC HK]. cbn [mn] in HK.
    apply inv_GB in HI as (HI & Hfi & Hni & (b & Eb & Hb)). cbn [fst snd] in *.
    destruct (route HK Hk) as (a & bb & CA & c & CB & -> & -> & LA & LB & Ha & Hbb & KL & Rc & Bc & KR & Hkc).
    destruct (kids_sorted HK) as [HS _].
    destruct (wfS_branch Rc) as (j & kc & cc & -> & Cc & Kc).
    change (CA ++ GB j kc cc :: CB) with (CA ++ [GB j kc cc] ++ CB) in *.
    pose proof (inv_sub HI) as HIc.
    destruct (ctx_ents (@wf_okc V N M minL minB minB (S d)) KL KR Hkc) as [HA HBB].
    rewrite !ents_app, ents_GB, get_app_lt, get_app_gt in HG by assumption.
    change (leaf_guard M O (rm_ok M O) h (S (S d)) i k) with
      (do b <- getb h i; do pos <- lo_bpos O (bk b) (bn b) k; do c <- aget (bc b) pos; leaf_guard M O (rm_ok M O) h (S d) c k).
    unfold getb at 1. rewrite Eb. cbn [of_opt bind].
    rewrite (@bpos_ok L V N M O lrep minL kok LL b a bb _ k Hb HS Ha Hbb). cbn [bind].
    rewrite (@kid_at V N b _ CA (GB j kc cc) CB (length a) Hb) by auto. cbn [bind gid].
    eapply IH; eauto; try lia. intros x Hx. apply HX. rewrite !ents_app, ents_GB, !keys_app, !in_app_iff. auto.
Qed.

Notation tinv := (tinv N M lrep minL minB).
Lemma t_max_guard t es k : tinv t es -> get k es <> None -> (forall x, get x es <> None -> (x <= k)%Z) ->
  leaf_guard M O (rm_ok M O) (th t) (tdepth t) (troot t) k = Ok true.
Proof.
  intros I0 HG HX. pose proof (tinv_sorted I0) as HS. destruct I0 as (g & Eg & W & I & <-).
  destruct (tdepth t) as [|d]; [reflexivity|].
  destruct (wfS_branch W) as (j & ks & cs & -> & Cs & KK). rewrite ents_GB in *. cbn [gid rmin] in *. rewrite <- Eg.
  eapply max_guard; eauto; try lia.
  - split; exact Logic.I.
  - intros x Hx. apply HX. intros E. apply get_none in E; auto.
Qed.

Hypothesis Hside : forall b d r, side b d r.
Hypothesis HM : 1 <= M.
Hypothesis HmM : minL <= (M + 1) / 2.
Hypothesis HN : 2 * ((N + 1) / 2) <= N.
Hypothesis HB : minB <= (N + 1) / 2 - 1.
Hypothesis HB2 : 2 <= minB.
Lemma rm_good (h : heap L) id pos c : rm_ok M O h id pos c = Ok true -> good M O side h id pos c.
Proof. intros E. split; auto. Qed.

Lemma max_fine os : forall t es m, tinv t es -> (forall k, get k es = m k) -> max_hist m os -> Forall (op_in kok) os ->
  hist_ok m os /\ fine N M O (rm_ok M O) t (map bop_of os) = true.
Proof.
  assert (HN2 : 2 <= N) by lia.
  induction os as [|o os IH]; intros t es m I E F FK; [split; [exact Logic.I|reflexivity]|].
  inversion FK as [|? ? Ko FK']; subst. cbn [max_hist] in F. destruct F as [Fo F']. destruct o as [k v|k].
  - cbn [op_in] in Ko. destruct (t_insert_ok LL HN2 HB (k := k) v Ko I) as (t1 & E1 & I1).
    destruct (IH t1 _ (m_step m (OpInsert k v)) I1) as [H1 H2]; auto.
    + intros x. rewrite get_ins by (eapply tinv_sorted; eauto). cbn [m_step]. unfold m_put. destruct (x =? k)%Z; auto.
    + split; [cbn [hist_ok op_ok]; auto|]. cbn [map fine bop_of t_step]. rewrite E1. exact H2.
  - destruct Fo as [F1 F2]. rewrite <- E in F1.
    assert (EG : leaf_guard M O (rm_ok M O) (th t) (tdepth t) (troot t) k = Ok true).
    { eapply t_max_guard; eauto. intros x Hx. apply F2. now rewrite <- E. }
    destruct (t_erase_okg LL EL HM HmM HN HB HB2 rm_good I F1 (or_intror EG)) as (t1 & E1 & I1).
    destruct (IH t1 _ (m_step m (OpErase _ k)) I1) as [H1 H2]; auto.
    + intros x. rewrite get_del by (eapply tinv_sorted; eauto). cbn [m_step]. unfold m_del. destruct (x =? k)%Z; auto.
    + split; [cbn [hist_ok op_ok]; rewrite <- E; auto|]. cbn [map fine bop_of t_step]. rewrite EG, E1. cbn [bind fst andb]. exact H2.
Qed.
End Largest.

(** ** UnsortedPBPTree *)
Section UErase.
Variables (V : Type) (t : ktype) (N M : nat).
Hypothesis HM : 2 <= M.
Hypothesis Ht : (1 <= kt_bits t <= 64)%Z.
Hypothesis HN : 6 <= N.
Hypothesis HE : Nat.even N = true.
Notation O := (un_ops V t M).

Lemma ul_core : erase_core O M (ul_rep (V := V) t M) (ul_hint t M) (fun _ _ _ => True).
Proof.
  constructor; cbn [un_ops lo_erase lo_merge lo_balance lo_minkey]; intros.
  - now destruct H.
  - eapply ul_erase_ok; eauto.
  - eapply ul_merge_ok; eauto.
  - eapply ul_balance_left_ok; eauto.
  - eapply ul_balance_right_ok; eauto.
  - eapply ul_minkey_ok; eauto.
Qed.

Lemma un_guarded os : hist_ok m_empty os -> Forall (op_in (kt_in t)) os -> fine N M O (rm_ok M O) (t_new O) (map bop_of os) = true ->
  exists tr out, t_run N M O (t_new O) (map bop_of os) = Ok tr /\
    (forall k, t_lookup O tr k = Ok (m_run os k)) /\
    t_scan O tr = Ok out /\ enumerates (m_run os) out /\ in_runs M out /\
    shape N M (M / 2) (N / 2 - 1) O (th tr) (tdepth tr) true (troot tr) (length out) /\
    (forall k, m_run os k <> None -> leaf_guard M O (rm_ok M O) (th tr) (tdepth tr) (troot tr) k = Ok true ->
      exists tr', t_erase N M O tr k = Ok (tr', true) /\ forall x, t_lookup O tr' x = Ok (m_del (m_run os) k x)).
Proof.
  intros F FK FF. destruct (even_half HE) as [H1 H2].
  destruct (@guard_all _ _ N M O _ _ _ (M / 2) (N / 2 - 1) _ (ul_laws V HM Ht) ul_core ltac:(lia) ltac:(lia) ltac:(lia) ltac:(lia) ltac:(lia)
    _ (@rm_good _ _ M O (fun _ _ _ => True) (fun _ _ _ => Logic.I)) os ltac:(lia) (or_introl F) FK FF) as (tr & out & R1 & R2 & R3 & R4 & R5 & R6 & R7).
  exists tr, out. splits; auto. intros k Hk EG. destruct (R7 k (or_introl Hk) EG) as (t' & b & E1 & Hb & HL).
  exists t'. split; auto. rewrite E1. f_equal. f_equal. now apply Hb.
Qed.

Lemma un_max os : max_hist m_empty os -> Forall (op_in (kt_in t)) os ->
  hist_ok m_empty os /\ fine N M O (rm_ok M O) (t_new O) (map bop_of os) = true.
Proof.
  intros F FK. destruct (even_half HE) as [H1 H2].
  apply (@max_fine _ _ N M O _ _ _ (M / 2) (N / 2 - 1) _ (ul_laws V HM Ht) ul_core ltac:(lia) ltac:(lia) (fun _ _ _ => Logic.I)
    ltac:(lia) ltac:(lia) ltac:(lia) ltac:(lia) ltac:(lia) os (t_new O) [] m_empty); auto.
  eapply tinv_new; eauto using ul_laws; lia.
Qed.
End UErase.

(** ** FPTree *)
Section FErase.
Variables (V : Type) (t : ktype) (fp : Z -> Z) (junk : nat -> Z) (N M : nat).
Hypothesis HM : 2 <= M.
Hypothesis HW : (N.of_nat M < W)%N.
Hypothesis Ht : (1 <= kt_bits t <= 64)%Z.
Hypothesis HN : 6 <= N.
Hypothesis HE : Nat.even N = true.
Notation O := (fp_ops V t fp junk M).
Notation leaf := (fleaf V).

Definition fkok (k : Z) : Prop := kt_in t k /\ (k < kt_max t)%Z.
Definition fl_repm (l : leaf) (es : list (Z * V)) : Prop := fl_rep t fp M l es /\ Forall (fun k => k < kt_max t)%Z (keys es).
Definition fside (b : bool) (d r : leaf) : Prop :=
  exists d0 r0, aget (fk d) 0 = Ok d0 /\ aget (fk r) 0 = Ok r0 /\ if b then (d0 < r0)%Z else (r0 <= d0)%Z.

Lemma flm_laws : leaf_laws O M (M / 2) fkok fl_repm.
Proof.
  pose proof (fl_laws V fp junk HM HW Ht) as LL. constructor.
  - split; [apply (law_new LL)|constructor].
  - intros l es [H _]. exact (law_sorted LL H).
  - intros l es [H _]. exact (law_cap LL H).
  - intros l es [H _]. exact (law_count LL H).
  - intros l es k [H _]. exact (law_lookup LL k H).
  - intros l es k v [Hk Hm] [HR HZ].
    assert (HI : Forall (fun k => k < kt_max t)%Z (keys (ins k v es))).
    { rewrite Forall_forall in *. intros x Hx. apply ins_in_keys in Hx as [->|Hx]; auto. }
    destruct (law_insert LL v Hk HR) as [(l' & E & R)|(l1 & l2 & sk & e1 & e2 & E & Es & R1 & R2 & R)].
    + left. exists l'. split; [exact E|split; auto].
    + right. rewrite Es, keys_app, Forall_app in HI. destruct HI. exists l1, l2, sk, e1, e2. unfold fl_repm. tauto.
  - intros l es [H _]. exact (law_scan LL H).
  - exact (law_bpos LL).
Qed.

Lemma fl_core : erase_core O M fl_repm (fun l es _ => fl_repm l es) fside.
Proof.
  constructor; cbn [fp_ops lo_erase lo_merge lo_balance lo_minkey].
  - auto.
  - intros l es k [HR HZ] HG. destruct (fl_erase_ok HR HG) as (l' & E & R'). exists l'. split; auto. split; auto.
    rewrite Forall_forall in *. intros x Hx. apply HZ. eapply del_in_keys; eauto.
  - intros l1 l2 e1 e2 [R1 Z1] [R2 Z2] HS HL. destruct (fl_merge_ok R1 R2 HS HL) as (l & E & R). exists l. split; auto. split; auto.
    rewrite keys_app, Forall_app. auto.
  - intros dl rl ed er k (d0 & r0 & E0 & E1 & Lt) [R1 Z1] [R2 Z2] HS _ HL H1.
    destruct (fl_balance_left_ok HW R1 R2 E0 E1 Lt HS HL H1) as (d' & r' & e1 & e2 & E & -> & Hl & Rd & Rr).
    rewrite keys_app, Forall_app in Z1. destruct Z1. exists d', r', e1, e2. splits; auto; split; auto. rewrite keys_app, Forall_app. auto.
  - intros dl rl ed er k (d0 & r0 & E0 & E1 & Lt) [R1 Z1] [R2 Z2] HS _ HL H1.
    destruct (fl_balance_right_ok HW R1 R2 E0 E1 Lt HS HL H1) as (d' & r' & e1 & e2 & E & -> & Hl & Rd & Rr).
    rewrite keys_app, Forall_app in Z1. destruct Z1. exists d', r', e1, e2. splits; auto; split; auto. rewrite keys_app, Forall_app. auto.
  - intros l es x v [HR HZ]. apply (@fl_minkey_ok V t fp M l es x v). split; auto.
    intros w [= -> -> ->]. inversion HZ as [|? ? Hlt _]. cbn [fst] in Hlt. lia.
Qed.

Lemma fl_absent_fine : absent_fine O fl_repm (fun l es _ => fl_repm l es).
Proof. intros l es k [HR HZ] HG. split; [exact (fl_erase_absent HR HG)|split; auto]. Qed.

Lemma slots_good (h : heap leaf) id pos c : slots_ok M h id pos c = Ok true -> good M O fside h id pos c.
Proof.
  unfold slots_ok. intros E. split; [now left|]. 
  apply bind_ok in E as (b & Eb & E). apply bind_ok in E as (l & El & E).
  unfold getb in Eb. unfold getl in El. destruct (hb h id) as [b'|] eqn:Hb; [|discriminate]. injection Eb as ->.
  destruct (hl h c) as [l'|] eqn:Hl; [|discriminate]. injection El as ->.
  apply bind_ok in E as (pr & Ep & E). split.
  - intros l0 p pl [= <-] Hp Epv Epl HC. destruct (Nat.ltb_spec 0 pos); [|lia].
    rewrite Epv in Ep. cbn [of_opt bind] in Ep. unfold getl in Ep. rewrite Epl in Ep. cbn [of_opt bind] in Ep. injection Ep as <-.
    cbn [fp_ops lo_count] in HC. destruct (Nat.ltb_spec ((M + 1) / 2) (fl_count pl)); [|lia].
    apply bind_ok in E as (d0 & E0 & E). apply bind_ok in E as (r0 & E1 & E). injection E as E. apply Z.ltb_lt in E.
    exists d0, r0. auto.
  - intros l0 n nl b0 [= <-] [= <-] Hp Enx Enl HC HA. cbn [fp_ops lo_count] in HC, HA.
    assert (E' : (do d0 <- aget (fk nl) 0; do r0 <- aget (fk l) 0; Ok (negb (d0 <? r0)%Z)) = Ok true).
    { assert (EN : (if pos <? bn b then do n <- of_opt (hnx h c); do nl <- getl h n;
            if (M + 1) / 2 <? fl_count nl then do d0 <- aget (fk nl) 0; do r0 <- aget (fk l) 0; Ok (negb (d0 <? r0)%Z) else Ok true
          else Ok true) = Ok true).
      { destruct pr as [pl|]; [|exact E]. destruct (Nat.ltb_spec 0 pos) as [H0|H0]; [|discriminate].
        destruct HA as [HA|(p & pl' & Epv & Epl & HA)]; [lia|].
        rewrite Epv in Ep. cbn [of_opt bind] in Ep. unfold getl in Ep. rewrite Epl in Ep. cbn [of_opt bind] in Ep. injection Ep as <-.
        destruct (Nat.ltb_spec ((M + 1) / 2) (fl_count pl')); [lia|]. exact E. }
      destruct (Nat.ltb_spec pos (bn b)); [|lia]. rewrite Enx in EN. unfold getl in EN. cbn [of_opt bind] in EN. rewrite Enl in EN. cbn [of_opt bind] in EN.
      destruct (Nat.ltb_spec ((M + 1) / 2) (fl_count nl)); [exact EN|lia]. }
    apply bind_ok in E' as (d0 & E0 & E'). apply bind_ok in E' as (r0 & E1 & E'). injection E' as E'. apply negb_true_iff, Z.ltb_ge in E'.
    exists d0, r0. auto.
Qed.

Lemma fp_guarded os : Forall (op_in fkok) os -> fine N M O (slots_ok M) (t_new O) (map bop_of os) = true ->
  exists tr out, t_run N M O (t_new O) (map bop_of os) = Ok tr /\
    (forall k, t_lookup O tr k = Ok (m_run os k)) /\
    t_scan O tr = Ok out /\ enumerates (m_run os) out /\ in_runs M out /\
    (forall lo hi, exists rng, t_range O tr lo hi = Ok rng /\ enumerates_range (m_run os) lo hi rng) /\
    shape N M (M / 2) (N / 2 - 1) O (th tr) (tdepth tr) true (troot tr) (length out) /\
    (forall k, leaf_guard M O (slots_ok M) (th tr) (tdepth tr) (troot tr) k = Ok true ->
      exists tr' b, t_erase N M O tr k = Ok (tr', b) /\ (b = true <-> m_run os k <> None) /\
        forall x, t_lookup O tr' x = Ok (m_del (m_run os) k x)).
Proof.
  intros FK FF. destruct (even_half HE) as [H1 H2].
  destruct (@guard_all _ _ N M O _ _ _ (M / 2) (N / 2 - 1) _ flm_laws fl_core ltac:(lia) ltac:(lia) ltac:(lia) ltac:(lia) ltac:(lia)
    _ slots_good os ltac:(lia) (or_intror fl_absent_fine) FK FF) as (tr & out & R1 & R2 & R3 & R4 & R5 & R6 & R7).
  exists tr, out. splits; auto; [|intros k EG; apply R7; auto; right; exact fl_absent_fine].
  intros lo hi.
  destruct (@hist_guard_new _ _ N M O _ _ _ (M / 2) (N / 2 - 1) _ flm_laws fl_core ltac:(lia) ltac:(lia) ltac:(lia) ltac:(lia) ltac:(lia)
    _ slots_good os (or_intror fl_absent_fine) FK FF) as (tr1 & es & E1 & I & G).
  rewrite R1 in E1. injection E1 as <-.
  assert (RL : range_law O fl_repm) by (intros l es' lo' hi' [HR _]; exact (fl_range_ok lo' hi' HR)).
  destruct (@t_range_perm _ _ N M O _ (M / 2) (N / 2 - 1) _ flm_laws ltac:(lia) ltac:(lia) RL tr es lo hi I) as (rng & Eo & P). exists rng. split; auto.
  eapply enumerates_range_ext; [exact G|]. apply perm_enumerates_range; auto. eapply tinv_sorted; eauto.
Qed.
End FErase.
