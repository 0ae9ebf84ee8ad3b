(** UnsortedPBPTree and FPTree, [N] from 5 on: the condition on branch nodes is exact, for UnsortedPBPTree whatever the one on leaves says. *)
From Verif Require Import Base ArrLemmas MapSpec SortedList RankModel BitmapModel BTreeModel BTreeSpec BTreeLaws BTreeBranch BTreeGhost
  BTreeInsert EraseSpec PathSpec BTreeErase BTreeHist BTreeMain SLeafModel SLeafProofs ULeafModel ULeafProofs UTreeProofs FLeafModel FLeafProofs
  FTreeProofs EraseG CutModel CutSpec CutProofs CutEProofs PathProofs PathG EraseX.
Open Scope nat_scope.

Section Guarded.
Variables (L V : Type) (N M : nat) (O : leafops L V).
Variable lrep : L -> list (Z * V) -> Prop.
Variable lhint : L -> list (Z * V) -> Z -> Prop.
Variable side : bool -> L -> L -> Prop.
Variables minL minB : nat.
Variable kok : Z -> Prop.
Hypothesis LL : leaf_laws O M minL kok lrep.
Hypothesis EL : erase_core O M lrep lhint side.
Hypothesis HM : 1 <= M.
Hypothesis HmL : minL <= (M + 1) / 2.
Hypothesis HmL1 : 1 <= minL.
Hypothesis HB : minB <= (N + 1) / 2 - 1.
Hypothesis HB2 : 2 <= minB.
Variable guard : heap L -> nat -> nat -> nat -> res bool.
Hypothesis Hg : forall h id pos c, guard h id pos c = Ok true -> good M O side h id pos c.
Notation tinv := (tinv N M lrep minL minB).
Notation absent_fine := (absent_fine O lrep lhint).

Lemma pg_ub t es k : tinv t es -> get k es <> None \/ absent_fine -> leaf_guard M O guard (th t) (tdepth t) (troot t) k = Ok true ->
  exists b, path_ok N M O t (tdepth t) (troot t) k = Ok b /\ (b = false -> t_erase N M O t k = UB).
Proof.
  intros (g & Eg & W & I & <-) HA EG. destruct t as [h x d]. cbn [troot tdepth th] in *. subst x. destruct d as [|d].
  - exists true. split; [reflexivity|discriminate].
  - destruct (wfS_branch W) as (j & ks & cs & -> & Cs & KK). rewrite ents_GB in *. cbn [gid rmin] in *.
    destruct (@path_dec L V N M O lrep lhint side minL minB kok LL EL HM HmL HB HB2
      guard Hg (match get k (ents cs) with Some _ => true | None => false end) d (Tree h j (S d)) [] j ks cs [] 1 None None k W ltac:(split; exact Logic.I) I) as (b & E & Hb & _);
      cbn [tdepth th]; auto; try lia.
    + intros l es Hl E. destruct (get k (ents cs)) as [v|] eqn:G.
      * apply (law_erase EL Hl). now rewrite E.
      * destruct HA as [HA|HA]; [congruence|]. destruct (HA l es k Hl E) as [EE Hh]. exists l. split; auto. now rewrite (del_none E).
    + exists b. split; auto.
Qed.

Lemma pg_exact os : hist_ok m_empty os \/ absent_fine -> Forall (op_in kok) os ->
  fine N M O guard (t_new O) (map bop_of os) = true -> path_fine N M O (t_new O) (map bop_of os) = true ->
  exists t, t_run N M O (t_new O) (map bop_of os) = Ok t /\
    forall k, m_run os k <> None \/ absent_fine -> leaf_guard M O guard (th t) (tdepth t) (troot t) k = Ok true ->
      exists c, path_ok N M O t (tdepth t) (troot t) k = Ok c /\
      if c then exists t' b, t_erase N M O t k = Ok (t', b) /\ (b = true <-> m_run os k <> None) /\ forall x, t_lookup O t' x = Ok (m_del (m_run os) k x)
      else t_erase N M O t k = UB.
Proof.
  intros F FK FF FP.
  destruct (@pg_all _ _ N M O _ _ _ minL minB _ LL EL HM HmL HB ltac:(lia) _ Hg os HmL1 F FK FF FP) as (t & es & out & R1 & I & G & _ & _ & _ & _ & _ & R7).
  exists t. split; auto. intros k Hk EG. rewrite <- G in Hk. destruct (pg_ub I Hk EG) as (c & Ec & Hc). exists c. split; auto. destruct c; auto.
  rewrite G in Hk. apply R7; auto. rewrite Ec. apply orb_true_r.
Qed.
End Guarded.

(** ** UnsortedPBPTree: erases that free the wrong leaf, any [N] from 5 on *)
Section NoFuel.
Variables (L : Type) (N : nat).
Notation hp := (heap L).
Definition nf {A} (m : res A) : Prop := m <> NoFuel.
Lemma nf_bind {A B} (m : res A) (f : A -> res B) : nf m -> (forall x, nf (f x)) -> nf (bind m f).
Proof. unfold nf. destruct m; cbn [bind]; intros; auto; discriminate. Qed.
Lemma nf_ok {A} (x : A) : nf (Ok x). Proof. discriminate. Qed.
Lemma nf_ub {A} : nf (@UB A). Proof. discriminate. Qed.
Lemma nf_aget {A} (a : arr A) i : nf (aget a i).
Proof. unfold nf, aget. destruct (nth_error a i) as [[|]|]; discriminate. Qed.
Lemma nf_aset {A} (a : arr A) i x : nf (aset a i x).
Proof. unfold nf, aset. destruct (lset a i (Some x)); discriminate. Qed.
Lemma nf_getb (h : hp) i : nf (getb h i).
Proof. unfold nf, getb, of_opt. destruct (hb h i); discriminate. Qed.
Lemma nf_for_up {S} (f : nat -> S -> res S) n : (forall i s, nf (f i s)) -> forall lo s, nf (for_up lo n f s).
Proof. intros H. induction n as [|n IH]; intros lo s; cbn [for_up]; [apply nf_ok|]. apply nf_bind; auto. Qed.
Lemma nf_for_down {S} (f : nat -> S -> res S) n : (forall i s, nf (f i s)) -> forall hi s, nf (for_down hi n f s).
Proof. intros H. induction n as [|n IH]; intros hi s; cbn [for_down]; [apply nf_ok|]. apply nf_bind; auto. Qed.
Ltac nfs := repeat first [apply nf_ok | apply nf_ub | apply nf_aget | apply nf_aset | apply nf_getb | apply nf_bind; [|intros] | apply nf_for_up; intros | apply nf_for_down; intros
  | match goal with |- nf (if ?c then _ else _) => destruct c end | match goal with |- nf (let '(_, _) := ?x in _) => destruct x end].
Lemma nf_underflow (h : hp) id pos c : nf (underflow_branch N h id pos c).
Proof. unfold underflow_branch, balance_branch, merge_branch, free_branch, remove_branch_child. cbv zeta. nfs. Qed.
Lemma underflow_ub (h h' : hp) id pos c : hb h = hb h' -> underflow_branch N h' id pos c = UB -> underflow_branch N h id pos c = UB.
Proof.
  intros E H. destruct (underflow_branch N h id pos c) as [[r c']| |] eqn:E1; auto.
  - destruct (@underflow_branch_hb L N h' h id pos c r c' (eq_sym E) E1) as (r' & E2 & _). congruence.
  - exfalso. exact (nf_underflow E1).
Qed.
Lemma room_hb (h h' : hp) id pos c r : hb h = hb h' -> room N h id pos c r = room N h' id pos c r.
Proof. intros E. unfold room, getb. now rewrite E. Qed.
End NoFuel.

Section Wrong.
Variables (L V : Type) (N M : nat) (O : leafops L V).
Variable lrep : L -> list (Z * V) -> Prop.
Variable lhint : L -> list (Z * V) -> Z -> Prop.
Variables minL minB : nat.
Variable kok : Z -> Prop.
Hypothesis LL : leaf_laws O M minL kok lrep.
Hypothesis EL : erase_core O M lrep lhint (fun _ _ _ => True).
Hypothesis DA : lo_del_after O = true.
Hypothesis HM : 1 <= M.
Hypothesis HmL : minL <= (M + 1) / 2.
Hypothesis HmL1 : 1 <= minL.
Hypothesis HB : minB <= (N + 1) / 2 - 1.
Hypothesis HB2 : 2 <= minB.
Notation wf := (wf N M minL minB).
Notation inv := (inv N lrep).
Notation tinv := (tinv N M lrep minL minB).
Notation wf0_leaf := (@wf0_leaf V N M minL minB _ _ _ _).
Notation NF := (nofree O).
Let noguard (h : heap L) (i p c : nat) : res bool := UB.
Lemma noguard_nf : forall h i p c, noguard h i p c = Ok true -> good M NF (fun _ _ _ => True) h i p c.
Proof. discriminate. Qed.
Notation NL := (nofree_laws LL).
Notation NE := (nofree_erase EL).

Lemma path_rel r d : forall t A i ks (cs : list (gt V)) B m lo hi k,
  wf m (S d) lo hi (GB i ks cs) -> inb lo hi k -> inv (th t) A [GB i ks cs] B ->
  (forall j l es, find_leaf O (th t) (S d) i k = Ok j -> hl (th t) j = Some l -> lrep l es -> sorted es -> get k es = get k (ents cs) ->
    exists l', lo_erase O l k = Ok (r, l') /\ lhint l' (del k es) k) ->
  1 <= length ks -> S d <= tdepth t -> 2 <= length ks \/ S d = tdepth t ->
  leaf_guard M O (rm_ok M O) (th t) (S d) i k = Ok false ->
  exists x, path_ok N M NF t (S d) i k = Ok x /\ path_ok N M O t (S d) i k = Ok x /\ (x = false -> erase_branch N M O t (S d) i k = UB).
Proof.
  induction d as [|d IH]; intros t A i ks cs B m lo hi k HW Hk HI HG H1 HD H2 G.
  - destruct (@path_decw L V N M NF lrep lhint (fun _ _ _ => True) minL minB kok NL NE HM HmL HB HB2 noguard noguard_nf r 0 t A i ks cs B m lo hi k HW Hk HI) as (x & E & _ & Hx); try lia; auto.
    { left. exact (free_good NE). }
    rewrite (Hx eq_refl) in E. exists true. splits; auto. discriminate.
  - destruct (@path_decw L V N M NF lrep lhint (fun _ _ _ => True) minL minB kok NL NE HM HmL HB HB2 noguard noguard_nf r (S d) t A i ks cs B m lo hi k HW Hk HI) as (y & Ey & Hy & _); auto.
    { left. exact (free_good NE). }
    exists y. split; [exact Ey|].
    destruct HW as [HC HK]. cbn [mn] in HK.
    apply inv_GB in HI as (HI & Hfi & Hni & (b & Eb & Hb)). cbn [fst snd] in *.
    destruct (route HK Hk) as (a & bb & CA & c & CB & -> & -> & LA & LB & Ha & Hbb & KL & Rc & Bc & KR & Hkc).
    destruct (kids_sorted HK) as [HS _].
    destruct (wfS_branch Rc) as (j & kc & cc & -> & Cc & Kc).
    change (CA ++ GB j kc cc :: CB) with (CA ++ [GB j kc cc] ++ CB) in *.
    pose proof (inv_sub HI) as HIc.
    destruct (ctx_ents (@wf_okc V N M minL minB minB (S d)) KL KR Hkc) as [HA HBB].
    assert (HE : get k (ents (CA ++ [GB j kc cc] ++ CB)) = get k (ents cc)) by now rewrite !ents_app, ents_GB, get_app_lt, get_app_gt by assumption.
    rewrite leaf_guard_S in G. rewrite path_ok_2 in Ey |- *. rewrite erase_branch_2 in Hy |- *.
    change (lo_bpos NF) with (lo_bpos O) in Ey, Hy.
    assert (Eg : getb (th t) i = Ok b) by (unfold getb; now rewrite Eb).
    pose proof (@bpos_ok L V N M O lrep minL kok LL b a bb _ k Hb HS Ha Hbb) as EP.
    assert (EC : aget (bc b) (length a) = Ok j) by (rewrite (@kid_at V N b _ CA (GB j kc cc) CB (length a) Hb) by auto; reflexivity).
    assert (HG' : forall j' l es, find_leaf O (th t) (S d) j k = Ok j' -> hl (th t) j' = Some l -> lrep l es -> sorted es -> get k es = get k (ents cc) ->
      exists l', lo_erase O l k = Ok (r, l') /\ lhint l' (del k es) k).
    { intros j' l es EF El Hl Sl E. apply (HG j' l es); auto; [|now rewrite HE].
      change (find_leaf O (th t) (S (S d)) i k) with (do b <- getb (th t) i; do pos <- lo_bpos O (bk b) (bn b) k; do c <- aget (bc b) pos; find_leaf O (th t) (S d) c k).
      rewrite Eg. cbn [bind]. rewrite EP. cbn [bind]. now rewrite EC. }
    rewrite Eg in G, Ey, Hy |- *. cbn [bind] in G, Ey, Hy |- *. rewrite EP in G, Ey, Hy |- *. cbn [bind] in G, Ey, Hy |- *. rewrite EC in G, Ey, Hy |- *. cbn [bind] in G, Ey, Hy |- *.
    destruct (IH t _ j kc cc _ minB _ _ k Rc Hkc HIc HG' ltac:(lia) ltac:(lia) ltac:(left; lia) G) as (x & Ex1 & Ex2 & Hx).
    rewrite Ex1 in Ey. rewrite Ex2. cbn [bind] in Ey |- *. destruct x.
    2:{ injection Ey as <-. split; [reflexivity|]. intros _. rewrite (Hx eq_refl). reflexivity. }
    destruct (@erase_branch_ok L V N M NF lrep lhint (fun _ _ _ => True) minL minB kok NL NE HM HmL HB ltac:(lia) noguard noguard_nf r d t (A ++ lids CA) j kc cc (lids CB ++ B) minB
      (lb lo a) (hbd bb hi) k Rc Hkc HIc) as (t1 & EE & _).
    { exact HG'. } { lia. } { lia. } { right. left. exact Ex1. } { left. exact (free_good NE). }
    destruct (erase_rel DA EE G) as (t2 & q & n & n2 & E2 & B1 & B2 & B3 & _).
    rewrite EE in Ey, Hy. rewrite E2. cbn [bind fst] in Ey, Hy |- *. split.
    + rewrite (@getb_eq L (th t2) (th t1) j B1). rewrite (@room_hb L N (th t2) (th t1) _ _ _ _ B1). exact Ey.
    + intros F. specialize (Hy F). clear - Hy B1 B3.
      rewrite !(@getb_eq L (th t2) (th t1) _ B1). destruct (getb (th t1) i) as [b1| |]; cbn [bind] in *; auto.
      destruct (lo_bpos O (bk b1) (bn b1) k) as [p1| |]; cbn [bind] in *; auto. rewrite ?(@getb_eq L (th t2) (th t1) _ B1). destruct (getb (th t1) j) as [cb| |]; cbn [bind] in *; auto.
      destruct (_ <? _); [|discriminate Hy].
      destruct (underflow_branch N (th t1) i p1 j) as [[h2 c']| |] eqn:EU; cbn [bind] in Hy; try discriminate Hy.
      * destruct (@underflow_branch_hb L N (th t2) (th t1) _ _ _ _ _ B1 EU) as (h3 & -> & E3). cbn [bind]. rewrite (@getb_eq L h3 h2 _ E3).
        destruct (getb h2 i) as [b2| |]; cbn [bind] in *; auto. destruct (_ && _); discriminate Hy.
      * now rewrite (@underflow_ub L N (th t2) (th t1) _ _ _ B1 EU).
Qed.

Lemma wrong_exactw r t es k : tinv t es ->
  (forall j l es', find_leaf O (th t) (tdepth t) (troot t) k = Ok j -> hl (th t) j = Some l -> lrep l es' -> sorted es' -> get k es' = get k es ->
    exists l', lo_erase O l k = Ok (r, l') /\ lhint l' (del k es') k) ->
  leaf_guard M O (rm_ok M O) (th t) (tdepth t) (troot t) k = Ok false ->
  exists x, path_ok N M O t (tdepth t) (troot t) k = Ok x /\
    if x then exists t2 y, t_erase N M O t k = Ok (t2, r) /\ y <> k /\ get y es <> None /\ t_lookup O t2 y = UB else t_erase N M O t k = UB.
Proof.
  intros I HG G. destruct (tinv_tinvf I) as (f & If). pose proof I as (g & Eg & W & Iv & Ee). pose proof HG as HG0. destruct (tdepth t) as [|d] eqn:ED; [discriminate G|].
  destruct (wfS_branch W) as (j & ks & cs & -> & Cs & KK). cbn [gid rmin] in *. rewrite <- Eg in *.
  assert (HE : get k es = get k (ents cs)) by (rewrite <- Ee, ents_GB; reflexivity). rewrite HE in HG.
  destruct (@path_rel r d t [] j ks cs [] 1 None None k W ltac:(split; exact Logic.I) Iv HG ltac:(lia) ltac:(lia) ltac:(right; lia) G) as (x & E1 & E2 & Hx).
  exists x. split; auto. destruct x.
  - destruct (@t_erase_genf_w L V N M NF lrep lhint (fun _ _ _ => True) minL minB kok NL NE HM HmL HB ltac:(lia) noguard noguard_nf f r t es k If) as (t1 & X1 & X2).
    + rewrite ED, <- Eg. exact HG0.
    + right. left. now rewrite ED, <- Eg.
    + left. exact (free_good NE).
    + eapply (@damage_from L V N M O lrep minL minB kok LL DA HM HmL1 HmL HB HB2 r f t t1 es k If); eauto. now rewrite ED, <- Eg.
  - unfold t_erase. rewrite ED, <- Eg. auto.
Qed.

Lemma wrong_exact t es k : tinv t es -> get k es <> None -> leaf_guard M O (rm_ok M O) (th t) (tdepth t) (troot t) k = Ok false ->
  exists x, path_ok N M O t (tdepth t) (troot t) k = Ok x /\
    if x then exists t2 y, t_erase N M O t k = Ok (t2, true) /\ y <> k /\ get y es <> None /\ t_lookup O t2 y = UB else t_erase N M O t k = UB.
Proof.
  intros I HG. apply (@wrong_exactw true t es k I). intros j l es' _ _ Hl _ E. apply (law_erase EL Hl). now rewrite E.
Qed.
End Wrong.

Section Classes.
Variables (V : Type) (t : ktype) (N M : nat).
Hypothesis HM : 2 <= M.
Hypothesis Ht : (1 <= kt_bits t <= 64)%Z.
Hypothesis HN : 5 <= N.

Lemma un_path_exact os (O := un_ops V t M) : hist_ok m_empty os -> Forall (op_in (kt_in t)) os ->
  fine N M O (rm_ok M O) (t_new O) (map bop_of os) = true -> path_fine N M O (t_new O) (map bop_of os) = true ->
  exists tr, t_run N M O (t_new O) (map bop_of os) = Ok tr /\
    forall k, m_run os k <> None -> exists g c, leaf_guard M O (rm_ok M O) (th tr) (tdepth tr) (troot tr) k = Ok g /\
      path_ok N M O tr (tdepth tr) (troot tr) k = Ok c /\
      if c then exists tr', t_erase N M O tr k = Ok (tr', true) /\
        if g then forall x, t_lookup O tr' x = Ok (m_del (m_run os) k x) else exists x, x <> k /\ m_run os x <> None /\ t_lookup O tr' x = UB
      else t_erase N M O tr k = UB.
Proof.
  intros F FK FF FP.
  destruct (@pg_exact _ _ N M O _ _ _ (M / 2) ((N + 1) / 2 - 1) _ (ul_laws V HM Ht) (ul_core V t M) ltac:(lia) ltac:(lia) ltac:(lia) ltac:(lia) ltac:(lia)
    _ (@rm_good _ _ M O (fun _ _ _ => True) (fun _ _ _ => Logic.I)) os (or_introl F) FK FF FP) as (tr & R1 & R2).
  exists tr. split; auto. intros k Hk.
  destruct (@pg_all _ _ N M O _ _ _ (M / 2) ((N + 1) / 2 - 1) _ (ul_laws V HM Ht) (ul_core V t M) ltac:(lia) ltac:(lia) ltac:(lia) ltac:(lia)
    _ (@rm_good _ _ M O (fun _ _ _ => True) (fun _ _ _ => Logic.I)) os ltac:(lia) (or_introl F) FK FF FP) as (tr0 & es & out & R3 & I & G & _).
  rewrite R1 in R3. injection R3 as <-. assert (Hk' : get k es <> None) by now rewrite G.
  destruct (@t_guard_dec _ _ N M O _ _ (M / 2) ((N + 1) / 2 - 1) _ (ul_laws V HM Ht) (ul_core V t M) ltac:(lia) ltac:(lia) ltac:(lia) ltac:(lia) ltac:(lia) tr es k I Hk') as (g & EG).
  destruct g.
  - destruct (R2 k (or_introl Hk) EG) as (c & Ec & Hc). exists true, c. splits; auto. destruct c; auto.
    destruct Hc as (tr' & b & E & Hb & H). exists tr'. split; auto. apply Hb in Hk. now subst b.
  - destruct (@wrong_exact _ _ N M O _ _ (M / 2) ((N + 1) / 2 - 1) _ (ul_laws V HM Ht) (ul_core V t M) eq_refl ltac:(lia) ltac:(lia) ltac:(lia) ltac:(lia) ltac:(lia) tr es k I Hk' EG) as (c & Ec & Hc).
    exists false, c. splits; auto. destruct c; auto. destruct Hc as (t2 & y & X1 & X2 & X3 & X4). exists t2. split; auto. exists y. rewrite <- G. auto.
Qed.

Lemma fp_path_exact fp junk os (O := fp_ops V t fp junk M) : (N.of_nat M < W)%N -> Forall (op_in (fkok t)) os ->
  fine N M O (slots_ok M) (t_new O) (map bop_of os) = true -> path_fine N M O (t_new O) (map bop_of os) = true ->
  exists tr, t_run N M O (t_new O) (map bop_of os) = Ok tr /\
    forall k, leaf_guard M O (slots_ok M) (th tr) (tdepth tr) (troot tr) k = Ok true ->
      exists c, path_ok N M O tr (tdepth tr) (troot tr) k = Ok c /\
      if c then exists tr' b, t_erase N M O tr k = Ok (tr', b) /\ (b = true <-> m_run os k <> None) /\ forall x, t_lookup O tr' x = Ok (m_del (m_run os) k x)
      else t_erase N M O tr k = UB.
Proof.
  intros HW FK FF FP.
  destruct (@pg_exact _ _ N M O _ _ _ (M / 2) ((N + 1) / 2 - 1) _ (flm_laws V fp junk HM HW Ht) (fl_core V t fp junk HM HW (le_n 6)) ltac:(lia) ltac:(lia) ltac:(lia) ltac:(lia) ltac:(lia)
    _ (slots_good t fp junk HM HW (le_n 6)) os (or_intror (@fl_absent_fine V t fp junk M)) FK FF FP) as (tr & R1 & R2).
  exists tr. split; auto. intros k EG. exact (R2 k (or_intror (@fl_absent_fine V t fp junk M)) EG).
Qed.
End Classes.
