(** Erases after restarts of FPTree. *)
From Verif Require Import Base ArrLemmas MapSpec SortedList RankModel BTreeModel BTreeLaws BTreeBranch BTreeGhost BTreeSpec BTreeInsert EraseSpec BTreeErase
  BTreeHist BTreeMain FLeafModel FLeafProofs FTreeProofs EraseG RecoverModel RecoverProofs RecSpec CutModel CutSpec CutProofs CutEProofs RecEModel RecESpec.
Open Scope nat_scope.

Section Digits.
Variable N : nat.
Definition dig (n j : nat) := (n / S N ^ j) mod S N.
Lemma dig_top a r d : r < S N ^ d -> a <= N -> dig (a * S N ^ d + r) d = a.
Proof. intros Hr Ha. unfold dig. rewrite Nat.div_add_l, (Nat.div_small r) by lia. rewrite Nat.add_0_r. apply Nat.mod_small. lia. Qed.
Lemma dig_low a r d j : j < d -> dig (a * S N ^ d + r) j = dig r j.
Proof.
  intros Hj. unfold dig. replace d with (j + S (d - S j)) by lia. rewrite Nat.pow_add_r, Nat.pow_succ_r'.
  set (P := S N ^ j). assert (P <> 0) by (apply Nat.pow_nonzero; lia). set (Y := S N ^ (d - S j)).
  replace (a * (P * (S N * Y)) + r) with (a * Y * S N * P + r) by lia. rewrite Nat.div_add_l by auto.
  rewrite Nat.add_comm, Nat.mod_add by lia. reflexivity.
Qed.
Lemma wide_dig f : 1 <= N -> forall n j, n <= f -> wide f N n = true -> S N ^ S j <= n -> 2 <= dig n j.
Proof.
  intros HN. induction f as [|f IH]; intros n j Hn W Hj.
  - assert (S N ^ S j <> 0) by (apply Nat.pow_nonzero; lia). lia.
  - cbn [wide] in W. apply orb_prop in W as [W|W].
    + apply Nat.leb_le in W. rewrite Nat.pow_succ_r' in Hj. assert (S N ^ j <> 0) by (apply Nat.pow_nonzero; lia). nia.
    + apply andb_prop in W as [W1 W2]. apply Nat.leb_le in W1. destruct j as [|j].
      * unfold dig. cbn [Nat.pow]. now rewrite Nat.div_1_r.
      * unfold dig. rewrite Nat.pow_succ_r', <- Nat.div_div by (try apply Nat.pow_nonzero; lia).
        apply IH; auto.
        -- assert (n <> 0) by (intros ->; rewrite Nat.mod_0_l in W1; lia). assert (n / S N < n) by (apply Nat.div_lt; lia). lia.
        -- apply Nat.div_le_lower_bound; [lia|]. rewrite <- Nat.pow_succ_r'. exact Hj.
Qed.
End Digits.

Section RecE.
Variables (L V : Type) (N M : nat) (O : leafops L V).
Variable lrep : L -> list (Z * V) -> Prop.
Variable lhint : L -> list (Z * V) -> Z -> Prop.
Variable side : bool -> L -> L -> Prop.
Variable minL : nat.
Variable kok : Z -> Prop.
Hypothesis LL : leaf_laws O M minL kok lrep.
Hypothesis EL : erase_core O M lrep lhint side.
Hypothesis HM : 1 <= M.
Hypothesis HmL : minL <= (M + 1) / 2.
Hypothesis HL : 1 <= minL.
Hypothesis HN : 2 * ((N + 1) / 2) <= N.
Hypothesis HN6 : 2 <= (N + 1) / 2 - 1.
Variable guard : heap L -> nat -> nat -> nat -> res bool.
Hypothesis Hg : forall h id pos c, guard h id pos c = Ok true -> good M O side h id pos c.
Hypothesis AF : absent_fine O lrep lhint.
Hypothesis MK : forall l es x (v : V), lrep l ((x, v) :: es) -> lo_minkey O l = Ok x.
Notation gt := (gt V).
Notation wf0 := (wf N M minL 0).
Notation wf2 := (wf N M minL 2).
Notation tinvf := (BTreeInsert.tinvf N M lrep minL 2).
Implicit Types g : gt.

Lemma rsh_bnd d : forall m lo hi g n, wf0 m d lo hi g -> rsh N d g n -> 1 <= n <= S N ^ d.
Proof.
  clear LL EL HM HmL HL HN HN6 guard Hg AF MK. induction d as [|d IH]; intros m lo hi [i es|i ks cs] n W R; try contradiction W; cbn [rsh] in R.
  - cbn [Nat.pow]. lia.
  - destruct W as [Hm K]. destruct R as (CA & c & q & -> & LC & _ & Rc & ->).
    destruct (kids_mono K (c := c)) as (x & y & _ & Wc); [apply in_or_app; simpl; auto|].
    apply (IH _ _ _ _ _ Wc) in Rc. cbn [Nat.pow]. nia.
Qed.

Lemma kids_in (R R' : option Z -> option Z -> gt -> Prop) ks : forall lo cs hi, kids R lo ks cs hi -> (forall x y c, In c cs -> R x y c -> R' x y c) -> kids R' lo ks cs hi.
Proof.
  clear LL EL HM HmL HL HN HN6 guard Hg AF MK. induction ks as [|k ks IH]; intros lo [|c cs] hi K H; cbn [kids] in *; try tauto.
  - destruct cs; [|tauto]. destruct K as [K1 K2]. split; auto. apply H; simpl; auto.
  - destruct K as (K1 & K2 & K3). split; [exact K1|]. split; [apply H; simpl; auto|]. apply IH; auto. intros x y d Hd. apply H. simpl; auto.
Qed.

Lemma perf_wide d : 2 <= N -> forall m lo hi g, wf0 m d lo hi g -> perf N d g -> wf2 (match d with 0 => m | S _ => N end) d lo hi g.
Proof.
  clear LL EL HM HmL HL HN HN6 guard Hg AF MK. intros HN. induction d as [|d IH]; intros m lo hi [i es|i ks cs] W P; try contradiction W; [exact W|].
  cbn [wf perf] in *. destruct W as [H1 K]. destruct P as [P1 P2]. split; [lia|].
  eapply kids_in; [exact K|]. intros x y c Hc Wc. rewrite Forall_forall in P2. apply (IH _ _ _ _ Wc) in P2; [|exact Hc].
  destruct d as [|d]; [exact P2|]. eapply wf_mono; [|exact P2]. cbn [mn]. lia.
Qed.

Lemma rsh_wide d : 2 <= N -> forall m lo hi g n, wf0 m d lo hi g -> rsh N d g n -> (forall j, j < d -> 2 <= dig N (n - 1) j) ->
  wf2 (match d with 0 => m | S _ => 2 end) d lo hi g.
Proof.
  clear LL EL HM HmL HL HN HN6 guard Hg AF MK. intros HN. induction d as [|d IH]; intros m lo hi [i es|i ks cs] n W R H; try contradiction W; [exact W|].
  cbn [wf rsh] in *. destruct W as [Hm K]. destruct R as (CA & c & q & -> & LC & PA & Rc & ->).
  assert (Bq : 1 <= q <= S N ^ d).
  { destruct (kids_mono K (c := c)) as (x & y & _ & Wc); [apply in_or_app; simpl; auto|]. exact (rsh_bnd Wc Rc). }
  replace (length CA * S N ^ d + q - 1) with (length CA * S N ^ d + (q - 1)) in H by lia. split.
  - specialize (H d ltac:(lia)). rewrite dig_top in H by lia. lia.
  - eapply kids_in; [exact K|]. intros x y e He We. apply in_app_or in He as [He|[<-|[]]].
    + rewrite Forall_forall in PA. apply (perf_wide HN We) in PA; [|exact He]. destruct d; [exact PA|]. eapply wf_mono; [|exact PA]. cbn [mn]. lia.
    + apply (IH _ _ _ _ _ We) in Rc; [destruct d; exact Rc|]. intros j Hj. rewrite <- (@dig_low N (length CA) (q - 1) d j Hj). apply H. lia.
Qed.

Lemma root_wide d g n : 2 <= N -> wf0 (rmin d) d None None g -> rsh N d g n -> wide n N (n - 1) = true -> wf2 (rmin d) d None None g.
Proof.
  clear LL EL HM HmL HL HN HN6 guard Hg AF MK. intros HN W R H. destruct d as [|d]; [destruct g; exact W|]. destruct g as [|i ks cs]; [contradiction W|].
  cbn [wf rsh rmin] in *. destruct W as [Hm K]. destruct R as (CA & c & q & -> & LC & PA & Rc & E).
  assert (Bq : 1 <= q <= S N ^ d).
  { destruct (kids_mono K (c := c)) as (x & y & _ & Wc); [apply in_or_app; simpl; auto|]. exact (rsh_bnd Wc Rc). }
  split; [lia|]. eapply kids_in; [exact K|]. intros x y e He We. apply in_app_or in He as [He|[<-|[]]].
  - rewrite Forall_forall in PA. apply (perf_wide HN We) in PA; [|exact He]. destruct d; [exact PA|]. eapply wf_mono; [|exact PA]. cbn [mn]. lia.
  - apply (rsh_wide HN We) in Rc; [destruct d; exact Rc|]. intros j Hj.
    rewrite <- (@dig_low N (length CA) (q - 1) d j Hj). replace (length CA * S N ^ d + (q - 1)) with (n - 1) by lia.
    apply (@wide_dig N n); auto; try lia. assert (S N ^ S j <= S N ^ d) by (apply Nat.pow_le_mono_r; lia). nia.
Qed.

(** ** One restart *)
Lemma seg_len (h : heap L) : forall ids p (fuel : nat), seg h p ids None -> length ids < fuel -> chain_len fuel (hnx h) (hbd ids None) = length ids.
Proof.
  clear LL EL HM HmL HL HN HN6 guard Hg AF MK. induction ids as [|i ids IH]; intros p fuel HS Hf.
  - destruct fuel; reflexivity.
  - cbn [seg] in HS. destruct HS as (_ & S2 & S3). destruct fuel as [|fuel]; [lia|]. cbn [length] in *. cbn [hbd hd map chain_len].
    rewrite S2. f_equal. eapply IH; eauto. lia.
Qed.
Lemma nd_bound ids n : NoDup ids -> (forall i, In i ids -> i < n) -> length ids <= n.
Proof. intros ND H. rewrite <- (seq_length n 0). apply NoDup_incl_length; auto. intros i Hi. apply in_seq. specialize (H i Hi). lia. Qed.

Lemma restart_list t LS : Forall (lok lrep (th t)) LS -> NoDup (map fst LS) -> (forall i, In i (map fst LS) -> i < hfresh (th t)) ->
  seg (th t) None (map fst LS) None -> sorted (flat_map snd LS) -> Forall (fun q => length (snd q) <= M) LS ->
  (1 < length LS -> Forall (fun q => minL <= length (snd q)) LS) -> hd_error (map fst LS) = Some 0 -> restart_ok N t = true ->
  exists t', recover N O false (th t) 0 = Ok t' /\ tinvf 0 t' (flat_map snd LS).
Proof.
  intros A1 A2 A3 A4 A5 A6 A7 A8 A9. assert (HN2 : 2 <= N) by lia.
  destruct (@recover_list L V N M O lrep minL MK HN2 HL 0 (th t) LS A1 A2 A3 A4 A5 A6 A7 A8) as (t' & g' & E & (R1 & R2 & R3 & R4 & R5) & _ & R6).
  exists t'. split; [exact E|]. exists g'. splits; auto.
  assert (EL0 : leaves_of t = length LS).
  { unfold leaves_of. pose proof (nd_bound A2 A3) as Hle. rewrite map_length in Hle.
    pose proof (@seg_len (th t) (map fst LS) None (S (hfresh (th t))) A4) as X. rewrite map_length in X.
    replace (hbd (map fst LS) None) with (Some 0) in X; [apply X; lia|].
    destruct (map fst LS) as [|i r]; [discriminate A8|]. cbn in A8. injection A8 as ->. reflexivity. }
  unfold restart_ok in A9. rewrite EL0 in A9. exact (root_wide HN2 R2 R6 A9).
Qed.

Lemma weak0 f t es : tinvf f t es -> BTreeInsert.tinvf N M lrep minL 0 f t es.
Proof. intros (g & H1 & H2 & H3). exists g. split; [exact H1|]. split; [|exact H3]. eapply wf_weak; [| |exact H2]; lia. Qed.

Lemma restart_tree t es t1 : tinvf 0 t es -> sl (th t) (th t1) -> restart_ok N t1 = true ->
  exists t', recover N O false (th t1) 0 = Ok t' /\ tinvf 0 t' es.
Proof.
  intros I (S1 & S2 & S3 & S4) H. apply weak0 in I. destruct I as (g & Eg & W & I & Ee & Ef). rewrite <- Ee.
  pose proof (inv_nd I) as ND. pose proof (inv_lt I) as LT. pose proof (inv_seg I) as IS. rewrite app_nil_r in ND, LT, IS. cbn [app] in ND, LT, IS.
  apply (@restart_list t1 (lvs [g])); auto.
  - eapply lok_frame; [|exact (inv_l I)]. intros i _. now rewrite S1.
  - intros i Hi. rewrite S4. now apply LT.
  - eapply seg_frame; [|exact IS]. intros j _. now rewrite S2, S3.
  - exact (ents_sorted W).
  - destruct (tdepth t) as [|d]; destruct g as [i es1|]; try contradiction W.
    + constructor; [|constructor]. cbn [snd]. apply W.
    + eapply Forall_impl; [|exact (wf_leaf_sizes W (or_intror (Nat.neq_succ_0 d)))]. cbn beta. intros q Hq. lia.
  - intros H1. destruct (tdepth t) as [|d]; destruct g as [i es1|]; try contradiction W.
    + cbn in H1. lia.
    + eapply Forall_impl; [|exact (wf_leaf_sizes W (or_intror (Nat.neq_succ_0 d)))]. cbn beta. intros q Hq. lia.
Qed.

Lemma erase_wide t es k : tinvf 0 t es -> leaf_guard M O guard (th t) (tdepth t) (troot t) k = Ok true ->
  exists t' b, t_erase N M O t k = Ok (t', b) /\ (b = true <-> get k es <> None) /\ tinvf 0 t' (del k es).
Proof.
  intros I EG. destruct (get k es) as [v|] eqn:G.
  - destruct (@t_erase_genf L V N M O lrep lhint side minL 2 kok LL EL HM HmL HN HN6 (le_n _) guard Hg 0 true t es k I) as (t1 & E1 & I1); [|now right|].
    + intros j l es' _ _ Hl _ E. apply (law_erase EL Hl). rewrite E. congruence.
    + exists t1, true. splits; auto. split; congruence.
  - destruct (@t_erase_genf L V N M O lrep lhint side minL 2 kok LL EL HM HmL HN HN6 (le_n _) guard Hg 0 false t es k I) as (t1 & E1 & I1); [|now right|].
    + intros j l es' _ _ Hl _ E. rewrite G in E. exists l. rewrite (del_none E). apply AF; auto.
    + exists t1, false. splits; auto. split; congruence.
Qed.

Lemma ins_map k v es (m : Z -> option V) : sorted es -> (forall x, get x es = m x) -> forall x, get x (ins k v es) = m_step m (OpInsert k v) x.
Proof. intros S E x. rewrite get_ins by auto. cbn [m_step]. unfold m_put. destruct (x =? k)%Z; auto. Qed.
Lemma del_map k es (m : Z -> option V) : sorted es -> (forall x, get x es = m x) -> forall x, get x (del k es) = m_step m (OpErase _ k) x.
Proof. intros S E x. rewrite get_del by auto. cbn [m_step]. unfold m_del. destruct (x =? k)%Z; auto. Qed.

Lemma x_step_ok o t es m : tinvf 0 t es -> (forall x, get x es = m x) -> xkeys_ok kok o -> x_fine N M O guard t o = true ->
  exists t' es', x_step N M O false t o = Ok t' /\ tinvf 0 t' es' /\ forall x, get x es' = fold_left (@m_step V) (xops [o]) m x.
Proof.
  assert (HN2 : 2 <= N) by lia. intros I E Ko F. pose proof (tinv_sorted (tinvf_tinv I)) as SO.
  unfold x_fine in F. apply andb_prop in F as [F1 F2]. unfold x_step. destruct o as [k v|k| |c k v|c k]; cbn [x_left bind] in *.
  - destruct (@t_insert_first L V N M O lrep minL 2 kok LL HN2 HN6 0 t es k v Ko I) as (t1 & E1 & I1).
    exists t1, (ins k v es). splits; auto. now apply ins_map.
  - destruct (leaf_guard M O guard (th t) (tdepth t) (troot t) k) as [[|]| |] eqn:EG; try discriminate.
    destruct (erase_wide I EG) as (t1 & b & E1 & _ & I1). rewrite E1. cbn [bind fst]. exists t1, (del k es). splits; auto. now apply del_map.
  - destruct (restart_tree I (sl_refl _) F2) as (t1 & E1 & I1). exists t1, es. auto.
  - destruct (@cut_tree L V N M O lrep minL kok LL HN2 c 0 t es k v Ko (weak0 I)) as (t1 & gs' & g' & E1 & J & EE & HF & _ & _ & _ & _ & S1 & S2).
    rewrite E1 in F2 |- *. cbn [bind] in *. pose proof (inv_seg J) as IS. pose proof (inv_nd J) as ND. pose proof (inv_lt J) as LT.
    rewrite app_nil_r in IS, ND, LT. cbn [app] in IS, ND, LT.
    assert (S3 : sorted (ents gs')) by (rewrite EE; now apply sorted_ins).
    destruct (restart_list (inv_l J) ND LT IS S3 S1 S2 HF F2) as (t2 & E2 & I2). exists t2, (ins k v es). splits; auto.
    + rewrite <- EE. exact I2.
    + now apply ins_map.
  - destruct (leaf_guard M O guard (th t) (tdepth t) (troot t) k) as [[|]| |] eqn:EG; try discriminate.
    destruct (erase_wide I EG) as (t1 & b & E1 & _ & I1).
    assert (X : exists t2, t_erase_cut N M O c t k = Ok t2 /\ sl (th t2) (th t1)).
    { unfold t_erase_cut. destruct (tdepth t) as [|d] eqn:ED.
      - rewrite E1. cbn [bind fst]. exists t1. split; auto. apply sl_refl.
      - unfold t_erase in E1. rewrite ED in E1. exact (erase_cut_sl c E1). }
    destruct X as (t2 & E2 & (S1 & S2 & S3 & S4)). rewrite E2 in F2 |- *. cbn [bind] in *.
    destruct (@restart_tree t1 (del k es) t2 I1) as (t3 & E3 & I3); [repeat split; auto|exact F2|].
    exists t3, (del k es). splits; auto. now apply del_map.
Qed.

Lemma x_hist os : forall t es m, tinvf 0 t es -> (forall x, get x es = m x) -> Forall (xkeys_ok kok) os -> xfine N M O guard t os = true ->
  exists t' es', x_run N M O false t os = Ok t' /\ tinvf 0 t' es' /\ forall x, get x es' = fold_left (@m_step V) (xops os) m x.
Proof.
  induction os as [|o os IH]; intros t es m I E F G; cbn [x_run xfine] in *.
  - exists t, es. auto.
  - apply Forall_cons_iff in F as [Fo F]. apply andb_prop in G as [G1 G2].
    destruct (x_step_ok I E Fo G1) as (t1 & es1 & E1 & I1 & M1). rewrite E1 in G2 |- *. cbn [bind].
    destruct (IH t1 es1 _ I1 M1 F G2) as (t2 & es2 & E2 & I2 & M2). exists t2, es2. splits; auto. intros x. rewrite M2.
    change (o :: os) with ([o] ++ os). unfold xops. rewrite flat_map_app, fold_left_app. reflexivity.
Qed.

Lemma x_all (RL : range_law O lrep) os : Forall (xkeys_ok kok) os -> xfine N M O guard (t_new O) os = true ->
  exists t out, x_run N M O false (t_new O) os = Ok t /\
    (forall k, t_lookup O t k = Ok (m_run (xops os) k)) /\
    t_scan O t = Ok out /\ enumerates (m_run (xops os)) out /\
    (forall lo hi, exists rng, t_range O t lo hi = Ok rng /\ enumerates_range (m_run (xops os)) lo hi rng) /\
    shape N M minL 2 O (th t) (tdepth t) true (troot t) (length out) /\
    (forall k, leaf_guard M O guard (th t) (tdepth t) (troot t) k = Ok true ->
      exists t' b, t_erase N M O t k = Ok (t', b) /\ (b = true <-> m_run (xops os) k <> None) /\
        forall x, t_lookup O t' x = Ok (m_del (m_run (xops os)) k x)).
Proof.
  intros F G. assert (HN2 : 2 <= N) by lia.
  destruct (@x_hist os (t_new O) [] m_empty) as (t & es & E & I & Mm); auto; [eapply tinvf_new; eauto; lia|].
  pose proof (tinvf_tinv I) as J. destruct (t_scan_perm LL HN2 HN6 J) as (out & Eo & P & R). exists t, out. splits; auto.
  - intros k. rewrite (t_lookup_ok LL k J). f_equal. apply Mm.
  - eapply enumerates_ext; [exact Mm|]. apply perm_enumerates; auto. eapply tinv_sorted; eauto.
  - intros lo hi. destruct (t_range_perm LL HN2 HN6 RL lo hi J) as (rng & Er & Pr). exists rng. split; auto.
    eapply enumerates_range_ext; [exact Mm|]. apply perm_enumerates_range; auto. eapply tinv_sorted; eauto.
  - rewrite (Permutation_length P). eapply tinv_shape; eauto.
  - intros k EG. destruct (erase_wide I EG) as (t1 & b & E1 & Hb & I1). exists t1, b. splits; auto.
    + rewrite Hb. unfold m_run. rewrite <- Mm. reflexivity.
    + intros x. rewrite (t_lookup_ok LL x (tinvf_tinv I1)). rewrite get_del by (eapply tinv_sorted; eauto). unfold m_del, m_run. rewrite <- Mm. reflexivity.
Qed.

(** ** A leaf that is alone under its branch node *)
Lemma lvs_last (gs X : list gt) q LA : lvs gs <> [] -> lvs (X ++ gs) = LA ++ [q] -> exists LB, lvs gs = LB ++ [q].
Proof.
  clear LL EL HM HmL HL HN HN6 guard Hg AF MK. intros NE E. rewrite lvs_app in E. destruct (exists_last NE) as (LB & q' & E'). rewrite E' in E.
  rewrite app_assoc in E. apply app_inj_tail in E as [_ ->]. eauto.
Qed.
Lemma lvs_ne d m lo hi g : wf0 m (S d) lo hi g -> lvs [g] <> [].
Proof.
  intros W E. apply (@wf_nonempty V N M minL HL (S d) m lo hi g); auto. unfold ents. now rewrite E.
Qed.

Lemma erase_lone d : forall m (t : tree L) A g B lo hi k n j es LA, wf0 m (S d) lo hi g -> rsh N (S d) g n -> n mod S N = 1 -> inv N lrep (th t) A [g] B -> inb lo hi k ->
  lvs [g] = LA ++ [(j, es)] -> get k es <> None -> length es <= (M + 1) / 2 -> erase_branch N M O t (S d) (gid g) k = UB.
Proof.
  induction d as [|d IH]; intros m t A [i0 es0|i ks cs] B lo hi k n j es LA W R Hn I Hk EL0 G HC; try contradiction W;
    destruct W as [Hm K]; destruct R as (CA & c & q & Ecs & LC & PA & Rc & En);
    apply inv_GB in I as (I & _ & _ & (b & Eb & Hb)); cbn [fst snd gid] in *.
  - assert (length CA = 0).
    { destruct c; try contradiction Rc. cbn [rsh] in Rc. subst q n. cbn [Nat.pow] in Hn.
      destruct (Nat.eq_dec (length CA) N) as [EC|NC].
      - replace (length CA * 1 + 1) with (1 * S N) in Hn by lia. rewrite Nat.mod_mul in Hn by lia. lia.
      - rewrite Nat.mod_small in Hn by lia. lia. }
    destruct CA; [|discriminate]. destruct ks; [|discriminate]. subst cs. cbn [app map] in *.
    destruct K as [_ Wc]. destruct c as [i1 es1|]; [|contradiction Wc]. cbn [gid] in *.
    assert (X : i1 = j /\ es1 = es).
    { cbn in EL0. destruct LA as [|? [|? ?]]; [|discriminate|discriminate]. injection EL0 as -> ->. auto. }
    destruct X as [-> ->]. destruct (inv_GL I) as (l & El & Hl & _). destruct (law_erase EL Hl G) as (l' & EE & Hh).
    pose proof (law_hint EL Hh) as Hl'. destruct Hb as (Hb1 & Hb2 & Hb3 & Hb4 & Hb5).
    cbn [erase_branch]. unfold getb. rewrite Eb. cbn [of_opt bind].
    rewrite (@bpos_okb L V N M O lrep minL kok LL b [] [] [j] k); [|repeat split; auto|constructor|constructor|constructor]. cbn [bind length].
    rewrite (@brep_kid N b [] [j] 0 j); [|repeat split; auto|reflexivity]. cbn [bind].
    unfold erase_leaf, getl. rewrite El. cbn [of_opt bind]. rewrite EE. cbn [bind fst snd set_leaf hl]. rewrite upd_same'. cbn [of_opt bind].
    rewrite (law_count LL Hl').
    assert (LD : length (del k es) < (M + 1) / 2).
    { pose proof (length_del (law_sorted LL Hl) G). lia. }
    destruct (Nat.ltb_spec (length (del k es)) ((M + 1) / 2)) as [_|]; [|lia].
    unfold underflow_leaf. cbn [th]. assert (Eb' : getb (set_leaf (th t) j l') i = Ok b) by (unfold getb; cbn [set_leaf hb]; now rewrite Eb).
    assert (El' : getl (set_leaf (th t) j l') j = Ok l') by (unfold getl; cbn [set_leaf hl]; now rewrite upd_same').
    rewrite Eb', El'. cbn [bind Nat.ltb Nat.leb andb].
    cbn [length] in Hb1. rewrite Hb1. reflexivity.
  - destruct (route K Hk) as (a & bb & CA' & c' & CB & -> & -> & L1 & L2 & Ha & Hbb & KL & Wc & Bc & KR & Hkc).
    destruct (kids_sorted K) as [HS _].
    destruct (ctx_ents (wf_okc (m := mn minL 0 (S d)) (d := S d)) KL KR Hkc) as [HA HB].
    rewrite lvs_GB in EL0.
    assert (CB = []).
    { assert (NL : CB = [] \/ exists CB0 x, CB = CB0 ++ [x]) by (destruct CB as [|x0 X]; [now left|right; destruct (@exists_last _ (x0 :: X)) as (Y & z & ->); [discriminate|eauto]]).
      destruct NL as [->|(CB0 & x & ->)]; [reflexivity|]. exfalso.
      destruct (kids_mono K (c := x)) as (y & z & _ & Wx); [rewrite !in_app_iff; right; right; apply in_app_iff; simpl; auto|].
      replace (CA' ++ c' :: CB0 ++ [x]) with ((CA' ++ c' :: CB0) ++ [x]) in EL0 by (rewrite <- app_assoc; reflexivity).
      destruct (lvs_last (lvs_ne Wx) EL0) as (LB & E1). apply G. apply get_none_gt.
      unfold ents in HB. rewrite lvs_app, flat_map_app, keys_app, E1 in HB. apply Forall_app in HB as [_ HB].
      rewrite flat_map_app, keys_app in HB. apply Forall_app in HB as [_ HB]. cbn [flat_map snd] in HB. rewrite app_nil_r in HB. exact HB. }
    subst CB. destruct bb; [|discriminate L2]. rewrite app_nil_r in *. apply app_inj_tail in Ecs as [<- <-].
    destruct (lvs_last (lvs_ne Wc) EL0) as (LB & E1).
    rewrite erase_branch_2. unfold getb at 1. rewrite Eb. cbn [of_opt bind].
    rewrite (@bpos_okb L V N M O lrep minL kok LL b a [] (map (@gid V) (CA' ++ [c'])) k); [|now rewrite app_nil_r|now rewrite app_nil_r|exact Ha|constructor]. cbn [bind].
    rewrite (kid_at (CA := CA') (c := c') (CB := []) Hb) by auto. cbn [bind].
    assert (Hq : q mod S N = 1).
    { rewrite En in Hn. rewrite Nat.pow_succ_r' in Hn. replace (length CA' * (S N * S N ^ d) + q) with (q + length CA' * S N ^ d * S N) in Hn by lia.
      now rewrite Nat.mod_add in Hn by lia. }
    change (CA' ++ [c']) with (CA' ++ [c'] ++ []) in I. apply inv_sub in I.
    rewrite (IH _ t _ c' _ _ _ k q j es LB Wc Rc Hq I Hkc E1 G HC). reflexivity.
Qed.

Lemma restart_lone os t k j l : Forall (xkeys_ok kok) os -> xfine N M O guard (t_new O) os = true -> x_run N M O false (t_new O) os = Ok t ->
  m_run (xops os) k <> None -> find_leaf O (th t) (tdepth t) (troot t) k = Ok j -> hnx (th t) j = None -> hl (th t) j = Some l -> lo_count O l <= (M + 1) / 2 ->
  1 < leaves_of t -> leaves_of t mod S N = 1 ->
  exists t', recover N O false (th t) 0 = Ok t' /\ (forall x, t_lookup O t' x = Ok (m_run (xops os) x)) /\ t_erase N M O t' k = UB.
Proof.
  intros F X E G EF EX El HC HL1 HL2. assert (HN2 : 2 <= N) by lia.
  destruct (@x_hist os (t_new O) [] m_empty) as (t0 & es & E0 & I & Mm); auto; [eapply tinvf_new; eauto; lia|].
  rewrite E in E0. injection E0 as <-. apply weak0 in I. destruct I as (g & Eg & W & I & Ee & Ef).
  destruct (@recover_shape L V N M O lrep minL MK HN2 HL 0 t g es Eg W I Ee Ef) as (t' & g' & E' & (R1 & R2 & R3 & R4 & R5) & R6 & R7).
  exists t'. split; [exact E'|]. split.
  { intros x. rewrite (t_lookup_ok (N := N) (minB := 0) LL (t := t') (es := es) x); [f_equal; apply Mm|]. exists g'. auto. }
  assert (LE : leaves_of t = length (lvs [g])).
  { pose proof (inv_nd I) as ND. pose proof (inv_lt I) as LT. pose proof (inv_seg I) as IS. rewrite app_nil_r in ND, LT, IS. cbn [app] in ND, LT, IS.
    unfold leaves_of. pose proof (nd_bound ND LT) as Hle.
    pose proof (@seg_len (th t) (lids [g]) None (S (hfresh (th t))) IS) as Y.
    replace (hbd (lids [g]) None) with (Some 0) in Y; [rewrite Y by lia; unfold lids; apply map_length|].
    destruct (lids [g]) as [|i r]; [discriminate Ef|]. cbn in Ef. injection Ef as ->. reflexivity. }
  destruct (@find_leaf_ok L V N M O lrep minL 0 kok LL (tdepth t) _ (th t) [] g [] None None k W I (conj Logic.I Logic.I)) as (LA & i & es1 & LB & E1 & E2 & H1 & H2).
  rewrite Eg, EF in E1. injection E1 as <-.
  assert (LB = []).
  { destruct LB as [|[i2 e2] LB]; [reflexivity|]. exfalso. pose proof (inv_seg I) as IS. rewrite app_nil_r in IS. cbn [app] in IS. unfold lids in IS. rewrite E2 in IS.
    rewrite map_app in IS. apply seg_app in IS as [_ IS]. cbn [map fst seg hbd hd] in IS. destruct IS as (_ & IS & _). cbn in IS. congruence. }
  subst LB.
  pose proof (inv_l I) as IL. rewrite E2 in IL. apply Forall_app in IL as [_ IL]. apply Forall_cons_iff in IL as [(l0 & El0 & Hl0) _]. cbn [fst snd] in *.
  rewrite El in El0. injection El0 as <-. rewrite (law_count LL Hl0) in HC.
  assert (Gk : get k es1 <> None).
  { intros Z. apply G. unfold m_run. rewrite <- Mm, <- Ee. unfold ents. rewrite E2, flat_map_app. rewrite get_app_lt by exact H1. cbn [flat_map snd]. now rewrite app_nil_r. }
  unfold t_erase. destruct t' as [h' r' d']. cbn [troot tdepth th] in *. subst r'. rewrite <- R6 in R7, LE, E2. destruct d' as [|d'].
  - exfalso. destruct g'; [|contradiction R2]. rewrite LE in HL1. cbn in HL1. lia.
  - rewrite LE in HL2. exact (@erase_lone d' _ (Tree h' (gid g') (S d')) [] g' [] None None k _ j es1 LA R2 R7 HL2 R3 (conj Logic.I Logic.I) E2 Gk HC).
Qed.
End RecE.

Lemma x_run_app {L V} N M (O : leafops L V) hyb a b : forall t, x_run N M O hyb t (a ++ b) = do t1 <- x_run N M O hyb t a; x_run N M O hyb t1 b.
Proof. induction a as [|o a IH]; intros t; cbn [x_run app bind]; [reflexivity|]. destruct (x_step N M O hyb t o); cbn [bind]; auto. Qed.
