(** BitPBPTree and BitHPBPTree: what print shows. *)
From Coq Require Import Permutation Sorted.
From Verif Require Import Base ArrLemmas MapSpec SortedList RankModel BitmapModel BTreeModel BTreeLaws BTreeBranch BTreeGhost BTreeInsert BTreeErase BTreeSpec BTreeMain
  FLeafModel FLeafProofs BitTreeModel InsSpec XTree BitProofs PrintModel PrintSpec PrintProofs WPrintProofs BPrintModel BPrintSpec.
Open Scope nat_scope.

Lemma F2_perm {A B} (R : A -> B -> Prop) a a' : Permutation a a' -> forall b, Forall2 R a b -> exists b', Permutation b b' /\ Forall2 R a' b'.
Proof.
  induction 1 as [|x a a' P IH|x y a|a a1 a2 P1 IH1 P2 IH2]; intros b F.
  - exists b. split; [reflexivity|exact F].
  - inversion F as [|? z ? b0 H0 F0]; subst. destruct (IH _ F0) as (b' & Q & G). exists (z :: b'). split; [now constructor|now constructor].
  - inversion F as [|? z ? b0 H0 F0]; subst. inversion F0 as [|? w ? b1 H1 F1]; subst. exists (w :: z :: b1). split; [constructor|]. repeat constructor; assumption.
  - destruct (IH1 _ F) as (b1 & Q1 & G1). destruct (IH2 _ G1) as (b2 & Q2 & G2). exists b2. split; [now transitivity b1|exact G2].
Qed.
Lemma lids_perm {V} (a b : list (gt V)) : Permutation a b -> Permutation (lids a) (lids b) /\ Permutation (bids a) (bids b).
Proof.
  induction 1 as [|x a b P (I1 & I2)|x y a|a b c P1 (I1 & I2) P2 (J1 & J2)].
  - split; reflexivity.
  - change (x :: a) with ([x] ++ a). change (x :: b) with ([x] ++ b). rewrite !lids_app, !bids_app. split; now apply Permutation_app_head.
  - change (y :: x :: a) with ([y] ++ [x] ++ a). change (x :: y :: a) with ([x] ++ [y] ++ a). rewrite !lids_app, !bids_app, !app_assoc.
    split; apply Permutation_app_tail, Permutation_app_comm.
  - split; [now transitivity (lids b)|now transitivity (bids b)].
Qed.
Lemma seq_ss n : forall a, StronglySorted lt (seq a n).
Proof. induction n as [|n IH]; intros a; cbn; constructor; auto. apply Forall_forall. intros x Hx. apply in_seq in Hx. lia. Qed.
Lemma filter_ss f l : StronglySorted lt l -> StronglySorted lt (filter f l).
Proof.
  induction 1 as [|x l S IH F]; cbn; [constructor|]. destruct (f x); [|exact IH]. constructor; [exact IH|].
  apply Forall_forall. intros y Hy. apply filter_In in Hy. rewrite Forall_forall in F. now apply F.
Qed.

Section BPrint.
Variables (V : Type) (t : ktype) (N M minL : nat) (O : leafops (fleaf V) V).
Variable rep : fleaf V -> list (Z * V) -> Prop.
Notation leaf := (fleaf V).
Notation gt := (gt V).
Notation wf := (wf N M minL 0).
Notation inv := (inv N rep).
Hypothesis PL : forall l es, rep l es -> exists ss o, fl_print M l = Ok ss /\ lo_scan O l = Ok o /\ shown ss = map fst o.
Hypothesis LS : forall l es o, rep l es -> lo_scan O l = Ok o -> Permutation o es.

Definition used (b : bbranch) (p : nat) : bool := match nth_error (bbits b) p with Some u => u | None => false end.
Definition poss (b : bbranch) : list nat := filter (used b) (seq 0 N).
Definition view (b : bbranch) : branch :=
  Branch (length (poss b)) (map (fun p => nth p (bbk b) None) (poss b) ++ repeat None (N - length (poss b)))
    (map (fun p => nth p (bbc b) None) (poss b ++ [N]) ++ repeat None (N - length (poss b))).
Definition vheap (h : heap leaf) (B : nat -> option bbranch) : heap leaf :=
  Heap (hl h) (fun i => match B i with Some b => Some (view b) | None => None end) (hnx h) (hpv h) (hfresh h).

Lemma poss_len b : length (poss b) <= N.
Proof.
  unfold poss. rewrite <- (seq_length N 0) at 2. generalize (seq 0 N). induction l as [|x l IH]; [reflexivity|]. cbn [filter]. destruct (used b x); cbn [length]; lia.
Qed.
Lemma kat_map b ps ks : Forall2 (kat b) ps ks -> map (fun p => nth p (bbk b) None) ps = map Some ks.
Proof. induction 1 as [|p k ps ks H F IH]; [reflexivity|]. cbn [map]. rewrite IH. f_equal. now apply nth_error_nth. Qed.
Lemma cat_map b ps cs : Forall2 (cat b) ps cs -> map (fun p => nth p (bbc b) None) ps = map Some cs.
Proof. induction 1 as [|p k ps ks H F IH]; [reflexivity|]. cbn [map]. rewrite IH. f_equal. now apply nth_error_nth. Qed.
Lemma view_brep b ks cs : Forall2 (kat b) (poss b) ks -> Forall2 (cat b) (poss b ++ [N]) cs -> brep N (view b) ks cs.
Proof.
  intros FK FC. pose proof (poss_len b) as L. unfold brep, view. cbn [bn bk bc]. rewrite !app_length, !map_length, !repeat_length, app_length. cbn [length].
  splits; try lia.
  - exact (F2_length FK).
  - rewrite (kat_map FK). eexists. reflexivity.
  - rewrite (cat_map FC). eexists. reflexivity.
Qed.

Lemma poss_perm b ps ks cs : brepp t N b ps ks cs -> Permutation ps (poss b).
Proof.
  intros (_ & L & _ & _ & _ & ND & HU & _). apply NoDup_Permutation; [exact ND|apply NoDup_filter, seq_NoDup|].
  intros p. rewrite HU. unfold poss. rewrite filter_In, in_seq. unfold used. split.
  - intros E. rewrite E. split; [|reflexivity]. assert (p < length (bbits b)) by (apply nth_error_Some; congruence). lia.
  - intros [_ E]. destruct (nth_error (bbits b) p) as [[|]|]; congruence.
Qed.

Lemma keys_run b : N <= length (bbits b) -> forall n k ks, k + n <= N -> N <= k + n -> Forall2 (kat b) (filter (used b) (seq k n)) ks -> bp_keys b k n = Ok ks.
Proof.
  intros L. induction n as [|n IH]; intros k ks E E' F; cbn [seq filter bp_keys] in *.
  - inversion F. reflexivity.
  - unfold used in F at 1. destruct (nth_error (bbits b) k) as [u|] eqn:Eu; [|apply nth_error_None in Eu; lia]. cbn [of_opt bind].
    destruct u.
    + inversion F as [|? x ? r Hx F']; subst. unfold aget. unfold kat in Hx. rewrite Hx. cbn [bind]. rewrite (IH (S k) r) by (auto; lia). reflexivity.
    + apply IH; [lia|lia|exact F].
Qed.
Lemma kids_run f b : N <= length (bbits b) -> forall n k cs, k + n <= N -> N <= k + n -> Forall2 (cat b) (filter (used b) (seq k n) ++ [N]) cs -> bp_kids N f b k (S n) = kids_list f cs.
Proof.
  intros L. induction n as [|n IH]; intros k cs E E' F.
  - cbn [seq filter app] in F. inversion F as [|? c ? r Hc F']; subst. inversion F'; subst. cbn [bp_kids kids_list].
    assert (Ek : k = N) by lia. rewrite Ek, Nat.ltb_irrefl. cbn [bind]. unfold aget. unfold cat in Hc. rewrite Hc. reflexivity.
  - remember (S n) as m. cbn [bp_kids]. subst m. cbn [seq filter] in F. destruct (Nat.ltb_spec k N); [|lia].
    unfold used in F at 1. destruct (nth_error (bbits b) k) as [u|] eqn:Eu; [|apply nth_error_None in Eu; lia]. cbn [of_opt bind].
    destruct u.
    + cbn [app] in F. inversion F as [|? c ? r Hc F']; subst. unfold aget. unfold cat in Hc. rewrite Hc. cbn [bind kids_list].
      destruct (f c) as [o| |]; cbn [bind]; try reflexivity. rewrite (IH (S k) r) by (auto; lia). reflexivity.
    + apply IH; [lia|lia|exact F].
Qed.

Definition bpn (h : heap leaf) B (r d i : nat) : res (list line) :=
  match r with 0 => pr_leaf (fl_print M) h d i | S _ => bp_branch N M r h B (d + r) d i end.
Notation nok_ok h B := (@node_ok leaf V O (vheap h B)).

Lemma kids_all h B r d f : forall cs : list gt,
  (forall c, In c cs -> exists g' o, f (gid c) = Ok o /\ gid g' = gid c /\ nok_ok h B r d g' o /\ Permutation (lids [g']) (lids [c]) /\ Permutation (bids [g']) (bids [c])) ->
  exists gs outs, kids_list f (map (@gid V) cs) = Ok (concat outs) /\ map (@gid V) gs = map (@gid V) cs /\ Forall2 (nok_ok h B r d) gs outs /\
    Permutation (lids gs) (lids cs) /\ Permutation (bids gs) (bids cs).
Proof.
  induction cs as [|c cs IH]; intros H.
  - exists [], []. splits; try reflexivity. constructor.
  - destruct (H c (or_introl eq_refl)) as (g' & o & E & Eg & NO & P1 & P2).
    destruct IH as (gs & outs & E2 & Em & F & Q1 & Q2); [intros x Hx; apply H; now right|].
    exists (g' :: gs), (o :: outs). cbn [map kids_list concat]. rewrite E, E2. cbn [bind]. rewrite Eg, Em. splits; try reflexivity.
    + constructor; assumption.
    + change (g' :: gs) with ([g'] ++ gs). change (c :: cs) with ([c] ++ cs). rewrite !lids_app. now apply Permutation_app.
    + change (g' :: gs) with ([g'] ++ gs). change (c :: cs) with ([c] ++ cs). rewrite !bids_app. now apply Permutation_app.
Qed.

Lemma F2_gid (R : nat -> nat -> Prop) ps : forall cs : list gt, Forall2 R ps (map (@gid V) cs) <-> Forall2 (fun p g => R p (gid g)) ps cs.
Proof.
  induction ps as [|p ps IH]; intros [|c cs]; cbn [map]; split; intros H; inversion H; subst; constructor; auto; now apply IH.
Qed.

Lemma bnode_print h G B r : forall d m lo hi (g : gt) A C, wf m r lo hi g -> inv (gh h G) A [g] C -> nok (bbrep t N) B [g] ->
  exists g' o, bpn h B r d (gid g) = Ok o /\ gid g' = gid g /\ nok_ok h B r d g' o /\
    Permutation (lids [g']) (lids [g]) /\ Permutation (bids [g']) (bids [g]).
Proof.
  induction r as [|r IH]; intros d m lo hi g A C W I X.
  - destruct (wf0_leaf W) as (j & es & -> & _). destruct (inv_GL I) as (l & El & Hl & _). cbn [gh hl] in El.
    destruct (PL Hl) as (ss & o & P1 & P2 & P3). exists (GL j es). cbn [bpn gid]. unfold pr_leaf, getl. rewrite El. cbn [of_opt bind]. rewrite P1. cbn [bind].
    eexists. split; [reflexivity|]. splits; try reflexivity. exists (LLeaf d j ss), []. cbn [ldepth lnode gid]. splits; try reflexivity; try constructor.
    + cbn. split; [lia|]. exists l. exact El.
    + constructor.
    + intros a y b E. destruct a; discriminate.
    + cbn. unfold kf. cbn [vheap hl]. rewrite El, P2, P3. rewrite app_nil_r. reflexivity.
  - destruct (wfS_branch W) as (j & ks & cs & -> & _ & KK). cbn [gid].
    apply inv_GB in I. destruct I as (I & _). cbn [fst snd] in *.
    apply nok_GB in X. destruct X as ((b & Eb & Rb) & X). cbn [fst snd] in *.
    destruct Rb as (ps & RB). pose proof (poss_perm RB) as PP. pose proof RB as (L1 & L2 & L3 & _ & _ & _ & _ & FK & FC).
    assert (L2' : N <= length (bbits b)) by lia. destruct (F2_perm PP FK) as (ks' & PK & FK').
    apply F2_gid in FC. apply Forall2_app_inv_l in FC. destruct FC as (ci & cl & FI & FL & ->).
    inversion FL as [|? g0 ? r0 Hl FN]; subst. inversion FN; subst.
    destruct (F2_perm PP FI) as (ci' & PC & FI').
    assert (FC' : Forall2 (cat b) (poss b ++ [N]) (map (@gid V) (ci' ++ [g0]))).
    { apply F2_gid. apply Forall2_app; [exact FI'|]. constructor; [exact Hl|constructor]. }
    assert (PCS : Permutation (ci' ++ [g0]) (ci ++ [g0])) by (apply Permutation_app_tail; now symmetry).
    destruct (@kids_all h B r (S d) (bpn h B r (S d)) (ci' ++ [g0])) as (gs & outs & E & Em & F & Q1 & Q2).
    { intros c Hc. apply (Permutation_in _ PCS) in Hc. apply in_split in Hc. destruct Hc as (CA & CB & Ecs).
      destruct (@kids_mono _ _ _ _ _ _ KK c) as (x & y & _ & Wc); [rewrite Ecs; apply in_or_app; simpl; auto|].
      rewrite Ecs in I, X. apply (inv_sub (gs := [c])) in I. apply nok_app in X. destruct X as (_ & X).
      change (c :: CB) with ([c] ++ CB) in X. apply nok_app in X. destruct X as (X & _).
      exact (IH (S d) _ _ _ c _ _ Wc I X). }
    destruct (lids_perm PCS) as [PL1 PL2].
    exists (GB j ks' gs), (LBranch d j ks' :: concat outs). splits.
    + cbn [bpn bp_branch]. unfold getbb. rewrite Eb. cbn [of_opt bind]. rewrite (@keys_run b L2' N 0 ks') by (auto; lia). cbn [bind].
      rewrite (@kids_run _ b L2' N 0 (map (@gid V) (ci' ++ [g0]))) by (auto; lia).
      erewrite kids_ext; [rewrite E; reflexivity|]. intros c _. destruct r as [|r']; cbn [bpn].
      * destruct (Nat.ltb_spec (S d) (d + 1)); [lia|]. reflexivity.
      * destruct (Nat.ltb_spec (S d) (d + S (S r'))); [|lia]. replace (S d + S r') with (d + S (S r')) by lia. reflexivity.
    + reflexivity.
    + eapply branch_ok; [| | |exact F].
      * cbn [vheap hb]. rewrite Eb. reflexivity.
      * rewrite Em. now apply view_brep.
      * rewrite <- (map_length (@gid V) gs), Em, <- (F2_length FC'), <- (F2_length FK'), app_length. cbn [length]. lia.
    + rewrite !lids_GB. etransitivity; [exact Q1|exact PL1].
    + rewrite !bids_GB. constructor. etransitivity; [exact Q2|exact PL2].
Qed.

Lemma view_by b ks cs : bbrep t N b ks cs -> by_position N b (view b).
Proof.
  intros (ps & RB). pose proof (poss_perm RB) as PP. pose proof RB as (L1 & L2 & L3 & _ & _ & _ & HU & FK & FC).
  apply Forall2_app_inv_l in FC. destruct FC as (ci & cl & FI & FL & ->). inversion FL as [|? c0 ? r0 Hl FN]; subst. inversion FN; subst.
  destruct (F2_perm PP FK) as (ks' & PK & FK'). destruct (F2_perm PP FI) as (ci' & PC & FI').
  assert (FC' : Forall2 (cat b) (poss b ++ [N]) (ci' ++ [c0])) by (apply Forall2_app; [exact FI'|constructor; [exact Hl|constructor]]).
  pose proof (view_brep FK' FC') as VB. exists (poss b). splits.
  - apply filter_ss, seq_ss.
  - intros p. unfold poss. rewrite filter_In, in_seq. unfold used. destruct (nth_error (bbits b) p) as [[|]|]; split; intros [? ?]; split; auto; try lia; discriminate.
  - reflexivity.
  - intros j p Ej. destruct (nth_error ks' j) as [k|] eqn:Ek.
    2: { apply nth_error_None in Ek. rewrite <- (F2_length FK') in Ek. assert (j < length (poss b)) by (apply nth_error_Some; congruence). lia. }
    destruct (nth_error ci' j) as [c|] eqn:Ec.
    2: { apply nth_error_None in Ec. rewrite <- (F2_length FI') in Ec. assert (j < length (poss b)) by (apply nth_error_Some; congruence). lia. }
    assert (HK : kat b p k) by (clear - FK' Ej Ek; revert j Ej Ek; induction FK' as [|? ? ? ? H F IH]; intros [|j] A B; cbn in *; try discriminate; [congruence|eauto]).
    assert (HC : cat b p c) by (clear - FI' Ej Ec; revert j Ej Ec; induction FI' as [|? ? ? ? H F IH]; intros [|j] A B; cbn in *; try discriminate; [congruence|eauto]).
    exists k, c. unfold kat in HK. unfold cat in HC. splits.
    + unfold aget. now rewrite HK.
    + eapply brep_key; eauto.
    + unfold aget. now rewrite HC.
    + eapply brep_kid; [exact VB|]. rewrite nth_error_app1; [exact Ec|]. apply nth_error_Some. congruence.
  - exists c0. unfold cat in Hl. split; [unfold aget; now rewrite Hl|]. eapply brep_kid; [exact VB|]. cbn [view bn].
    rewrite (F2_length FI'), nth_error_app2, Nat.sub_diag by lia. reflexivity.
Qed.

Lemma kf_perm h G B ls : Forall (lok rep (gh h G)) ls -> Permutation (flat_map (@kf leaf V O (vheap h B)) (map fst ls)) (map fst (flat_map snd ls)).
Proof.
  induction 1 as [|[i es] ls (l & El & Hl) F IH]; [reflexivity|]. cbn [map flat_map fst snd] in *. cbn [gh hl] in El.
  rewrite map_app. apply Permutation_app; [|exact IH]. unfold kf. cbn [vheap hl]. rewrite El. destruct (PL Hl) as (ss & o & _ & E & _). rewrite E.
  apply Permutation_map. exact (LS Hl E).
Qed.

Lemma b_print_ok (tr : btree V) (es : list (Z * V)) : xinv N M rep minL (bbrep t N) (to_x tr) es ->
  exists out, bg_print N M tr = Ok out /\ bdrawing N tr out /\ Permutation (shown_keys out) (map fst es).
Proof.
  intros (G & g & E & W & I & X & Ee). cbn [to_x xroot xdepth xth xtb] in *.
  destruct (@bnode_print (bth tr) G (btb tr) (bdepth tr) 0 _ _ _ g _ _ W I X)
    as (g' & out & P & Eg & (x & rest & E1 & A1 & A2 & A3 & A4 & A5 & A6 & A7 & A8 & A9) & Q1 & Q2).
  exists out. rewrite E in P. splits.
  - unfold bg_print. unfold bpn in P. destruct (bdepth tr); exact P.
  - exists (vheap (bth tr) (btb tr)). splits.
    + reflexivity.
    + constructor.
      * exists x, rest. splits; [exact E1|exact A1|congruence].
      * exact A4.
      * intros a y b Ea NE. destruct a as [|x0 a]; [contradiction|]. rewrite E1 in Ea. injection Ea as <- Ea. eapply A5. exact Ea.
      * intros d. rewrite <- A6, E1, at_cons, A1. reflexivity.
      * rewrite A7, A8. pose proof (inv_nd I) as ND. cbn [app] in ND. rewrite app_nil_r in ND. split.
        -- eapply Permutation_NoDup; [symmetry; exact Q1|exact ND].
        -- eapply Permutation_NoDup; [symmetry; exact Q2|exact (inv_ndb I)].
    + rewrite A8. apply Forall_forall. intros i Hi. apply (Permutation_in _ Q2) in Hi. unfold bids in Hi. apply in_map_iff in Hi.
      destruct Hi as ((j & ks & cs) & <- & Hn). unfold nok in X. rewrite Forall_forall in X. destruct (X _ Hn) as (b & Eb & Rb). cbn [fst snd] in *.
      exists b, (view b). cbn [vheap hb]. rewrite Eb. splits; try reflexivity. eapply view_by; eauto.
  - rewrite A9. rewrite (Permutation_flat_map _ Q1). unfold lids. rewrite (kf_perm _ (inv_l I)). rewrite <- Ee. reflexivity.
Qed.
End BPrint.
