(** wBPTree: what print shows. *)
From Verif Require Import Base ArrLemmas MapSpec SortedList SearchModel SearchProofs BitmapModel BitmapProofs BTreeModel BTreeLaws
  BTreeBranch BTreeGhost BTreeInsert BTreeErase BTreeSpec BTreeMain BitTreeModel InsSpec XTree WbModel WbProofs WbMove WbMain WbBranch WbTree
  PrintModel PrintSpec PrintProofs WPrintModel WPrintSpec.
Open Scope nat_scope.

Lemma slot_get (w : arr nat) n sl R j p : w = Some n :: map Some sl ++ R -> nth_error sl j = Some p -> aget w (S j) = Ok p.
Proof.
  intros -> E. unfold aget. cbn [nth_error]. rewrite nth_error_app1 by (rewrite map_length; apply nth_error_Some; congruence).
  now rewrite nth_error_map, E.
Qed.

(** ** Leaves *)
Section Leaf.
Variables (V : Type) (M : nat).
Lemma wl_slots_ok (l : wleaf V) n sl R es : ws l = Some n :: map Some sl ++ R -> store M (wb l) (wk l) (wv l) sl es ->
  forall b a, es = a ++ b -> wl_slots M l (S (length a)) (length b) = Ok (map (fun e => (true, Some (fst e))) b).
Proof.
  intros Es HS. induction b as [|e b IH]; intros a E; [reflexivity|]. cbn [length wl_slots].
  assert (Ee : nth_error es (length a) = Some e) by (rewrite E, nth_error_app2, Nat.sub_diag by lia; reflexivity).
  destruct (store_nth HS Ee) as (p & Ep & K1 & _). rewrite (slot_get Es Ep). cbn [bind].
  assert (Ip : In p sl) by (eapply nth_error_In; exact Ep).
  pose proof HS as (HB & _ & _ & _ & HU & _). pose proof (store_lt HS Ip) as Lp.
  rewrite (bm_test_ok HB) by exact Lp. cbn [bind]. rewrite (proj2 (HU p) Ip). rewrite K1. cbn [bind].
  specialize (IH (a ++ [e])). rewrite app_length in IH. cbn [length] in IH. replace (length a + 1) with (S (length a)) in IH by lia.
  rewrite IH by (rewrite <- app_assoc; exact E). reflexivity.
Qed.
Lemma wl_print_ok (l : wleaf V) es : wrep M l es -> wl_print M l = Ok (map (fun e => (true, Some (fst e))) es).
Proof.
  intros (sl & R & Es & _ & HS & _). unfold wl_print. pose proof (@wl_slots_ok l _ sl R es Es HS es [] eq_refl) as H.
  rewrite Es. cbn [aget nth_error bind]. exact H.
Qed.
Lemma shown_ents (es : list (Z * V)) : shown (map (fun e => (true, Some (fst e))) es) = map fst es.
Proof. unfold shown. induction es as [|e es IH]; cbn; [reflexivity|]. now rewrite IH. Qed.
End Leaf.

(** ** Branch nodes *)
Section Tree.
Variables (V : Type) (N M : nat).
Hypothesis HN : 2 <= N.
Hypothesis HM : 2 <= M.
Notation leaf := (wleaf V).
Notation gt := (gt V).
Notation wf := (wf N M 1 0).
Notation inv := (inv N (wrep M)).

Lemma w_PL : forall (l : leaf) es, wrep M l es -> exists ss o, wl_print M l = Ok ss /\ lo_scan (wo V M) l = Ok o /\ shown ss = map fst o.
Proof.
  intros l es H. exists (map (fun e => (true, Some (fst e))) es), es. split; [exact (wl_print_ok H)|].
  split; [exact (w_scan_ok H)|apply shown_ents].
Qed.

Lemma wb_keys_ok b n sl R (c0 : arr nat) es : bs b = Some n :: map Some sl ++ R -> store N (bb b) (wbk b) c0 sl es ->
  forall y x, es = x ++ y -> wp_keys N b (S (length x)) (length y) = Ok (map fst y).
Proof.
  intros Es HS. induction y as [|e y IH]; intros x E; [reflexivity|]. cbn [length wp_keys].
  assert (Ee : nth_error es (length x) = Some e) by (rewrite E, nth_error_app2, Nat.sub_diag by lia; reflexivity).
  destruct (store_nth HS Ee) as (p & Ep & K1 & _). rewrite (slot_get Es Ep). cbn [bind].
  assert (Ip : In p sl) by (eapply nth_error_In; exact Ep).
  pose proof HS as (HB & _). pose proof (store_lt HS Ip) as Lp.
  rewrite (bm_test_ok HB) by exact Lp. cbn [bind]. rewrite K1. cbn [bind].
  specialize (IH (x ++ [e])). rewrite app_length in IH. cbn [length] in IH. replace (length x + 1) with (S (length x)) in IH by lia.
  rewrite IH by (rewrite <- app_assoc; exact E). reflexivity.
Qed.

Lemma wb_nth_child b ks cs j c : wbrep N b ks cs -> nth_error cs j = Some c -> wp_child N b (length ks) (S j) = Ok c.
Proof.
  intros (es & last & sl & R & c0 & -> & -> & Es & EL & Ew & HS & _) Ej. unfold wp_child. rewrite keys_length.
  assert (Lj : j < length (map snd es ++ [last])) by (apply nth_error_Some; congruence).
  rewrite app_length, map_length in Lj. cbn [length] in Lj.
  destruct (Nat.eqb_spec (S j) (S (length es))) as [E|E]; cbn [bind].
  - assert (j = length es) by lia. subst j. rewrite nth_error_app2 in Ej by (rewrite map_length; lia).
    rewrite map_length, Nat.sub_diag in Ej. injection Ej as ->. rewrite Ew. apply aget_app. symmetry. exact (store_free0 HS).
  - rewrite nth_error_app1, nth_error_map in Ej by (rewrite map_length; lia).
    destruct (nth_error es j) as [e|] eqn:Ee; [|discriminate]. injection Ej as <-.
    destruct (store_nth HS Ee) as (p & Ep & _ & K2). rewrite (slot_get Es Ep). cbn [bind]. rewrite Ew. now apply aget_app_l.
Qed.

Lemma wb_in_order b b' ks cs : wbrep N b ks cs -> brep N b' ks cs -> in_order N b b'.
Proof.
  intros W B. pose proof B as (B1 & B2 & B3 & PK & PC). pose proof W as (es & last & sl & R & c0 & EK & EC & Es & EL & Ew & HS & HO).
  assert (Ln : bn b' = length es) by (rewrite B1, EK; apply keys_length).
  unfold in_order. rewrite Es. cbn [aget nth_error]. splits.
  - now rewrite Ln.
  - intros j Hj. destruct (nth_error es j) as [e|] eqn:Ee; [|apply nth_error_None in Ee; lia].
    destruct (store_nth HS Ee) as (p & Ep & K1 & K2). exists p, (fst e), (snd e).
    assert (Ip : In p sl) by (eapply nth_error_In; exact Ep). pose proof HS as (_ & _ & _ & _ & HU & _).
    splits.
    + eapply slot_get; [|exact Ep]. reflexivity.
    + now apply HU.
    + exact K1.
    + eapply pre_get_nth; [exact PK|]. rewrite EK. unfold keys. rewrite nth_error_map, Ee. reflexivity.
    + rewrite Ew. now apply aget_app_l.
    + eapply brep_kid; [exact B|]. rewrite EC, nth_error_app1, nth_error_map, Ee; [reflexivity|]. rewrite map_length. lia.
  - exists last. split.
    + rewrite Ew. apply aget_app. symmetry. exact (store_free0 HS).
    + eapply brep_kid; [exact B|]. rewrite EC, nth_error_app2, map_length, Ln, Nat.sub_diag; [reflexivity|]. rewrite map_length. lia.
Qed.

Fixpoint kids_list (f : nat -> res (list line)) (cs : list nat) : res (list line) :=
  match cs with [] => Ok [] | c :: r => do o <- f c; do x <- kids_list f r; Ok (o ++ x) end.
Lemma kids_pr f (a : arr nat) : forall cs k, (forall j c, nth_error cs j = Some c -> aget a (k + j) = Ok c) -> pr_kids f a k (length cs) = kids_list f cs.
Proof.
  induction cs as [|c cs IH]; intros k H; [reflexivity|]. cbn [length pr_kids kids_list].
  pose proof (H 0 c eq_refl) as H0. rewrite Nat.add_0_r in H0. rewrite H0. cbn [bind]. rewrite IH; [reflexivity|].
  intros j x E. replace (S k + j) with (k + S j) by lia. apply H. exact E.
Qed.
Lemma kids_wp f b n : forall cs k, (forall j c, nth_error cs j = Some c -> wp_child N b n (k + j) = Ok c) -> wp_kids N f b n k (length cs) = kids_list f cs.
Proof.
  induction cs as [|c cs IH]; intros k H; [reflexivity|]. cbn [length wp_kids kids_list].
  pose proof (H 0 c eq_refl) as H0. rewrite Nat.add_0_r in H0. rewrite H0. cbn [bind]. rewrite IH; [reflexivity|].
  intros j x E. replace (S k + j) with (k + S j) by lia. apply H. exact E.
Qed.
Lemma kids_ext f g cs : (forall c, In c cs -> f c = g c) -> kids_list f cs = kids_list g cs.
Proof.
  induction cs as [|c cs IH]; intros H; [reflexivity|]. cbn [kids_list]. rewrite (H c) by now left. rewrite IH; [reflexivity|].
  intros x Hx. apply H. now right.
Qed.

Definition wpn (h : heap leaf) B (r d i : nat) : res (list line) :=
  match r with 0 => pr_leaf (wl_print M) h d i | S _ => wp_branch N M r h B (d + r) d i end.

Lemma wpn_pn h G (B : nat -> option wbranch) r : forall d m lo hi (g : gt) A C, wf m r lo hi g -> inv (gh h G) A [g] C -> nok (wbrep N) B [g] ->
  wpn h B r d (gid g) = pn (wl_print M) (gh h G) r d (gid g).
Proof.
  induction r as [|r IH]; intros d m lo hi g A C W I X.
  - reflexivity.
  - destruct (wfS_branch W) as (j & ks & cs & -> & _ & KK). cbn [gid].
    apply inv_GB in I. destruct I as (I & _ & _ & b' & Eb' & Rb'). cbn [fst snd] in *.
    apply nok_GB in X. destruct X as ((b & Eb & Rb) & X). cbn [fst snd] in *.
    pose proof (kids_length KK) as Lc.
    assert (Lg : S (length ks) = length (map (@gid V) cs)) by (rewrite map_length; lia).
    cbn [wpn pn wp_branch pr_branch]. unfold getwb, getb. rewrite Eb, Eb'. cbn [of_opt bind].
    pose proof Rb' as (B1 & _ & _ & PK & _). rewrite (@pr_keys_ok ks) by (auto; intros k x Ek; eapply pre_get_nth; eauto). cbn [bind].
    pose proof Rb as (es & last & sl & R & c0 & EK & EC & Es & EL & Ew & HS & HO).
    assert (E0 : aget (bs b) 0 = Ok (length ks)) by (rewrite Es, EK, keys_length; reflexivity). rewrite E0. cbn [bind].
    assert (EKs : wp_keys N b 1 (length ks) = Ok ks).
    { rewrite EK, keys_length. exact (@wb_keys_ok b _ sl R c0 es Es HS es [] eq_refl). }
    rewrite EKs. cbn [bind]. rewrite B1, Lg.
    rewrite (@kids_pr _ (bc b') (map (@gid V) cs) 0) by (intros k c Ek; eapply brep_kid; eauto).
    rewrite (@kids_wp _ b (length ks) (map (@gid V) cs) 1) by (intros k c Ek; eapply wb_nth_child; eauto).
    erewrite kids_ext; [reflexivity|]. intros c Hc. apply in_map_iff in Hc. destruct Hc as (g & <- & Ic).
    apply in_split in Ic. destruct Ic as (CA & CB & Ecs).
    destruct (@kids_mono _ _ _ _ _ _ KK g) as (x & y & _ & Wc); [rewrite Ecs; apply in_or_app; simpl; auto|].
    rewrite Ecs in I, X. apply (inv_sub (gs := [g])) in I. apply nok_app in X. destruct X as (_ & X).
    change (g :: CB) with ([g] ++ CB) in X. apply nok_app in X. destruct X as (X & _).
    pose proof (IH (S d) _ _ _ g _ _ Wc I X) as E. destruct r as [|r']; cbn [wpn pn] in E.
    + destruct (Nat.ltb_spec (S d) (d + 1)); [lia|]. exact E.
    + destruct (Nat.ltb_spec (S d) (d + S (S r'))); [|lia]. replace (S d + S r') with (d + S (S r')) in E by lia. exact E.
Qed.

Lemma pr_leaf_set h G d i o A (g : gt) C : inv (gh h G) A [g] C -> gid g = i -> (exists es, g = GL i es) -> pr_leaf (wl_print M) h d i = Ok o -> all_set o.
Proof.
  intros I _ (es & ->) E. destruct (inv_GL I) as (l & El & Hl & _). cbn [gh hl] in El. unfold pr_leaf, getl in E. rewrite El in E. cbn [of_opt bind] in E.
  rewrite (wl_print_ok Hl) in E. cbn [bind] in E. injection E as <-. constructor; [|constructor]. apply Forall_map, Forall_forall. reflexivity.
Qed.
Lemma pn_set h G r : forall d m lo hi (g : gt) A C o, wf m r lo hi g -> inv (gh h G) A [g] C ->
  pn (wl_print M) (gh h G) r d (gid g) = Ok o -> all_set o.
Proof.
  induction r as [|r IH]; intros d m lo hi g A C o W I E.
  - destruct (wf0_leaf W) as (j & es & -> & _). cbn [pn gid] in E. eapply pr_leaf_set; [exact I|reflexivity|eauto|exact E].
  - destruct (wfS_branch W) as (j & ks & cs & -> & _ & KK). cbn [gid] in E.
    apply inv_GB in I. destruct I as (I & _ & _ & b' & Eb' & Rb'). cbn [fst snd] in *. pose proof (kids_length KK) as Lc.
    assert (Lg : S (length ks) = length (map (@gid V) cs)) by (rewrite map_length; lia).
    cbn [pn pr_branch] in E. unfold getb in E. rewrite Eb' in E. cbn [of_opt bind] in E.
    pose proof Rb' as (B1 & _ & _ & PK & _). rewrite (@pr_keys_ok ks) in E by (auto; intros k x Ek; eapply pre_get_nth; eauto). cbn [bind] in E.
    rewrite B1, Lg in E. rewrite (@kids_pr _ (bc b') (map (@gid V) cs) 0) in E by (intros k c Ek; eapply brep_kid; eauto).
    match type of E with context [kids_list ?f _] => set (F := f) in * end.
    destruct (kids_list F (map (@gid V) cs)) as [x| |] eqn:EF; cbn [bind] in E; try discriminate. injection E as <-. constructor; [exact Logic.I|].
    assert (HC : forall c o, In c (map (@gid V) cs) -> F c = Ok o -> all_set o).
    { intros c o Hc Eo. apply in_map_iff in Hc. destruct Hc as (g & <- & Ic). apply in_split in Ic. destruct Ic as (CA & CB & Ecs).
      destruct (@kids_mono _ _ _ _ _ _ KK g) as (u & w & _ & Wc); [rewrite Ecs; apply in_or_app; simpl; auto|].
      rewrite Ecs in I. apply (inv_sub (gs := [g])) in I. eapply (IH (S d)); [exact Wc|exact I|]. unfold F in Eo.
      destruct r as [|r']; cbn [pn].
      - destruct (Nat.ltb_spec (S d) (d + 1)); [lia|]. exact Eo.
      - destruct (Nat.ltb_spec (S d) (d + S (S r'))); [|lia]. replace (S d + S r') with (d + S (S r')) by lia. exact Eo. }
    clear - EF HC. revert x EF HC. generalize (map (@gid V) cs). clear. intros l. induction l as [|c l IH]; intros x E HC; cbn [kids_list] in E.
    + injection E as <-. constructor.
    + destruct (F c) as [o| |] eqn:Ec; cbn [bind] in E; try discriminate. destruct (kids_list F l) as [y| |]; cbn [bind] in E; try discriminate.
      injection E as <-. unfold all_set. apply Forall_app. split; [exact (HC c o (or_introl eq_refl) Ec)|]. apply IH; [reflexivity|].
      intros c' o' Hc'. apply HC. now right.
Qed.

Lemma w_print_ok (t : wtree V) (es : list (Z * V)) : winv N M t es -> exists out, wt_print N M t = Ok out /\ wdrawing N t out /\ all_set out /\ shown_keys out = map fst es.
Proof.
  intros (G & g & E & W & I & X & Ee). cbn [to_x xroot xdepth xth xtb] in *.
  destruct (@node_print leaf V N M 1 0 (wo V M) (wrep M) (wl_print M) w_PL (gh (wth t) G) (wdepth t) 0 _ _ _ g _ _ W I)
    as (out & P & x & rest & E1 & A1 & A2 & A3 & A4 & A5 & A6 & A7 & A8 & A9).
  exists out. pose proof (@pn_set (wth t) G (wdepth t) 0 _ _ _ g _ _ out W I P) as AS.
  pose proof (@wpn_pn (wth t) G (wtb t) (wdepth t) 0 _ _ _ g _ _ W I X) as WP. rewrite P, E in WP. splits.
  - unfold wt_print. unfold wpn in WP. destruct (wdepth t); exact WP.
  - exists (gh (wth t) G). splits.
    + reflexivity.
    + constructor.
      * exists x, rest. splits; [exact E1|exact A1|congruence].
      * exact A4.
      * intros a y b Ea NE. destruct a as [|x0 a]; [contradiction|]. rewrite E1 in Ea. injection Ea as <- Ea. eapply A5. exact Ea.
      * intros d. rewrite <- A6, E1, at_cons, A1. reflexivity.
      * rewrite A7, A8. pose proof (inv_nd I) as ND. cbn [app] in ND. rewrite app_nil_r in ND. split; [exact ND|exact (inv_ndb I)].
    + rewrite A8. apply Forall_forall. intros i Hi. unfold bids in Hi. apply in_map_iff in Hi. destruct Hi as ((j & ks & cs) & <- & Hn).
      unfold nok in X. rewrite Forall_forall in X. destruct (X _ Hn) as (b & Eb & Rb).
      pose proof (inv_b I) as FB. rewrite Forall_forall in FB. destruct (FB _ Hn) as (b' & Eb' & Rb').
      cbn [fst snd] in *. exists b, b'. splits; [exact Eb|exact Eb'|]. eapply wb_in_order; eauto.
  - exact AS.
  - rewrite A9, <- Ee. unfold ents, lids. pose proof (inv_l I) as FL. clear - FL.
    induction (lvs [g]) as [|[i e] ls IH]; [reflexivity|]. inversion FL as [|? ? (l & El & Hl) FL']; subst. cbn [map flat_map fst snd] in *.
    rewrite map_app, IH by exact FL'. f_equal. unfold kf. rewrite El. cbn [wo lo_scan]. rewrite (w_scan_ok Hl). reflexivity.
Qed.

Lemma print_out (os : list (Z * V)) : 3 <= M -> outward m_empty os ->
  exists t out o, wt_run N M (wt_new V M) os = Ok t /\ wt_print N M t = Ok out /\ wdrawing N t out /\ all_set out /\
    lists (m_run (inserts os)) o /\ shown_keys out = map fst o.
Proof.
  intros H3 HO. destruct (@wt_run_out V N M HN HM os _ [] m_empty H3 (fun _ => eq_refl) HO (winvs_inv (wt_new_inv V HN HM))) as (t & E & HI).
  destruct (w_print_ok HI) as (out & P1 & P2 & P3 & P4). exists t, out, (ins_all os []). splits; auto.
  destruct (sorted_lists (winv_sorted HI)) as [L1 L2]. split; auto. intros k v. rewrite L2. now rewrite ins_all_run.
Qed.
Lemma print_asc (os : list (Z * V)) : ascending os ->
  exists t out o, wt_run N M (wt_new V M) os = Ok t /\ wt_print N M t = Ok out /\ wdrawing N t out /\ all_set out /\
    wt_scan M t = Ok o /\ lists (m_run (inserts os)) o /\ shown_keys out = map fst o.
Proof.
  intros HA. destruct (@wt_run_asc V N M HN HM os _ [] HA ltac:(intros x Hx; contradiction Hx) (wt_new_inv V HN HM)) as (t & E & HI).
  destruct (w_print_ok (winvs_inv HI)) as (out & P1 & P2 & P3 & P4). exists t, out, (ins_all os []). splits; auto.
  - exact (wt_scan_ok HN HI).
  - destruct (sorted_lists (winv_sorted (winvs_inv HI))) as [L1 L2]. split; auto. intros k v. rewrite L2. now rewrite ins_all_run.
Qed.
End Tree.
