(** wHBPTree: scans through the bitmap, and histories of inserts and restarts. *)
From Verif Require Import Base ArrLemmas MapSpec SortedList SearchModel SearchProofs BitmapModel BitmapProofs BTreeModel BTreeLaws BTreeBranch
  BTreeGhost BTreeInsert BTreeSpec BTreeMain BitTreeModel InsSpec XTree FLeafProofs RecoverModel RecoverProofs RecSpec
  WbModel WbProofs WbMove WbMain WbBranch WbTree WbEModel WhModel WhRec.
Open Scope nat_scope.

Section Leaf.
Variables (V : Type) (M : nat).
Notation leaf := (wleaf V).
Notation rep := (wrep (V := V) M).

(** The entries at positions from [i] on, in slot order. *)
Definition from (i : nat) (ps : list (nat * (Z * V))) : list (Z * V) := map snd (filter (fun p => i <=? fst p) ps).
Lemma from_miss i ps : ~ In i (map fst ps) -> from i ps = from (S i) ps.
Proof.
  unfold from. induction ps as [|[p e] ps IH]; cbn [map filter fst]; [auto|]. intros H. cbn [In] in H.
  assert (E : (i <=? p) = (S i <=? p)) by (destruct (Nat.leb_spec i p), (Nat.leb_spec (S i) p); auto; lia).
  change ((S i <=? p)) with (S i <=? p) in *. rewrite <- E. destruct (i <=? p); cbn [map]; rewrite IH; tauto.
Qed.
Lemma from_hit i e a b : ~ In i (map fst a) -> ~ In i (map fst b) -> Permutation (from i (a ++ (i, e) :: b)) (e :: from (S i) (a ++ (i, e) :: b)).
Proof.
  intros Ha Hb. pose proof (from_miss Ha) as E1. pose proof (from_miss Hb) as E2. unfold from in *. rewrite !filter_app, !map_app. cbn [filter fst].
  rewrite E1. destruct (Nat.leb_spec i i); [|lia]. destruct (Nat.leb_spec (S i) i); [lia|]. cbn [map snd]. rewrite E2.
  symmetry. apply Permutation_middle.
Qed.
Lemma from_all ps : from 0 ps = map snd ps.
Proof. unfold from. induction ps as [|p ps IH]; [reflexivity|]. cbn [filter map]. change (0 <=? fst p) with true. cbv iota. cbn [map]. now rewrite IH. Qed.
Lemma from_none i ps : Forall (fun p => fst p < i) ps -> from i ps = [].
Proof.
  unfold from. induction 1 as [|[p e] ps H _ IH]; [reflexivity|]. cbn [filter fst] in *. destruct (Nat.leb_spec i p); [lia|auto].
Qed.

Definition placed (l : leaf) (ps : list (nat * (Z * V))) : Prop :=
  NoDup (map fst ps) /\ (forall i, i < M -> bit (wb l) i = true <-> In i (map fst ps)) /\ Forall (fun p => fst p < M) ps /\
  Forall (fun p => aget (wk l) (fst p) = Ok (fst (snd p)) /\ aget (wv l) (fst p) = Ok (snd (snd p))) ps /\ bm_ok M (wb l).
Lemma rep_placed l es : rep l es -> exists ps, placed l ps /\ map snd ps = es.
Proof.
  intros (sl & R & _ & _ & HS & _). exists (combine sl es).
  pose proof (store_len HS) as LE. pose proof (fun p => @store_lt V M _ _ _ _ _ p HS) as LT. destruct HS as (HB & _ & _ & ND & Hbit & F).
  assert (E : map fst (combine sl es) = sl /\ map snd (combine sl es) = es).
  { clear - LE. revert es LE. induction sl as [|p sl IH]; intros [|e es] H; cbn [length] in H; try lia; [auto|].
    destruct (IH es) as [I1 I2]; [lia|]. cbn [combine map fst snd]. now rewrite I1, I2. }
  destruct E as [E1 E2]. unfold placed. rewrite E1. splits; auto.
  - apply Forall_forall. intros [p e] Hp. cbn [fst]. apply LT. rewrite <- E1. now apply (in_map fst) in Hp.
  - clear - F. induction F as [|p e sl es H F IH]; cbn [combine]; constructor; auto.
Qed.

Lemma placed_step l ps i : placed l ps -> i < M ->
  (bit (wb l) i = true /\ exists e, aget (wk l) i = Ok (fst e) /\ aget (wv l) i = Ok (snd e) /\ Permutation (from i ps) (e :: from (S i) ps)) \/
  (bit (wb l) i = false /\ from i ps = from (S i) ps).
Proof.
  intros (ND & HB & _ & F & _) Hi. destruct (bit (wb l) i) eqn:E; [left|right]; split; auto.
  - apply HB in E; auto. apply in_map_iff in E as ([j e] & Ej & Hin). cbn [fst] in Ej. subst j.
    rewrite Forall_forall in F. destruct (F _ Hin) as [F1 F2]. cbn [fst snd] in F1, F2. exists e. splits; auto.
    apply in_split in Hin as (a & b & ->). rewrite map_app in ND. cbn [map fst] in ND. apply NoDup_remove_2 in ND. rewrite in_app_iff in ND.
    apply from_hit; tauto.
  - apply from_miss. intros H. apply HB in H; auto. congruence.
Qed.

Lemma scan_loop l ps : placed l ps -> forall n i out, i + n = M ->
  exists out', for_up i n
    (fun i s => do used <- bm_test M (wb l) i;
                if used : bool then do k <- aget (wk l) i; do v <- aget (wv l) i; Ok (s ++ [(k, v)]) else Ok s) out = Ok (out ++ out') /\
    Permutation out' (from i ps).
Proof.
  intros HP. pose proof HP as (_ & _ & HLt & _ & HB). induction n as [|n IH]; intros i out Hi; cbn [for_up].
  - exists []. rewrite app_nil_r. split; auto. rewrite from_none; auto. eapply Forall_impl; [|exact HLt]. cbv beta. intros p Hp. lia.
  - rewrite bm_test_ok by (auto; lia). cbn [bind].
    destruct (@placed_step l ps i HP) as [(-> & [k v] & -> & -> & P)|(-> & E)]; [lia| |]; cbn [bind fst snd].
    + destruct (IH (S i) (out ++ [(k, v)])) as (o & -> & Po); [lia|]. exists ((k, v) :: o). rewrite <- app_assoc. split; auto.
      symmetry. etransitivity; [exact P|]. constructor. now symmetry.
    + destruct (IH (S i) out) as (o & -> & Po); [lia|]. exists o. rewrite E. auto.
Qed.
Lemma wh_scan_leaf_ok l es : rep l es -> exists out, wh_scan_leaf M l = Ok out /\ Permutation out es.
Proof.
  intros H. destruct (rep_placed H) as (ps & HP & <-). destruct (@scan_loop l ps HP M 0 [] eq_refl) as (out & E & P).
  exists out. split; [exact E|]. now rewrite from_all in P.
Qed.

Lemma perm_filter {A} (f : A -> bool) a b : Permutation a b -> Permutation (filter f a) (filter f b).
Proof.
  induction 1 as [|x a b _ IH|x y a|a b c _ IH1 _ IH2]; cbn [filter]; auto.
  - destruct (f x); auto.
  - destruct (f x), (f y); auto. constructor.
  - etransitivity; eauto.
Qed.

Lemma range_loop l ps lo hi : placed l ps -> forall n i out st, i + n = M ->
  exists out' st', for_up i n
    (fun i s => do used <- bm_test M (wb l) i;
                if used : bool then
                  do k <- aget (wk l) i;
                  if (k <? lo)%Z then Ok s
                  else if (hi <? k)%Z then Ok (fst s, true)
                  else do v <- aget (wv l) i; Ok (fst s ++ [(k, v)], snd s)
                else Ok s) (out, st) = Ok (out ++ out', st || st') /\
    Permutation out' (filter (in_range lo hi) (from i ps)) /\ (st' = true -> exists x, In x (keys (from i ps)) /\ (hi < x)%Z).
Proof.
  intros HP. pose proof HP as (_ & _ & HLt & _ & HB). induction n as [|n IH]; intros i out st Hi; cbn [for_up].
  - exists [], false. rewrite app_nil_r, Bool.orb_false_r. splits; auto; [|discriminate]. rewrite from_none; auto. eapply Forall_impl; [|exact HLt]. cbv beta. intros p Hp. lia.
  - rewrite bm_test_ok by (auto; lia). cbn [bind].
    destruct (@placed_step l ps i HP) as [(-> & [k v] & -> & -> & P)|(-> & E)]; [lia| |]; cbn [bind fst snd].
    + assert (PK : forall x, In x (keys (from (S i) ps)) -> In x (keys (from i ps))).
      { intros x Hx. eapply Permutation_in; [apply Permutation_map; symmetry; exact P|]. right. exact Hx. }
      assert (K0 : In k (keys (from i ps))).
      { eapply Permutation_in; [apply Permutation_map; symmetry; exact P|]. left. reflexivity. }
      apply (perm_filter (in_range lo hi)) in P. cbn [filter] in P. unfold in_range at 2 in P. cbn [fst] in P.
      destruct (Z.ltb_spec k lo); cbn [bind fst snd].
      * destruct (IH (S i) out st) as (o & s' & -> & Po & Hs); [lia|]. exists o, s'. splits; auto.
        -- etransitivity; [exact Po|]. symmetry. etransitivity; [exact P|]. destruct (Z.leb_spec lo k); [lia|]. reflexivity.
        -- intros Z. destruct (Hs Z) as (x & Hx & Hh). eauto.
      * destruct (Z.ltb_spec hi k); cbn [bind fst snd].
        -- destruct (IH (S i) out true) as (o & s' & -> & Po & Hs); [lia|]. exists o, true. rewrite Bool.orb_true_r. splits; auto.
           ++ etransitivity; [exact Po|]. symmetry. etransitivity; [exact P|]. destruct (Z.leb_spec k hi); [lia|]. rewrite Bool.andb_false_r. reflexivity.
           ++ intros _. eauto.
        -- destruct (IH (S i) (out ++ [(k, v)]) st) as (o & s' & -> & Po & Hs); [lia|]. exists ((k, v) :: o), s'. rewrite <- app_assoc. splits; auto.
           ++ symmetry. etransitivity; [exact P|]. destruct (Z.leb_spec lo k), (Z.leb_spec k hi); try lia. cbn [andb]. constructor. now symmetry.
           ++ intros Z. destruct (Hs Z) as (x & Hx & Hh). eauto.
    + destruct (IH (S i) out st) as (o & s' & -> & Po & Hs); [lia|]. exists o, s'. rewrite E. auto.
Qed.
Lemma wh_range_leaf_ok l es lo hi : rep l es -> exists out stop, wh_range_leaf M l lo hi = Ok (out, stop) /\
  Permutation out (filter (in_range lo hi) es) /\ (stop = true -> exists x, In x (keys es) /\ (hi < x)%Z).
Proof.
  intros H. destruct (rep_placed H) as (ps & HP & <-). destruct (@range_loop l ps lo hi HP M 0 [] false eq_refl) as (out & st & E & P & Hs).
  rewrite from_all in P, Hs. exists out, st. auto.
Qed.
End Leaf.

(** ** Trees *)
Definition wh_leaves {V} (t : wtree V) : nat := chain_len (S (hfresh (wth t))) (hnx (wth t)) (Some 0).

Section Tree.
Variables (V : Type) (N M : nat).
Hypothesis HN : 2 <= N.
Hypothesis HM : 2 <= M.
Notation leaf := (wleaf V).
Notation Q := (wbq N).
Notation rep := (wrep (V := V) M).
Notation gt := (gt V).

Definition who : leafops leaf V :=
  LeafOps (w_new V M) (fun l => match aget (ws l) 0 with Ok n => n | _ => 0 end) (@w_lookup V) (w_insert M) (w_erase M)
    (w_merge M) (w_balance M) (@wh_minkey V) (wh_scan_leaf M) (wh_range_leaf M) (bsearch_pos true) false.
Lemma who_laws : leaf_laws who M 1 (fun _ => False) rep.
Proof.
  destruct (@wrk_laws V N M HN HM 0) as [L1 L2 L3 L4 L5 L6 L7 L8]. constructor; auto.
  - apply w_new_rep.
  - intros l e R. exact (wrep_sorted R).
  - intros l e R. exact (wrep_len R).
  - intros l e R. cbn [who lo_count]. now rewrite (w_count_ok R).
  - intros l e x R. exact (w_lookup_ok x R).
  - intros l e x w [].
  - intros l e R. exact (wh_scan_leaf_ok R).
Qed.
Lemma who_range : range_law who rep.
Proof. intros l es lo hi H. exact (wh_range_leaf_ok lo hi H). Qed.
Lemma no_ik (k : Z) : False -> True. Proof. auto. Qed.
Lemma all_kok (l : leaf) es : rep l es -> Forall (fun _ => True) (keys es).
Proof. intros _. apply Forall_forall. auto. Qed.

(** [sp]: a scan starts at the first leaf. *)
Definition winvr (sp : bool) (t : wtree V) (es : list (Z * V)) : Prop :=
  exists G (g : gt), gid g = wroot t /\ wf N M 1 0 (rmin (wdepth t)) (wdepth t) None None g /\ inv N rep (gh (wth t) G) [] [g] [] /\
    nok (wbrep N) (wtb t) [g] /\ ents [g] = es /\ hd_error (lids [g]) = Some 0 /\ (sp = true -> spine wbsp (wtb t) (wdepth t) g).

Lemma winvr_sorted sp t es : winvr sp t es -> sorted es.
Proof. intros (G & g & _ & W & _ & _ & <- & _). eapply ents_sorted; eauto. Qed.
Lemma winvr_weak sp t es : winvr sp t es -> winvr false t es.
Proof. intros (G & g & H1 & H2 & H3 & H4 & H5 & H6 & _). exists G, g. splits; auto. discriminate. Qed.
Lemma winvr_winv sp t es : winvr sp t es -> winv N M t es.
Proof. intros (G & g & H1 & H2 & H3 & H4 & H5 & _). exists G, g. auto. Qed.
Lemma winvr_new : winvr true (wt_new V M) [].
Proof.
  exists (fun _ => None), (GL 0 []). cbn [wt_new new_leaf empty_heap wroot wdepth wth hfresh]. splits; auto.
  - cbn [rmin BTreeGhost.wf]. splits; auto; [constructor|constructor|cbn [length]; lia].
  - constructor; simpl.
    + constructor; [|constructor]. exists (w_new V M). split; [reflexivity|apply w_new_rep].
    + constructor.
    + constructor; [simpl; tauto|constructor].
    + constructor.
    + intros i [<-|[]]. lia.
    + tauto.
    + tauto.
    + auto.
  - constructor.
  - intros _. exact Logic.I.
Qed.

Lemma winvr_ins sp sp' t es k v : all_room M k es -> winvr sp t es -> (sp' = true -> sp = true /\ Forall (fun x => (x <= k)%Z) (keys es)) ->
  exists t', wt_insert N M t k v = Ok t' /\ winvr sp' t' (ins k v es).
Proof.
  intros HR (G & g & Eg & W & IV & X & <- & F & Sp) HS.
  assert (IV' : inv N (wrk M k) (gh (wth t) G) [] [g] []).
  { eapply inv_weaken; [|exact IV]. intros l i e Hi R. split; auto. destruct (lvs_seg Hi) as (a & b & E2). eapply HR; eauto. }
  destruct (@x_ins_gen leaf V wbranch N M (wo V M) Q (wrk M k) 1 (fun _ => True) (wbrep N) wbsp (fun x => x = k) (@wrk_laws V N M HN HM k)
              (fun _ _ => I) trivial_mid (@trivial_keys V M k) HN (wb_laws HN) (le_n 1) (to_x t) G g k v eq_refl Eg W IV' X)
    as (x & G' & g' & E & E1 & W' & I' & X' & Ee & Ef & Es).
  rewrite <- wt_insert_x in E. destruct (wt_insert N M t k v) as [t'| |]; cbn [bind] in E; try discriminate. injection E as <-.
  exists t'. split; auto. exists G', g'. cbn [to_x xth xtb xroot xdepth] in *. splits; auto.
  - eapply inv_weaken; [|exact I']. intros l i e _ [R _]. exact R.
  - congruence.
  - intros Hs. destruct (HS Hs) as [Hs' HF]. apply Es; auto. destruct (wdepth t) as [|d]; [auto|left].
    eapply (@rightish_max leaf V N M (wrep M) 1 (fun _ => True) (fun _ => False) no_ik trivial_mid all_kok HN (le_n 1)); eauto.
Qed.

Lemma winvr_at sp t es k : winvr sp t es -> we_at N t k = Ok (get k es).
Proof. intros H. apply winvr_winv in H. exact (wt_route_ok HN HM k H). Qed.

Lemma scan_w t G (g : gt) : gid g = wroot t -> wf N M 1 0 (rmin (wdepth t)) (wdepth t) None None g -> inv N rep (gh (wth t) G) [] [g] [] ->
  spine wbsp (wtb t) (wdepth t) g -> exists out, wh_scan M t = Ok out /\ Permutation out (ents [g]) /\ in_runs M out.
Proof.
  intros E W IV Sp.
  exact (@x_scan_w leaf V wbranch N M who Q rep 1 (fun _ => True) (wbrep N) wbsp (fun _ => False) who_laws no_ik trivial_mid all_kok HN (wb_laws HN) (to_x t) G g E W IV Sp).
Qed.
Lemma winvr_scan t es : winvr true t es -> exists out, wh_scan M t = Ok out /\ Permutation out es /\ in_runs M out.
Proof. intros (G & g & E & W & IV & X & <- & F & Sp). eapply scan_w; eauto. Qed.

(** A search through findLeafNode that gets to a leaf gets to the right one. *)
Definition finds (t : wtree V) (g : gt) : Prop := forall k,
  wt_find (wtb t) (wdepth t) (wroot t) k = UB \/
  exists LA i es LB, wt_find (wtb t) (wdepth t) (wroot t) k = Ok i /\ lvs [g] = LA ++ (i, es) :: LB /\
    alt k (keys (flat_map snd LA)) /\ agt k (keys (flat_map snd LB)).
Lemma find_lookup t G g k : inv N rep (gh (wth t) G) [] [g] [] -> finds t g -> wt_lookup t k = UB \/ wt_lookup t k = Ok (get k (ents [g])).
Proof.
  intros IV HF. unfold wt_lookup. destruct (HF k) as [->|(LA & i & es & LB & -> & EL & H1 & H2)]; [left; reflexivity|right]. cbn [bind].
  destruct (@leaf_of _ _ N rep (gh (wth t) G) [] [g] [] i es IV) as (l & El & Hl). { rewrite EL. apply in_or_app; simpl; auto. }
  unfold getl. cbn [gh hl] in El. rewrite El. cbn [of_opt bind]. rewrite (w_lookup_ok k Hl).
  f_equal. unfold ents. rewrite EL, flat_map_app. cbn [flat_map]. rewrite get_app_lt by assumption. now rewrite get_app_gt.
Qed.
Lemma range_chain_gh (h : heap leaf) G lo hi : forall fuel i, range_chain who fuel (gh h G) i lo hi = range_chain who fuel h i lo hi.
Proof.
  induction fuel as [|f IH]; intros [i|]; cbn [range_chain]; auto. unfold getl. cbn [gh hl].
  destruct (hl h i); cbn [of_opt bind]; auto. destruct (lo_range who w lo hi); cbn [bind]; auto.
  cbn [gh hnx]. now rewrite IH.
Qed.
Lemma find_range t G g lo hi d : inv N rep (gh (wth t) G) [] [g] [] -> wf N M 1 0 (rmin d) d None None g -> finds t g ->
  wh_range M t lo hi = UB \/ exists out, wh_range M t lo hi = Ok out /\ Permutation out (filter (in_range lo hi) (ents [g])).
Proof.
  intros IV W HF. unfold wh_range. destruct (HF lo) as [->|(LA & i & es & LB & -> & EL & H1 & H2)]; [left; reflexivity|right]. cbn [bind].
  pose proof (inv_seg IV) as HS. cbn [app] in HS. rewrite app_nil_r in HS. unfold lids in HS.
  pose proof (ents_sorted W) as HO. pose proof (inv_l IV) as HL. pose proof (chain_fuel HN (Nat.le_0_l _) IV) as HC.
  unfold ents in *. rewrite EL in *. rewrite map_app, seg_app in HS. destruct HS as [_ HS].
  rewrite flat_map_app in *. apply sorted_app in HO as (_ & HO & _). apply Forall_app in HL as [_ HL].
  destruct (@range_chain_perm leaf V N who rep 0 HN (Nat.le_0_l _) who_range lo hi (gh (wth t) G) _ _ (S (hfresh (wth t))) HL HS) as (out & ER & HP); auto.
  - rewrite app_length in HC. cbn [gh hfresh] in HC. lia.
  - cbn [map hbd hd fst] in ER. rewrite range_chain_gh in ER. exists out. split; [exact ER|].
    rewrite filter_app. rewrite (@filter_low V N 0 HN (Nat.le_0_l _) lo hi (flat_map snd LA)); auto.
Qed.

(** ** One restart *)
Lemma winvr_restart sp t es : winvr sp t es -> rec_fits N (wh_leaves t) -> exists t', wh_recover N (wth t) 0 = Ok t' /\ winvr true t' es.
Proof.
  intros (G & g & Eg & W & IV & X & <- & F & Sp) HF.
  destruct (recover_core HN Eg W IV F) as (EC & t' & G' & g' & E1 & E2 & W' & I' & Ee & _ & Ef & SP & NK & _).
  exists t'. split; auto. exists G', g'. splits; auto. apply NK. unfold wh_leaves in HF. now rewrite EC in HF.
Qed.
(** Whatever the number of leaves. *)
Lemma restart_reads sp t es : winvr sp t es -> exists t', wh_recover N (wth t) 0 = Ok t' /\
  (exists out, wh_scan M t' = Ok out /\ Permutation out es /\ in_runs M out) /\
  (forall k, wt_lookup t' k = UB \/ wt_lookup t' k = Ok (get k es)) /\
  (forall lo hi, wh_range M t' lo hi = UB \/ exists out, wh_range M t' lo hi = Ok out /\ Permutation out (filter (in_range lo hi) es)) /\
  (2 <= wh_leaves t -> forall k, Forall (fun x => (x <= k)%Z) (keys es) -> wt_lookup t' k = UB /\ forall hi, wh_range M t' k hi = UB) /\
  (~ rec_fits N (wh_leaves t) -> forall k v, Forall (fun x => (x <= k)%Z) (keys es) -> wt_insert N M t' k v = UB).
Proof.
  intros (G & g & Eg & W & IV & X & <- & F & Sp).
  destruct (recover_core HN Eg W IV F) as (EC & t' & G' & g' & E1 & E2 & W' & I' & Ee & ELL & Ef & SP & _ & RL & RF & RD).
  exists t'. unfold wh_leaves. rewrite EC, <- Ee. splits; auto.
  - eapply scan_w; eauto.
  - intros k. eapply find_lookup; eauto.
  - intros lo hi. eapply find_range; eauto.
  - intros H2 k Hk. assert (D : wdepth t' <> 0).
    { intros D0. rewrite D0 in W'. rewrite <- ELL in H2. destruct g' as [i' es'|]; [|contradiction W']. cbn in H2. lia. }
    specialize (RD D k Hk). unfold wt_lookup, wh_range. rewrite RD. auto.
  - intros NF k v Hk. specialize (RL NF k Hk). unfold wt_insert.
    assert (HI : forall d h B id, d <> 0 -> wt_route N B d id k = UB -> wt_insert_branch (V := V) N M h B d id k v = UB).
    { clear. induction d as [|d IH]; intros h B id ND E; [congruence|]. cbn [wt_route wt_insert_branch] in *.
      destruct (getwb B id) as [b| |]; cbn [bind] in *; try congruence. destruct (wb_pos b k) as [p| |]; cbn [bind] in *; try congruence.
      destruct (wb_child N b p) as [c| |]; cbn [bind] in *; try congruence. destruct d as [|d]; [discriminate E|].
      rewrite IH; auto. }
    destruct (wdepth t') as [|d] eqn:ED; [discriminate RL|]. rewrite HI; auto.
Qed.

(** ** Histories *)
Definition r_pairs (os : list (rop V)) : list (Z * V) := flat_map (fun o => match o with RIns k v => [(k, v)] | RRestart => [] end) os.

Lemma wh_hist_app p q : forall t : wtree V, wh_hist N M t (p ++ q) = do t' <- wh_hist N M t p; wh_hist N M t' q.
Proof.
  induction p as [|[k v|] p IH]; intros t; cbn [app wh_hist bind]; auto.
  - destruct (wt_insert N M t k v); cbn [bind]; auto.
  - destruct (wh_recover N (wth t) 0); cbn [bind]; auto.
Qed.

Lemma outward_room (es : list (Z * V)) m k : 3 <= M -> sorted es -> (forall k, get k es = m k) ->
  (m k <> None \/ (forall x, m x <> None -> (x < k)%Z) \/ (forall x, m x <> None -> (k < x)%Z)) -> all_room M k es.
Proof.
  intros H3 HS HE [HC|[HC|HC]].
  - apply (room_old HN); auto. rewrite <- HE in HC. destruct (get k es) as [w|] eqn:E; [|congruence].
    apply get_in in E; auto. apply (in_map fst) in E. exact E.
  - apply (room_max HN); auto. apply Forall_forall. intros x Hx. specialize (HC x). rewrite <- HE in HC.
    apply in_get in Hx. specialize (HC Hx). lia.
  - apply (room_min HN); auto. apply agt_in. intros x Hx. specialize (HC x). rewrite <- HE in HC. apply HC. now apply in_get.
Qed.

Definition fit_from (t : wtree V) (os : list (rop V)) : Prop :=
  forall p q t', os = p ++ RRestart :: q -> wh_hist N M t p = Ok t' -> rec_fits N (wh_leaves t').
Lemma fit_ins t t1 k v os : wt_insert N M t k v = Ok t1 -> fit_from t (RIns k v :: os) -> fit_from t1 os.
Proof. intros E H p q t' -> Ep. apply (H (RIns k v :: p) q t'); [reflexivity|]. cbn [wh_hist]. rewrite E. exact Ep. Qed.
Lemma fit_restart t t1 os : wh_recover N (wth t) 0 = Ok t1 -> fit_from t (RRestart :: os) -> rec_fits N (wh_leaves t) /\ fit_from t1 os.
Proof.
  intros E H. split; [apply (H [] os t); reflexivity|]. intros p q t' -> Ep. apply (H (RRestart :: p) q t'); [reflexivity|].
  cbn [wh_hist]. rewrite E. exact Ep.
Qed.

Lemma hist_out os : 3 <= M -> forall t es m, (forall k, get k es = m k) -> outward m (r_pairs os) -> winvr false t es -> fit_from t os ->
  exists t' es', wh_hist N M t os = Ok t' /\ winvr false t' es' /\ forall k, get k es' = fold_left (@m_step V) (rops os) m k.
Proof.
  intros H3. induction os as [|[k v|] os IH]; intros t es m HE HO HI HF; cbn [wh_hist r_pairs rops flat_map app fold_left].
  - exists t, es. auto.
  - cbn [r_pairs flat_map app outward] in HO. destruct HO as [HC HO].
    destruct (@winvr_ins false false t es k v (outward_room H3 (winvr_sorted HI) HE HC) HI) as (t1 & E1 & I1); [discriminate|].
    rewrite E1. cbn [bind]. apply (IH t1 _ (m_step m (OpInsert k v))) in I1; auto.
    + intros x. rewrite get_ins by (eapply winvr_sorted; eauto). cbn [m_step]. unfold m_put. rewrite HE. reflexivity.
    + eapply fit_ins; eauto.
  - cbn [r_pairs flat_map app] in HO. destruct (winvr_restart HI) as (t1 & E1 & I1); [apply (HF [] os t); reflexivity|].
    rewrite E1. cbn [bind]. apply winvr_weak in I1. apply (IH t1 es m); auto. eapply fit_restart; eauto.
Qed.
Lemma hist_asc os : forall t es, ascending (r_pairs os) -> after es (r_pairs os) -> winvr true t es -> fit_from t os ->
  exists t', wh_hist N M t os = Ok t' /\ winvr true t' (ins_all (r_pairs os) es).
Proof.
  induction os as [|[k v|] os IH]; intros t es HA HB HI HF; cbn [wh_hist r_pairs flat_map app ins_all].
  - exists t. auto.
  - cbn [r_pairs flat_map app] in HA, HB. destruct (after_step HA HB) as (H3 & H4 & H5).
    destruct (@winvr_ins true true t es k v (room_max HN HM H3 (winvr_sorted HI)) HI) as (t1 & E1 & I1); [auto|].
    rewrite E1. cbn [bind]. apply IH; auto. eapply fit_ins; eauto.
  - destruct (winvr_restart HI) as (t1 & E1 & I1); [apply (HF [] os t); reflexivity|]. rewrite E1. cbn [bind]. apply IH; auto. eapply fit_restart; eauto.
Qed.
Lemma r_pairs_ops os : inserts (r_pairs os) = rops os.
Proof.
  induction os as [|[k v|] os IH]; [reflexivity| |exact IH]. change (OpInsert k v :: inserts (r_pairs os) = OpInsert k v :: rops os). now rewrite IH.
Qed.
End Tree.
