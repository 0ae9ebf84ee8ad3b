(** Whole trees of the wBPTree for histories in which no leaf split goes wrong. *)
From Verif Require Import Base ArrLemmas MapSpec SortedList SearchModel SearchProofs BitmapModel BTreeModel BTreeLaws
  BTreeBranch BTreeGhost BTreeInsert BTreeSpec BTreeMain BitTreeModel InsSpec XTree WbModel WbProofs WbMove WbMain WbBranch.
Open Scope nat_scope.

(** ** Weakening what is known about the leaves *)
Section Weaken.
Variables (L V BR : Type) (N M : nat).
Variables (lrep lrep' : L -> list (Z * V) -> Prop) (minL : nat).
Variables (brepx bsp : BR -> list Z -> list nat -> Prop).

Lemma inv_weaken h A (gs : list (gt V)) B : (forall l i es, In (i, es) (lvs gs) -> lrep l es -> lrep' l es) ->
  inv N lrep h A gs B -> inv N lrep' h A gs B.
Proof.
  intros H [H1 H2 H3 H4 H5 H6 H7 H8]. constructor; auto. rewrite Forall_forall in *. intros [i es] Hp.
  destruct (H1 _ Hp) as (l & E & R). exists l. split; auto. eapply H; eauto.
Qed.
Lemma lvs_seg (gs : list (gt V)) i es : In (i, es) (lvs gs) -> exists a b, ents gs = a ++ es ++ b.
Proof.
  unfold ents. intros H. apply in_split in H as (p & q & ->). rewrite flat_map_app. cbn [flat_map snd]. eauto.
Qed.
Lemma xinv_weaken t es : (forall l e a b, es = a ++ e ++ b -> lrep l e -> lrep' l e) ->
  xinv N M lrep minL brepx t es -> xinv N M lrep' minL brepx t es.
Proof.
  intros H (G & g & E & W & I & X & Ee). exists G, g. splits; auto. eapply inv_weaken; [|exact I].
  intros l i e Hi. destruct (lvs_seg Hi) as (a & b & E2). apply (H l e a b). congruence.
Qed.
Lemma xinvs_weaken t es : (forall l e a b, es = a ++ e ++ b -> lrep l e -> lrep' l e) ->
  xinvs N M lrep minL brepx bsp t es -> xinvs N M lrep' minL brepx bsp t es.
Proof.
  intros H (G & g & E & W & I & X & Ee & Sp). exists G, g. splits; auto. eapply inv_weaken; [|exact I].
  intros l i e Hi. destruct (lvs_seg Hi) as (a & b & E2). apply (H l e a b). congruence.
Qed.
End Weaken.

Section Tree.
Variables (V : Type) (N M : nat).
Hypothesis HN : 2 <= N.
Hypothesis HM : 2 <= M.
Notation leaf := (wleaf V).
Notation Q := (wbq N).

Definition wo : leafops leaf V :=
  LeafOps (w_new V M) (fun l => match aget (ws l) 0 with Ok n => n | _ => 0 end) (@w_lookup V) (w_insert M) (w_erase M)
    (w_merge M) (w_balance M) (fun _ => UB) (@w_scan V) (fun l lo hi => do es <- w_scan l; Ok (filter (in_range lo hi) es, false)) (bsearch_pos true) false.

(** [k] can be inserted into a leaf holding [es]. *)
Definition room (k : Z) (es : list (Z * V)) : Prop :=
  length es < M \/ In k (keys es) \/
  exists a b, es = a ++ b /\ alt k (keys a) /\ agt k (keys b) /\ S (length a) <> (M + 1) / 2.
Definition wrk (k : Z) (l : leaf) (es : list (Z * V)) : Prop := wrep M l es /\ room k es.

Lemma in_get (k : Z) (es : list (Z * V)) : In k (keys es) -> get k es <> None.
Proof.
  induction es as [|[x w] es IH]; cbn [keys map fst get]; [intros []|]. intros [->|H].
  - rewrite Z.eqb_refl. discriminate.
  - destruct (Z.eqb_spec x k) as [E|E]; [discriminate|]. now apply IH.
Qed.

Lemma mid_bounds : 1 <= (M + 1) / 2 < M.
Proof.
  split; [apply (Nat.div_le_mono 2 (M + 1) 2); lia|].
  destruct (Nat.eq_dec M 2) as [->|]; [cbn; lia|]. apply Nat.div_lt_upper_bound; lia.
Qed.

Lemma wrk_laws k0 : leaf_laws wo M 1 (fun k => k = k0) (wrk k0).
Proof.
  pose proof mid_bounds as HMB. constructor; cbn [wo lo_new lo_count lo_lookup lo_insert lo_scan lo_bpos].
  - split; [apply w_new_rep|]. left. cbn [length]. lia.
  - intros l es [H _]. exact (wrep_sorted H).
  - intros l es [H _]. exact (wrep_len H).
  - intros l es [H _]. now rewrite (w_count_ok H).
  - intros l es k [H _]. exact (w_lookup_ok k H).
  - intros l es k v -> [H HR].
    assert (Hin : In k0 (keys (ins k0 v es))) by (apply ins_in_keys; auto).
    assert (HC : (length es < M \/ get k0 es <> None) \/ (length es = M /\ get k0 es = None)).
    { pose proof (wrep_len H). destruct (get k0 es); [left; right; discriminate|]. destruct (Nat.eq_dec (length es) M); [auto|left; lia]. }
    destruct HC as [HC|[HF HG]].
    + left. destruct (w_insert_room v H HC) as (l' & E & H'). exists l'. split; auto. split; auto. right. left. exact Hin.
    + right. destruct HR as [HR|[HR|(a & b & -> & Ha & Hb & HR)]]; [lia|now apply in_get in HR|].
      destruct (@split_at _ (a ++ b) ((M + 1) / 2)) as (ea & eb & EE & La); [lia|].
      destruct (@w_insert_full V M l a b k0 v ea eb H HF HM Ha Hb EE La) as (l1 & l2 & e2 & r2 & E & HX).
      pose proof (wrep_sorted H) as HO. rewrite EE in HF. rewrite app_length in HF.
      pose proof (sorted_ins k0 v HO) as HOi. rewrite (ins_new v Ha Hb) in HOi.
      destruct HX as [(HL & R1 & R2 & ->)|(HL & R1 & R2 & E2)].
      * exists l1, l2, (fst e2), (ins k0 v ea), (e2 :: r2).
        assert (EA : exists c, ea = a ++ c /\ b = c ++ e2 :: r2).
        { destruct (@split_at _ ea (length a)) as (x & y & -> & Lx); [lia|]. exists y.
          rewrite <- app_assoc in EE. apply app_inv_len in EE as [-> EE]; auto. }
        destruct EA as (c & -> & ->). assert (Hc : agt k0 (keys c)).
        { unfold agt in *. rewrite keys_app, Forall_app in Hb. tauto. }
        assert (EI : ins k0 v (a ++ c ++ e2 :: r2) = ins k0 v (a ++ c) ++ e2 :: r2).
        { rewrite (ins_new v Ha Hb), (ins_new v Ha Hc), <- app_assoc. reflexivity. }
        splits; auto.
        -- split; auto. right. left. apply ins_in_keys. auto.
        -- split; auto. left. rewrite La in HF. lia.
        -- rewrite (ins_new v Ha Hc), app_length. cbn [length]. lia.
        -- rewrite La in HF. lia.
        -- rewrite (ins_new v Ha Hc). destruct a; discriminate.
        -- discriminate.
        -- rewrite (ins_new v Ha Hc). rewrite (app_comm_cons c (e2 :: r2) (k0, v)), app_assoc in HOi.
           apply sorted_app in HOi as (_ & _ & HOi). apply alt_in. intros x Hx. apply HOi; [exact Hx|]. now left.
        -- apply wrep_sorted in R2. destruct e2 as [x w]. cbn [fst]. unfold sorted in R2. cbn [keys map fst] in *.
           apply StronglySorted_inv in R2 as [_ R2]. constructor; [lia|]. eapply Forall_impl; [|exact R2]. intros y Hy. cbv beta in Hy. lia.
      * assert (HL' : length ea <= length a) by lia.
        assert (EA : exists c, a = ea ++ c /\ eb = c ++ b).
        { destruct (@split_at _ a (length ea)) as (x & y & -> & Lx); [lia|]. exists y.
          rewrite <- app_assoc in EE. apply app_inv_len in EE as [-> <-]; auto. }
        destruct EA as (c & -> & ->).
        assert (Hea : alt k0 (keys ea) /\ alt k0 (keys c)).
        { unfold alt in *. rewrite keys_app, Forall_app in Ha. tauto. }
        destruct Hea as [Hea Hc].
        assert (EI : ins k0 v ((ea ++ c) ++ b) = ea ++ ins k0 v (c ++ b)).
        { rewrite (ins_new v Ha Hb), (ins_new v Hc Hb), <- app_assoc. reflexivity. }
        rewrite (ins_new v Hc Hb) in EI, E2.
        exists l1, l2, (fst e2), ea, (e2 :: r2). rewrite <- E2 in *.
        splits; auto.
        -- split; auto. left. lia.
        -- split; auto. right. left. rewrite keys_app. apply in_or_app. right. now left.
        -- lia.
        -- rewrite app_length. cbn [length]. lia.
        -- destruct ea; [cbn [length] in La; lia|discriminate].
        -- destruct c; discriminate.
        -- rewrite <- app_assoc in HOi. rewrite E2 in HOi.
           apply sorted_app in HOi as (_ & _ & HOi). apply alt_in. intros x Hx. apply HOi; [exact Hx|]. now left.
        -- apply wrep_sorted in R2. rewrite E2 in *. destruct e2 as [x w]. cbn [fst]. unfold sorted in R2. cbn [keys map fst] in *.
           apply StronglySorted_inv in R2 as [_ R2]. constructor; [lia|]. eapply Forall_impl; [|exact R2]. intros y Hy. cbv beta in Hy. lia.
  - intros l es [H _]. exists es. split; auto. exact (w_scan_ok H).
  - intros a b R key HO Ha Hb. apply bsearch_pos_correct; auto. split; auto.
Qed.

Definition to_x (t : wtree V) : xtree leaf wbranch := XTree (wth t) (wtb t) (wroot t) (wdepth t).

Lemma wt_insert_branch_x d : forall h B id k v,
  match d with 0 => do x <- insert_leaf (w_ops V M) h id k v; Ok (fst x, B, snd x) | S _ => wt_insert_branch N M h B d id k v end
  = x_insert wo Q h B d id k v.
Proof.
  induction d as [|d IH]; intros h B id k v; [reflexivity|].
  cbn [wt_insert_branch x_insert]. unfold getwb, xget. destruct (B id) as [b|]; cbn [of_opt bind]; auto.
  cbn [wbq xo_pos xo_child xo_full xo_split xo_add0 xo_add1].
  destruct (wb_pos b k) as [p| |]; cbn [bind]; auto. destruct (wb_child N b p) as [c| |]; cbn [bind]; auto.
  rewrite IH. destruct (x_insert wo Q h B d c k v) as [[[h1 B1] [si|]]| |]; cbn [bind]; auto.
  destruct (B1 id) as [b1|]; cbn [of_opt bind]; auto. destruct (aget (bs b1) 0) as [n| |]; cbn [bind]; auto.
  destruct (n =? N); cbn [bind]; auto. destruct (wb_split N b1 (skey si)) as [[[bl br] sk]| |]; cbn [bind fresh]; auto.
  destruct (k <? sk)%Z.
  - destruct (wb_pos bl k); cbn [bind]; auto.
  - destruct (wb_pos br k); cbn [bind]; auto.
Qed.
Lemma wt_insert_x t k v : (do t' <- wt_insert N M t k v; Ok (to_x t')) = x_ins wo Q (to_x t) k v.
Proof.
  unfold wt_insert, x_ins. cbn [to_x xth xtb xroot xdepth]. rewrite wt_insert_branch_x.
  destruct (x_insert wo Q (wth t) (wtb t) (wdepth t) (wroot t) k v) as [[[h1 B1] [si|]]| |]; cbn [bind]; auto.
  cbn [fresh wbq xo_root]. unfold wb_root.
  destruct (aset (wbk (wb_new N)) 0 (skey si)); cbn [bind]; auto. destruct (aset (wbc (wb_new N)) 0 (sleft si)) as [c1| |]; cbn [bind]; auto.
  destruct (aset c1 N (sright si)); cbn [bind]; auto. destruct (aset (bs (wb_new N)) 1 0) as [s1| |]; cbn [bind]; auto.
  destruct (bm_set N (bb (wb_new N)) 0 true); cbn [bind]; auto. destruct (aset s1 0 1); cbn [bind]; auto.
Qed.

Definition winv (t : wtree V) es := xinv N M (wrep M) 1 (wbrep N) (to_x t) es.
Definition winvs (t : wtree V) es := xinvs N M (wrep M) 1 (wbrep N) wbsp (to_x t) es.

Lemma trivial_mid (x y z : Z) : True -> True -> (x <= z <= y)%Z -> True.
Proof. auto. Qed.
Lemma trivial_keys k0 (l : leaf) es : wrk k0 l es -> Forall (fun _ => True) (keys es).
Proof. intros _. apply Forall_forall. auto. Qed.

Lemma wt_new_inv : winvs (wt_new V M) [].
Proof.
  pose proof (@xinvs_new leaf V wbranch N M wo (wrk 0) 1 (wbrep N) wbsp (fun k => k = 0%Z) (wrk_laws 0) HN) as H.
  eapply xinvs_weaken; [|exact H]. intros l e a b _ [HR _]. exact HR.
Qed.
Lemma winvs_inv t es : winvs t es -> winv t es.
Proof. apply xinvs_xinv. Qed.
Lemma winv_sorted t es : winv t es -> sorted es.
Proof. apply xinv_sorted. Qed.

Definition all_room (k : Z) (es : list (Z * V)) : Prop := forall e a b, es = a ++ e ++ b -> room k e.

Lemma wt_insert_rk t es k v : xinv N M (wrk k) 1 (wbrep N) (to_x t) es -> exists t', wt_insert N M t k v = Ok t' /\ winv t' (ins k v es).
Proof.
  intros H'.
  destruct (@x_ins_ok leaf V wbranch N M wo Q (wrk k) 1 (fun _ => True) (wbrep N) wbsp (fun x => x = k) (wrk_laws k)
              (fun _ _ => I) trivial_mid (trivial_keys (k0 := k)) HN (wb_laws HN) (le_n 1) (to_x t) es k v eq_refl H') as (x & E & HI).
  rewrite <- wt_insert_x in E. destruct (wt_insert N M t k v) as [t'| |]; cbn [bind] in E; try discriminate.
  injection E as <-. exists t'. split; auto. eapply xinv_weaken; [|exact HI]. intros l e a b _ [R _]. exact R.
Qed.
Lemma wt_insert_ok t es k v : all_room k es -> winv t es -> exists t', wt_insert N M t k v = Ok t' /\ winv t' (ins k v es).
Proof.
  intros HR H. apply wt_insert_rk. eapply xinv_weaken; [|exact H]. intros l e a b E R. split; auto. eapply HR; eauto.
Qed.
Lemma wt_insert_sp t es k v : all_room k es -> Forall (fun x => (x <= k)%Z) (keys es) -> winvs t es ->
  exists t', wt_insert N M t k v = Ok t' /\ winvs t' (ins k v es).
Proof.
  intros HR HF H.
  assert (H' : xinvs N M (wrk k) 1 (wbrep N) wbsp (to_x t) es).
  { eapply xinvs_weaken; [|exact H]. intros l e a b E R. split; auto. eapply HR; eauto. }
  destruct (@x_ins_sp leaf V wbranch N M wo Q (wrk k) 1 (fun _ => True) (wbrep N) wbsp (fun x => x = k) (wrk_laws k)
              (fun _ _ => I) trivial_mid (trivial_keys (k0 := k)) HN (wb_laws HN) (le_n 1) (to_x t) es k v eq_refl HF H') as (x & E & HI).
  rewrite <- wt_insert_x in E. destruct (wt_insert N M t k v) as [t'| |]; cbn [bind] in E; try discriminate.
  injection E as <-. exists t'. split; auto. eapply xinvs_weaken; [|exact HI]. intros l e a b _ [R _]. exact R.
Qed.

Lemma wt_route_ok t es k : winv t es ->
  (do i <- wt_route N (wtb t) (wdepth t) (wroot t) k; do l <- getl (wth t) i; w_lookup l k) = Ok (get k es).
Proof.
  intros H.
  assert (LL : leaf_laws wo M 1 (fun _ => False) (wrep M)).
  { destruct (wrk_laws 0) as [L1 L2 L3 L4 L5 L6 L7 L8]. constructor; auto.
    - apply w_new_rep.
    - intros l e R. exact (wrep_sorted R).
    - intros l e R. exact (wrep_len R).
    - intros l e R. cbn [wo lo_count]. now rewrite (w_count_ok R).
    - intros l e x R. exact (w_lookup_ok x R).
    - intros l e x w [].
    - intros l e R. exists e. split; auto. exact (w_scan_ok R). }
  exact (@x_lookup_ok leaf V wbranch N M wo Q (wrep M) 1 (fun _ => True) (wbrep N) wbsp (fun _ => False) LL (wb_laws HN) (to_x t) es k I H).
Qed.
Lemma wt_scan_ok t es : winvs t es -> wt_scan M t = Ok es.
Proof.
  intros H.
  assert (SL : scan_laws wo (wrep M)).
  { constructor; cbn [wo lo_scan lo_range].
    - intros l e R. exact (w_scan_ok R).
    - intros l e lo hi R. rewrite (w_scan_ok R). cbn [bind]. eexists _, _. splits; eauto. discriminate. }
  refine (@x_scan_sorted leaf V wbranch N M wo Q (wrep M) 1 (fun _ => True) (wbrep N) wbsp (fun _ => False) _ trivial_mid _ HN (wb_laws HN) (to_x t) es SL H).
  - intros k [].
  - intros l e _. apply Forall_forall. auto.
Qed.

(** ** Histories *)
Lemma room_max k es : Forall (fun x => (x <= k)%Z) (keys es) -> sorted es -> all_room k es.
Proof.
  intros HF HO e a b ->. rewrite !keys_app, !Forall_app in HF. destruct HF as (_ & HF & _).
  apply sorted_app in HO as (_ & HO & _). apply sorted_app in HO as (HO & _ & _).
  destruct (in_dec Z.eq_dec k (keys e)) as [Hi|Hi]; [right; left; auto|].
  destruct (Nat.lt_ge_cases (length e) M) as [HL|HL]; [left; auto|].
  right. right. exists e, []. rewrite app_nil_r. splits; auto.
  - apply alt_in. intros x Hx. rewrite Forall_forall in HF. specialize (HF x Hx). assert (x <> k) by (intros ->; auto). lia.
  - constructor.
  - pose proof mid_bounds. lia.
Qed.
Lemma room_min k es : 3 <= M -> agt k (keys es) -> all_room k es.
Proof.
  intros H3 HF e a b ->. unfold agt in HF. rewrite !keys_app, !Forall_app in HF. right. right. exists [], e. splits; auto; try tauto.
  - constructor.
  - cbn [length]. assert (2 <= (M + 1) / 2); [|lia]. apply (Nat.div_le_mono 4 (M + 1) 2); lia.
Qed.
Lemma room_old k es : 3 <= M -> sorted es -> In k (keys es) -> all_room k es.
Proof.
  intros H3 HO Hi e a b ->. destruct (in_dec Z.eq_dec k (keys e)) as [Hk|Hk]; [right; left; auto|].
  apply sorted_app in HO as (_ & HO & HA). apply sorted_app in HO as (HO & _ & HB).
  rewrite !keys_app, !in_app_iff in Hi. destruct Hi as [Hi|[Hi|Hi]]; [|tauto|].
  - apply (@room_min k e H3) with (a := []) (b := []); [|now rewrite app_nil_r].
    apply agt_in. intros x Hx. apply HA; auto. rewrite keys_app. apply in_or_app. auto.
  - apply (@room_max k e) with (a := []) (b := []); [|auto|now rewrite app_nil_r].
    apply Forall_forall. intros x Hx. specialize (HB x k Hx Hi). lia.
Qed.

Lemma wt_run_asc os : forall t es, ascending os -> after es os -> winvs t es ->
  exists t', wt_run N M t os = Ok t' /\ winvs t' (ins_all os es).
Proof.
  induction os as [|[k v] os IH]; intros t es HA HB HI; cbn [wt_run ins_all]; [eauto|].
  destruct (after_step HA HB) as (H3 & H4 & H5). pose proof (winv_sorted (winvs_inv HI)) as HO.
  destruct (wt_insert_sp v (room_max H3 HO) H3 HI) as (t' & -> & HI'). cbn [bind]. eauto.
Qed.
Lemma wt_run_out os : forall t es m, 3 <= M -> (forall k, get k es = m k) -> outward m os -> winv t es ->
  exists t', wt_run N M t os = Ok t' /\ winv t' (ins_all os es).
Proof.
  induction os as [|[k v] os IH]; intros t es m H3 HE HO HI; cbn [wt_run ins_all]; [eauto|].
  cbn [outward] in HO. destruct HO as [HC HO]. pose proof (winv_sorted HI) as HS.
  assert (HR : all_room k es).
  { destruct HC as [HC|[HC|HC]].
    - apply room_old; auto. rewrite <- HE in HC. destruct (get k es) as [w|] eqn:E; [|congruence].
      apply get_in in E; auto. apply (in_map fst) in E. exact E.
    - apply room_max; auto. apply Forall_forall. intros x Hx. specialize (HC x). rewrite <- HE in HC.
      apply in_get in Hx. specialize (HC Hx). lia.
    - apply room_min; auto. apply agt_in. intros x Hx. specialize (HC x). rewrite <- HE in HC. apply HC. now apply in_get. }
  destruct (wt_insert_ok v HR HI) as (t' & -> & HI'). cbn [bind]. apply (IH t' _ (m_put m k v)); auto.
  intros x. rewrite get_ins by auto. unfold m_put. now rewrite HE.
Qed.

Lemma wt_scan_asc os : ascending os ->
  exists t out, wt_run N M (wt_new V M) os = Ok t /\ wt_scan M t = Ok out /\ lists (m_run (inserts os)) out.
Proof.
  intros HA. destruct (@wt_run_asc os _ [] HA ltac:(intros x Hx; contradiction Hx) wt_new_inv) as (t & E & HI).
  exists t, (ins_all os []). splits; auto; [now apply wt_scan_ok|].
  destruct (sorted_lists (winv_sorted (winvs_inv HI))) as [L1 L2]. split; auto. intros k v. rewrite L2. now rewrite ins_all_run.
Qed.
Lemma wt_struct_out os : 3 <= M -> outward m_empty os ->
  exists t, wt_run N M (wt_new V M) os = Ok t /\ forall k,
    (do i <- wt_route N (wtb t) (wdepth t) (wroot t) k; do l <- getl (wth t) i; w_lookup l k) = Ok (m_run (inserts os) k).
Proof.
  intros H3 HO. destruct (@wt_run_out os _ [] m_empty H3 (fun _ => eq_refl) HO (winvs_inv wt_new_inv)) as (t & E & HI).
  exists t. split; auto. intros k. rewrite (wt_route_ok k HI). now rewrite ins_all_run.
Qed.
End Tree.
