(** The tree left behind by an insert that was interrupted between two levels. *)
From Verif Require Import Base ArrLemmas MapSpec SortedList BTreeModel BTreeLaws BTreeBranch BTreeGhost BTreeSpec BTreeInsert BTreeErase
  BTreeHist BTreeMain RecoverModel RecoverProofs CutModel CutSpec.
Open Scope nat_scope.

Lemma wf_weak {V} N M minL minB minB' : minB' <= minB -> forall d m m' lo hi (g : gt V), m' <= m ->
  wf N M minL minB m d lo hi g -> wf N M minL minB' m' d lo hi g.
Proof.
  intros HB. induction d as [|d IH]; intros m m' lo hi [i es|i ks cs] Hm W; try contradiction W.
  - cbn [wf] in *. intuition lia.
  - cbn [wf] in *. destruct W as [W K]. split; [lia|]. eapply kids_impl; [|exact K]. intros x y c _. apply IH.
    destruct d; cbn [mn]; lia.
Qed.

(** A lower bound on the upper end of the key range. *)
Lemma wf_hi_weak {V} N M minL minB : forall d m lo hi hi' (g : gt V), (forall z, hib hi z -> hib hi' z) -> (forall z, bl z hi -> bl z hi') ->
  wf N M minL minB m d lo hi g -> wf N M minL minB m d lo hi' g.
Proof.
  induction d as [|d IH]; intros m lo hi hi' [i es|i ks cs] H B W; try contradiction W.
  - cbn [wf] in *. destruct W as (W1 & W2 & W3). split; [exact W1|]. split; [|exact W3].
    eapply Forall_impl; [|exact W2]. intros x [X1 X2]. split; auto.
  - cbn [wf] in *. destruct W as [W K]. split; [exact W|]. clear W. revert lo cs K. induction ks as [|k ks IK]; intros lo [|c cs] K; cbn [kids] in *; try tauto.
    + destruct cs; [|tauto]. destruct K as [K1 K2]. split; auto. eapply IH; eauto.
    + destruct K as (K1 & K2 & K3). splits; auto.
Qed.

Lemma hib_up lo hi a bb z : Forall (fun k => bl lo (Some k) /\ bl (Some k) hi) (a ++ bb) -> hib (hbd bb hi) z -> hib hi z.
Proof.
  intros F H. apply Forall_app in F as [_ F]. destruct bb as [|k bb]; [exact H|]. apply Forall_inv in F as [_ F]. eapply bl_hib; eauto.
Qed.
Lemma inb_up lo hi a bb z : Forall (fun k => bl lo (Some k) /\ bl (Some k) hi) (a ++ bb) -> inb (lb lo a) (hbd bb hi) z -> inb lo hi z.
Proof.
  intros F [H1 H2]. split; [|eapply hib_up; eauto]. apply Forall_app in F as [F _].
  destruct a as [|k a _] using rev_ind; [exact H1|]. rewrite lb_snoc in H1. apply Forall_app in F as [_ F]. apply Forall_inv in F as [F _]. eapply bl_lob; eauto.
Qed.

Lemma get_ext {V} (a b : list (Z * V)) x : sorted a -> sorted b -> (forall u, In (x, u) a <-> In (x, u) b) -> get x a = get x b.
Proof.
  intros Sa Sb H. destruct (get x a) as [u|] eqn:E.
  - symmetry. apply get_in; auto. apply H. now apply get_in.
  - destruct (get x b) as [u|] eqn:E2; [|reflexivity]. apply get_in in E2; auto. apply H in E2. apply get_in in E2; auto. congruence.
Qed.

Section Cut.
Variables (L V : Type) (N M : nat) (O : leafops L V).
Variable lrep : L -> list (Z * V) -> Prop.
Variable minL : nat.
Variable kok : Z -> Prop.
Hypothesis LL : leaf_laws O M minL kok lrep.
Hypothesis HN : 2 <= N.
Notation hp := (heap L).
Notation gt := (gt V).
Notation wf := (wf N M minL 0).
Notation inv := (inv N lrep).
Notation upd_ok := (upd_ok N lrep).
Notation binv := (binv N).
Implicit Types (g : gt) (gs cs CA : list gt).

(** The leaves [a] are those of [b] without the ones holding the keys in [s, e), at most [w] entries. *)
Definition hole (w : nat) (lo hi : option Z) (a b : list (nat * list (Z * V))) : Prop :=
  a = b \/ exists P X Q s e, b = P ++ X ++ Q /\ a = P ++ Q /\ P <> [] /\ length (flat_map snd X) <= w /\ inb lo hi s /\ (forall z, hib e z -> hib hi z) /\
    alt s (keys (flat_map snd P)) /\ Forall (inb (Some s) e) (keys (flat_map snd X)) /\
    (forall y z, In y (keys (flat_map snd Q)) -> hib e z -> (z < y)%Z).

Definition cut_post (w m d : nat) (lo hi : option Z) (h : hp) A g B (k : Z) (v : V) (h' : hp) : Prop :=
  exists gs' g', upd_ok h A [g] B h' gs' /\ ents gs' = ins k v (ents [g]) /\ hd_error (lids gs') = hd_error (lids [g]) /\
    gid g' = gid g /\ wf (Nat.min m (mn minL 0 d)) d lo hi g' /\ binv h' [g'] /\
    (forall j, In j (bids [g']) -> In j (bids [g]) \/ hfresh h <= j) /\ hole w lo hi (lvs [g']) (lvs gs') /\
    Forall (fun q => length (snd q) <= M) (lvs gs') /\
    (minL <= m \/ d <> 0 \/ 1 < length (lvs gs') -> Forall (fun q => minL <= length (snd q)) (lvs gs')).

Lemma wf_caps d m lo hi g : wf m d lo hi g -> Forall (fun q => length (snd q) <= M) (lvs [g]).
Proof.
  intros W. destruct d; destruct g as [i es1|]; try contradiction W.
  - constructor; [|constructor]. cbn [snd]. apply W.
  - eapply Forall_impl; [|exact (wf_leaf_sizes W (or_intror (Nat.neq_succ_0 d)))]. cbn beta. intros q Hq. lia.
Qed.
Lemma wf_mins d m lo hi g : wf m d lo hi g -> minL <= m \/ d <> 0 -> Forall (fun q => minL <= length (snd q)) (lvs [g]).
Proof. intros W H. eapply Forall_impl; [|exact (wf_leaf_sizes W H)]. cbn beta. intros q Hq. lia. Qed.
Lemma mn_min d : minL <= mn minL 0 d \/ d <> 0.
Proof. destruct d; cbn [mn]; auto. Qed.
Lemma kl_forall (R : option Z -> option Z -> gt -> Prop) (P : nat * list (Z * V) -> Prop) : (forall x y c, R x y c -> Forall P (lvs [c])) -> forall a CA lo, kl R lo a CA -> Forall P (lvs CA).
Proof.
  intros H. induction a as [|k a IH]; intros [|c CA] lo K; try contradiction K; [constructor|].
  destruct K as (_ & K & K'). change (c :: CA) with ([c] ++ CA). rewrite lvs_app. apply Forall_app. split; eauto.
Qed.
Lemma kr_forall (R : option Z -> option Z -> gt -> Prop) (P : nat * list (Z * V) -> Prop) : (forall x y c, R x y c -> Forall P (lvs [c])) -> forall a CA hi, kr R a CA hi -> Forall P (lvs CA).
Proof.
  intros H. induction a as [|k a IH]; intros [|c CA] lo K; try contradiction K; [constructor|].
  destruct K as (_ & K & K'). change (c :: CA) with ([c] ++ CA). rewrite lvs_app. apply Forall_app. split; eauto.
Qed.

Lemma binv_of h A gs B : inv h A gs B -> binv h gs.
Proof. intros I. split; [apply (inv_b I)|]. split; [apply (inv_ndb I)|apply (inv_ltb I)]. Qed.

Lemma kids_size (R : option Z -> option Z -> gt -> Prop) w : (forall x y c, R x y c -> length (ents [c]) <= w) ->
  forall ks cs lo hi, kids R lo ks cs hi -> length (ents cs) <= S (length ks) * w.
Proof.
  intros H. induction ks as [|k ks IH]; intros [|c cs] lo hi K; cbn [kids] in K; try tauto.
  - destruct cs; [|tauto]. destruct K as [_ K]. apply H in K. cbn [length]. lia.
  - destruct K as (_ & K1 & K2). change (c :: cs) with ([c] ++ cs). rewrite ents_app, app_length. apply H in K1. apply IH in K2. cbn [length]. lia.
Qed.
Lemma wf_size d : forall m lo hi g, wf m d lo hi g -> length (ents [g]) <= M * (N + 1) ^ d.
Proof.
  induction d as [|d IH]; intros m lo hi [i es|i ks cs] W; try contradiction W.
  - rewrite ents_GL. cbn [BTreeGhost.wf] in W. cbn [Nat.pow]. lia.
  - rewrite ents_GB. cbn [BTreeGhost.wf] in W. destruct W as [W K]. apply kids_size with (w := M * (N + 1) ^ d) in K; [|intros; eapply IH; eauto].
    cbn [Nat.pow]. etransitivity; [exact K|]. replace (M * ((N + 1) * (N + 1) ^ d)) with ((N + 1) * (M * (N + 1) ^ d)) by lia.
    apply Nat.mul_le_mono_r. lia.
Qed.
Lemma size_mono a b : a <= b -> M * (N + 1) ^ a <= M * (N + 1) ^ b.
Proof. intros H. apply Nat.mul_le_mono_l. apply Nat.pow_le_mono_r; lia. Qed.

Lemma insert_cut_base w d : forall m h A g B lo hi k v, M * (N + 1) ^ d <= w -> kok k -> wf m d lo hi g -> inb lo hi k -> inv h A [g] B ->
  exists h' r, ins_any N O h d (gid g) k v = Ok (h', r) /\ cut_post w m d lo hi h A g B k v h'.
Proof.
  intros m h A g B lo hi k v Hw Kk W Hk I.
  destruct (@insert_any_ok L V N M O lrep minL 0 kok LL HN (Nat.le_0_l _) d m h A g B lo hi k v Kk W Hk I) as (h' & r & E & gs' & U & (EE & EH) & HR).
  exists h', r. split; [exact E|]. pose proof (uo_inv U) as J. destruct r as [sp|].
  - destruct HR as (g1 & g2 & -> & Eg1 & _ & _ & W1 & W2 & B1 & B2).
    exists [g1; g2], g1. split; [exact U|]. split; [exact EE|]. split; [exact EH|]. split; [exact Eg1|].
    assert (HH : forall z, hib (Some (skey sp)) z -> hib hi z) by (intros z; now apply bl_hib).
    assert (BB : forall z, bl z (Some (skey sp)) -> bl z hi) by (intros z Hz; eapply bl_trans; eauto).
    split; [eapply wf_mono; [|eapply wf_hi_weak; [exact HH|exact BB|exact W1]]; lia|].
    apply binv_of in J. pose proof J as JB. apply (binv_app N h' [g1] [g2]) in J as (J & _ & _). split; [exact J|].
    split; [intros j Hj; apply (uo_b U); change [g1; g2] with ([g1] ++ [g2]); rewrite bids_app; apply in_or_app; auto|].
    change [g1; g2] with ([g1] ++ [g2]). rewrite lvs_app. split; [|split; [apply Forall_app; split; eapply wf_caps; eauto|
      intros _; apply Forall_app; split; eapply wf_mins; eauto; apply mn_min]].
    right. exists (lvs [g1]), (lvs [g2]), [], (skey sp), hi.
    assert (E1 : ents [g1] = flat_map snd (lvs [g1])) by reflexivity. assert (E2 : ents [g2] = flat_map snd (lvs [g2])) by reflexivity.
    pose proof (wf_okc (m := mn minL 0 d) (d := d) W1) as [_ F1]. pose proof (wf_okc (m := mn minL 0 d) (d := d) W2) as [_ F2].
    splits.
    + now rewrite app_nil_r.
    + now rewrite app_nil_r.
    + destruct (leftmost_b W1 J) as (i & es & LB & _ & EL). rewrite EL. discriminate.
    + rewrite <- E2. pose proof (wf_size W2). lia.
    + split; [destruct lo; cbn [bl lob] in *; auto; lia|]. destruct hi; cbn [bl hib] in *; auto.
    + auto.
    + rewrite <- E1. apply alt_in. rewrite Forall_forall in F1. intros x Hx. apply F1 in Hx. apply Hx.
    + rewrite <- E2. exact F2.
    + intros y z [].
  - destruct HR as (g' & -> & Eg & W'). exists [g'], g'. splits; auto.
    + eapply wf_mono; [|exact W']. lia.
    + now apply binv_of in J.
    + intros j Hj. apply (uo_b U). exact Hj.
    + now left.
    + eapply wf_caps; eauto.
    + intros H. assert (Hd : d = 0 \/ d <> 0) by lia. destruct Hd as [->|Hd]; [|eapply wf_mins; eauto].
      destruct g' as [i es|]; [|contradiction W']. destruct H as [H|[H|H]]; [eapply wf_mins; eauto|congruence|cbn in H; lia].
Qed.

Lemma insert_cut_ok c d : forall m h A g B lo hi k v, kok k -> wf m d lo hi g -> inb lo hi k -> inv h A [g] B ->
  exists h', insert_cut N O c h d (gid g) k v = Ok h' /\ cut_post (M * (N + 1) ^ c) m d lo hi h A g B k v h'.
Proof.
  induction d as [|d IH]; intros m h A g B lo hi k v Kk W Hk I.
  - destruct (insert_cut_base v (size_mono (Nat.le_0_l c)) Kk W Hk I) as (h' & r & E & P). exists h'. split; [|exact P].
    cbn [insert_cut Nat.leb]. change (insert_leaf O h (gid g) k v) with (ins_any N O h 0 (gid g) k v). rewrite E. reflexivity.
  - cbn [insert_cut]. destruct (Nat.leb_spec (S d) c) as [Hc|Hc].
    { destruct (insert_cut_base v (size_mono Hc) Kk W Hk I) as (h' & r & E & P). exists h'. split; [|exact P].
      change (insert_branch N O h (S d) (gid g) k v) with (ins_any N O h (S d) (gid g) k v). rewrite E. reflexivity. }
    destruct g as [i es|i ks cs]; [contradiction W|]. cbn [BTreeGhost.wf] in W. destruct W as [HC HK]. pose proof I as HI0.
    apply inv_GB in I as (HI & Hfi & Hni & (b & Eb & Hb)). cbn [fst snd] in *.
    destruct (route HK Hk) as (a & bb & CA & c' & CB & -> & -> & LA & LB & Ha & Hbb & KL & Rc & Bc & KR & Hkc).
    destruct (kids_sorted HK) as [HS HKb].
    change (CA ++ c' :: CB) with (CA ++ [c'] ++ CB) in HI.
    pose proof (inv_sub HI) as HIc.
    destruct (IH _ _ _ _ _ _ _ k v Kk Rc Hkc HIc) as (h1 & E & gs' & g' & U & EE & EH & Eg & W' & BV & OF & HO & SZ1 & SZ2).
    pose proof (upd_ctx HI U) as UC.
    destruct (ctx_ents (wf_okc (m := mn minL 0 d) (d := d)) KL KR Hkc) as [HA HBB].
    exists h1. cbn [gid]. unfold getb. rewrite Eb. cbn [of_opt bind].
    rewrite (bpos_ok LL Hb HS Ha Hbb). cbn [bind]. rewrite (kid_at Hb) by auto. cbn [bind]. split; [exact E|].
    exists (CA ++ gs' ++ CB), (GB i (a ++ bb) (CA ++ g' :: CB)).
    assert (FRB : forall j, j < hfresh h -> ~ In j (bids (CA ++ [c'] ++ CB)) -> hb h1 j = hb h j) by (intros; apply (fr_b (uo_fr UC)); auto).
    splits.
    + destruct UC as [J F U1 U2 U3]. constructor; auto.
      * destruct F as [F1 F2 F3]. constructor; auto.
        -- intros j Hj Hn. rewrite lids_GB in Hn. apply F2; auto.
        -- intros j Hj Hn. rewrite bids_GB in Hn. apply F3; auto. intros Hx. apply Hn. right. exact Hx.
      * intros j Hj. rewrite lids_GB. auto.
      * intros j Hj. rewrite bids_GB. destruct (U2 j Hj); [left; right; exact H|auto].
      * now rewrite lids_GB.
    + rewrite ents_GB. change (CA ++ c' :: CB) with (CA ++ [c'] ++ CB). rewrite !ents_app, EE.
      rewrite ins_app_lt by assumption. now rewrite ins_app_gt.
    + rewrite lids_GB. change (CA ++ c' :: CB) with (CA ++ [c'] ++ CB). rewrite !lids_app. now apply hd_ctx.
    + reflexivity.
    + cbn [BTreeGhost.wf mn]. split; [lia|]. apply (@kids_ctx gt (BTreeGhost.wf N M minL 0 (mn minL 0 d) d) a CA bb CB lo hi [] [g'] LA LB).
      splits; auto. cbn [kids]. split; [exact Bc|]. rewrite Nat.min_id in W'. exact W'.
    + pose proof (binv_of HI) as OB. apply binv_app in OB as (OBA & OB & D1). apply binv_app in OB as (OBc & OBB & D2).
      pose proof (uo_inv UC) as JB. apply binv_of in JB. apply binv_app in JB as (NA & JB & D3). apply binv_app in JB as (_ & NB & D4).
      apply binv_GB. splits.
      * change (CA ++ g' :: CB) with (CA ++ [g'] ++ CB). apply binv_app. splits; [exact NA| |].
        -- apply binv_app. splits; auto. intros j Hj Hj2. destruct (OF j Hj) as [Ho|Hf]; [eauto|]. pose proof (proj2 (proj2 OBB) j Hj2). lia.
        -- intros j Hj Hj2. rewrite bids_app in Hj2. apply in_app_or in Hj2 as [Hj2|Hj2].
           ++ destruct (OF j Hj2) as [Ho|Hf]; [apply (D1 j Hj); rewrite bids_app; apply in_or_app; auto|]. pose proof (proj2 (proj2 OBA) j Hj). lia.
           ++ apply (D1 j Hj). rewrite bids_app. apply in_or_app. auto.
      * intros Hx. change (CA ++ g' :: CB) with (CA ++ [g'] ++ CB) in Hx. change (CA ++ c' :: CB) with (CA ++ [c'] ++ CB) in Hni.
        rewrite !bids_app, !in_app_iff in *. destruct Hx as [Hx|[Hx|Hx]]; try tauto. destruct (OF i Hx); [tauto|lia].
      * pose proof (fr_fresh (uo_fr UC)). lia.
      * exists b. cbn [fst snd]. rewrite FRB; auto. split; [exact Eb|]. rewrite map_app in *. cbn [map] in *. rewrite Eg. exact Hb.
    + intros j Hj. rewrite bids_GB in Hj. rewrite bids_GB. destruct Hj as [<-|Hj]; [left; left; reflexivity|].
      change (CA ++ g' :: CB) with (CA ++ [g'] ++ CB) in Hj. change (CA ++ c' :: CB) with (CA ++ [c'] ++ CB).
      rewrite !bids_app, !in_app_iff in *. cbn [In]. rewrite ?bids_app, ?in_app_iff. destruct Hj as [Hj|[Hj|Hj]]; try tauto. destruct (OF j Hj); tauto.
    + rewrite lvs_GB. change (CA ++ g' :: CB) with (CA ++ [g'] ++ CB). rewrite !lvs_app.
      destruct HO as [HO|(P & X & Q & s & e & E1 & E2 & PN & WX & IS & HE & HP & HX & HQ)]; [left; now rewrite HO|].
      right. exists (lvs CA ++ P), X, (Q ++ lvs CB), s, e.
      destruct (ctx_ents (wf_okc (m := mn minL 0 d) (d := d)) KL KR IS) as [SA SB].
      destruct (kr_ents (wf_okc (m := mn minL 0 d) (d := d)) KR) as (_ & KE1 & KE2).
      splits.
      * rewrite E1, <- !app_assoc. reflexivity.
      * rewrite E2, <- !app_assoc. reflexivity.
      * destruct (lvs CA); [exact PN|discriminate].
      * exact WX.
      * exact (inb_up HKb IS).
      * intros z Hz. eapply hib_up; [exact HKb|auto].
      * rewrite flat_map_app, keys_app. apply Forall_app. split; [exact SA|exact HP].
      * exact HX.
      * intros y z Hy Hz. rewrite flat_map_app, keys_app in Hy. apply in_app_or in Hy as [Hy|Hy]; [eauto|].
        eapply KE2; [exact Hy|]. auto.
    + rewrite !lvs_app. apply Forall_app. split; [|apply Forall_app; split; [exact SZ1|]].
      * eapply kl_forall; [|exact KL]. cbn beta. intros x y c0 W0. eapply wf_caps; eauto.
      * eapply kr_forall; [|exact KR]. cbn beta. intros x y c0 W0. eapply wf_caps; eauto.
    + intros _. rewrite !lvs_app. apply Forall_app. split; [|apply Forall_app; split; [apply SZ2; destruct (mn_min d); auto|]].
      * eapply kl_forall; [|exact KL]. cbn beta. intros x y c0 W0. eapply wf_mins; eauto. apply mn_min.
      * eapply kr_forall; [|exact KR]. cbn beta. intros x y c0 W0. eapply wf_mins; eauto. apply mn_min.
Qed.

Notation tinv := (tinv N M lrep minL 0).
Notation tinvf := (tinvf N M lrep minL 0).

(** ** The tree object found after the failure *)
Lemma cut_tree c f t es k v : kok k -> tinvf f t es -> exists t' gs' g', t_insert_cut N O c t k v = Ok t' /\
  inv (th t') [] gs' [] /\ ents gs' = ins k v es /\ hd_error (lids gs') = Some f /\
  gid g' = troot t' /\ (exists m, wf m (tdepth t') None None g') /\ binv (th t') [g'] /\ hole (M * (N + 1) ^ c) None None (lvs [g']) (lvs gs') /\
  Forall (fun q => length (snd q) <= M) (lvs gs') /\ (1 < length (lvs gs') -> Forall (fun q => minL <= length (snd q)) (lvs gs')).
Proof.
  intros Kk (g & Eg & W & I & <- & HF). destruct t as [h r d]. cbn [troot tdepth th] in *. subst r.
  destruct (@insert_cut_ok c d _ h [] g [] None None k v Kk W (conj Logic.I Logic.I) I) as (h' & E & gs' & g' & U & EE & EH & Eg & W' & BV & _ & HO & S1 & S2).
  unfold t_insert_cut. cbn [troot tdepth th]. rewrite E. cbn [bind]. exists (Tree h' (gid g) d), gs', g'. cbn [troot tdepth th].
  splits; auto; [apply (uo_inv U)|congruence|eauto].
Qed.

Lemma get_hole (P Q X : list (nat * list (Z * V))) s e x : sorted (flat_map snd (P ++ X ++ Q)) -> alt s (keys (flat_map snd P)) ->
  Forall (inb (Some s) e) (keys (flat_map snd X)) -> (forall y z, In y (keys (flat_map snd Q)) -> hib e z -> (z < y)%Z) ->
  get x (flat_map snd (P ++ Q)) = if in_gap s e x then None else get x (flat_map snd (P ++ X ++ Q)).
Proof.
  intros SO HP HX HQ. rewrite !flat_map_app in *. set (p := flat_map snd P) in *. set (q := flat_map snd Q) in *. set (w := flat_map snd X) in *.
  rewrite alt_in in HP. rewrite Forall_forall in HX.
  assert (GE : in_gap s e x = true <-> inb (Some s) e x).
  { unfold in_gap, inb. cbn [lob]. rewrite andb_true_iff, Z.leb_le. destruct e; cbn [hib]; [rewrite Z.ltb_lt|]; tauto. }
  destruct (in_gap s e x) eqn:G.
  - destruct (proj1 GE eq_refl) as [G1 G2]. cbn [lob] in G1. rewrite get_app_lt; [apply get_none_gt|].
    + apply agt_in. intros y Hy. eapply HQ; eauto.
    + apply alt_in. intros y Hy. specialize (HP y Hy). lia.
  - assert (NX : ~ In x (keys w)). { intros Hx. apply HX, GE in Hx. discriminate Hx. }
    assert (S2 : sorted (p ++ q)).
    { apply sorted_app in SO as (SP & SO & SD). apply sorted_app in SO as (_ & SQ & _). apply sorted_app. splits; auto.
      intros a b Ha Hb. apply SD; auto. rewrite keys_app. apply in_or_app. auto. }
    apply get_ext; auto. intros u. rewrite !in_app_iff. split; [tauto|]. intros [H|[H|H]]; auto.
    exfalso. apply NX. apply in_map_iff. exists (x, u). auto.
Qed.

Lemma cut_lookup c f t es k v : kok k -> tinvf f t es -> exists t', t_insert_cut N O c t k v = Ok t' /\
  gap_only (M * (N + 1) ^ c) (fun x => get x (ins k v es)) (t_lookup O t').
Proof.
  intros Kk I. pose proof (tinv_sorted (tinvf_tinv I)) as SO. apply (sorted_ins k v) in SO.
  destruct (cut_tree c v Kk I) as (t' & gs' & g' & E & J & EE & _ & Eg & (m & W) & BV & HO & _). exists t'. split; [exact E|].
  assert (LK : forall x, t_lookup O t' x = Ok (get x (ents [g']))).
  { intros x. unfold t_lookup. destruct (find_leaf_b LL W BV (k := x)) as (LA & i & e0 & LB & EF & EL & H1 & H2); [split; exact Logic.I|].
    rewrite <- Eg, EF. cbn [bind].
    assert (IN : In (i, e0) (lvs gs')).
    { assert (IN : In (i, e0) (lvs [g'])) by (rewrite EL; apply in_or_app; right; left; reflexivity).
      destruct HO as [<-|(P & X & Q & s & e & -> & E2 & _)]; [exact IN|]. rewrite E2 in IN. rewrite !in_app_iff in *. tauto. }
    destruct (leaf_of J IN) as (l & El & Hl). unfold getl. rewrite El. cbn [of_opt bind]. rewrite (law_lookup LL x Hl). f_equal.
    unfold ents. rewrite EL, flat_map_app. cbn [flat_map snd]. rewrite get_app_lt by assumption. now rewrite get_app_gt. }
  rewrite <- EE in *. unfold ents in *. destruct HO as [HO|(P & X & Q & s & e & E1 & E2 & _ & WX & _ & _ & HP & HX & HQ)].
  - left. intros x. rewrite LK, HO. reflexivity.
  - right. exists s, e, (keys (flat_map snd X)). splits.
    + unfold keys. now rewrite map_length.
    + intros x Hx Hg. rewrite E1 in Hx, SO. pose proof (get_hole x SO HP HX HQ) as GH. rewrite Hg in GH.
      destruct (in_dec Z.eq_dec x (keys (flat_map snd X))) as [i|i]; [exact i|exfalso; apply Hx].
      destruct (get x (flat_map snd (P ++ X ++ Q))) as [u|] eqn:EG; [|reflexivity]. apply get_in in EG; auto.
      rewrite !flat_map_app, !in_app_iff in EG. rewrite flat_map_app in GH.
      assert (S2 : sorted (flat_map snd P ++ flat_map snd Q)).
      { rewrite !flat_map_app in SO. apply sorted_app in SO as (SP & SO & SD). apply sorted_app in SO as (_ & SQ & _). apply sorted_app. splits; auto.
        intros y z Hy Hz. apply SD; auto. rewrite keys_app. apply in_or_app. auto. }
      assert (N1 : forall u, ~ In (x, u) (flat_map snd P ++ flat_map snd Q)) by (intros u0 Hu; apply get_in in Hu; auto; congruence).
      specialize (N1 u). rewrite in_app_iff in N1. destruct EG as [EG|[EG|EG]]; try tauto. exfalso. apply i. apply in_map_iff. exists (x, u). auto.
    + intros x. rewrite LK, E2, E1. rewrite E1 in SO. f_equal. now apply get_hole.
Qed.

Lemma cut_scan c f t es k v : kok k -> tinvf f t es -> exists t' out, t_insert_cut N O c t k v = Ok t' /\
  t_scan O t' = Ok out /\ Permutation out (ins k v es).
Proof.
  intros Kk I. destruct (cut_tree c v Kk I) as (t' & gs' & g' & E & J & EE & _ & Eg & (m & W) & BV & HO & _).
  pose proof (inv_seg J) as IS. pose proof (inv_nd J) as ND. pose proof (inv_lt J) as LT. rewrite app_nil_r in IS, ND, LT. cbn [app] in IS, ND, LT.
  destruct (leftmost_b W BV) as (i & e0 & LB & EL & EV).
  assert (HD : hbd (lids gs') None = Some i).
  { destruct HO as [HO|(P & X & Q & s & e & E1 & E2 & PN & _)].
    - unfold lids. rewrite <- HO, EV. reflexivity.
    - unfold lids. rewrite E1. destruct P as [|[i1 e1] P]; [congruence|]. rewrite EV in E2. injection E2 as <- _. reflexivity. }
  destruct (@scan_chain_ok L V N M O lrep minL 0 kok LL HN (Nat.le_0_l _) (th t') (lvs gs') None (S (hfresh (th t')))) as (outs & E3 & F3).
  - apply (inv_l J).
  - exact IS.
  - pose proof (NoDup_bound HN (Nat.le_0_l _) ND LT) as Q. unfold lids in Q. rewrite map_length in Q. lia.
  - exists t', (concat outs). splits; auto.
    + unfold t_scan. rewrite <- Eg, EL. cbn [bind]. rewrite <- HD. exact E3.
    + rewrite <- EE. unfold ents. rewrite flat_map_concat_map. now apply perm_concat.
Qed.

(** ** Recovery from the leaves after an interrupted insert *)
Hypothesis MK : forall l es x (v : V), lrep l ((x, v) :: es) -> lo_minkey O l = Ok x.
Hypothesis HL : 1 <= minL.

Lemma cut_recover c f t es k v : kok k -> tinvf f t es -> exists t' t2, t_insert_cut N O c t k v = Ok t' /\
  recover N O false (th t') f = Ok t2 /\ tinvf f t2 (ins k v es).
Proof.
  intros Kk I. pose proof (tinv_sorted (tinvf_tinv I)) as SO. apply (sorted_ins k v) in SO.
  destruct (cut_tree c v Kk I) as (t' & gs' & g' & E & J & EE & HF & _ & _ & _ & _ & S1 & S2).
  pose proof (inv_seg J) as IS. pose proof (inv_nd J) as ND. pose proof (inv_lt J) as LT. rewrite app_nil_r in IS, ND, LT. cbn [app] in IS, ND, LT.
  rewrite <- EE in SO. destruct (@recover_list L V N M O lrep minL MK HN HL f (th t') (lvs gs') (inv_l J) ND LT IS SO S1 S2 HF) as (t2 & g2 & E2 & (R1 & R2 & R3 & R4 & R5) & _).
  exists t', t2. splits; auto. exists g2. splits; auto. now rewrite R4.
Qed.

Lemma f_hist os : forall t es m, tinvf 0 t es -> (forall k, get k es = m k) -> Forall (fkeys_ok kok) os ->
  exists t' es', f_run N O false t os = Ok t' /\ tinvf 0 t' es' /\ forall k, get k es' = fold_left (@m_step V) (fops os) m k.
Proof.
  induction os as [|o os IH]; intros t es m I E F; cbn [f_run fops flat_map].
  - exists t, es. auto.
  - apply Forall_cons_iff in F as [Fo F]. destruct o as [k v| |c k v]; cbn [f_step].
    + destruct (@t_insert_first L V N M O lrep minL 0 kok LL HN (Nat.le_0_l _) 0 t es k v Fo I) as (t1 & E1 & I1). rewrite E1. cbn [bind].
      cbn [app fold_left]. apply (IH t1 _ (m_step m (OpInsert k v)) I1); auto. intros x.
      rewrite get_ins by (eapply tinv_sorted, tinvf_tinv; eauto).
      cbn [m_step]. unfold m_put. destruct (x =? k)%Z; auto.
    + destruct (@recover_ok L V N M O lrep minL MK HN HL 0 t es I) as (t1 & E1 & I1). rewrite E1. cbn [bind app]. apply (IH t1 es m I1); auto.
    + destruct (cut_recover c v Fo I) as (t1 & t2 & E1 & E2 & I2). rewrite E1. cbn [bind]. rewrite E2. cbn [bind].
      cbn [app fold_left]. apply (IH t2 _ (m_step m (OpInsert k v)) I2); auto. intros x.
      rewrite get_ins by (eapply tinv_sorted, tinvf_tinv; eauto).
      cbn [m_step]. unfold m_put. destruct (x =? k)%Z; auto.
Qed.

Lemma f_hist_new os : Forall (fkeys_ok kok) os ->
  exists t es, f_run N O false (t_new O) os = Ok t /\ tinvf 0 t es /\ forall k, get k es = m_run (fops os) k.
Proof. intros F. apply (@f_hist os (t_new O) [] m_empty); auto. eapply tinvf_new; eauto; lia. Qed.

Lemma f_lookup os : Forall (fkeys_ok kok) os -> exists t, f_run N O false (t_new O) os = Ok t /\ forall k, t_lookup O t k = Ok (m_run (fops os) k).
Proof.
  intros F. destruct (f_hist_new F) as (t & es & E & I & G). exists t. split; [exact E|]. intros k. rewrite <- G.
  eapply t_lookup_ok; [exact LL|]. eapply tinvf_tinv; eauto.
Qed.

Lemma f_scan os : Forall (fkeys_ok kok) os -> exists t out, f_run N O false (t_new O) os = Ok t /\ t_scan O t = Ok out /\
  enumerates (m_run (fops os)) out.
Proof.
  intros F. destruct (f_hist_new F) as (t & es & E & I & G). apply tinvf_tinv in I.
  destruct (t_scan_perm LL HN (Nat.le_0_l _) I) as (out & Eo & P & R). exists t, out. splits; auto.
  eapply enumerates_ext; [exact G|]. apply perm_enumerates; auto. eapply tinv_sorted; eauto.
Qed.
End Cut.

(** ** After histories of completed operations *)
Section After.
Variables (L V : Type) (N M : nat) (O : leafops L V).
Variable lrep : L -> list (Z * V) -> Prop.
Variable minL minB : nat.
Variable kok : Z -> Prop.
Hypothesis LL : leaf_laws O M minL kok lrep.
Hypothesis HN : 2 <= N.

Lemma tinv_weak t es : tinv N M lrep minL minB t es -> exists f, tinvf N M lrep minL 0 f t es.
Proof.
  intros (g & H1 & H2 & H3 & H4). apply (@tinv_tinvf L V N M lrep minL 0). exists g. splits; auto.
  eapply wf_weak; [|apply le_n|exact H2]. lia.
Qed.

Lemma cut_after c t es m k v : tinv N M lrep minL minB t es -> (forall x, get x es = m x) -> kok k ->
  exists t' out, t_insert_cut N O c t k v = Ok t' /\ gap_only (M * (N + 1) ^ c) (m_put m k v) (t_lookup O t') /\ t_scan O t' = Ok out /\ enumerates (m_put m k v) out.
Proof.
  intros I G Kk. destruct (tinv_weak I) as (f & I'). pose proof (tinv_sorted I) as SO.
  assert (GI : forall x, get x (ins k v es) = m_put m k v x). { intros x. rewrite get_ins by auto. unfold m_put. rewrite G. reflexivity. }
  destruct (cut_lookup LL HN c v Kk I') as (t' & E & LK). destruct (cut_scan LL HN c v Kk I') as (t2 & out & E' & S1 & S2).
  rewrite E in E'. injection E' as <-. exists t', out. splits; auto.
  - destruct LK as [LK|(a & b & ks & L1 & L2 & LK)]; [left; intros x; now rewrite LK, GI|right; exists a, b, ks]. splits; auto.
    + intros x Hx. apply L2. now rewrite GI.
    + intros x. now rewrite LK, GI.
  - eapply enumerates_ext; [exact GI|]. apply perm_enumerates; auto. now apply sorted_ins.
Qed.
End After.
