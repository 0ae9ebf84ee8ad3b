(** balanceBranchNodes and mergeBranchNodes of the wBPTree: contents of the nodes afterwards. *)
From Verif Require Import Base ArrLemmas MapSpec SortedList SearchModel SearchProofs RankModel
  BitmapModel BitmapProofs BTreeModel BTreeLaws BTreeBranch BTreeGhost BTreeInsert BTreeSpec BitTreeModel FLeafProofs
  WbModel WbProofs WbMove XTree WbBranch WbEModel WbESpec WbEBranch.
Open Scope nat_scope.

(** Two neighbouring parts of a store exchanged. *)
Lemma store_swap {V} M (b : list N) (k : arr Z) (v : arr V) a c d x y z : length a = length x -> length c = length y ->
  store M b k v (a ++ c ++ d) (x ++ y ++ z) -> store M b k v (c ++ a ++ d) (y ++ x ++ z).
Proof.
  intros L1 L2 (HB & LK & LV & ND & HU & HE). unfold store. splits; auto.
  - eapply Permutation.Permutation_NoDup; [|exact ND]. rewrite !app_assoc. apply Permutation.Permutation_app_tail.
    apply Permutation.Permutation_app_comm.
  - intros i. rewrite HU, !in_app_iff. tauto.
  - apply Forall2_app_len in HE as [H1 H2]; auto. apply Forall2_app_len in H2 as [H2 H3]; auto.
    apply Forall2_app; auto. now apply Forall2_app.
Qed.

Lemma rev_case {A} (l : list A) : l = [] \/ exists l' x, l = l' ++ [x].
Proof. destruct l as [|x l] using rev_ind; eauto. Qed.

Lemma nodup_front {A} (a c : list A) : NoDup (a ++ c) -> NoDup a.
Proof.
  induction a as [|x a IH]; intros H; [constructor|]. cbn [app] in H. inversion H as [|y z H1 H2]; subst. constructor; auto.
  intros G. apply H1. rewrite in_app_iff. auto.
Qed.

Section Balance.
Variable N : nat.
Hypothesis HN : 2 <= N.
Notation wbrep := (wbrep N).

(** As [wbrep]; the positions [xs] are marked although no slot refers to them. *)
Definition wbx (b : wbranch) (ks : list Z) (cs : list nat) (xs : list nat) : Prop :=
  exists es last sl R c0 ys, ks = keys es /\ cs = map snd es ++ [last] /\
    bs b = Some (length es) :: map Some sl ++ R /\ length (bs b) = S N /\ wbc b = c0 ++ [Some last] /\
    store N (bb b) (wbk b) c0 (sl ++ xs) (es ++ ys) /\ length sl = length es.

Lemma wbrep_x b ks cs : wbrep b ks cs -> wbx b ks cs [].
Proof.
  intros (es & last & sl & R & c0 & E1 & E2 & E3 & E4 & E5 & HS & _). exists es, last, sl, R, c0, []. rewrite !app_nil_r.
  splits; auto. eapply store_len; eauto.
Qed.

Lemma wbx_rep b ks cs : wbx b ks cs [] -> ssorted ks -> wbrep b ks cs.
Proof.
  intros (es & last & sl & R & c0 & ys & E1 & E2 & E3 & E4 & E5 & HS & LS) HO. exists es, last, sl, R, c0.
  pose proof (store_len HS) as L. rewrite !app_length in L. cbn [length] in L. destruct ys; [|cbn [length] in L; lia].
  rewrite !app_nil_r in HS. splits; auto. unfold sorted. now rewrite <- E1.
Qed.

Lemma wbx_holds b ks cs xs : wbx b ks cs xs -> branch_holds N b ks cs xs.
Proof.
  intros (es & last & sl & R & c0 & ys & -> & -> & Es & EL & Ew & HS & LS).
  pose proof HS as (HB & LK & LV & ND & HU & HE).
  apply Forall2_app_len in HE as [HE _]; auto.
  assert (AT : forall i p, nth_error sl i = Some p <-> (i < length es /\ aget (bs b) (S i) = Ok p)).
  { intros i p. rewrite Es. unfold aget. cbn [nth_error]. split.
    - intros E. assert (i < length sl) by (apply nth_error_Some; congruence). split; [lia|].
      rewrite nth_error_app1 by (rewrite map_length; lia). now rewrite nth_error_map, E.
    - intros [Hi E]. rewrite nth_error_app1, nth_error_map in E by (rewrite map_length; lia).
      destruct (nth_error sl i) as [q|]; cbn in E; congruence. }
  assert (NT : forall i e, nth_error es i = Some e -> exists p, nth_error sl i = Some p /\ ent (wbk b) c0 p e).
  { clear -HE. intros i p. revert i. induction HE as [|q e sl es Hq HE IH]; intros [|i] E; simpl in *; try discriminate.
    - injection E as <-. eauto.
    - apply IH; auto. }
  unfold branch_holds. rewrite keys_length. splits; auto.
  - rewrite Ew, app_length. cbn [length]. lia.
  - now rewrite Es.
  - rewrite app_length, map_length. cbn [length]. lia.
  - intros i k Hk. unfold keys in Hk. rewrite nth_error_map in Hk. destruct (nth_error es i) as [e|] eqn:Ee; [|discriminate].
    injection Hk as <-. destruct (NT _ _ Ee) as (p & Ep & G1 & G2). exists p, (snd e).
    assert (Ip : In p sl) by (eapply nth_error_In; eauto).
    assert (LP : p < N) by (eapply store_lt; [exact HS|]; rewrite in_app_iff; auto).
    assert (Li : i < length es) by (apply nth_error_Some; congruence).
    splits; auto.
    + now apply AT in Ep.
    + apply HU. rewrite in_app_iff. auto.
    + intros Hx. apply in_split in Ip as (a & c & ->). rewrite <- app_assoc in ND. cbn [app] in ND. apply NoDup_remove in ND as [_ ND].
      rewrite !in_app_iff in ND. tauto.
    + rewrite nth_error_app1 by (now rewrite map_length). now rewrite nth_error_map, Ee.
    + rewrite Ew. now rewrite (aget_app_l [Some last] G2).
  - intros c Hc. rewrite nth_error_app2 in Hc by (rewrite map_length; lia). rewrite map_length, Nat.sub_diag in Hc. cbn in Hc.
    injection Hc as <-. rewrite Ew. rewrite aget_app; auto.
  - intros i j p Hi Hj Ei Ej.
    assert (G1 : nth_error sl i = Some p) by (apply AT; auto).
    assert (G2 : nth_error sl j = Some p) by (apply AT; auto).
    apply nodup_front in ND. rewrite NoDup_nth_error in ND. apply ND; [|congruence]. apply nth_error_Some. congruence.
  - intros p Hp. rewrite HU, in_app_iff. split.
    + intros [G|G]; auto. right. apply In_nth_error in G as [i Hi]. apply AT in Hi. eauto.
    + intros [G|(i & Hi & Ei)]; auto. left. eapply nth_error_In. apply AT. eauto.
Qed.

Lemma holds_rep b ks cs : branch_holds N b ks cs [] -> ssorted ks -> wbrep b ks cs.
Proof.
  intros (EL & LK & LC & HB & E0 & LCS & H1 & H2 & H3 & H4) HO. apply wbx_rep; auto.
  assert (exists sl, length sl = length ks /\ forall i p, nth_error sl i = Some p -> aget (bs b) (S i) = Ok p) as (sl & LS & HSL).
  { assert (G : forall m, m <= length ks -> exists sl, length sl = m /\ forall i p, nth_error sl i = Some p -> aget (bs b) (S i) = Ok p).
    { induction m as [|m IH]; intros Hm.
      - exists []. split; auto. intros [|i] p E; discriminate.
      - destruct IH as (sl & L & Hs); [lia|]. destruct (nth_error ks m) as [k|] eqn:Ek; [|apply nth_error_None in Ek; lia].
        destruct (H1 m k Ek) as (p & c & Ep & _).
        exists (sl ++ [p]). split; [rewrite app_length; cbn [length]; lia|]. intros i q E.
        destruct (Nat.lt_ge_cases i (length sl)) as [L'|L'].
        + rewrite nth_error_app1 in E by auto. auto.
        + rewrite nth_error_app2 in E by auto. destruct (i - length sl) as [|x] eqn:D; [|destruct x; discriminate].
          cbn in E. injection E as <-. now replace i with m by lia. }
    apply (G (length ks)). lia. }
  destruct (rev_case cs) as [->|(cs0 & last & ->)]; [discriminate|].
  destruct (rev_case (wbc b)) as [Ew|(c0 & w & Ew)]; [rewrite Ew in LC; discriminate|].
  rewrite app_length in LCS. cbn [length] in LCS. rewrite Ew, app_length in LC. cbn [length] in LC.
  assert (w = Some last) as ->.
  { specialize (H2 last). rewrite nth_error_app2 in H2 by lia. replace (length ks - length cs0) with 0 in H2 by lia.
    specialize (H2 eq_refl). rewrite Ew in H2. unfold aget in H2. rewrite nth_error_app2 in H2 by lia.
    replace (N - length c0) with 0 in H2 by lia. cbn in H2. destruct w; congruence. }
  assert (LE : length (combine ks cs0) = length ks) by (rewrite combine_length; lia).
  exists (combine ks cs0), last, sl, (skipn (S (length ks)) (bs b)), c0, []. rewrite !app_nil_r, LE. splits; auto.
  - unfold keys. clear -LCS. revert cs0 LCS. induction ks as [|k ks IH]; intros [|c cs0] L; try discriminate; auto.
    cbn [combine map fst]. f_equal. apply IH. cbn [length] in *. lia.
  - f_equal. clear -LCS. revert cs0 LCS. induction ks as [|k ks IH]; intros [|c cs0] L; try discriminate; auto; cbn [length] in L; try lia.
    cbn [combine map snd]. f_equal. apply IH. cbn [length] in *. lia.
  - destruct (bs b) as [|x w] eqn:EW; [discriminate|]. cbn [skipn]. cbn [aget nth_error] in E0.
    destruct x as [x|]; [|discriminate]. injection E0 as ->. f_equal.
    assert (LW : length ks <= length w).
    { destruct (length ks) as [|n] eqn:En; [lia|]. destruct (nth_error sl n) as [p|] eqn:Ep; [|apply nth_error_None in Ep; lia].
      pose proof (HSL _ _ Ep) as G. unfold aget in G. cbn [nth_error] in G. destruct (nth_error w n) as [z|] eqn:Ez; [|discriminate].
      assert (n < length w) by (apply nth_error_Some; congruence). lia. }
    clear -HSL LS LW. revert LS HSL LW. generalize (length ks). revert w.
    induction sl as [|p sl IH]; intros w n LS HSL LW; subst n; [reflexivity|].
    destruct w as [|y w]; [cbn [length] in LW; lia|]. cbn [length skipn map app] in *.
    pose proof (HSL 0 p eq_refl) as G. cbn [aget nth_error] in G. destruct y as [y|]; [|discriminate].
    injection G as ->. f_equal. apply IH; auto.
    + intros i q Hi. apply (HSL (S i) q Hi).
    + lia.
  - assert (AT : forall i p, nth_error sl i = Some p <-> (i < length ks /\ aget (bs b) (S i) = Ok p)).
    { intros i p. split.
      - intros E. split; auto. rewrite <- LS. apply nth_error_Some. congruence.
      - intros [Hi E]. destruct (nth_error sl i) as [q|] eqn:Eq; [|apply nth_error_None in Eq; lia].
        apply HSL in Eq. congruence. }
    unfold store. splits; auto.
    + lia.
    + rewrite NoDup_nth_error. intros i j Hi E. destruct (nth_error sl i) as [p|] eqn:Ei.
      2:{ apply nth_error_None in Ei. lia. }
      symmetry in E. apply AT in Ei as [? ?]. apply AT in E as [? ?]. eapply H3; eauto.
    + intros p. destruct (Nat.lt_ge_cases p N) as [LP|LP].
      * rewrite H4 by auto. cbn [In]. split.
        -- intros [[]|(i & Hi & Ei)]. eapply nth_error_In. apply AT. eauto.
        -- intros Hp. right. apply In_nth_error in Hp as [i Hi]. apply AT in Hi. eauto.
      * split.
        -- intros B. destruct HB as (_ & _ & HT). rewrite HT in B by auto. discriminate.
        -- intros Hp. apply In_nth_error in Hp as [i Hi]. apply AT in Hi as [Hi Ei].
           destruct (nth_error ks i) as [k|] eqn:Ek; [|apply nth_error_None in Ek; lia].
           destruct (H1 i k Ek) as (q & c & Eq & Lq & _). rewrite Ei in Eq. injection Eq as ->. lia.
    + assert (G : forall i e, nth_error (combine ks cs0) i = Some e -> exists p, nth_error sl i = Some p /\ ent (wbk b) c0 p e).
      { intros i [k c] E. pose proof (f_equal (option_map fst) E) as Ek. pose proof (f_equal (option_map snd) E) as Ec.
        rewrite <- nth_error_map in Ek, Ec.
        assert (Fk : map fst (combine ks cs0) = ks).
        { clear -LCS. revert cs0 LCS. induction ks as [|a ks IH]; intros [|d cs0] L; try discriminate; auto. cbn [combine map fst]. f_equal.
          apply IH. cbn [length] in *. lia. }
        assert (Fc : map snd (combine ks cs0) = cs0).
        { clear -LCS. revert cs0 LCS. induction ks as [|a ks IH]; intros [|d cs0] L; try discriminate; auto; cbn [length] in L; try lia.
          cbn [combine map snd]. f_equal. apply IH. cbn [length] in *. lia. }
        rewrite Fk in Ek. rewrite Fc in Ec. cbn [option_map fst snd] in *.
        destruct (H1 i k Ek) as (p & d & Ep & LP & _ & _ & Gk & Gd & Gc). exists p. split.
        - apply AT. split; auto. apply nth_error_Some. congruence.
        - split; cbn [fst snd]; auto. rewrite nth_error_app1 in Gd by (apply nth_error_Some; congruence).
          assert (d = c) by congruence. subst d. rewrite Ew in Gc. unfold aget in *.
          rewrite nth_error_app1 in Gc by lia. exact Gc. }
      assert (LL : length sl = length (combine ks cs0)) by lia.
      clear -G LL. revert LL G. generalize (combine ks cs0). induction sl as [|p sl IH]; intros [|e es] L G; try discriminate; constructor.
      * destruct (G 0 e eq_refl) as (q & Eq & Hq). cbn in Eq. congruence.
      * apply IH; [cbn [length] in L; lia|]. intros i e' E. apply (G (S i) e' E).
Qed.

(** The copying loop of balanceBranchNodes. *)
Lemma bbalance_loop (d : wbranch) (fd fw : nat -> nat) F :
  (forall i st, F i st = do q <- aget (bs d) (fd i); do k <- aget (wbk d) q; do c <- aget (wbc d) q;
                         do r' <- wb_put N (fst st) (fw i) k c; do b <- bm_reset N (snd st) q; Ok (r', b)) ->
  forall mid pre post mid0 emid epre epost emid0 Rd lo (r : wbranch) P D Q sr er db nd cd ld c0 last,
  bs d = Some nd :: map Some (pre ++ mid0 ++ mid ++ post) ++ Rd -> wbc d = cd ++ [ld] ->
  store N (bb d) (wbk d) cd (pre ++ mid0 ++ mid ++ post) (epre ++ emid0 ++ emid ++ epost) ->
  length pre = length epre -> length mid0 = length emid0 -> length mid = length emid ->
  store N db (wbk d) cd (pre ++ mid ++ post) (epre ++ emid ++ epost) ->
  length D = length mid -> bs r = P ++ D ++ Q -> wbc r = c0 ++ [last] ->
  store N (bb r) (wbk r) c0 sr er -> length sr + length mid <= N ->
  (forall j, j < length mid -> fd (lo + j) = S (length pre + length mid0) + j) ->
  (forall j, j < length mid -> fw (lo + j) = length P + j) ->
  exists us r' db' c0', for_up lo (length mid) F (r, db) = Ok (r', db') /\ bs r' = P ++ map Some us ++ Q /\ length us = length mid /\
    wbc r' = c0' ++ [last] /\ store N (bb r') (wbk r') c0' (sr ++ us) (er ++ emid) /\
    store N db' (wbk d) cd (pre ++ post) (epre ++ epost).
Proof.
  intros HF. induction mid as [|p mid IH];
    intros pre post mid0 emid epre epost emid0 Rd lo r P D Q sr er db nd cd ld c0 last Ed Ec Sd LP L0 LE Sb LD Er El Sr LM Hd Hw.
  - exists [], r, db, c0. destruct emid; [|discriminate]. destruct D; [|discriminate]. rewrite !app_nil_r. splits; auto.
  - destruct emid as [|e emid]; [discriminate|]. destruct D as [|x D]; [discriminate|]. cbn [length for_up].
    rewrite HF. rewrite Ed.
    replace (pre ++ mid0 ++ (p :: mid) ++ post) with ((pre ++ mid0) ++ p :: (mid ++ post)) by now rewrite <- !app_assoc.
    rewrite slot_at.
    2:{ replace lo with (lo + 0) by lia. rewrite Hd by (cbn [length]; lia). rewrite app_length. lia. }
    destruct (@store_mid _ N (bb d) (wbk d) cd (pre ++ mid0) p (mid ++ post) (epre ++ emid0) e (emid ++ epost)) as [Ek Ev].
    { rewrite !app_length. lia. }
    { rewrite <- !app_assoc. exact Sd. }
    cbn [bind]. rewrite Ek. cbn [bind]. rewrite Ec, (aget_app_l [ld] Ev). cbn [bind fst snd]. cbn [length] in LM, LD, LE.
    destruct (@wb_put_ok N r P x (D ++ Q) (fw lo) (fst e) (snd e) sr er c0 last) as (u & r1 & c1 & Et & E1 & EC1 & S1); auto.
    { replace lo with (lo + 0) by lia. rewrite Hw by (cbn [length]; lia). lia. }
    { lia. }
    rewrite Et. cbn [bind].
    destruct (@store_free _ N _ _ _ pre p (mid ++ post) epre e (emid ++ epost) LP Sb) as (db1 & Eb & Sb1).
    rewrite Eb. cbn [bind].
    destruct (IH pre post (mid0 ++ [p]) emid epre epost (emid0 ++ [e]) Rd (S lo) r1 (P ++ [Some u]) D Q (sr ++ [u])
                (er ++ [(fst e, snd e)]) db1 nd cd ld c1 last) as (us & r' & db' & c' & EF & E' & LU & EC' & S' & Sd'); auto.
    + rewrite <- !app_assoc. exact Ed.
    + rewrite <- !app_assoc. exact Sd.
    + rewrite !app_length. cbn [length]. lia.
    + rewrite <- app_assoc. exact E1.
    + rewrite app_length. cbn [length]. lia.
    + intros j Hj. replace (S lo + j) with (lo + S j) by lia. rewrite Hd by (cbn [length]; lia).
      rewrite app_length. cbn [length]. lia.
    + intros j Hj. replace (S lo + j) with (lo + S j) by lia. rewrite Hw by (cbn [length]; lia).
      rewrite app_length. cbn [length]. lia.
    + exists (u :: us), r', db', c'. rewrite <- surjective_pairing in S'. rewrite <- (app_assoc er), <- (app_assoc sr) in S'.
      rewrite <- app_assoc in E'. splits; auto. cbn [length]. lia.
Qed.

Lemma wb_key1 b k ks cs : wbrep b (k :: ks) cs -> wb_key b 1 = Ok k.
Proof.
  intros H. destruct (@wb_slot N HN b [] k ks cs H) as (ea & c & eb & last & s1 & p & s2 & R & c0 & Ka & Kb & Ec & Es & EL & Ew & L1 & L2 & HS & HO).
  unfold wb_key. destruct ea; [|discriminate]. destruct s1; [|discriminate]. rewrite Es. cbn [app map]. cbn [aget nth_error bind].
  destruct (@store_mid _ N _ _ _ [] p s2 [] (k, c) eb eq_refl HS) as [E _]. exact E.
Qed.

Lemma wb_keyi b a k ks cs : wbrep b (a ++ k :: ks) cs -> wb_key b (S (length a)) = Ok k.
Proof.
  intros H. destruct (@wb_slot N HN b a k ks cs H) as (ea & c & eb & last & s1 & p & s2 & R & c0 & Ka & Kb & Ec & Es & EL & Ew & L1 & L2 & HS & HO).
  unfold wb_key. rewrite Es, slot_at by (rewrite L1, <- Ka, keys_length; auto). cbn [bind].
  destruct (@store_mid _ N _ _ _ s1 p s2 ea (k, c) eb L1 HS) as [E _]. exact E.
Qed.

(** Donor on the left. *)
Lemma wb_balance_left d r p ka x kb ca cx cb kr cr pa y pb pc :
  wbrep d (ka ++ x :: kb) (ca ++ cx :: cb) -> length ca = length ka -> wbrep r kr cr -> wbrep p (pa ++ y :: pb) pc ->
  kr <> [] -> length kr < length (ka ++ x :: kb) -> length ka = (length (ka ++ x :: kb) + length kr) / 2 ->
  ssorted ((ka ++ x :: kb) ++ y :: kr) -> ssorted (pa ++ x :: pb) ->
  exists d' r' p' q, wb_balance N d r p (S (length pa)) = Ok (d', r', p') /\ wbx d' ka (ca ++ [cx]) [q] /\
    wbrep r' (kb ++ y :: kr) (cb ++ cr) /\ wbrep p' (pa ++ x :: pb) pc.
Proof.
  intros Hd LA Hr Hp NE HL HB HO HP. unfold wb_balance. rewrite (wb_n_ok Hd), (wb_n_ok Hr). cbn [bind].
  rewrite <- HB. rewrite app_length in *. cbn [length] in *.
  destruct (Nat.ltb_spec (length ka + S (length kb)) (length ka)); [lia|].
  replace (length ka + S (length kb) - length ka) with (S (length kb)) by lia. cbn [Nat.eqb].
  assert (exists k1 k1s, ka ++ x :: kb = k1 :: k1s) as (k1 & k1s & E1).
  { destruct ka; cbn [app]; eauto. }
  destruct kr as [|r1 krs] eqn:Ekr; [congruence|]. rewrite <- Ekr in *.
  assert (G1 : wb_key d 1 = Ok k1) by (rewrite E1 in Hd; eapply wb_key1; eauto).
  assert (G2 : wb_key r 1 = Ok r1) by (rewrite Ekr in Hr; eapply wb_key1; eauto).
  rewrite G1, G2. cbn [bind]. rewrite (wb_keyi Hp). cbn [bind].
  assert (LT : (k1 < r1)%Z).
  { rewrite E1, Ekr in HO. cbn [app] in HO. apply ssorted_cons in HO as [_ HO]. rewrite agt_in in HO. apply HO.
    rewrite in_app_iff. right. right. now left. }
  destruct (Z.ltb_spec k1 r1); [|lia]. clear LT G1 G2 Ekr.
  destruct (@wb_setkey_ok N HN p pa y pb pc x Hp HP) as (p' & Ep & Rp).
  destruct (@wb_slot N HN d ka x kb _ Hd) as (ea & c & eb & ld & s1 & q & s2 & Rd & cd & Ka & Kb & Ec & Es & EL & Ew & L1 & L2 & Sd & Od).
  destruct Hr as (er & lr & sr & Rr & c0 & -> & -> & Er & Lr & Wr & Sr & Or).
  subst ka kb. rewrite !keys_length in *.
  assert (ca = map snd ea /\ cx = c /\ cb = map snd eb ++ [ld]) as (-> & -> & ->).
  { assert (LL : length ca = length (map snd ea)) by (rewrite map_length; lia). clear -Ec LL. revert ca Ec LL.
    induction (map snd ea) as [|m l IH]; intros [|a ca] E L; try discriminate; cbn [app] in *.
    - injection E as -> ->. auto.
    - injection E as -> E. cbn [length] in L. destruct (IH ca E) as (-> & -> & ->); [lia|]. auto. }
  pose proof (store_len Sr) as Nr.
  assert (exists D0 d0 R', Rr = (D0 ++ [d0]) ++ R' /\ length D0 = length eb) as (D0 & d0 & R' & -> & LD0).
  { rewrite Er in Lr. rewrite Es in EL. cbn [length] in Lr, EL. rewrite app_length, map_length in Lr, EL.
    rewrite app_length in EL. cbn [length] in EL.
    destruct (@split_at _ Rr (S (length eb))) as (G & R' & -> & LG); [lia|].
    destruct (rev_case G) as [->|(D0 & d0 & ->)]; [discriminate|]. rewrite app_length in LG. cbn [length] in LG.
    exists D0, d0, R'. split; auto. lia. }
  destruct (@move_up nat (fun i s => do x <- cget s i; cset s (i + S (length eb)) x) (S (length eb)) (fun _ _ => eq_refl)
              (map Some sr) [Some (length er)] (D0 ++ [d0]) R' (length er) (length er)) as (D & ED & LD); auto.
  { rewrite app_length. cbn [length]. lia. }
  { cbn [length]. rewrite map_length. lia. }
  { now rewrite map_length. }
  rewrite Er. cbn [app] in ED. rewrite ED. cbn [bind].
  rewrite Ew. assert (LCD : length cd = N) by (destruct Sd as (_ & _ & LV & _); auto). rewrite aget_app by auto. cbn [bind].
  destruct (rev_case D) as [->|(D1 & d1 & ->)]; [discriminate|]. rewrite app_length in LD. cbn [length] in LD.
  assert (LN : length er + S (length eb) <= N).
  { rewrite Er in Lr. cbn [length] in Lr. rewrite !app_length, map_length in Lr. cbn [length] in Lr. lia. }
  destruct (@wb_put_ok N (WBranch (Some (length er) :: (D1 ++ [d1]) ++ map Some sr ++ R') (WbModel.bb r) (wbk r) (wbc r))
              (Some (length er) :: D1) d1 (map Some sr ++ R') (S (length eb)) y ld sr er c0 (Some lr))
    as (u & r1' & c1 & Et & E1' & EC1 & S1); auto.
  { cbn [bs]. rewrite <- app_assoc. reflexivity. }
  { cbn [length]. lia. }
  { lia. }
  rewrite Et. cbn [bind]. clear Et.
  replace (S (length eb) - 1) with (length s2) by lia.
  destruct (@bbalance_loop d (fun i => length ea + i) (fun i => i - 1)
              (fun i (st : wbranch * list BinNums.N) =>
                 do q <- aget (bs d) (length ea + i); do k <- aget (wbk d) q; do c <- aget (wbc d) q;
                 do r' <- wb_put N (fst st) (i - 1) k c; do b <- bm_reset N (snd st) q; Ok (r', b)) (fun _ _ => eq_refl)
              s2 (s1 ++ [q]) [] [] eb (ea ++ [(x, c)]) [] [] Rd 2 r1'
              [Some (length er)] D1 (Some u :: map Some sr ++ R') (sr ++ [u]) (er ++ [(y, ld)]) (WbModel.bb d)
              (length (ea ++ (x, c) :: eb)) cd (Some ld) c1 (Some lr))
    as (us & r' & db' & c' & EF & E' & LU & EC' & S' & Sd'); rewrite ?app_nil_r, <- ?app_assoc; auto.
  { rewrite !app_length. cbn [length]. lia. }
  { lia. }
  { rewrite app_length. cbn [length]. lia. }
  { intros j Hj. rewrite app_length. cbn [length]. lia. }
  rewrite Ew in EF. rewrite EF. cbn [bind fst snd]. clear EF.
  rewrite Es. rewrite slot_at by lia. cbn [bind].
  destruct (store_mid L1 Sd) as [Ek Ev]. cbn [fst snd] in Ek, Ev.
  rewrite (aget_app_l [Some ld] Ev). cbn [bind]. rewrite aset_app by auto. cbn [bind]. rewrite Ek. cbn [bind]. rewrite Ep. cbn [bind].
  rewrite E'. cbn [app aset lset of_opt bind].
  rewrite !app_nil_r in Sd'.
  eexists _, _, _, q. split; [reflexivity|]. split; [|split]; auto.
  - exists ea, c, s1, (map Some (q :: s2) ++ Rd), cd, [(x, c)]. cbn [bs WbModel.bb wbk wbc]. splits; auto.
    + rewrite map_app, <- app_assoc. do 2 f_equal. lia.
    + rewrite Es in EL. exact EL.
  - exists (eb ++ (y, ld) :: er), lr, (us ++ u :: sr), R', c'. cbn [bs WbModel.bb wbk wbc]. splits; auto.
    + now rewrite keys_app.
    + rewrite map_app, <- !app_assoc. reflexivity.
    + rewrite map_app, <- app_assoc. cbn [map app]. do 2 f_equal. rewrite app_length. cbn [length]. lia.
    + rewrite Er in Lr. cbn [length] in *. rewrite ?app_length, ?map_length in *. cbn [length] in *. rewrite ?app_length, ?map_length in *. lia.
    + apply store_comm in S'; [|rewrite !app_length; cbn [length]; lia].
      apply (@store_comm _ N (WbModel.bb r') (wbk r') c' us (sr ++ [u]) eb (er ++ [(y, ld)])) in S'; [|lia].
      rewrite <- !app_assoc in S'. apply store_swap in S'; [|lia|auto]. cbn [app] in S'.
      apply (@store_comm _ N (WbModel.bb r') (wbk r') c' (u :: sr) us ((y, ld) :: er) eb); [cbn [length]; lia|].
      exact S'.
    + unfold sorted. rewrite keys_app. cbn [keys map fst]. fold (keys er).
      apply ssorted_app in HO as (HO1 & HO2 & HO3). apply ssorted_app in HO1 as (_ & HO4 & _). apply ssorted_cons in HO4 as [HO4 _].
      apply ssorted_app. splits; auto. intros a b Ha Hb. apply HO3; auto. rewrite in_app_iff. right. now right.
Qed.

(** Donor on the right. *)
Lemma wb_balance_right d r p ka x kb ca cx cb kr cr pa y pb pc :
  wbrep d (ka ++ x :: kb) (ca ++ cx :: cb) -> length ca = length ka -> wbrep r kr cr -> wbrep p (pa ++ y :: pb) pc ->
  kr <> [] -> length kr < length (ka ++ x :: kb) -> length kb = (length (ka ++ x :: kb) + length kr) / 2 ->
  ssorted (kr ++ y :: ka ++ x :: kb) -> ssorted (pa ++ x :: pb) ->
  exists d' r' p' q, wb_balance N d r p (S (length pa)) = Ok (d', r', p') /\ wbx d' kb cb [q] /\
    wbrep r' (kr ++ y :: ka) (cr ++ ca ++ [cx]) /\ wbrep p' (pa ++ x :: pb) pc.
Proof.
  intros Hd LA Hr Hp NE HL HB HO HP. unfold wb_balance. rewrite (wb_n_ok Hd), (wb_n_ok Hr). cbn [bind].
  rewrite <- HB. rewrite app_length in *. cbn [length] in *.
  destruct (Nat.ltb_spec (length ka + S (length kb)) (length kb)); [lia|].
  replace (length ka + S (length kb) - length kb) with (S (length ka)) by lia. cbn [Nat.eqb].
  assert (exists k1 k1s, ka ++ x :: kb = k1 :: k1s) as (k1 & k1s & E1).
  { destruct ka; cbn [app]; eauto. }
  destruct kr as [|r1 krs] eqn:Ekr; [congruence|]. rewrite <- Ekr in *.
  assert (G1 : wb_key d 1 = Ok k1) by (rewrite E1 in Hd; eapply wb_key1; eauto).
  assert (G2 : wb_key r 1 = Ok r1) by (rewrite Ekr in Hr; eapply wb_key1; eauto).
  rewrite G1, G2. cbn [bind]. rewrite (wb_keyi Hp). cbn [bind].
  assert (LT : (r1 < k1)%Z).
  { rewrite E1, Ekr in HO. cbn [app] in HO. apply ssorted_cons in HO as [_ HO]. rewrite agt_in in HO. apply HO.
    rewrite in_app_iff. right. right. now left. }
  destruct (Z.ltb_spec k1 r1); [lia|]. clear LT G1 G2 Ekr.
  destruct (@wb_setkey_ok N HN p pa y pb pc x Hp HP) as (p' & Ep & Rp).
  destruct (@wb_slot N HN d ka x kb _ Hd) as (ea & c & eb & ld & s1 & q & s2 & Rd & cd & Ka & Kb & Ec & Es & EL & Ew & L1 & L2 & Sd & Od).
  destruct Hr as (er & lr & sr & Rr & c0 & -> & -> & Er & Lr & Wr & Sr & Or).
  subst ka kb. rewrite !keys_length in *.
  assert (ca = map snd ea /\ cx = c /\ cb = map snd eb ++ [ld]) as (-> & -> & ->).
  { assert (LL : length ca = length (map snd ea)) by (rewrite map_length; lia). clear -Ec LL. revert ca Ec LL.
    induction (map snd ea) as [|m l IH]; intros [|a ca] E L; try discriminate; cbn [app] in *.
    - injection E as -> ->. auto.
    - injection E as -> E. cbn [length] in L. destruct (IH ca E) as (-> & -> & ->); [lia|]. auto. }
  pose proof (store_len Sr) as Nr.
  assert (LCD : length cd = N) by (destruct Sd as (_ & _ & LV & _); auto).
  assert (LC0 : length c0 = N) by (destruct Sr as (_ & _ & LV & _); auto).
  rewrite Wr, aget_app by auto. cbn [bind].
  assert (exists d0 D R', Rr = d0 :: D ++ R' /\ length D = length ea) as (d0 & D & R' & -> & LD).
  { rewrite Er in Lr. rewrite Es in EL. cbn [length] in Lr, EL. rewrite app_length, map_length in Lr, EL.
    rewrite app_length in EL. cbn [length] in EL.
    destruct (@split_at _ Rr (S (length ea))) as (G & R' & -> & LG); [lia|].
    destruct G as [|d0 D]; [discriminate|]. exists d0, D, R'. split; auto. }
  assert (LN : length er + S (length ea) <= N).
  { rewrite Er in Lr. cbn [length] in Lr. rewrite !app_length, map_length in Lr. cbn [length] in Lr. rewrite app_length in Lr. lia. }
  destruct (@wb_put_ok N r (Some (length er) :: map Some sr) d0 (D ++ R') (length er + 1) y lr sr er c0 (Some lr))
    as (u & r1' & c1 & Et & E1' & EC1 & S1); auto.
  { cbn [length]. rewrite map_length. lia. }
  { lia. }
  rewrite Et. cbn [bind]. clear Et.
  replace (S (length ea) - 1) with (length s1) by lia.
  destruct (@bbalance_loop d (fun i => i - 1) (fun i => length er + i)
              (fun i (st : wbranch * list BinNums.N) =>
                 do q <- aget (bs d) (i - 1); do k <- aget (wbk d) q; do c <- aget (wbc d) q;
                 do r' <- wb_put N (fst st) (length er + i) k c; do b <- bm_reset N (snd st) q; Ok (r', b)) (fun _ _ => eq_refl)
              s1 [] (q :: s2) [] ea [] ((x, c) :: eb) [] Rd 2 r1'
              (Some (length er) :: map Some sr ++ [Some u]) D R' (sr ++ [u]) (er ++ [(y, lr)]) (WbModel.bb d)
              (length (ea ++ (x, c) :: eb)) cd (Some ld) c1 (Some lr))
    as (us & r' & db' & c' & EF & E' & LU & EC' & S' & Sd'); auto.
  { lia. }
  { cbn [app] in E1' |- *. now rewrite <- app_assoc. }
  { rewrite app_length. cbn [length]. lia. }
  { intros j Hj. cbn [length]. rewrite app_length, map_length. cbn [length]. lia. }
  rewrite EF. cbn [bind fst snd]. clear EF.
  rewrite Es. rewrite slot_at by lia. cbn [bind].
  destruct (store_mid L1 Sd) as [Ek Ev]. cbn [fst snd] in Ek, Ev.
  rewrite Ew, (aget_app_l [Some ld] Ev). cbn [bind].
  assert (LC' : length c' = N) by (destruct S' as (_ & _ & LV & _); auto).
  rewrite EC', aset_app by auto. cbn [bind]. rewrite Ek. cbn [bind]. rewrite Ep. cbn [bind].
  destruct (@move_down nat (fun i s => do x <- cget s (S (length ea) + i); cset s i x) (S (length ea)) (fun _ _ => eq_refl)
              (map Some s2) [Some (length (ea ++ (x, c) :: eb))] (map Some (s1 ++ [q])) Rd 1 (length eb)) as (T & ET & LT).
  { rewrite map_length, app_length. cbn [length]. lia. }
  { reflexivity. }
  { rewrite map_length. lia. }
  replace (length ea + S (length eb) - S (length ea)) with (length eb) by lia.
  replace (map Some (s1 ++ q :: s2) ++ Rd) with (map Some (s1 ++ [q]) ++ map Some s2 ++ Rd).
  2:{ rewrite !map_app, <- !app_assoc. reflexivity. }
  cbn [app] in ET. rewrite ET. cbn [bind]. rewrite E'. cbn [app aset lset of_opt bind].
  cbn [app] in Sd'.
  eexists _, _, _, q. split; [reflexivity|]. split; [|split]; auto.
  - exists eb, ld, s2, T, cd, [(x, c)]. cbn [bs WbModel.bb wbk wbc]. splits; auto.
    + rewrite Es in EL. cbn [length] in *. rewrite ?app_length, ?map_length, ?app_length in *. cbn [length] in *. lia.
    + apply (@store_comm _ N db' (wbk d) cd [q] s2 [(x, c)] eb); auto.
  - exists (er ++ (y, lr) :: ea), c, (sr ++ u :: us), R', c'. cbn [bs WbModel.bb wbk wbc].
    rewrite <- !app_assoc in S'. cbn [app] in S'. splits; auto.
    + now rewrite keys_app.
    + rewrite map_app, <- !app_assoc. reflexivity.
    + rewrite map_app, <- !app_assoc. cbn [map app]. do 2 f_equal. rewrite app_length. cbn [length]. lia.
    + rewrite Er in Lr. cbn [length] in *. rewrite ?app_length, ?map_length in *. cbn [length] in *. rewrite ?app_length, ?map_length in *. lia.
    + unfold sorted. rewrite keys_app. cbn [keys map fst]. fold (keys ea).
      replace (keys er ++ y :: keys ea ++ x :: keys eb) with ((keys er ++ y :: keys ea) ++ x :: keys eb) in HO by now rewrite <- app_assoc.
      apply ssorted_app in HO. tauto.
Qed.
End Balance.
