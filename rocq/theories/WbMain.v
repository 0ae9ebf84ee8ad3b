(** From the cell-by-cell description of a wBPTree leaf to its entries and back; trees of one leaf. *)
From Verif Require Import Base ArrLemmas MapSpec SortedList SearchModel SearchProofs RankModel
  BitmapModel BitmapProofs BTreeModel BitTreeModel FLeafProofs WbModel WbSpec WbProofs WbMove.
Open Scope nat_scope.

Section Main.
Variables (V : Type) (M : nat).
Notation leaf := (wleaf V).
Notation wrep := (wrep M).
Notation in_use := (in_use M).

Lemma wrep_good (l : leaf) es : wrep l es -> good_leaf M l.
Proof.
  intros (sl & R & Es & EL & HS & HO). pose proof (store_len HS) as LS.
  pose proof HS as (HB & LK & LV & ND & HU & HE).
  assert (IU : forall p, in_use l p <-> In p sl).
  { intros p. unfold in_use. rewrite HU. split; [tauto|]. intros Hp. split; auto. eapply store_lt; eauto. }
  assert (AT : forall i p, nth_error sl i = Some p <-> (i < length es /\ aget (ws l) (S i) = Ok p)).
  { intros i p. rewrite Es. unfold aget. cbn [nth_error]. split.
    - intros E. assert (i < length sl) by (apply nth_error_Some; congruence). split; [lia|].
      rewrite nth_error_app1 by (rewrite map_length; lia). now rewrite nth_error_map, E.
    - intros [Hi E]. rewrite nth_error_app1, nth_error_map in E by (rewrite map_length; lia).
      destruct (nth_error sl i) as [q|]; cbn in E; congruence. }
  assert (NT : forall i p, nth_error sl i = Some p -> exists e, nth_error es i = Some e /\ ent (wk l) (wv l) p e).
  { clear -HE. intros i p. revert i. induction HE as [|q e sl es Hq HE IH]; intros [|i] E; simpl in *; try discriminate.
    - injection E as <-. eauto.
    - apply IH; auto. }
  unfold good_leaf. splits.
  - unfold sized. splits; auto.
  - exists (length es). assert (LM : length es <= M).
    { rewrite Es in EL. cbn [length] in EL. rewrite app_length, map_length in EL. lia. }
    splits; auto.
    + now rewrite Es.
    + intros i Hi. destruct (nth_error sl (i - 1)) as [p|] eqn:E.
      2:{ apply nth_error_None in E. lia. }
      pose proof (proj1 (AT _ _) E) as [_ G]. replace (S (i - 1)) with i in G by lia.
      exists p. split; auto. apply IU. eapply nth_error_In; eauto.
    + intros p Hp. apply IU in Hp. apply In_nth_error in Hp as [i Hi]. apply AT in Hi as [Hl Hi].
      exists (S i). split; auto. lia.
    + intros i j p Hi Hj Ei Ej.
      assert (G1 : nth_error sl (i - 1) = Some p) by (apply AT; replace (S (i - 1)) with i by lia; split; [lia|auto]).
      assert (G2 : nth_error sl (j - 1) = Some p) by (apply AT; replace (S (j - 1)) with j by lia; split; [lia|auto]).
      rewrite NoDup_nth_error in ND. assert (i - 1 = j - 1); [|lia]. apply ND; [|congruence].
      apply nth_error_Some. congruence.
    + intros i j p q k k' Hi Hij Hj Ei Ej Ek Ek'.
      assert (G1 : nth_error sl (i - 1) = Some p) by (apply AT; replace (S (i - 1)) with i by lia; split; [lia|auto]).
      assert (G2 : nth_error sl (j - 1) = Some q) by (apply AT; replace (S (j - 1)) with j by lia; split; [lia|auto]).
      destruct (NT _ _ G1) as (e1 & N1 & K1 & _). destruct (NT _ _ G2) as (e2 & N2 & K2 & _).
      assert (k = fst e1) by congruence. assert (k' = fst e2) by congruence. subst.
      destruct (nth_error_split _ _ N1) as (x & y & -> & Lx).
      rewrite nth_error_app2 in N2 by lia. replace (j - 1 - length x) with (S (j - i - 1)) in N2 by lia.
      cbn [nth_error] in N2. apply nth_error_In in N2.
      unfold sorted in HO. rewrite keys_app in HO. apply ssorted_app in HO as (_ & HO & _).
      cbn [keys map] in HO. apply ssorted_cons in HO as [_ HO]. rewrite agt_in in HO. apply HO. now apply in_map.
  - intros p Hp. apply IU in Hp. apply In_nth_error in Hp as [i Hi]. destruct (NT _ _ Hi) as (e & _ & H1 & H2).
    eauto.
Qed.

Lemma wrep_stored (l : leaf) es : wrep l es -> forall k v, stored M l k v <-> get k es = Some v.
Proof.
  intros (sl & R & Es & EL & HS & HO) k v. rewrite <- get_in by auto.
  pose proof HS as (HB & LK & LV & ND & HU & HE). split.
  - intros (p & [Hp Hu] & Ek & Ev). apply HU in Hu. clear -HE Hu Ek Ev.
    induction HE as [|q e sl es [G1 G2] HE IH]; [destruct Hu|]. destruct Hu as [->|Hu].
    + left. destruct e. cbn [fst snd] in *. congruence.
    + right. auto.
  - intros Hin. apply In_nth_error in Hin as [i Hi]. destruct (store_nth HS Hi) as (p & Ep & E1 & E2).
    apply nth_error_In in Ep. exists p. splits; auto. split; [eapply store_lt; eauto|now apply HU].
Qed.

Lemma good_wrep (l : leaf) : good_leaf M l -> exists es, wrep l es.
Proof.
  intros ((EL & LK & LV & HB) & (n & E0 & LN & H1 & H2 & H3 & H4) & HF).
  (* the slots as a list *)
  assert (exists sl, length sl = n /\ forall i p, nth_error sl i = Some p -> aget (ws l) (S i) = Ok p) as (sl & LS & HSL).
  { assert (G : forall m, m <= n -> exists sl, length sl = m /\ forall i p, nth_error sl i = Some p -> aget (ws l) (S i) = Ok p).
    { induction m as [|m IH]; intros Hm.
      - exists []. split; auto. intros [|i] p E; discriminate.
      - destruct IH as (sl & L & Hs); [lia|]. destruct (H1 (S m)) as (p & Ep & _); [lia|].
        exists (sl ++ [p]). split; [rewrite app_length; cbn [length]; lia|]. intros i q E.
        destruct (Nat.lt_ge_cases i (length sl)) as [L'|L'].
        + rewrite nth_error_app1 in E by auto. auto.
        + rewrite nth_error_app2 in E by auto. destruct (i - length sl) as [|x] eqn:D; [|destruct x; discriminate].
          cbn in E. injection E as <-. now replace i with m by lia. }
    apply (G n). lia. }
  assert (IN : forall p, In p sl <-> in_use l p).
  { intros p. split.
    - intros Hp. apply In_nth_error in Hp as [i Hi]. assert (i < n) by (rewrite <- LS; apply nth_error_Some; congruence).
      destruct (H1 (S i)) as (q & Eq & Hq); [lia|]. apply HSL in Hi. assert (p = q) as -> by congruence. auto.
    - intros Hp. destruct (H2 p Hp) as (i & Hi & Ei). destruct (nth_error sl (i - 1)) as [q|] eqn:E.
      2:{ apply nth_error_None in E. lia. }
      pose proof (HSL _ _ E) as G. replace (S (i - 1)) with i in G by lia. assert (p = q) as -> by congruence.
      eapply nth_error_In; eauto. }
  assert (exists es, Forall2 (ent (wk l) (wv l)) sl es) as (es & HE).
  { assert (G : forall p, In p sl -> in_use l p) by (intros; now apply IN). clear -G HF.
    induction sl as [|p sl IH]; [exists []; constructor|].
    destruct IH as (es & HE); [intros; apply G; now right|].
    destruct (HF p) as (k & v & Ek & Ev); [apply G; now left|].
    exists ((k, v) :: es). constructor; auto. split; auto. }
  pose proof (Forall2_length HE) as LE.
  exists es, sl, (skipn (S n) (ws l)). splits; auto.
  - destruct (ws l) as [|x w] eqn:EW; [discriminate|]. cbn [skipn]. cbn [aget nth_error] in E0.
    destruct x as [x|]; [|discriminate]. injection E0 as ->. f_equal; [congruence|].
    cbn [length] in EL. assert (LW : n <= length w) by lia. clear -HSL LS LW.
    revert n w LS HSL LW. induction sl as [|p sl IH]; intros n w LS HSL LW; subst n; [reflexivity|].
    destruct w as [|y w]; [cbn [length] in LW; lia|]. cbn [length skipn map app] in *.
    pose proof (HSL 0 p eq_refl) as G. cbn [aget nth_error] in G. destruct y as [y|]; [|discriminate].
    injection G as ->. f_equal. apply IH; auto.
    + intros i q Hi. apply (HSL (S i) q Hi).
    + lia.
  - unfold store. splits; auto.
    + rewrite NoDup_nth_error. intros i j Hi E. destruct (nth_error sl i) as [p|] eqn:Ei.
      2:{ apply nth_error_None in Ei. lia. }
      assert (j < n) by (rewrite <- LS; apply nth_error_Some; congruence).
      assert (S i = S j); [|lia]. apply (H3 (S i) (S j) p); try lia; apply HSL; auto.
    + intros i. rewrite IN. unfold in_use. split; [|tauto]. intros B. split; auto.
      destruct HB as (_ & _ & HT). destruct (Nat.lt_ge_cases i M); auto. rewrite HT in B by auto. discriminate.
  - unfold sorted, ssorted. assert (G : forall i j k k', i < j -> nth_error (keys es) i = Some k -> nth_error (keys es) j = Some k' -> (k < k')%Z).
    { intros i j k k' Hij Ei Ej. unfold keys in Ei, Ej. rewrite nth_error_map in Ei, Ej.
      destruct (nth_error es i) as [e|] eqn:Ni; [|discriminate]. destruct (nth_error es j) as [e'|] eqn:Nj; [|discriminate].
      cbn in Ei, Ej. injection Ei as <-. injection Ej as <-.
      assert (T : forall m e, nth_error es m = Some e -> exists p, nth_error sl m = Some p /\ ent (wk l) (wv l) p e).
      { clear -HE. intros m e. revert m. induction HE as [|q x sl es Hq HE IH]; intros [|m] E; simpl in *; try discriminate.
        - injection E as <-. eauto.
        - apply IH; auto. }
      destruct (T _ _ Ni) as (p & Ep & Kp & _). destruct (T _ _ Nj) as (q & Eq & Kq & _).
      assert (j < n) by (rewrite <- LS; apply nth_error_Some; congruence).
      apply (H4 (S i) (S j) p q); auto; lia. }
    revert G. generalize (keys es). clear. intros ks. induction ks as [|k ks IH]; intros G; constructor.
    + apply IH. intros i j x y Hij Ei Ej. apply (G (S i) (S j) x y); auto. lia.
    + rewrite Forall_forall. intros x Hx. apply In_nth_error in Hx as [j Hj]. apply (G 0 (S j) k x); auto. lia.
Qed.

Lemma wrep_rank (l : leaf) a b key r : wrep l (a ++ b) -> alt key (keys a) -> agt key (keys b) -> rank_of l key r ->
  r = length a.
Proof.
  intros H Ha Hb (n & En & Hr & HR). rewrite (w_count_ok H) in En. injection En as <-.
  destruct (Nat.lt_trichotomy r (length a)) as [L|[L|L]]; auto; exfalso.
  - (* the entry at slot r+1 is below key *)
    destruct (@split_at _ a r) as (x & y & -> & Lx); [lia|]. destruct y as [|e y]; [rewrite app_nil_r in L; lia|].
    rewrite <- app_assoc in H. cbn [app] in H. destruct (w_entry_ok H) as (p & F1 & F2 & _).
    assert (G : (fst e < key)%Z).
    { rewrite keys_app in Ha. unfold alt in Ha. rewrite Forall_app in Ha. destruct Ha as [_ Ha]. now inversion Ha. }
    apply (HR (S (length x)) p (fst e)) in G; auto; [lia|]. rewrite !app_length. cbn [length]. lia.
  - destruct b as [|e b]; [rewrite app_nil_r in Hr; lia|].
    destruct (w_entry_ok H) as (p & F1 & F2 & _). rewrite app_length in Hr. cbn [length] in Hr.
    assert (G : (key < fst e)%Z) by (now inversion Hb).
    assert ((fst e < key)%Z); [|lia]. apply (HR (S (length a)) p (fst e)); auto. rewrite app_length. cbn [length]. lia.
Qed.

Lemma get_none_stored (l : leaf) es key : wrep l es -> (forall v, ~ stored M l key v) -> get key es = None.
Proof.
  intros H HN. destruct (get key es) as [v|] eqn:E; auto. exfalso. apply (HN v). now apply (wrep_stored H).
Qed.

(** ** Trees of one leaf *)
Variable N : nat.
Notation wt := (wtree V).

Definition t1 (t : wt) (es : list (Z * V)) : Prop :=
  wdepth t = 0 /\ hnx (wth t) (wroot t) = None /\ exists l, hl (wth t) (wroot t) = Some l /\ wrep l es.

Lemma t1_new : t1 (wt_new V M) [].
Proof. unfold t1, wt_new. cbn. splits; auto. eexists. split; [reflexivity|]. apply w_new_rep. Qed.

Lemma t1_lookup t es k : t1 t es -> wt_lookup t k = Ok (get k es).
Proof.
  intros (D & _ & l & El & H). unfold wt_lookup. rewrite D. cbn [wt_find bind]. unfold getl. rewrite El. cbn [of_opt bind].
  now apply w_lookup_ok with (M := M).
Qed.

Lemma t1_scan t es : t1 t es -> wt_scan M t = Ok es.
Proof.
  intros (D & NX & l & El & H). unfold wt_scan. rewrite D. cbn [wt_first bind scan_chain].
  unfold getl. rewrite El. cbn [of_opt bind]. cbn [w_ops lo_scan]. rewrite (w_scan_ok H). cbn [bind]. rewrite NX.
  assert (E : scan_chain (w_ops V M) (hfresh (wth t)) (wth t) None = Ok []) by (destruct (hfresh (wth t)); reflexivity).
  rewrite E. cbn [bind]. now rewrite app_nil_r.
Qed.

Lemma t1_insert t es k v : t1 t es -> length es < M \/ get k es <> None ->
  exists t', wt_insert N M t k v = Ok t' /\ t1 t' (ins k v es).
Proof.
  intros (D & NX & l & El & H) HL. unfold wt_insert. rewrite D. unfold insert_leaf, getl. rewrite El. cbn [of_opt bind].
  cbn [w_ops lo_insert]. destruct (w_insert_room v H HL) as (l' & E & H'). rewrite E. cbn [bind fst snd].
  eexists. split; [reflexivity|]. unfold t1, set_leaf. cbn [wdepth wth wroot hl hnx]. splits; auto.
  exists l'. split; auto. unfold upd. now rewrite Nat.eqb_refl.
Qed.

Lemma t1_erase t es k : t1 t es -> length es < M -> get k es <> None ->
  exists t', wt_erase0 M t k = Ok (true, t') /\ t1 t' (del k es).
Proof.
  intros (D & NX & l & El & H) HL HG. unfold wt_erase0. rewrite D. unfold getl. rewrite El. cbn [of_opt bind].
  destruct (w_erase_ok H HL HG) as (l' & E & H'). rewrite E. cbn [bind fst snd].
  eexists. split; [reflexivity|]. unfold t1, set_leaf. cbn [wdepth wth wroot hl hnx]. splits; auto.
  exists l'. split; auto. unfold upd. now rewrite Nat.eqb_refl.
Qed.

Lemma fits_len es n (m : amap V) : sorted es -> (forall k, get k es = m k) -> fits m n -> length es <= n.
Proof.
  intros HO HE (ks & LK & HK). rewrite <- (keys_length es). eapply Nat.le_trans; [|exact LK].
  apply NoDup_incl_length.
  - now apply ssorted_NoDup.
  - intros x Hx. apply HK. rewrite <- HE. unfold keys in Hx. apply in_map_iff in Hx as ((y & v) & <- & Hin).
    apply (get_in y v HO) in Hin. cbn [fst]. congruence.
Qed.

Lemma t1_run os : forall t es m, 0 < M -> t1 t es -> sorted es -> (forall k, get k es = m k) -> one_leaf M m os ->
  exists t' es', wt_run0 N M t os = Ok t' /\ t1 t' es' /\ sorted es' /\ forall k, get k es' = fold_left (@m_step V) os m k.
Proof.
  induction os as [|o os IH]; intros t es m M1 Ht HO HE H1.
  - exists t, es. cbn. auto.
  - destruct H1 as (HF & Ho & H1). destruct o as [k v|k]; cbn [wt_run0].
    + assert (HL : length es < M \/ get k es <> None).
      { destruct (get k es) eqn:G; [right; discriminate|left].
        assert (G2 : length (ins k v es) <= M).
        { apply fits_len with (m := m_put m k v); auto.
          - now apply sorted_ins.
          - intros x. rewrite get_ins by auto. unfold m_put. now rewrite HE. }
        rewrite length_ins_new in G2 by auto. lia. }
      destruct (@t1_insert t es k v Ht HL) as (t' & E & Ht'). rewrite E. cbn [bind].
      destruct (IH t' (ins k v es) (m_put m k v)) as (t2 & es2 & E2 & H2); auto.
      * now apply sorted_ins.
      * intros x. rewrite get_ins by auto. unfold m_put. now rewrite HE.
      * exists t2, es2. split; auto.
    + destruct Ho as [Hk Hf]. destruct (@t1_erase t es k Ht) as (t' & E & Ht').
      * pose proof (fits_len HO HE Hf). lia.
      * now rewrite HE.
      * rewrite E. cbn [bind snd]. destruct (IH t' (del k es) (m_del m k)) as (t2 & es2 & E2 & H2); auto.
        -- now apply sorted_del.
        -- intros x. rewrite get_del by auto. unfold m_del. now rewrite HE.
        -- exists t2, es2. split; auto.
Qed.
End Main.
