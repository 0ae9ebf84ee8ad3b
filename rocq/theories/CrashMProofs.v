(** Prefixes of the stores of the leaf merges. *)
From Verif Require Import Base RankModel BitmapModel BitmapProofs BTreeModel SearchModel SLeafModel ULeafModel FLeafModel SlotLemmas FLeafProofs
  CrashModel CrashSpec CrashProofs CrashEProofs CrashSModel CrashSSpec CrashSProofs CrashUProofs CrashMModel CrashMSpec.
Open Scope nat_scope.

Section Exec.
Variables (V L : Type) (step : L -> store V -> res L).
Notation X := (m_exec step).
Lemma m_exec_app (p q : list (mstore V)) : forall (st : sstate L), X st (p ++ q) = do s <- X st p; X s q.
Proof. induction p as [|x p IH]; intros st; cbn [app m_exec bind]; [reflexivity|]. destruct (m_step step st x); cbn [bind]; auto. Qed.
Lemma m_into p : forall (st : sstate L) l', exec step (snode st) p = Ok l' -> X st (map MInto p) = Ok (SState l' (ssib st) (nnext st) (snext st)).
Proof.
  induction p as [|s p IH]; intros st l' E; cbn [map m_exec exec m_step] in *.
  - injection E as <-. now destruct st.
  - destruct (step (snode st) s) as [a| |]; try discriminate. cbn [bind] in *. now apply (IH (SState a (ssib st) (nnext st) (snext st))).
Qed.
(** A prefix of the whole: stores into the node, then the linking. *)
Lemma m_prefix l1 l2 hasNext c q l' : exec step l1 (firstn q c) = Ok l' ->
  X (m_init l1 l2 hasNext) (firstn q (map MInto c ++ unlink_stores hasNext)) =
    Ok (SState l' l2 (if q <=? length c then Some Sib else if hasNext then Some Rest else None) (if hasNext then Some Rest else None)).
Proof.
  intros E. rewrite firstn_app, firstn_map, m_exec_app, (@m_into _ (m_init l1 l2 hasNext) l' E). cbn [bind]. rewrite map_length.
  unfold m_init, unlink_stores. cbn [ssib nnext snext snode].
  destruct (Nat.leb_spec q (length c)) as [H|H].
  - replace (q - length c) with 0 by lia. reflexivity.
  - destruct (q - length c) as [|m] eqn:Em; [lia|]. cbn [firstn m_exec m_step bind ssib nnext snext snode].
    destruct hasNext; [destruct m as [|m]|]; cbn [firstn m_exec m_step bind ssib nnext snext snode]; rewrite ?firstn_nil; reflexivity.
Qed.
End Exec.

(** * Counter leaves *)
Section Counter.
Variables (V : Type) (M : nat).
Implicit Types (l : sleaf V).

Lemma take_prefix l2 n1 : forall n i l c, take_stores l2 n i n1 = Ok c -> length (sk l) = M -> length (sv l) = M -> n1 + i + n <= M ->
  length c = 2 * n /\ forall q, exists l', exec (@s_step V) l (firstn q c) = Ok l' /\ sn l' = sn l /\ length (sk l') = M /\ length (sv l') = M /\
    (forall x, aget (sk l') x = if (n1 + i <=? x) && (x <? n1 + i + Nat.min n ((q + 1) / 2)) then aget (sk l2) (x - n1) else aget (sk l) x) /\
    (forall x, aget (sv l') x = if (n1 + i <=? x) && (x <? n1 + i + Nat.min n (q / 2)) then aget (sv l2) (x - n1) else aget (sv l) x).
Proof.
  assert (NO : forall lo x, (lo <=? x) && (x <? lo + 0) = false).
  { intros lo x. destruct (Nat.leb_spec lo x), (Nat.ltb_spec x (lo + 0)); cbn [andb]; auto; lia. }
  induction n as [|n IH]; intros i l c E LK LV HM; cbn [take_stores] in E.
  - injection E as <-. split; [reflexivity|]. intros q. rewrite firstn_nil. cbn [exec Nat.min]. exists l. splits; auto; intros x; now rewrite NO.
  - destruct (aget (sk l2) i) as [k| |] eqn:Ek; try discriminate. cbn [bind] in E. destruct (aget (sv l2) i) as [v| |] eqn:Ev; try discriminate. cbn [bind] in E.
    destruct (take_stores l2 n (S i) n1) as [r| |] eqn:Er; try discriminate. cbn [bind] in E. injection E as <-.
    destruct (@aset_ok _ (sk l) (n1 + i) k) as (ks & EK); [lia|]. destruct (@aset_ok _ (sv l) (n1 + i) v) as (vs & EV); [lia|].
    assert (L1 : length ks = M) by (rewrite (aset_length EK); auto). assert (L2 : length vs = M) by (rewrite (aset_length EV); auto).
    destruct (IH (S i) (SLeaf (sn l) ks vs) r Er) as (LR & H); cbn [sk sv]; auto; [lia|]. split; [cbn [length]; lia|].
    intros q. destruct q as [|q].
    { cbn [firstn exec]. exists l. splits; auto; intros x; change ((0 + 1) / 2) with 0; change (0 / 2) with 0; rewrite Nat.min_0_r; now rewrite NO. }
    cbn [firstn exec s_step]. rewrite EK. cbn [bind]. destruct q as [|q].
    { cbn [firstn exec]. eexists. split; [reflexivity|]. cbn [sn sk sv]. splits; auto; intros x.
      - change ((1 + 1) / 2) with 1. rewrite (aget_aset x EK).
        destruct (Nat.eqb_spec x (n1 + i)), (Nat.leb_spec (n1 + i) x), (Nat.ltb_spec x (n1 + i + Nat.min (S n) 1)); cbn [andb]; try lia; auto.
        subst x. replace (n1 + i - n1) with i by lia. now rewrite Ek.
      - change (1 / 2) with 0. rewrite Nat.min_0_r. now rewrite NO. }
    cbn [firstn exec s_step sn sk sv]. rewrite EV. cbn [bind]. destruct (H q) as (l' & E & HN & LK' & LV' & GK & GV). cbn [sn sk sv] in *.
    exists l'. splits; auto; intros x.
    + rewrite GK, (aget_aset x EK). replace ((S (S q) + 1) / 2) with (S ((q + 1) / 2)) by lia.
      destruct (Nat.eqb_spec x (n1 + i)), (Nat.leb_spec (n1 + S i) x), (Nat.leb_spec (n1 + i) x), (Nat.ltb_spec x (n1 + S i + Nat.min n ((q + 1) / 2))),
        (Nat.ltb_spec x (n1 + i + Nat.min (S n) (S ((q + 1) / 2)))); cbn [andb]; try lia; auto.
      subst x. replace (n1 + i - n1) with i by lia. now rewrite Ek.
    + rewrite GV, (aget_aset x EV). replace (S (S q) / 2) with (S (q / 2)) by lia.
      destruct (Nat.eqb_spec x (n1 + i)), (Nat.leb_spec (n1 + S i) x), (Nat.leb_spec (n1 + i) x), (Nat.ltb_spec x (n1 + S i + Nat.min n (q / 2))),
        (Nat.ltb_spec x (n1 + i + Nat.min (S n) (S (q / 2)))); cbn [andb]; try lia; auto.
      subst x. replace (n1 + i - n1) with i by lia. now rewrite Ev.
Qed.
Lemma take_some l2 n1 : forall n i, (forall x, x < i + n -> exists k v, aget (sk l2) x = Ok k /\ aget (sv l2) x = Ok v) ->
  exists c, take_stores l2 n i n1 = Ok c.
Proof.
  induction n as [|n IH]; intros i H; cbn [take_stores]; [eauto|]. destruct (H i) as (k & v & -> & ->); [lia|]. cbn [bind].
  destruct (IH (S i)) as (c & ->); [intros x Hx; apply H; lia|]. cbn [bind]. eauto.
Qed.
Lemma take_exec l2 n1 : forall n i l c, take_stores l2 n i n1 = Ok c ->
  exec (@s_step V) l c =
  (do kv <- for_up i n (fun i kv => do ks <- (do x <- aget (sk l2) i; aset (fst kv) (n1 + i) x);
                                    do vs <- (do x <- aget (sv l2) i; aset (snd kv) (n1 + i) x);
                                    Ok (ks, vs)) (sk l, sv l);
   Ok (SLeaf (sn l) (fst kv) (snd kv))).
Proof.
  induction n as [|n IH]; intros i l c E; cbn [take_stores] in E.
  - injection E as <-. cbn [exec for_up bind fst snd]. now destruct l.
  - destruct (aget (sk l2) i) as [k| |] eqn:Ek; try discriminate. cbn [bind] in E. destruct (aget (sv l2) i) as [v| |] eqn:Ev; try discriminate. cbn [bind] in E.
    destruct (take_stores l2 n (S i) n1) as [r| |] eqn:Er; try discriminate. cbn [bind] in E. injection E as <-.
    cbn [exec s_step for_up fst snd]. rewrite Ek, Ev. cbn [bind]. destruct (aset (sk l) (n1 + i) k) as [ks| |]; cbn [bind sn sk sv]; try reflexivity.
    destruct (aset (sv l) (n1 + i) v) as [vs| |]; cbn [bind sn sk sv]; try reflexivity. now rewrite (IH _ _ _ Er).
Qed.



Lemma s_merge_prefix l1 l2 hasNext : c_wf M l1 -> c_wf M l2 -> sn l1 + sn l2 <= M -> no_common (s_slots l1) (s_slots l2) ->
  exists p, sl_merge_stores l1 l2 hasNext = Ok p /\ length p = 2 * sn l2 + (if hasNext then 3 else 2) /\ forall q, exists st,
    m_exec (@s_step V) (m_init l1 l2 hasNext) (firstn q p) = Ok st /\ ssib st = l2 /\
    (hasNext = true -> rest_listed st) /\
    (forall k v, reaches (@s_slots V) st k v <-> has (s_slots l1) k v \/ has (s_slots l2) k v) /\
    (nnext st = Some Sib <-> q <= 2 * sn l2 + 1) /\
    (q <= 2 * sn l2 -> eqs (s_slots l1) (s_slots (snode st))) /\
    (2 * sn l2 < q -> c_wf M (snode st) /\ sl_merge l1 l2 = Ok (snode st) /\
       forall k v, has (s_slots (snode st)) k v <-> has (s_slots l1) k v \/ has (s_slots l2) k v).
Proof.
  intros (LN & LK & LV & HF & U) (LN2 & LK2 & LV2 & HF2 & U2) HM HD. unfold sl_merge_stores.
  destruct (@take_some l2 (sn l1) (sn l2) 0) as (c & Ec); [exact HF2|]. rewrite Ec. cbn [bind]. eexists. split; [reflexivity|].
  destruct (@take_prefix l2 (sn l1) (sn l2) 0 l1 c Ec LK LV) as (LC & HP); [lia|].
  split. { rewrite app_length, map_length, app_length, LC. unfold unlink_stores. destruct hasNext; cbn [length]; lia. }
  intros q. destruct (HP q) as (l' & E & N' & LK' & LV' & GK & GV). rewrite Nat.add_0_r in *.
  destruct (Nat.le_gt_cases q (2 * sn l2)) as [Hq|Hq].
  - assert (E' : exec (@s_step V) l1 (firstn q (c ++ [SNum (sn l1 + sn l2)])) = Ok l').
    { rewrite firstn_app, LC. replace (q - 2 * sn l2) with 0 by lia. cbn [firstn]. now rewrite app_nil_r. }
    rewrite (@m_prefix V (sleaf V) (@s_step V) l1 l2 hasNext _ q l' E'). eexists. split; [reflexivity|]. cbn [snode ssib nnext snext].
    assert (S : eqs (s_slots l1) (s_slots l')).
    { intros x. unfold s_slots. rewrite N'. destruct (Nat.ltb_spec x (sn l1)); [|reflexivity]. rewrite GK, GV. destruct (Nat.leb_spec (sn l1) x); [lia|]. reflexivity. }
    rewrite app_length, LC. cbn [length]. destruct (Nat.leb_spec q (2 * sn l2 + 1)); [|lia]. splits; auto; try lia.
    + intros ->. right. cbn [nnext snext]. auto.
    + intros k v. unfold reaches. cbn [snode ssib nnext]. pose proof (same_eqs S k v). tauto.
    + tauto.
  - set (r := SLeaf (sn l1 + sn l2) (sk l') (sv l')).
    assert (E' : exec (@s_step V) l1 (firstn q (c ++ [SNum (sn l1 + sn l2)])) = Ok r).
    { rewrite firstn_app, exec_app, E. cbn [bind]. rewrite LC. destruct (q - 2 * sn l2) as [|m] eqn:Em; [lia|]. rewrite firstn_1. reflexivity. }
    rewrite (@m_prefix V (sleaf V) (@s_step V) l1 l2 hasNext _ q r E'). eexists. split; [reflexivity|]. cbn [snode ssib nnext snext].
    assert (A : forall x, x < sn l1 -> s_slots r x = s_slots l1 x).
    { intros x Hx. unfold s_slots, r. cbn [sn sk sv]. rewrite GK, GV. destruct (Nat.ltb_spec x (sn l1 + sn l2)), (Nat.ltb_spec x (sn l1)), (Nat.leb_spec (sn l1) x); try lia. reflexivity. }
    assert (B : forall x, sn l1 <= x -> s_slots r x = s_slots l2 (x - sn l1)).
    { intros x Hx. unfold s_slots, r. cbn [sn sk sv]. rewrite GK, GV, !Nat.min_l by lia.
      destruct (Nat.ltb_spec x (sn l1 + sn l2)), (Nat.ltb_spec (x - sn l1) (sn l2)), (Nat.leb_spec (sn l1) x); try lia; reflexivity. }
    assert (HU : forall k v, has (s_slots r) k v <-> has (s_slots l1) k v \/ has (s_slots l2) k v).
    { intros k v. split.
      - intros (x & Hx). destruct (Nat.lt_ge_cases x (sn l1)); [left; exists x; now rewrite <- A|right; exists (x - sn l1); now rewrite <- B].
      - intros [(x & Hx)|(x & Hx)]; pose proof (s_slots_live Hx) as (Lx & _).
        + exists x. now rewrite A.
        + exists (sn l1 + x). rewrite B by lia. now replace (sn l1 + x - sn l1) with x by lia. }
    assert (WF : c_wf M r).
    { unfold c_wf. splits; auto.
      - intros x Hx. change (sn r) with (sn l1 + sn l2) in Hx. destruct (Nat.lt_ge_cases x (sn l1)) as [H|H].
        + destruct (HF x H) as (k & v & Ek & Ev). assert (X : s_slots r x = Some (k, v)) by (rewrite A by auto; now apply s_slots_at). apply s_slots_live in X as (_ & ? & ?). eauto.
        + destruct (HF2 (x - sn l1)) as (k & v & Ek & Ev); [lia|]. assert (X : s_slots r x = Some (k, v)) by (rewrite B by auto; apply s_slots_at; auto; lia). apply s_slots_live in X as (_ & ? & ?). eauto.
      - intros x y k v w Hx Hy. destruct (Nat.lt_ge_cases x (sn l1)), (Nat.lt_ge_cases y (sn l1)).
        + rewrite A in Hx, Hy by auto. eapply U; eauto.
        + rewrite A in Hx by auto. rewrite B in Hy by auto. destruct (HD k v w); eexists; eauto.
        + rewrite B in Hx by auto. rewrite A in Hy by auto. destruct (HD k w v); eexists; eauto.
        + rewrite B in Hx, Hy by auto. assert (x - sn l1 = y - sn l1) by (eapply U2; eauto). lia. }
    assert (EM : sl_merge l1 l2 = Ok r).
    { unfold sl_merge. pose proof (take_exec l1 Ec) as X. rewrite firstn_all2 in E by lia. rewrite E in X.
      destruct (for_up 0 (sn l2) _ (sk l1, sv l1)) as [[ks vs]| |]; cbn [bind fst snd] in *; try discriminate. injection X as ->. reflexivity. }
    rewrite app_length, LC. cbn [length]. destruct (Nat.leb_spec q (2 * sn l2 + 1)); splits; auto; try lia; try tauto.
    + intros ->. right. cbn [nnext snext]. auto.
    + intros k v. unfold reaches. cbn [snode ssib nnext]. rewrite HU. tauto.
    + intros ->. left. reflexivity.
    + intros k v. unfold reaches. cbn [snode ssib nnext]. rewrite HU. destruct hasNext; intuition discriminate.
    + split; [destruct hasNext; discriminate|lia].
Qed.
End Counter.

(** * Bitmap leaves *)
Lemma nth_error_ext {A} (a b : list A) : (forall i, nth_error a i = nth_error b i) -> a = b.
Proof.
  revert b. induction a as [|x a IH]; intros [|y b] H; auto; try (specialize (H 0); discriminate).
  f_equal; [specialize (H 0); cbn in H; congruence|]. apply IH. intros i. exact (H (S i)).
Qed.
Lemma lset_same {A} (l f : list A) u x : lset l u x = Some f -> nth_error l u = Some x -> f = l.
Proof. intros E H. apply nth_error_ext. intros i. rewrite (lset_nth i E). destruct (Nat.eqb_spec i u) as [->|]; auto. Qed.

Section Fp.
Variables (V : Type) (fpt : bool) (fp : Z -> Z) (junk : nat -> Z) (M : nat).
Implicit Types (l : fleaf V).
Notation FS := (f_slots M).
Notation F := (@f_fine V fpt fp M).
Definition plen := if fpt then 4 else 3.
Lemma put_length u k (v : V) h : length (put_stores fpt u k v h) = plen.
Proof. unfold put_stores, plen. now destruct fpt. Qed.

Lemma others l l' u : f_len M l -> f_len M l' ->
  (forall i, i <> u -> bit (fb l') i = bit (fb l) i /\ aget (fk l') i = aget (fk l) i /\ aget (fv l') i = aget (fv l) i) ->
  forall i, i <> u -> FS l' i = FS l i.
Proof. intros H H' A i Hi. rewrite (f_slots_bit fp junk i H), (f_slots_bit fp junk i H'). destruct (A i Hi) as (-> & -> & ->). reflexivity. Qed.

Lemma put_prefix l u k v h q : F l -> u < M -> bit (fb l) u = false -> absent (FS l) k -> (fpt = true -> h = fp k) ->
  exists l', exec (@f_step V M) l (firstn q (put_stores fpt u k v h)) = Ok l' /\
    (forall i, i <> u -> FS l' i = FS l i) /\ (q = 0 -> l' = l) /\
    (q < plen -> fpt = false -> F l' /\ eqs (FS l) (FS l')) /\
    (plen <= q -> F l' /\ eqs (upd (FS l) u (Some (k, v))) (FS l') /\ bm_set M (fb l) u true = Ok (fb l') /\
       exists f, lset (ff l) u h = Some f /\ fl_put M l u k v h = Ok (FLeaf (fb l') f (fk l') (fv l')) /\ ff l' = if fpt then f else ff l).
Proof.
  intros FL Hu Hb A Hh. pose proof FL as ((HL & HF & U) & HE). pose proof HL as (HB & LF & LK & LV).
  destruct (@aset_ok _ (fk l) u k) as (ks & EK); [lia|]. destruct (@aset_ok _ (fv l) u v) as (vs & EV); [lia|].
  destruct (@lset_some _ (ff l) u h) as (f & Ef); [lia|]. destruct (bm_set_ok true HB Hu) as (b & Eb & HB' & Hbb).
  assert (LKs : length ks = M) by now rewrite (aset_length EK). assert (LVs : length vs = M) by now rewrite (aset_length EV).
  assert (LFs : length f = M) by now rewrite (lset_length Ef).
  assert (PUT : fl_put M l u k v h = Ok (FLeaf b f ks vs)).
  { unfold fl_put. rewrite EK. cbn [bind]. rewrite EV. cbn [bind]. rewrite Eb. cbn [bind]. rewrite Ef. reflexivity. }
  assert (DEAD : forall g ks' vs', (g = ff l \/ g = f) -> (ks' = fk l \/ ks' = ks) -> (vs' = fv l \/ vs' = vs) ->
     F (FLeaf (fb l) g ks' vs') /\ eqs (FS l) (FS (FLeaf (fb l) g ks' vs'))).
  { intros g ks' vs' Hg Hk Hv. apply (@f_dead V fpt fp junk M l (FLeaf (fb l) g ks' vs') u); auto; cbn [fb ff fk fv].
    - destruct Hg; subst; auto. - destruct Hk; subst; auto. - destruct Hv; subst; auto.
    - intros i Hi. splits.
      + destruct Hk; subst; auto. rewrite (aget_aset i EK). destruct (Nat.eqb_spec i u); [contradiction|auto].
      + destruct Hv; subst; auto. rewrite (aget_aset i EV). destruct (Nat.eqb_spec i u); [contradiction|auto].
      + destruct Hg; subst; auto. unfold lget. rewrite (lset_nth i Ef). destruct (Nat.eqb_spec i u); [contradiction|auto]. }
  assert (ANY : forall g ks' vs' b', (g = ff l \/ g = f) -> (ks' = fk l \/ ks' = ks) -> (vs' = fv l \/ vs' = vs) -> (b' = fb l \/ b' = b) ->
     forall i, i <> u -> FS (FLeaf b' g ks' vs') i = FS l i).
  { intros g ks' vs' b' Hg Hk Hv Hb'. apply others; auto.
    - unfold f_len. cbn [fb ff fk fv]. splits; [destruct Hb'; subst; auto|destruct Hg; subst; auto|destruct Hk; subst; auto|destruct Hv; subst; auto].
    - cbn [fb ff fk fv]. intros i Hi. splits.
      + destruct Hb'; subst; auto. rewrite Hbb. destruct (Nat.eqb_spec i u); [contradiction|auto].
      + destruct Hk; subst; auto. rewrite (aget_aset i EK). destruct (Nat.eqb_spec i u); [contradiction|auto].
      + destruct Hv; subst; auto. rewrite (aget_aset i EV). destruct (Nat.eqb_spec i u); [contradiction|auto]. }
  assert (FIN : forall g, (g = ff l /\ fpt = false \/ g = f) -> F (FLeaf b g ks vs) /\ eqs (upd (FS l) u (Some (k, v))) (FS (FLeaf b g ks vs))).
  { intros g Hg. destruct (DEAD g ks vs) as (D1 & D2); [tauto|auto|auto|].
    destruct (@f_setbit V fpt fp junk M (FLeaf (fb l) g ks vs) u k v D1 Hu) as (l4 & E4 & F4 & S4); cbn [fb ff fk fv]; auto.
    - now rewrite (aget_aset u EK), Nat.eqb_refl. - now rewrite (aget_aset u EV), Nat.eqb_refl.
    - intros w (x & Hx). apply (A w). exists x. rewrite <- D2. exact Hx.
    - intros T. destruct Hg as [[_ ?]| ->]; [congruence|]. unfold lget. rewrite (lset_nth u Ef), Nat.eqb_refl, (Hh T). reflexivity.
    - cbn [f_step fb ff fk fv] in E4. rewrite Eb in E4. cbn [bind] in E4. injection E4 as <-. split; [exact F4|].
      intros i. rewrite S4. unfold upd. destruct (i =? u); [reflexivity|apply D2]. }
  assert (D0 : l = FLeaf (fb l) (ff l) (fk l) (fv l)) by now destruct l.
  unfold put_stores, plen. destruct fpt eqn:T.
  - destruct q as [|q]; [exists l; cbn [firstn exec]; splits; auto; lia|].
    cbn [firstn exec f_step]. rewrite Eb. cbn [bind]. destruct q as [|q].
    { cbn [firstn exec]. eexists. split; [reflexivity|]. splits; try lia; try discriminate; apply ANY; auto. }
    cbn [firstn exec f_step fb ff fk fv]. rewrite Ef. cbn [bind of_opt]. destruct q as [|q].
    { cbn [firstn exec]. eexists. split; [reflexivity|]. splits; try lia; try discriminate; apply ANY; auto. }
    cbn [firstn exec f_step fb ff fk fv]. rewrite EK. cbn [bind]. destruct q as [|q].
    { cbn [firstn exec]. eexists. split; [reflexivity|]. splits; try lia; try discriminate; apply ANY; auto. }
    cbn [firstn exec f_step fb ff fk fv]. rewrite EV. cbn [bind]. rewrite firstn_nil. cbn [exec].
    eexists. split; [reflexivity|]. splits; try lia; [apply ANY; auto|]. intros _. destruct (FIN f) as (F1 & F2); auto. cbn [fb ff fk fv]. splits; auto. eauto.
  - destruct q as [|q]; [exists l; cbn [firstn exec]; splits; auto; try lia; intros _ _; split; [exact FL|now intros x]|].
    cbn [firstn exec f_step]. rewrite EK. cbn [bind]. destruct q as [|q].
    { cbn [firstn exec]. eexists. split; [reflexivity|]. splits; try lia; [apply ANY; auto|]. intros _ _. apply DEAD; auto. }
    cbn [firstn exec f_step fb ff fk fv]. rewrite EV. cbn [bind]. destruct q as [|q].
    { cbn [firstn exec]. eexists. split; [reflexivity|]. splits; try lia; [apply ANY; auto|]. intros _ _. apply DEAD; auto. }
    cbn [firstn exec f_step fb ff fk fv]. rewrite Eb. cbn [bind]. rewrite firstn_nil. cbn [exec].
    eexists. split; [reflexivity|]. splits; try lia; [apply ANY; auto|]. intros _. destruct (FIN (ff l)) as (F1 & F2); auto. cbn [fb ff fk fv]. splits; auto. eauto.
Qed.

(** Fingerprints that play no role (BitPBPTree). *)
Definition blank l := fpt = false -> forall x h, lget (ff l) x = Ok h -> h = 0%Z.

Lemma f_hash l i k v h : F l -> FS l i = Some (k, v) -> lget (ff l) i = Ok h -> fpt = true -> h = fp k.
Proof.
  intros (_ & HE) Hs Eh T. pose proof (HE T i) as X. rewrite Hs in X. unfold f_seen in X. rewrite Hs, Eh in X.
  destruct (Z.eqb_spec h (fp k)); [auto|discriminate].
Qed.

Definition fill_body l2 (i : nat) l : res (fleaf V) :=
  do b <- bm_test M (fb l2) i;
  if (b : bool) then
    do p <- getFreeZero (fb l);
    do h <- lget (ff l2) i;
    do k <- aget (fk l2) i;
    do v <- aget (fv l2) i;
    fl_put M l p k v h
  else Ok l.

Lemma fill_prefix l2 : F l2 -> blank l2 -> forall n i l r, i + n <= M -> F l -> blank l ->
  (forall x k v w, i <= x -> FS l2 x = Some (k, v) -> has (FS l) k w -> False) ->
  for_up i n (fill_body l2) l = Ok r ->
  exists c m, fill_stores M fpt l2 n i (fb l) = Ok c /\ length c = plen * m /\ exec (@f_step V M) l c = Ok r /\
    (m = 0 <-> forall x, i <= x < i + n -> FS l2 x = None) /\ forall q, exists l',
    exec (@f_step V M) l (firstn q c) = Ok l' /\
    (forall x e, FS l x = Some e -> FS l' x = Some e) /\
    (fpt = false \/ q mod plen = 0 \/ length c <= q -> F l' /\ forall k v, has (FS l') k v -> has (FS l) k v \/ has (FS l2) k v) /\
    (q < plen -> fpt = false -> eqs (FS l) (FS l')) /\
    (m <> 0 -> plen <= q -> exists k v, has (FS l2) k v /\ has (FS l') k v) /\
    (length c <= q -> forall x, i <= x < i + n -> forall k v, FS l2 x = Some (k, v) -> has (FS l') k v).
Proof.
  intros F2 Z2. pose proof F2 as ((HL2 & HF2 & U2) & HE2). pose proof HL2 as (HB2 & LF2 & LK2 & LV2).
  assert (PP : 0 < plen) by (unfold plen; destruct fpt; lia).
  induction n as [|n IH]; intros i l r Hi FL ZL HD E; cbn [for_up] in E.
  - injection E as <-. exists [], 0. cbn [fill_stores length exec]. splits; auto; try lia.
    + split; auto. intros _ x Hx. lia.
    + intros q. exists l. rewrite firstn_nil. cbn [exec]. splits; auto; try lia. now intros _ _ x.
  - unfold fill_body in E at 1. cbn [fill_stores]. rewrite bm_test_ok in * by (auto; lia). cbn [bind] in *. destruct (bit (fb l2) i) eqn:Bi.
    + destruct (HF2 i Bi) as (k & v & Ek & Ev). assert (Si : FS l2 i = Some (k, v)) by (rewrite (f_slots_bit fp junk i HL2), Bi, Ek, Ev; reflexivity).
      destruct (getFreeZero (fb l)) as [u| |] eqn:Eu; try discriminate. cbn [bind] in *.
      destruct (lget (ff l2) i) as [h| |] eqn:Eh; try discriminate. cbn [bind] in *. rewrite Ek, Ev in *. cbn [bind] in *.
      destruct (fl_put M l u k v h) as [l1| |] eqn:EP; try discriminate. cbn [bind] in E.
      pose proof FL as ((HL & _) & _). pose proof HL as (HB & LF & LK & LV).
      assert (Hu : u < M).
      { unfold fl_put in EP. destruct (aset (fk l) u k) as [a| |] eqn:Ea; try discriminate. rewrite <- LK.
        destruct (Nat.lt_ge_cases u (length (fk l))); auto. unfold aset, of_opt in Ea. destruct (lset (fk l) u (Some k)) eqn:X; try discriminate.
        pose proof (lset_nth u X) as Y. rewrite Nat.eqb_refl in Y. assert (Z : nth_error l0 u <> None) by congruence. apply nth_error_Some in Z. rewrite (lset_length X) in Z. lia. }
      destruct (getFreeZero_ok HB) as (u' & Eu' & _ & _ & Hfree). rewrite Eu in Eu'. injection Eu' as <-. specialize (Hfree Hu).
      assert (A : absent (FS l) k) by (intros w Hw; eapply HD; [apply Nat.le_refl|exact Si|exact Hw]).
      assert (Hh : fpt = true -> h = fp k) by (intros T; exact (f_hash F2 Si Eh T)).
      pose proof (fun q => @put_prefix l u k v h q FL Hu Hfree A Hh) as STEP.
      destruct (STEP plen) as (l1' & E1 & _ & _ & _ & G1). destruct (G1 (le_n _)) as (FL1 & S1 & EB1 & f & Ef & EP1 & Eff).
      rewrite firstn_all2 in E1 by (rewrite put_length; lia).
      assert (l1 = l1').
      { rewrite EP in EP1. injection EP1 as ->. destruct l1' as [b1 f1 k1 v1]. cbn [fb ff fk fv] in *. f_equal. rewrite Eff. destruct fpt eqn:T; auto.
        apply (lset_same Ef). assert (X : exists h0, nth_error (ff l) u = Some h0) by (destruct (nth_error (ff l) u) eqn:N; eauto; apply nth_error_None in N; lia).
        destruct X as (h0 & X). rewrite X. f_equal. rewrite (ZL T u h0) by (unfold lget; now rewrite X). symmetry. exact (Z2 T i h Eh). }
      subst l1'.
      assert (ZL1 : blank l1).
      { intros T x h0. rewrite Eff, T. now apply ZL. }
      destruct (IH (S i) l1 r) as (c & m & Ec & Lc & EX & Hm & HQ); auto; [lia| |].
      { intros x k' v' w Hx Hs (y & Hy). rewrite S1 in Hy. unfold upd in Hy. destruct (Nat.eqb_spec y u).
        - injection Hy as <- <-. assert (x = i) by (eapply U2; eauto). lia.
        - eapply (HD x); [lia|exact Hs|exists y; exact Hy]. }
      rewrite EB1. cbn [bind]. rewrite Ec. cbn [bind]. exists (put_stores fpt u k v h ++ c), (S m). rewrite app_length, put_length, Lc.
      assert (OLD : forall x e, FS l x = Some e -> x <> u).
      { intros x e Hx ->. rewrite (f_slots_bit fp junk u HL), Hfree in Hx. discriminate. }
      splits; auto; [lia|rewrite exec_app, E1; exact EX|split; [discriminate|intros X; rewrite X in Si by lia; discriminate]|].
      intros q. rewrite firstn_app, put_length, exec_app. destruct (Nat.lt_ge_cases q plen) as [Hq|Hq].
      * destruct (STEP q) as (l' & E' & O' & Z' & D' & _). exists l'. rewrite E'. cbn [bind]. replace (q - plen) with 0 by lia. cbn [firstn exec]. splits; auto; try lia.
        -- intros x e Hx. rewrite O'; eauto.
        -- intros [T|[Hmod|Hl]]; [|rewrite Nat.mod_small in Hmod by lia; rewrite (Z' Hmod); split; auto|lia].
           destruct (D' Hq T) as (FL' & SL'). split; auto. intros k' v' H. left. now apply (same_eqs SL').
        -- intros _ T. now apply D'.
      * destruct (HQ (q - plen)) as (l' & E' & O' & G' & _ & _ & C'). exists l'. rewrite firstn_all2 by (rewrite put_length; lia). rewrite E1. cbn [bind].
        assert (N' : has (FS l') k v) by (exists u; apply O'; rewrite S1; unfold upd; now rewrite Nat.eqb_refl).
        splits; auto; try lia.
        -- intros x e Hx. apply O'. rewrite S1. unfold upd. destruct (Nat.eqb_spec x u) as [->|]; auto. destruct (OLD u e Hx eq_refl).
        -- intros HC. destruct G' as (FL' & I').
           { destruct HC as [T|[Hmod|Hl]]; [auto| |right; right; lia]. right. left. replace q with (q - plen + 1 * plen) in Hmod by lia. rewrite Nat.mod_add in Hmod by lia. exact Hmod. }
           split; auto. intros k' v' H. destruct (I' k' v' H) as [(y & Hy)|]; auto. rewrite S1 in Hy. unfold upd in Hy. destruct (Nat.eqb_spec y u); [|left; exists y; exact Hy].
           injection Hy as <- <-. right. exists i. exact Si.
        -- intros _ _. exists k, v. split; [exists i; exact Si|exact N'].
        -- intros Hl x Hx k' v' Hs. destruct (Nat.eq_dec x i) as [->|]; [rewrite Si in Hs; injection Hs as <- <-; exact N'|]. eapply C'; [lia| |exact Hs]. lia.
    + assert (Si : FS l2 i = None) by (rewrite (f_slots_bit fp junk i HL2), Bi; reflexivity).
      destruct (IH (S i) l r) as (c & m & Ec & Lc & EX & Hm & HQ); auto; [lia|intros x k v w Hx; apply (HD x); lia|].
      exists c, m. splits; auto.
      * rewrite Hm. split; intros H x Hx; [destruct (Nat.eq_dec x i) as [->|]; auto; apply H; lia|apply H; lia].
      * intros q. destruct (HQ q) as (l' & E' & O' & G' & D' & N' & C'). exists l'. splits; auto.
        intros Hl x Hx k v Hs. destruct (Nat.eq_dec x i) as [->|]; [congruence|]. eapply C'; eauto. lia.
Qed.

Lemma f_merge_prefix l1 l2 hasNext r : F l1 -> F l2 -> blank l1 -> blank l2 -> no_common (FS l1) (FS l2) -> fl_merge M l1 l2 = Ok r ->
  exists p m, fl_merge_stores M fpt l1 l2 hasNext = Ok p /\ length p = plen * m + (if hasNext then 2 else 1) /\
    (m = 0 <-> forall k v, ~ has (FS l2) k v) /\ forall q, exists st,
    m_exec (@f_step V M) (m_init l1 l2 hasNext) (firstn q p) = Ok st /\ ssib st = l2 /\
    (hasNext = true -> rest_listed st) /\
    (nnext st = Some Sib <-> q <= plen * m) /\
    (forall x e, FS l1 x = Some e -> FS (snode st) x = Some e) /\
    (forall k v, has (FS l1) k v \/ has (FS l2) k v -> reaches FS st k v) /\
    (fpt = false \/ q mod plen = 0 \/ plen * m <= q -> F (snode st) /\ forall k v, reaches FS st k v -> has (FS l1) k v \/ has (FS l2) k v) /\
    (fpt = false -> 0 < m -> (apart FS st <-> q < plen)) /\
    (plen * m <= q -> snode st = r /\ forall k v, has (FS r) k v <-> has (FS l1) k v \/ has (FS l2) k v).
Proof.
  intros F1 F2 Z1 Z2 HD E.
  destruct (@fill_prefix l2 F2 Z2 M 0 l1 r (le_n _) F1 Z1) as (c & m & Ec & Lc & EX & Hm & HQ); [intros x k v w _ Hs Hw; eapply HD; [exact Hw|exists x; exact Hs]|exact E|].
  unfold fl_merge_stores. rewrite Ec. cbn [bind]. eexists. exists m. split; [reflexivity|].
  assert (OUT : forall k v, has (FS l2) k v -> exists x, 0 <= x < 0 + M /\ FS l2 x = Some (k, v)).
  { intros k v (x & Hx). exists x. split; auto. destruct (f_slots_live fp junk (proj1 (proj1 F2)) Hx). lia. }
  split; [|split].
  { rewrite app_length, map_length, Lc. unfold unlink_stores. destruct hasNext; cbn [length]; lia. }
  { rewrite Hm. split.
    - intros H k v Hk. destruct (OUT k v Hk) as (x & Hx & Ex). rewrite H in Ex by auto. discriminate.
    - intros H x _. destruct (FS l2 x) as [[k v]|] eqn:X; auto. destruct (H k v). exists x; auto. }
  intros q. destruct (HQ q) as (l' & E' & O' & G' & D' & N' & C'). rewrite (@m_prefix V (fleaf V) (@f_step V M) l1 l2 hasNext c q l' E'). eexists. split; [reflexivity|].
  cbn [snode ssib nnext snext]. rewrite Lc in *.
  assert (ALL : plen * m <= q -> forall k v, has (FS l2) k v -> has (FS l') k v).
  { intros Hq k v H. destruct (OUT k v H) as (x & Hx & Ex). eapply C'; eauto. }
  assert (KEEP : forall k v, has (FS l1) k v -> has (FS l') k v) by (intros k v (x & Hx); exists x; eauto).
  splits; auto.
  - intros ->. unfold rest_listed. cbn [nnext snext]. destruct (q <=? plen * m); auto.
  - destruct (Nat.leb_spec q (plen * m)); [tauto|]. split; [destruct hasNext; discriminate|lia].
  - intros k v H. unfold reaches. cbn [snode ssib nnext]. destruct H as [H|H]; [left; auto|].
    destruct (Nat.leb_spec q (plen * m)); [right; auto|left; apply ALL; auto; lia].
  - intros HC. destruct (G' HC) as (FL' & I'). split; auto. intros k v [H|[_ H]]; [auto|auto].
  - intros T Hm0. unfold apart. cbn [snode ssib]. split.
    + intros HA. destruct (Nat.lt_ge_cases q plen); auto. destruct (N' ltac:(lia)) as (k & v & H2 & H1); auto. destruct (HA k v v H1 H2).
    + intros Hq k v w H1 H2. apply (same_eqs (D' Hq T)) in H1. eapply HD; eauto.
  - intros Hq. rewrite firstn_all2 in E' by lia. assert (l' = r) by congruence. subst l'. split; auto. intros k v. split.
    + destruct G' as (_ & I'); auto.
    + intros [H|H]; auto.
Qed.
End Fp.

(** * As stated in PropCrashM *)
Lemma s_merge_crash {V M} (l1 l2 : sleaf V) hasNext : c_wf M l1 -> c_wf M l2 -> sn l1 + sn l2 <= M -> no_common (s_slots l1) (s_slots l2) ->
  exists p, sl_merge_stores l1 l2 hasNext = Ok p /\ length p = 2 * sn l2 + (if hasNext then 3 else 2) /\ forall q, exists st,
    m_exec (@s_step V) (m_init l1 l2 hasNext) (firstn q p) = Ok st /\ ssib st = l2 /\
    (hasNext = true -> rest_listed st) /\
    (forall k v, reaches (@s_slots V) st k v <-> has (s_slots l1) k v \/ has (s_slots l2) k v) /\
    (0 < sn l2 -> nnext st = Some Sib -> (apart (@s_slots V) st <-> q <> 2 * sn l2 + 1)) /\
    (2 * sn l2 < q -> sl_merge l1 l2 = Ok (snode st)) /\ (2 * sn l2 + 1 < q -> nnext st <> Some Sib).
Proof.
  intros W1 W2 HM HD. destruct (s_merge_prefix hasNext W1 W2 HM HD) as (p & Ep & Lp & H). exists p. split; [exact Ep|]. split; [exact Lp|].
  intros q. destruct (H q) as (st & E & SB & RL & RE & NN & LO & HI). exists st. splits; auto.
  - intros H2 Hn. apply NN in Hn. unfold apart. rewrite SB. split.
    + intros HA ->. destruct (HI ltac:(lia)) as (_ & _ & HU). destruct W2 as (_ & _ & _ & HF & _). destruct (HF 0 H2) as (k & v & Ek & Ev).
      assert (X : has (s_slots l2) k v) by (exists 0; now apply s_slots_at). apply (HA k v v); auto. apply HU. auto.
    + intros Hq k v w A B. apply (same_eqs (LO ltac:(lia))) in A. eapply HD; eauto.
  - intros Hq. apply HI. exact Hq.
  - intros Hq Hn. apply NN in Hn. lia.
Qed.
Lemma reach_fine {V} t fp junk M fpt (l : fleaf V) : f_reach t fp junk M l -> f_fine fpt fp M l.
Proof. intros R. destruct (f_reach_wf R) as (W & HE). split; auto. Qed.
Lemma b_merge_crash : forall V t M (l1 l2 r : fleaf V) hasNext,
  f_reach t (fun _ => 0%Z) (fun _ => 0%Z) M l1 -> f_reach t (fun _ => 0%Z) (fun _ => 0%Z) M l2 ->
  no_common (f_slots M l1) (f_slots M l2) -> fl_merge M l1 l2 = Ok r ->
  exists p m, fl_merge_stores M false l1 l2 hasNext = Ok p /\ length p = 3 * m + (if hasNext then 2 else 1) /\
    (m = 0 <-> forall k v, ~ has (f_slots M l2) k v) /\ forall q, exists st,
    m_exec (@f_step V M) (m_init l1 l2 hasNext) (firstn q p) = Ok st /\ ssib st = l2 /\
    (hasNext = true -> rest_listed st) /\ (nnext st = Some Sib <-> q <= 3 * m) /\
    (forall k v, reaches (f_slots M) st k v <-> has (f_slots M l1) k v \/ has (f_slots M l2) k v) /\
    (exists out, fl_scan M (snode st) = Ok out /\ reports (f_slots M (snode st)) out) /\
    (0 < m -> (apart (f_slots M) st <-> q < 3)) /\
    (3 * m <= q -> snode st = r).
Proof.
  intros V t M l1 l2 r hasNext R1 R2 HD E.
  destruct (@f_merge_prefix V false (fun _ => 0%Z) (fun _ => 0%Z) M l1 l2 hasNext r) as (p & m & Ep & Lp & Hm & H); auto;
    try (eapply reach_fine; eassumption); try (intros _; eapply zero_fps; eassumption).
  exists p, m. cbn [plen] in *. splits; auto; try apply Hm. intros q. destruct (H q) as (st & E' & SB & RL & NN & _ & UP & DN & AP & FI). exists st.
  destruct DN as (FN & DN); [auto|]. splits; auto.
  - split; auto.
  - apply (f_scan_ok (fun _ => 0%Z) (fun _ => 0%Z)). apply FN.
  - intros Hq. now apply FI.
Qed.
Lemma f_merge_crash : forall V t fp junk M (l1 l2 r : fleaf V) hasNext,
  f_reach t fp junk M l1 -> f_reach t fp junk M l2 -> no_common (f_slots M l1) (f_slots M l2) -> fl_merge M l1 l2 = Ok r ->
  exists p m, fl_merge_stores M true l1 l2 hasNext = Ok p /\ length p = 4 * m + (if hasNext then 2 else 1) /\
    (m = 0 <-> forall k v, ~ has (f_slots M l2) k v) /\ forall q, exists st,
    m_exec (@f_step V M) (m_init l1 l2 hasNext) (firstn q p) = Ok st /\ ssib st = l2 /\
    (hasNext = true -> rest_listed st) /\ (nnext st = Some Sib <-> q <= 4 * m) /\
    (forall x e, f_slots M l1 x = Some e -> f_slots M (snode st) x = Some e) /\
    (forall k v, has (f_slots M l1) k v \/ has (f_slots M l2) k v -> reaches (f_slots M) st k v) /\
    (q mod 4 = 0 \/ 4 * m <= q -> f_agrees fp M (snode st) /\
       forall k v, reaches (f_slots M) st k v -> has (f_slots M l1) k v \/ has (f_slots M l2) k v) /\
    (4 * m <= q -> snode st = r).
Proof.
  intros V t fp junk M l1 l2 r hasNext R1 R2 HD E.
  destruct (@f_merge_prefix V true fp junk M l1 l2 hasNext r) as (p & m & Ep & Lp & Hm & H); auto;
    try (eapply reach_fine; eassumption); try (intros Hf; discriminate).
  exists p, m. cbn [plen] in *. splits; auto; try apply Hm. intros q. destruct (H q) as (st & E' & SB & RL & NN & KE & UP & DN & _ & FI). exists st.
  splits; auto.
  - intros Hq. destruct DN as (FN & DN); [auto|]. split; auto. now apply fine_agrees.
  - intros Hq. now apply FI.
Qed.
