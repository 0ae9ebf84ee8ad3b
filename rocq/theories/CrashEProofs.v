(** Prefixes of the stores of the leaf erases. *)
From Verif Require Import Base RankModel BitmapModel BTreeModel SearchModel SLeafModel ULeafModel FLeafModel CrashModel CrashSpec
  BitmapProofs SlotLemmas FLeafProofs CrashProofs.
Open Scope nat_scope.

Section Slots.
Variable V : Type.
Implicit Types (s : slots V).
Lemma minus_clear s s' u key v : uniq s -> s u = Some (key, v) -> eqs (upd s u None) s' -> minus s key s'.
Proof.
  intros U Hu E k w. unfold has. split.
  - intros (i & H). rewrite E in H. unfold upd in H. destruct (Nat.eqb_spec i u) as [|NE]; [discriminate|].
    split; [eauto|]. intros ->. apply NE. eapply U; eauto.
  - intros ((i & H) & NE). exists i. rewrite E. unfold upd. destruct (Nat.eqb_spec i u) as [->|]; [congruence|auto].
Qed.
Lemma firstn_1 {A} (x : A) n : firstn (S n) [x] = [x].
Proof. cbn [firstn]. now destruct n. Qed.
End Slots.

(** * Bitmap leaves: a single store *)
Section Bit.
Variables (V : Type) (M : nat).
Implicit Types (l : bleaf V).
Lemma b_erase_atomic l key v : b_reach M l -> has (b_slots M l) key v ->
  exists pos, bl_pos M l key = Ok pos /\ pos < M /\ forall n, exists l',
    exec (@b_step V M) l (firstn n (bl_erase_stores V pos)) = Ok l' /\ b_reach M l' /\
    (same (b_slots M l) (b_slots M l') \/ minus (b_slots M l) key (b_slots M l')) /\
    (length (bl_erase_stores V pos) <= n -> bl_erase M l key = Ok (true, l') /\ minus (b_slots M l) key (b_slots M l')).
Proof.
  intros R H. destruct (b_reach_wf R) as (HL & HF & U). pose proof HL as (HB & LK & LV).
  destruct (b_pos_ok key HL HF) as (pos & Ep & [[_ A]|[Hp (w & Ew)]]); [destruct (A _ H)|].
  exists pos. split; [exact Ep|]. split; [exact Hp|]. intros n. unfold bl_erase_stores. destruct n as [|n].
  - exists l. cbn [firstn exec length]. split; [reflexivity|]. split; [exact R|]. split; [|lia]. left. now intros k u.
  - rewrite firstn_1. cbn [exec b_step]. destruct (bm_reset_ok HB Hp) as (b & Eb & HB' & Hb). rewrite Eb. cbn [bind].
    set (l' := BLeaf b (bkey l) (bval l)). exists l'. split; [reflexivity|].
    assert (EE : bl_erase M l key = Ok (true, l')).
    { unfold bl_erase. rewrite Ep. cbn [bind]. destruct (Nat.ltb_spec pos M); [|lia]. rewrite Eb. reflexivity. }
    split; [exact (BR_del R EE)|].
    assert (HL' : b_len M l') by (split; [exact HB'|split; [exact LK|exact LV]]).
    assert (S : minus (b_slots M l) key (b_slots M l')).
    { eapply minus_clear; [exact U|exact Ew|]. intros i. rewrite (b_slots_bit i HL'). unfold l', upd. cbn [bb bkey bval]. rewrite Hb.
      destruct (i =? pos); [reflexivity|]. symmetry. now apply b_slots_bit. }
    split; [right; exact S|]. intros _. split; [exact EE|exact S].
Qed.
End Bit.

Section Fp.
Variables (V : Type) (t : ktype) (fp : Z -> Z) (junk : nat -> Z) (M : nat).
Implicit Types (l : fleaf V).
Lemma f_erase_atomic l key v : f_reach t fp junk M l -> has (f_slots M l) key v ->
  exists pos, fl_pos fp M l key = Ok pos /\ pos < M /\ forall n, exists l',
    exec (@f_step V M) l (firstn n (bl_erase_stores V pos)) = Ok l' /\ f_reach t fp junk M l' /\
    (same (f_slots M l) (f_slots M l') \/ minus (f_slots M l) key (f_slots M l')) /\
    (length (bl_erase_stores V pos) <= n -> fl_erase fp M l key = Ok (true, l') /\ minus (f_slots M l) key (f_slots M l')).
Proof.
  intros R H. pose proof (f_reach_wf R) as W. pose proof W as ((HL & HF & U) & HE). pose proof HL as (HB & LF & LK & LV).
  destruct (f_pos_ok fp junk key HL HF) as (pos & Ep & [[_ A]|[Hp (w & Ew)]]); [destruct (f_absent W A H)|]. apply f_seen_slot in Ew.
  exists pos. split; [exact Ep|]. split; [exact Hp|]. intros n. unfold bl_erase_stores. destruct n as [|n].
  - exists l. cbn [firstn exec length]. split; [reflexivity|]. split; [exact R|]. split; [|lia]. left. now intros k u.
  - rewrite firstn_1. cbn [exec f_step]. destruct (bm_reset_ok HB Hp) as (b & Eb & HB' & Hb). rewrite Eb. cbn [bind].
    set (l' := FLeaf b (ff l) (fk l) (fv l)). exists l'. split; [reflexivity|].
    assert (EE : fl_erase fp M l key = Ok (true, l')).
    { unfold fl_erase. rewrite Ep. cbn [bind]. destruct (Nat.ltb_spec pos M); [|lia]. unfold fl_clear. rewrite Eb. reflexivity. }
    split; [exact (FR_del R EE)|].
    assert (HL' : f_len M l') by (unfold f_len, l'; cbn [fb ff fk fv]; auto).
    assert (S : minus (f_slots M l) key (f_slots M l')).
    { eapply minus_clear; [exact U|exact Ew|]. intros i. rewrite (f_slots_bit fp junk i HL'). unfold l', upd. cbn [fb ff fk fv]. rewrite Hb.
      destruct (i =? pos); [reflexivity|]. symmetry. now apply (f_slots_bit fp junk). }
    split; [right; exact S|]. intros _. split; [exact EE|exact S].
Qed.
End Fp.

(** * Counter leaves *)
Section Counter.
Variables (V : Type) (M : nat).
Implicit Types (l : sleaf V).

(** Cells after a prefix of the copies of the sorted erase. *)
Lemma unshift_prefix : forall n lo l, length (sk l) = M -> length (sv l) = M ->
  (forall i, i <= lo + n -> (exists k, aget (sk l) i = Ok k) /\ exists v, aget (sv l) i = Ok v) -> forall q,
  exists l', exec (@s_step V) l (firstn q (unshift_stores V n lo)) = Ok l' /\
    sn l' = sn l /\ length (sk l') = M /\ length (sv l') = M /\
    (forall i, aget (sk l') i = if (lo <=? i) && (i <? lo + Nat.min n ((q + 1) / 2)) then aget (sk l) (S i) else aget (sk l) i) /\
    (forall i, aget (sv l') i = if (lo <=? i) && (i <? lo + Nat.min n (q / 2)) then aget (sv l) (S i) else aget (sv l) i).
Proof.
  assert (NO : forall lo i, (lo <=? i) && (i <? lo + 0) = false).
  { intros lo i. destruct (Nat.leb_spec lo i), (Nat.ltb_spec i (lo + 0)); cbn [andb]; auto; lia. }
  induction n as [|n IH]; intros lo l LK LV HF q; cbn [unshift_stores].
  - rewrite firstn_nil. cbn [exec Nat.min]. exists l. splits; auto; intros i; now rewrite NO.
  - assert (RK : forall i, i <= lo + S n -> i < M).
    { intros i Hi. destruct (HF i Hi) as [(k & E) _]. rewrite <- LK. unfold aget in E.
      destruct (nth_error (sk l) i) eqn:X; [|discriminate]. apply nth_error_Some. congruence. }
    destruct q as [|q].
    { cbn [firstn exec]. exists l. splits; auto; intros i; change ((0 + 1) / 2) with 0; change (0 / 2) with 0; rewrite Nat.min_0_r; now rewrite NO. }
    destruct (HF (lo + 1)) as [(k & Ek) (v & Ev)]; [lia|].
    cbn [firstn exec s_step]. rewrite Ek. cbn [bind].
    destruct (@aset_ok _ (sk l) lo k) as (ks & EK); [rewrite LK; apply RK; lia|]. rewrite EK. cbn [bind].
    assert (L1 : length ks = M) by (rewrite (aset_length EK); auto).
    destruct q as [|q].
    { cbn [firstn exec]. eexists. split; [reflexivity|]. cbn [sn sk sv]. splits; auto; intros i.
      - change ((1 + 1) / 2) with 1. rewrite (aget_aset i EK).
        destruct (Nat.eqb_spec i lo), (Nat.leb_spec lo i), (Nat.ltb_spec i (lo + Nat.min (S n) 1)); cbn [andb]; try lia; auto.
        subst i. now rewrite <- Ek, Nat.add_1_r.
      - change (1 / 2) with 0. rewrite Nat.min_0_r. now rewrite NO. }
    cbn [firstn exec s_step sn sk sv]. rewrite Ev. cbn [bind].
    destruct (@aset_ok _ (sv l) lo v) as (vs & EV); [rewrite LV; apply RK; lia|]. rewrite EV. cbn [bind].
    assert (L2 : length vs = M) by (rewrite (aset_length EV); auto).
    destruct (IH (S lo) (SLeaf (sn l) ks vs)) with (q := q) as (l' & E & HN & LK' & LV' & GK & GV); auto.
    { cbn [sn sk sv]. intros i Hi. rewrite (aget_aset i EK), (aget_aset i EV). destruct (i =? lo); [eauto|]. apply HF. lia. }
    exists l'. split; [exact E|]. cbn [sn sk sv] in *. splits; auto; intros i.
    + rewrite GK, !(aget_aset _ EK). replace ((S (S q) + 1) / 2) with (S ((q + 1) / 2)) by lia.
      destruct (Nat.eqb_spec i lo), (Nat.eqb_spec (S i) lo), (Nat.leb_spec (S lo) i), (Nat.leb_spec lo i),
        (Nat.ltb_spec i (S lo + Nat.min n ((q + 1) / 2))), (Nat.ltb_spec i (lo + Nat.min (S n) (S ((q + 1) / 2)))); cbn [andb]; try lia; auto.
      subst i. now rewrite <- Ek, Nat.add_1_r.
    + rewrite GV, !(aget_aset _ EV). replace (S (S q) / 2) with (S (q / 2)) by lia.
      destruct (Nat.eqb_spec i lo), (Nat.eqb_spec (S i) lo), (Nat.leb_spec (S lo) i), (Nat.leb_spec lo i),
        (Nat.ltb_spec i (S lo + Nat.min n (q / 2))), (Nat.ltb_spec i (lo + Nat.min (S n) (S (q / 2)))); cbn [andb]; try lia; auto.
      subst i. now rewrite <- Ev, Nat.add_1_r.
Qed.

Lemma unshift_length : forall n lo, length (unshift_stores V n lo) = 2 * n.
Proof. induction n as [|n IH]; intros lo; cbn [unshift_stores length]; [reflexivity|]. rewrite IH. lia. Qed.

(** Every prefix of the sorted erase. *)
Lemma s_erase_prefix l pos key v : s_ok M l -> s_slots l pos = Some (key, v) -> forall n, exists l',
  exec (@s_step V) l (firstn n (sl_erase_stores l pos)) = Ok l' /\
  (forall k w, k <> key -> has (s_slots l) k w -> has (s_slots l') k w) /\
  (forall k w, has (s_slots l') k w -> exists w', has (s_slots l) k w') /\
  (forall i, i < pos -> s_slots l' i = s_slots l i) /\
  (pos = sn l - 1 -> same (s_slots l) (s_slots l') \/ minus (s_slots l) key (s_slots l')) /\
  (length (sl_erase_stores l pos) <= n -> s_ok M l' /\ minus (s_slots l) key (s_slots l')).
Proof.
  intros W Hp n. pose proof (s_ok_wf W) as (_ & _ & _ & _ & U). pose proof W as (LN & LK & LV & HF & HS).
  pose proof (s_slots_live Hp) as (Lp & Kp & Vp).
  assert (AT : forall i, i < sn l -> exists k w, s_slots l i = Some (k, w)).
  { intros i Hi. destruct (HF i Hi) as (k & w & Ek & Ew). exists k, w. now apply s_slots_at. }
  destruct (@unshift_prefix (sn l - 1 - pos) pos l LK LV) with (q := n) as (l1 & E1 & N1 & LK1 & LV1 & GK & GV).
  { intros i Hi. destruct (HF i) as (k & w & -> & ->); [lia|]. eauto. }
  unfold sl_erase_stores. rewrite firstn_app, unshift_length. rewrite app_length, unshift_length. cbn [length].
  destruct (Nat.le_gt_cases n (2 * (sn l - 1 - pos))) as [Hn|Hn].
  - exists l1. rewrite exec_app, E1. cbn [bind]. replace (n - 2 * (sn l - 1 - pos)) with 0 by lia. cbn [firstn exec].
    split; [reflexivity|].
    set (a := (n + 1) / 2) in *. set (b := n / 2) in *. assert (Hab : b <= a <= S b /\ a <= sn l - 1 - pos) by (unfold a, b; lia). clearbody a b.
    rewrite Nat.min_r in GK, GV by lia.
    assert (B : forall i, s_slots l1 i = if i <? sn l then pair_of (aget (sk l1) i) (aget (sv l1) i) else None) by (intros i; unfold s_slots; now rewrite N1).
    assert (LO : forall i, i < pos -> s_slots l1 i = s_slots l i).
    { intros i Hi. rewrite B, GK, GV. destruct (Nat.leb_spec pos i); [lia|]. reflexivity. }
    assert (HI : forall i, pos + a <= i -> s_slots l1 i = s_slots l i).
    { intros i Hi. rewrite B, GK, GV. destruct (Nat.ltb_spec i (pos + a)), (Nat.ltb_spec i (pos + b)); try lia. rewrite andb_false_r. reflexivity. }
    assert (MI : forall i, pos <= i < pos + b -> s_slots l1 i = s_slots l (S i)).
    { intros i Hi. rewrite B, GK, GV. destruct (Nat.leb_spec pos i), (Nat.ltb_spec i (pos + a)), (Nat.ltb_spec i (pos + b)); try lia. cbn [andb].
      unfold s_slots. destruct (Nat.ltb_spec i (sn l)), (Nat.ltb_spec (S i) (sn l)); try lia. reflexivity. }
    splits.
    + intros k w Hk (i & Hi). assert (i <> pos) by congruence. destruct (Nat.lt_ge_cases i pos); [exists i; now rewrite LO|].
      destruct (Nat.le_gt_cases (pos + a) i); [exists i; now rewrite HI|].
      exists (i - 1). rewrite MI by lia. now replace (S (i - 1)) with i by lia.
    + intros k w (i & Hi). destruct (Nat.lt_ge_cases i pos); [exists w, i; now rewrite <- LO|].
      destruct (Nat.le_gt_cases (pos + a) i); [exists w, i; now rewrite <- HI|].
      rewrite B, GK in Hi. destruct (Nat.leb_spec pos i), (Nat.ltb_spec i (pos + a)), (Nat.ltb_spec i (sn l)); try lia. cbn [andb] in Hi.
      destruct (HF (S i)) as (k' & w' & Ek' & Ew'); [lia|]. rewrite Ek' in Hi. cbn [pair_of] in Hi.
      destruct (aget (sv l1) i); try discriminate. injection Hi as -> _. exists w', (S i). apply s_slots_at; auto. lia.
    + exact LO.
    + intros Epos. left. apply same_eqs. intros i. destruct (Nat.lt_ge_cases i pos); [now apply LO|]. apply HI. lia.
    + intros. lia.
  - set (l' := SLeaf (sn l - 1) (sk l1) (sv l1)). exists l'.
    rewrite exec_app, E1. cbn [bind]. destruct (n - 2 * (sn l - 1 - pos)) as [|m] eqn:Em; [lia|]. rewrite firstn_1. cbn [exec s_step bind].
    split; [reflexivity|].
    assert (B : forall i, s_slots l' i = if i <? pos then s_slots l i else s_slots l (S i)).
    { intros i. unfold l'. unfold s_slots. cbn [sn sk sv]. rewrite GK, GV. rewrite !Nat.min_l by lia.
      destruct (Nat.leb_spec pos i), (Nat.ltb_spec i pos), (Nat.ltb_spec i (pos + (sn l - 1 - pos))), (Nat.ltb_spec i (sn l - 1)), (Nat.ltb_spec i (sn l)),
        (Nat.ltb_spec (S i) (sn l)); try lia; cbn [andb]; reflexivity. }
    assert (MN : minus (s_slots l) key (s_slots l')).
    { intros k w. split.
      - intros (i & Hi). rewrite B in Hi. destruct (Nat.ltb_spec i pos).
        + split; [eexists; eauto|]. intros ->. assert (i = pos) by (eapply U; eauto). lia.
        + split; [eexists; eauto|]. intros ->. assert (S i = pos) by (eapply U; eauto). lia.
      - intros ((i & Hi) & NE). assert (i <> pos) by congruence. destruct (Nat.lt_ge_cases i pos).
        + exists i. rewrite B. destruct (Nat.ltb_spec i pos); [auto|lia].
        + exists (i - 1). rewrite B. destruct (Nat.ltb_spec (i - 1) pos); [lia|]. now replace (S (i - 1)) with i by lia. }
    splits.
    + intros k w Hk H. apply MN. auto.
    + intros k w H. apply MN in H as [H _]. eauto.
    + intros i Hi. rewrite B. destruct (Nat.ltb_spec i pos); [auto|lia].
    + intros _. now right.
    + intros _. split; [|exact MN]. unfold s_ok, l'. cbn [sn sk sv]. splits; auto; [lia| |].
      * intros i Hi. destruct (AT (if i <? pos then i else S i)) as (k & w & E); [destruct (i <? pos); lia|].
        assert (X : s_slots l' i = Some (k, w)) by (rewrite B; destruct (i <? pos); auto).
        apply s_slots_live in X as (_ & X1 & X2). eauto.
      * intros i j k k' Hij Ei Ej.
        assert (P : forall i k, i < sn l - 1 -> aget (sk l1) i = Ok k -> aget (sk l) (if i <? pos then i else S i) = Ok k).
        { intros i0 k0 H0 E0. rewrite GK in E0. rewrite Nat.min_l in E0 by lia.
          destruct (Nat.leb_spec pos i0), (Nat.ltb_spec i0 pos), (Nat.ltb_spec i0 (pos + (sn l - 1 - pos))); try lia; cbn [andb] in E0; exact E0. }
        apply P in Ei; [|lia]. apply P in Ej; [|lia].
        eapply HS; [|exact Ei|exact Ej]. destruct (Nat.ltb_spec i pos), (Nat.ltb_spec j pos); lia.
Qed.

(** The stores are those of the model of eraseFromLeafNode. *)
Lemma unshift_exec n : forall lo l,
  exec (@s_step V) l (unshift_stores V n lo) =
  (do kv <- for_up lo n
             (fun i kv => do ks <- (do x <- aget (fst kv) (i + 1); aset (fst kv) i x);
                          do vs <- (do x <- aget (snd kv) (i + 1); aset (snd kv) i x);
                          Ok (ks, vs)) (sk l, sv l);
   Ok (SLeaf (sn l) (fst kv) (snd kv))).
Proof.
  induction n as [|n IH]; intros lo l; cbn [unshift_stores for_up exec s_step bind fst snd].
  - now destruct l.
  - destruct (aget (sk l) (lo + 1)) as [x| |]; cbn [bind]; try reflexivity.
    destruct (aset (sk l) lo x) as [ks| |]; cbn [bind sk sv]; try reflexivity.
    destruct (aget (sv l) (lo + 1)) as [y| |]; cbn [bind]; try reflexivity.
    destruct (aset (sv l) lo y) as [vs| |]; cbn [bind]; try reflexivity. now rewrite IH.
Qed.
Lemma sl_stores_erase lpos l pos key : lpos (sk l) (sn l) key = Ok pos -> aget (sk l) pos = Ok key -> 0 < sn l ->
  sl_erase lpos l key = (do l' <- exec (@s_step V) l (sl_erase_stores l pos); Ok (true, l')).
Proof.
  intros Ep Ek Hn. unfold sl_erase, sl_erase_stores. rewrite Ep. cbn [bind]. rewrite Ek. cbn [bind]. rewrite Z.eqb_refl.
  destruct (Nat.eqb_spec (sn l) 0); [lia|]. rewrite exec_app, unshift_exec.
  destruct (for_up pos (sn l - 1 - pos) _ (sk l, sv l)) as [[ks vs]| |]; cbn [bind fst snd]; try reflexivity.
Qed.
Lemma ul_stores_erase l pos key : ul_pos (sk l) (sn l) key = Ok pos -> aget (sk l) pos = Ok key -> 0 < sn l ->
  (exists v, aget (sv l) (sn l - 1) = Ok v) ->
  ul_erase l key = (do l' <- exec (@s_step V) l (ul_erase_stores l pos); Ok (true, l')).
Proof.
  intros Ep Ek Hn (v & Ev). unfold ul_erase, ul_erase_stores. rewrite Ep. cbn [bind]. rewrite Ek. cbn [bind]. rewrite Z.eqb_refl.
  destruct (Nat.eqb_spec (sn l) 0); [lia|]. destruct (pos =? sn l - 1); cbn [exec s_step bind sn sk sv]; [reflexivity|].
  destruct (aget (sk l) (sn l - 1)) as [k'| |]; cbn [bind]; try reflexivity. rewrite Ev. cbn [bind].
  destruct (aset (sk l) pos k') as [ks| |]; cbn [bind sn sk sv]; try reflexivity. try rewrite Ev. cbn [bind].
  destruct (aset (sv l) pos v) as [vs| |]; cbn [bind]; reflexivity.
Qed.

(** Every prefix of the unsorted erase. *)
Lemma u_erase_prefix l pos key v : c_wf M l -> s_slots l pos = Some (key, v) -> forall n, exists l',
  exec (@s_step V) l (firstn n (ul_erase_stores l pos)) = Ok l' /\
  (forall i, i <> pos -> i <> sn l - 1 -> s_slots l' i = s_slots l i) /\
  (pos = sn l - 1 -> same (s_slots l) (s_slots l') \/ minus (s_slots l) key (s_slots l')) /\
  (length (ul_erase_stores l pos) <= n -> minus (s_slots l) key (s_slots l')).
Proof.
  intros (LN & LK & LV & HF & U) Hp n. pose proof (s_slots_live Hp) as (Lp & Kp & Vp).
  unfold ul_erase_stores. destruct n as [|n].
  { exists l. cbn [firstn exec length]. splits; auto; [|lia]. intros _. left. now intros k w. }
  cbn [firstn exec s_step bind].
  assert (C0 : forall ks vs i, i <> pos -> i <> sn l - 1 ->
     (forall j, j <> pos -> aget ks j = aget (sk l) j) -> (forall j, j <> pos -> aget vs j = aget (sv l) j) ->
     s_slots (SLeaf (sn l - 1) ks vs) i = s_slots l i).
  { intros ks vs i H1 H2 Gk Gv. unfold s_slots. cbn [sn sk sv]. rewrite Gk, Gv by auto.
    destruct (Nat.ltb_spec i (sn l - 1)), (Nat.ltb_spec i (sn l)); try lia; reflexivity. }
  destruct (Nat.eqb_spec pos (sn l - 1)) as [Epos|Npos].
  - rewrite firstn_nil. cbn [exec]. eexists. split; [reflexivity|].
    assert (MN : minus (s_slots l) key (s_slots (SLeaf (sn l - 1) (sk l) (sv l)))).
    { eapply minus_clear; [exact U|exact Hp|]. intros i. unfold upd. destruct (Nat.eqb_spec i pos).
      - subst i. apply s_slots_out. cbn [sn]. lia.
      - apply C0; auto. lia. }
    splits; auto.
  - destruct (HF (sn l - 1)) as (k' & v' & Ek' & Ev'); [lia|].
    destruct (@aset_ok _ (sk l) pos k') as (ks & EK); [lia|]. destruct (@aset_ok _ (sv l) pos v') as (vs & EV); [lia|].
    assert (GK : forall j, j <> pos -> aget ks j = aget (sk l) j) by (intros j Hj; rewrite (aget_aset j EK); destruct (Nat.eqb_spec j pos); [lia|auto]).
    assert (GV : forall j, j <> pos -> aget vs j = aget (sv l) j) by (intros j Hj; rewrite (aget_aset j EV); destruct (Nat.eqb_spec j pos); [lia|auto]).
    destruct n as [|n].
    { cbn [firstn exec]. eexists. split; [reflexivity|]. splits; try lia; [|cbn [length]; lia]. intros i H1 H2. apply C0; auto. }
    cbn [firstn exec s_step sn sk sv]. rewrite Ek'. cbn [bind]. rewrite EK. cbn [bind].
    destruct n as [|n].
    { cbn [firstn exec]. eexists. split; [reflexivity|]. splits; try lia; [|cbn [length]; lia]. intros i H1 H2. apply C0; auto. }
    cbn [firstn exec s_step sn sk sv]. rewrite Ev'. cbn [bind]. rewrite EV. cbn [bind]. rewrite firstn_nil. cbn [exec].
    eexists. split; [reflexivity|]. splits; try lia; [intros i H1 H2; now apply C0|]. intros _.
    assert (X : s_slots (SLeaf (sn l - 1) ks vs) pos = s_slots l (sn l - 1)).
    { unfold s_slots. cbn [sn sk sv]. rewrite (aget_aset pos EK), (aget_aset pos EV), Nat.eqb_refl, Ek', Ev'.
      destruct (Nat.ltb_spec pos (sn l - 1)), (Nat.ltb_spec (sn l - 1) (sn l)); try lia; reflexivity. }
    assert (Y : s_slots (SLeaf (sn l - 1) ks vs) (sn l - 1) = None) by (apply s_slots_out; cbn [sn]; lia).
    intros k w. split.
    + intros (i & Hi). destruct (Nat.eq_dec i pos) as [->|]; [|destruct (Nat.eq_dec i (sn l - 1)) as [->|]].
      * rewrite X in Hi. split; [eexists; eauto|]. intros ->. assert (sn l - 1 = pos) by (eapply U; eauto). lia.
      * congruence.
      * rewrite C0 in Hi by auto. split; [eexists; eauto|]. intros ->. assert (i = pos) by (eapply U; eauto). lia.
    + intros ((i & Hi) & NE). assert (i <> pos) by congruence. destruct (Nat.eq_dec i (sn l - 1)) as [->|].
      * exists pos. now rewrite X.
      * exists i. now rewrite C0.
Qed.
End Counter.
