(** Failure-atomicity of the leaf inserts. *)
From Verif Require Import Base RankModel BitmapModel BitmapProofs BTreeModel SearchModel SLeafModel ULeafModel FLeafModel SlotLemmas FLeafProofs CrashModel CrashSpec.
Open Scope nat_scope.

Section Slots.
Variable V : Type.
Implicit Types (s : slots V) (k key : Z) (v val : V).

Definition uniq s := forall i j k v w, s i = Some (k, v) -> s j = Some (k, w) -> i = j.
Definition upd s u (o : option (Z * V)) : slots V := fun i => if i =? u then o else s i.
Definition eqs s s' := forall i, s' i = s i.

Lemma same_eqs s s' : eqs s s' -> same s s'.
Proof. intros E k v. unfold has. split; intros (i & H); exists i; [rewrite <- E|rewrite E]; auto. Qed.
Lemma uniq_eqs s s' : eqs s s' -> uniq s -> uniq s'.
Proof. intros E U i j k v w A B. rewrite E in A, B. eapply U; eauto. Qed.

Lemma plus_upd s s' u key val : s u = None -> eqs (upd s u (Some (key, val))) s' -> plus s key val s'.
Proof.
  intros N E k v. unfold has. split.
  - intros (i & H). rewrite E in H. unfold upd in H. destruct (Nat.eqb_spec i u).
    + injection H as <- <-. auto.
    + eauto.
  - intros [(i & H)|[-> ->]].
    + exists i. rewrite E. unfold upd. destruct (Nat.eqb_spec i u); congruence.
    + exists u. rewrite E. unfold upd. now rewrite Nat.eqb_refl.
Qed.
Lemma uniq_upd s s' u key val : uniq s -> absent s key -> eqs (upd s u (Some (key, val))) s' -> uniq s'.
Proof.
  intros U A E i j k v w Hi Hj. rewrite E in Hi, Hj. unfold upd in *.
  destruct (Nat.eqb_spec i u), (Nat.eqb_spec j u); subst; auto.
  - injection Hi as <- <-. exfalso. apply (A w). exists j; auto.
  - injection Hj as <- <-. exfalso. apply (A v). exists i; auto.
  - eapply U; eauto.
Qed.
Lemma uniq_clear s s' u : uniq s -> eqs (upd s u None) s' -> uniq s'.
Proof.
  intros U E i j k v w Hi Hj. rewrite E in Hi, Hj. unfold upd in *.
  destruct (Nat.eqb_spec i u), (Nat.eqb_spec j u); try discriminate. eapply U; eauto.
Qed.
Lemma uniq_over s s' u key w val : uniq s -> s u = Some (key, w) -> eqs (upd s u (Some (key, val))) s' -> uniq s'.
Proof.
  intros U Hu E i j k v1 v2 Hi Hj. rewrite E in Hi, Hj. unfold upd in *.
  destruct (Nat.eqb_spec i u), (Nat.eqb_spec j u); subst; auto.
  - injection Hi as <- <-. eapply U; eauto.
  - injection Hj as <- <-. eapply U; eauto.
  - eapply U; eauto.
Qed.
Lemma answers_at s i k v : uniq s -> s i = Some (k, v) -> answers s k (Some v).
Proof.
  intros U H w. split.
  - intros [= <-]. exists i; auto.
  - intros (j & Hj). assert (j = i) by (eapply U; eauto). subst j. congruence.
Qed.
Lemma answers_none s k : absent s k -> answers s k None.
Proof. intros A w. split; [discriminate|]. intros H. destruct (A _ H). Qed.

(** Listing the slots below [M]. *)
Fixpoint collect s (n i : nat) : list (Z * V) :=
  match n with 0 => [] | S n' => match s i with Some x => x :: collect s n' (S i) | None => collect s n' (S i) end end.
Lemma collect_in s k v : forall n i, In (k, v) (collect s n i) <-> exists j, i <= j < i + n /\ s j = Some (k, v).
Proof.
  induction n as [|n IH]; intros i; cbn [collect].
  - split; [intros []|intros (j & H & _); lia].
  - assert (X : In (k, v) (collect s n (S i)) -> exists j, i <= j < i + S n /\ s j = Some (k, v)).
    { intros H. apply IH in H as (j & Hj & E). exists j. split; auto; lia. }
    assert (Y : (exists j, i <= j < i + S n /\ s j = Some (k, v)) -> s i = Some (k, v) \/ In (k, v) (collect s n (S i))).
    { intros (j & Hj & E). destruct (Nat.eq_dec j i) as [->|]; auto. right. apply IH. exists j. split; auto; lia. }
    destruct (s i) as [x|] eqn:E; cbn [In]; split.
    + intros [->|H]; [exists i; split; auto; lia|auto].
    + intros H. destruct (Y H) as [Hi|Hi]; [injection Hi; auto|auto].
    + auto.
    + intros H. destruct (Y H) as [Hi|Hi]; [discriminate|auto].
Qed.
Lemma collect_nodup s : uniq s -> forall n i, NoDup (map fst (collect s n i)).
Proof.
  intros U. induction n as [|n IH]; intros i; cbn [collect]; [constructor|].
  destruct (s i) as [[k v]|] eqn:E; cbn [map fst]; auto. constructor; auto.
  intros H. apply in_map_iff in H as ([k' w] & Ek & H). cbn [fst] in Ek. subst k'.
  apply collect_in in H as (j & Hj & Ej). assert (i = j) by (eapply U; eauto). lia.
Qed.
Lemma reports_collect s M : uniq s -> (forall i, M <= i -> s i = None) -> reports s (collect s M 0).
Proof.
  intros U O. split; [now apply collect_nodup|]. intros k v. rewrite collect_in. unfold has. split.
  - intros (j & _ & E). eauto.
  - intros (j & E). exists j. split; auto. destruct (Nat.lt_ge_cases j M); [lia|]. rewrite O in E by assumption. discriminate.
Qed.
End Slots.

(** * Bitmap leaves *)
Section Bit.
Variables (V : Type) (M : nat).
Implicit Types (l : bleaf V) (key k : Z) (val v : V).

Definition b_len l := bm_ok M (bb l) /\ length (bkey l) = M /\ length (bval l) = M.
Definition b_full l := forall i, bit (bb l) i = true -> exists k v, aget (bkey l) i = Ok k /\ aget (bval l) i = Ok v.
Definition b_wf l := b_len l /\ b_full l /\ uniq (b_slots M l).

Lemma b_slots_bit l i : b_len l -> b_slots M l i = if bit (bb l) i then pair_of (aget (bkey l) i) (aget (bval l) i) else None.
Proof.
  intros (HB & _). unfold b_slots. destruct (Nat.lt_ge_cases i M) as [Hi|Hi].
  - rewrite bm_test_ok by assumption. now destruct (bit (bb l) i).
  - replace (bm_test M (bb l) i) with (@UB bool).
    + destruct HB as (_ & _ & HB). now rewrite HB.
    + unfold bm_test. destruct (Nat.ltb_spec i M); [lia|reflexivity].
Qed.
Lemma b_slots_out l i : b_len l -> M <= i -> b_slots M l i = None.
Proof. intros H Hi. rewrite b_slots_bit by assumption. destruct H as ((_ & _ & HB) & _). now rewrite HB. Qed.
Lemma b_slots_live l i k v : b_len l -> b_slots M l i = Some (k, v) ->
  i < M /\ bit (bb l) i = true /\ aget (bkey l) i = Ok k /\ aget (bval l) i = Ok v.
Proof.
  intros H E. destruct (Nat.lt_ge_cases i M); [|rewrite b_slots_out in E by assumption; discriminate].
  rewrite b_slots_bit in E by assumption. destruct (bit (bb l) i); [|discriminate]. unfold pair_of in E.
  destruct (aget (bkey l) i); try discriminate. destruct (aget (bval l) i); try discriminate. injection E as <- <-. auto.
Qed.

Lemma b_new_wf : b_wf (bl_new V M).
Proof.
  assert (L : b_len (bl_new V M)).
  { unfold b_len, bl_new, anew. cbn [bb bkey bval]. rewrite !repeat_length. split; [apply bm_new_ok|auto]. }
  split; [exact L|split].
  - intros i H. unfold bl_new in H. cbn [bb] in H. rewrite bit_new in H. discriminate.
  - intros i j k v w H. rewrite b_slots_bit in H by exact L. unfold bl_new in H. cbn [bb] in H. rewrite bit_new in H. discriminate.
Qed.

(** Stores to a dead slot. *)
Lemma b_key_dead l u k : b_len l -> b_full l -> u < M -> bit (bb l) u = false ->
  exists l', b_step M l (SKey u k) = Ok l' /\ b_len l' /\ b_full l' /\ eqs (b_slots M l) (b_slots M l') /\
    bb l' = bb l /\ aget (bkey l') u = Ok k.
Proof.
  intros HL HF Hu Hb. pose proof HL as (HB & LK & LV). unfold b_step.
  destruct (@aset_ok _ (bkey l) u k) as (ks & E); [lia|]. rewrite E. cbn [bind].
  eexists. split; [reflexivity|]. cbn [bb bkey bval].
  assert (HL' : b_len (BLeaf (bb l) ks (bval l))).
  { unfold b_len. cbn [bb bkey bval]. rewrite (aset_length E). auto. }
  assert (G : forall i, bit (bb l) i = true -> aget ks i = aget (bkey l) i).
  { intros i Hi. rewrite (aget_aset i E). destruct (Nat.eqb_spec i u); [congruence|reflexivity]. }
  split; [exact HL'|]. split; [|split; [|split]]; auto.
  - intros i Hi. cbn [bb bkey bval] in *. rewrite G by assumption. now apply HF.
  - intros i. rewrite !b_slots_bit by assumption. cbn [bb bkey bval]. destruct (bit (bb l) i) eqn:Ei; [|reflexivity]. now rewrite G.
  - now rewrite (aget_aset u E), Nat.eqb_refl.
Qed.
Lemma b_val_dead l u v : b_len l -> b_full l -> u < M -> bit (bb l) u = false ->
  exists l', b_step M l (SVal u v) = Ok l' /\ b_len l' /\ b_full l' /\ eqs (b_slots M l) (b_slots M l') /\
    bb l' = bb l /\ bkey l' = bkey l /\ aget (bval l') u = Ok v.
Proof.
  intros HL HF Hu Hb. pose proof HL as (HB & LK & LV). unfold b_step.
  destruct (@aset_ok _ (bval l) u v) as (vs & E); [lia|]. rewrite E. cbn [bind].
  eexists. split; [reflexivity|]. cbn [bb bkey bval].
  assert (HL' : b_len (BLeaf (bb l) (bkey l) vs)).
  { unfold b_len. cbn [bb bkey bval]. rewrite (aset_length E). auto. }
  assert (G : forall i, bit (bb l) i = true -> aget vs i = aget (bval l) i).
  { intros i Hi. rewrite (aget_aset i E). destruct (Nat.eqb_spec i u); [congruence|reflexivity]. }
  split; [exact HL'|]. split; [|split; [|split; [|split]]]; auto.
  - intros i Hi. cbn [bb bkey bval] in *. rewrite G by assumption. now apply HF.
  - intros i. rewrite !b_slots_bit by assumption. cbn [bb bkey bval]. destruct (bit (bb l) i) eqn:Ei; [|reflexivity]. now rewrite G.
  - now rewrite (aget_aset u E), Nat.eqb_refl.
Qed.
(** The value of a live slot. *)
Lemma b_val_live l u k w v : b_len l -> b_full l -> b_slots M l u = Some (k, w) ->
  exists l', b_step M l (SVal u v) = Ok l' /\ b_len l' /\ b_full l' /\ eqs (upd (b_slots M l) u (Some (k, v))) (b_slots M l').
Proof.
  intros HL HF Hs. pose proof HL as (HB & LK & LV). destruct (b_slots_live HL Hs) as (Hu & Hb & Hk & _). unfold b_step.
  destruct (@aset_ok _ (bval l) u v) as (vs & E); [lia|]. rewrite E. cbn [bind].
  eexists. split; [reflexivity|].
  assert (HL' : b_len (BLeaf (bb l) (bkey l) vs)).
  { unfold b_len. cbn [bb bkey bval]. rewrite (aset_length E). auto. }
  split; [exact HL'|]. split.
  - intros i Hi. cbn [bb bkey bval] in *. destruct (HF i Hi) as (k' & v' & Ek & Ev). rewrite (aget_aset i E), Ek.
    destruct (i =? u); eauto.
  - intros i. rewrite b_slots_bit by assumption. cbn [bb bkey bval]. unfold upd. rewrite (aget_aset i E).
    destruct (Nat.eqb_spec i u) as [->|NE].
    + now rewrite Hb, Hk.
    + symmetry. now apply b_slots_bit.
Qed.
Lemma b_bit_dead l u k v : b_len l -> b_full l -> u < M -> aget (bkey l) u = Ok k -> aget (bval l) u = Ok v ->
  exists l', b_step M l (SBit u) = Ok l' /\ b_len l' /\ b_full l' /\ eqs (upd (b_slots M l) u (Some (k, v))) (b_slots M l').
Proof.
  intros HL HF Hu Hk Hv. pose proof HL as (HB & LK & LV). unfold b_step.
  destruct (bm_set_ok true HB Hu) as (b & E & HB' & Hb). rewrite E. cbn [bind]. eexists. split; [reflexivity|].
  assert (HL' : b_len (BLeaf b (bkey l) (bval l))) by (unfold b_len; cbn [bb bkey bval]; auto).
  split; [exact HL'|]. split.
  - intros i Hi. cbn [bb bkey bval] in *. rewrite Hb in Hi. destruct (Nat.eqb_spec i u) as [Ei|]; [subst i|]; eauto.
  - intros i. rewrite b_slots_bit by assumption. cbn [bb bkey bval]. unfold upd. rewrite Hb.
    destruct (Nat.eqb_spec i u) as [->|NE].
    + now rewrite Hk, Hv.
    + symmetry. now apply b_slots_bit.
Qed.

Lemma b_free l : b_len l -> (exists i, i < M /\ bit (bb l) i = false) ->
  exists u, getFreeZero (bb l) = Ok u /\ u < M /\ bit (bb l) u = false.
Proof.
  intros (HB & _) (i & Hi & Hb). destruct (getFreeZero_ok HB) as (r & E & Hr & H1 & H2). exists r.
  assert (r < M). { destruct (Nat.lt_ge_cases r M); auto. rewrite H1 in Hb by lia. discriminate. }
  auto.
Qed.

(** Every prefix of the stores of an insert of a new key. *)
Lemma b_prefix l u key val n : b_wf l -> absent (b_slots M l) key -> u < M -> bit (bb l) u = false ->
  exists l', exec (@b_step V M) l (firstn n [SKey u key; SVal u val; SBit u]) = Ok l' /\ b_wf l' /\
    (n < 3 /\ eqs (b_slots M l) (b_slots M l') \/ 3 <= n /\ eqs (upd (b_slots M l) u (Some (key, val))) (b_slots M l')).
Proof.
  intros (HL & HF & U) A Hu Hb.
  destruct n as [|n]; [exists l; cbn [firstn exec]; split; [reflexivity|split; [exact (conj HL (conj HF U))|left; split; [lia|now intros i]]]|].
  cbn [firstn exec]. destruct (b_key_dead key HL HF Hu Hb) as (l1 & -> & HL1 & HF1 & S1 & B1 & K1). cbn [bind].
  destruct n as [|n].
  { exists l1. cbn [firstn exec]. split; auto. split; [|left; split; [lia|auto]]. split; [|split]; auto. eapply uniq_eqs; eauto. }
  cbn [firstn exec]. destruct (@b_val_dead l1 u val HL1 HF1 Hu) as (l2 & -> & HL2 & HF2 & S2 & B2 & K2 & V2); [congruence|]. cbn [bind].
  assert (S2' : eqs (b_slots M l) (b_slots M l2)) by (intros i; rewrite S2; apply S1).
  destruct n as [|n].
  { exists l2. cbn [firstn exec]. split; auto. split; [|left; split; [lia|auto]]. split; [|split]; auto. eapply uniq_eqs; eauto. }
  cbn [firstn exec]. destruct (@b_bit_dead l2 u key val HL2 HF2 Hu) as (l3 & -> & HL3 & HF3 & S3); [congruence|auto|]. cbn [bind].
  assert (S3' : eqs (upd (b_slots M l) u (Some (key, val))) (b_slots M l3)).
  { intros i. rewrite S3. unfold upd. destruct (i =? u); auto. }
  exists l3. assert (X : firstn n (@nil (store V)) = []) by now destruct n. rewrite X. cbn [exec].
  split; auto. split; [|right; split; [lia|auto]]. split; [|split]; auto. eapply uniq_upd; eauto.
Qed.

Lemma b_find_ok l key : b_len l -> b_full l -> forall n pos, pos + n = M ->
  exists r, bl_find M n l pos key = Ok r /\ r <= M /\
    (r = M -> forall i v, pos <= i -> b_slots M l i <> Some (key, v)) /\
    (r < M -> exists v, b_slots M l r = Some (key, v)).
Proof.
  intros HL HF. pose proof HL as (HB & _). induction n as [|n IH]; intros pos Hp; cbn [bl_find].
  - exists pos. repeat split; try lia. intros _ i v Hi. rewrite b_slots_out by (auto; lia). discriminate.
  - rewrite bm_test_ok by (auto; lia). cbn [bind].
    assert (STEP : (forall v, b_slots M l pos <> Some (key, v)) -> exists r, bl_find M n l (S pos) key = Ok r /\ r <= M /\
      (r = M -> forall i v, pos <= i -> b_slots M l i <> Some (key, v)) /\
      (r < M -> exists v, b_slots M l r = Some (key, v))).
    { intros NO. destruct (IH (S pos)) as (r & E & Hr & H1 & H2); [lia|]. exists r. repeat split; auto; try lia.
      intros Er i v Hi. destruct (Nat.eq_dec i pos) as [->|]; [apply NO|]. apply H1; auto. lia. }
    pose proof (b_slots_bit pos HL) as SB. destruct (bit (bb l) pos) eqn:Eb.
    + destruct (HF pos Eb) as (k & v & Ek & Ev). rewrite Ek, Ev in SB. cbn [pair_of] in SB. rewrite Ek. cbn [bind].
      destruct (Z.eqb_spec k key) as [->|NE].
      * exists pos. repeat split; try lia. eauto.
      * apply STEP. congruence.
    + cbn [bind]. apply STEP. congruence.
Qed.
Lemma b_pos_ok l key : b_len l -> b_full l -> exists r, bl_pos M l key = Ok r /\
  (r = M /\ absent (b_slots M l) key \/ r < M /\ exists v, b_slots M l r = Some (key, v)).
Proof.
  intros HL HF. destruct (@b_find_ok l key HL HF M 0 eq_refl) as (r & E & Hr & H1 & H2). exists r. split; [exact E|].
  destruct (Nat.eq_dec r M) as [Er|].
  - left. split; auto. intros v (i & Hi). eapply (H1 Er i v); [lia|auto].
  - right. split; [lia|]. apply H2. lia.
Qed.
Lemma b_lookup_ok l key : b_wf l -> exists r, bl_lookup M l key = Ok r /\ answers (b_slots M l) key r.
Proof.
  intros (HL & HF & U). unfold bl_lookup. destruct (b_pos_ok key HL HF) as (r & -> & [[-> A]|[Hr (v & Ev)]]); cbn [bind].
  - rewrite Nat.ltb_irrefl. exists None. split; auto. now apply answers_none.
  - destruct (Nat.ltb_spec r M); [|lia]. destruct (b_slots_live HL Ev) as (_ & _ & _ & ->). cbn [bind].
    exists (Some v). split; auto. eapply answers_at; eauto.
Qed.

Lemma b_scan_loop l : b_len l -> b_full l -> forall n i out, i + n = M ->
  for_up i n (fun i out =>
    do b <- bm_test M (bb l) i;
    if (b : bool) then do k <- aget (bkey l) i; do v <- aget (bval l) i; Ok (out ++ [(k, v)])
    else Ok out) out = Ok (out ++ collect (b_slots M l) n i).
Proof.
  intros HL HF. pose proof HL as (HB & _). induction n as [|n IH]; intros i out Hi; cbn [for_up collect].
  - now rewrite app_nil_r.
  - rewrite bm_test_ok by (auto; lia). cbn [bind]. rewrite (b_slots_bit i HL). destruct (bit (bb l) i) eqn:Eb.
    + destruct (HF i Eb) as (k & v & -> & ->). cbn [bind pair_of]. rewrite IH by lia. now rewrite <- app_assoc.
    + cbn [bind]. rewrite IH by lia. reflexivity.
Qed.
Lemma b_scan_ok l : b_wf l -> exists out, bl_scan M l = Ok out /\ reports (b_slots M l) out.
Proof.
  intros (HL & HF & U). unfold bl_scan. rewrite (@b_scan_loop l HL HF M 0 [] eq_refl). eexists. split; [reflexivity|].
  cbn [app]. apply reports_collect; auto. intros i Hi. now apply b_slots_out.
Qed.

Lemma b_store_free l u key val l' : b_len l -> exec (@b_step V M) l [SKey u key; SVal u val; SBit u] = Ok l' -> u < M.
Proof.
  intros _ H. cbn [exec b_step] in H. destruct (aset (bkey l) u key); try discriminate. cbn [bind bval bb bkey] in H.
  destruct (aset (bval l) u val); try discriminate. cbn [bind bval bb bkey] in H. unfold bm_set in H.
  destruct (Nat.ltb_spec u M); [auto|]. discriminate.
Qed.

Lemma b_reach_wf l : b_reach M l -> b_wf l.
Proof.
  induction 1 as [|l k v l' _ IH E|l k b l' _ IH E|l k v p n l' _ IH A Ep E].
  - apply b_new_wf.
  - pose proof IH as (HL & HF & U). unfold bl_insert in E.
    destruct (b_pos_ok k HL HF) as (r & Er & [[-> A]|[Hr (w & Ew)]]); rewrite Er in E; cbn [bind] in E.
    + rewrite Nat.ltb_irrefl in E. unfold bl_stores in E. pose proof HL as (HB & _).
      destruct (getFreeZero_ok HB) as (u & Eu & Hu & _ & Z). rewrite Eu in E. cbn [bind] in E.
      pose proof (b_store_free HL E) as Hu'.
      destruct (@b_prefix l u k v 3 IH A Hu' (Z Hu')) as (l1 & E1 & W1 & _). cbn [firstn] in E1. congruence.
    + destruct (Nat.ltb_spec r M); [|lia]. cbn [exec] in E.
      destruct (@b_val_live l r k w v HL HF Ew) as (l1 & E1 & HL1 & HF1 & S1). rewrite E1 in E. cbn [bind] in E.
      injection E as <-. split; [|split]; auto. eapply uniq_over; eauto.
  - pose proof IH as (HL & HF & U). unfold bl_erase in E.
    destruct (b_pos_ok k HL HF) as (r & Er & [[-> A]|[Hr (w & Ew)]]); rewrite Er in E; cbn [bind] in E.
    + rewrite Nat.ltb_irrefl in E. now injection E as <- <-.
    + destruct (Nat.ltb_spec r M); [|lia]. pose proof HL as (HB & LK & LV).
      destruct (bm_reset_ok HB Hr) as (b' & Eb & HB' & Hb). rewrite Eb in E. cbn [bind] in E. injection E as <- <-.
      assert (HL' : b_len (BLeaf b' (bkey l) (bval l))) by (unfold b_len; cbn [bb bkey bval]; auto).
      split; [exact HL'|]. split.
      * intros i Hi. cbn [bb bkey bval] in *. rewrite Hb in Hi. destruct (i =? r); [discriminate|auto].
      * apply (@uniq_clear V (b_slots M l) _ r U). intros i. rewrite (b_slots_bit i HL'). cbn [bb bkey bval]. unfold upd. rewrite Hb.
        destruct (i =? r); auto. symmetry. now apply b_slots_bit.
  - pose proof IH as (HL & HF & U). unfold bl_stores in Ep. pose proof HL as (HB & _).
    destruct (getFreeZero_ok HB) as (u & Eu & Hu & _ & Z). rewrite Eu in Ep. cbn [bind] in Ep. injection Ep as <-.
    destruct n as [|n]; [cbn [firstn exec] in E; now injection E as <-|].
    assert (Hu' : u < M).
    { pose proof HL as (_ & LK & _). cbn [firstn exec b_step] in E. destruct (aset (bkey l) u k) as [ks| |] eqn:Ek; try discriminate.
      rewrite <- LK. unfold aset, of_opt in Ek. destruct (lset (bkey l) u (Some k)) eqn:El; [|discriminate].
      clear -El. revert u l0 El. generalize (bkey l) as a. induction a as [|x a IH]; intros [|u] l0 E; cbn [lset] in E; try discriminate; cbn [length]; [lia|].
      destruct (lset a u (Some k)) eqn:Ea; [|discriminate]. specialize (IH _ _ Ea). lia. }
    destruct (@b_prefix l u k v (S n) IH A Hu' (Z Hu')) as (l1 & E1 & W1 & _). congruence.
Qed.

Lemma b_atomic l key val : b_reach M l -> absent (b_slots M l) key -> (exists i, i < M /\ bm_test M (bb l) i = Ok false) ->
  exists p, bl_stores l key val = Ok p /\ forall n, exists l',
    exec (@b_step V M) l (firstn n p) = Ok l' /\
    (same (b_slots M l) (b_slots M l') \/ plus (b_slots M l) key val (b_slots M l')) /\
    (length p <= n -> plus (b_slots M l) key val (b_slots M l')).
Proof.
  intros R A (i & Hi & Hf). pose proof (b_reach_wf R) as W. pose proof W as (HL & _). pose proof HL as (HB & _).
  rewrite bm_test_ok in Hf by assumption. injection Hf as Hf.
  destruct (b_free HL) as (u & Eu & Hu & Hb); [eauto|]. unfold bl_stores. rewrite Eu. cbn [bind].
  eexists. split; [reflexivity|]. intros n. destruct (@b_prefix l u key val n W A Hu Hb) as (l' & E & W' & C).
  exists l'. split; [exact E|].
  assert (S0 : b_slots M l u = None) by (rewrite b_slots_bit, Hb; auto).
  assert (P : 3 <= n -> plus (b_slots M l) key val (b_slots M l')).
  { destruct C as [[? ?]|[? C]]; [lia|]. intros _. eapply plus_upd; eauto. }
  split; [|cbn [length]; intros; apply P; lia]. destruct C as [[Hn C]|[Hn C]]; [left; now apply same_eqs|right; auto].
Qed.
End Bit.

(** * Counter leaves *)
Section Counter.
Variables (V : Type) (M : nat).
Implicit Types (l : sleaf V) (key k : Z) (val v : V).

Definition c_wf l := sn l <= M /\ length (sk l) = M /\ length (sv l) = M /\
  (forall i, i < sn l -> exists k v, aget (sk l) i = Ok k /\ aget (sv l) i = Ok v) /\ uniq (s_slots l).

Lemma s_slots_at l i k v : i < sn l -> aget (sk l) i = Ok k -> aget (sv l) i = Ok v -> s_slots l i = Some (k, v).
Proof. intros H E1 E2. unfold s_slots. rewrite E1, E2. destruct (Nat.ltb_spec i (sn l)); [reflexivity|lia]. Qed.
Lemma s_slots_live l i k v : s_slots l i = Some (k, v) -> i < sn l /\ aget (sk l) i = Ok k /\ aget (sv l) i = Ok v.
Proof.
  unfold s_slots. destruct (Nat.ltb_spec i (sn l)); [|discriminate]. unfold pair_of.
  destruct (aget (sk l) i); try discriminate. destruct (aget (sv l) i); try discriminate. intros [= <- <-]. auto.
Qed.
Lemma s_slots_out l i : sn l <= i -> s_slots l i = None.
Proof. intros H. unfold s_slots. destruct (Nat.ltb_spec i (sn l)); [lia|reflexivity]. Qed.

Lemma u_prefix l key val n : c_wf l -> sn l < M -> absent (s_slots l) key ->
  exists l', exec (@s_step V) l (firstn n (ul_stores l key val)) = Ok l' /\ c_wf l' /\
    (n < 3 /\ eqs (s_slots l) (s_slots l') \/ 3 <= n /\ eqs (upd (s_slots l) (sn l) (Some (key, val))) (s_slots l')).
Proof.
  intros W Hn A. pose proof W as (LN & LK & LV & HF & U). unfold ul_stores.
  destruct n as [|n]; [exists l; cbn [firstn exec]; split; [reflexivity|split; [exact W|left; split; [lia|now intros i]]]|].
  destruct (@aset_ok _ (sk l) (sn l) key) as (ks & Ek); [lia|].
  destruct (@aset_ok _ (sv l) (sn l) val) as (vs & Ev); [lia|].
  assert (GK : forall i, i < sn l -> aget ks i = aget (sk l) i).
  { intros i Hi. rewrite (aget_aset i Ek). destruct (Nat.eqb_spec i (sn l)); [lia|reflexivity]. }
  assert (GV : forall i, i < sn l -> aget vs i = aget (sv l) i).
  { intros i Hi. rewrite (aget_aset i Ev). destruct (Nat.eqb_spec i (sn l)); [lia|reflexivity]. }
  cbn [firstn exec s_step]. rewrite Ek. cbn [bind].
  assert (P : forall vs', length vs' = M -> (forall i, i < sn l -> aget vs' i = aget (sv l) i) ->
     c_wf (SLeaf (sn l) ks vs') /\ eqs (s_slots l) (s_slots (SLeaf (sn l) ks vs'))).
  { intros vs' L G. assert (S : eqs (s_slots l) (s_slots (SLeaf (sn l) ks vs'))).
    { intros i. unfold s_slots. cbn [sn sk sv]. destruct (Nat.ltb_spec i (sn l)); [|reflexivity]. now rewrite GK, G. }
    split; [|exact S]. unfold c_wf. cbn [sn sk sv]. rewrite (aset_length Ek). repeat (split; auto).
    - intros i Hi. rewrite GK, G by assumption. now apply HF.
    - eapply uniq_eqs; eauto. }
  destruct n as [|n].
  { cbn [firstn exec]. eexists. split; [reflexivity|]. destruct (P (sv l)) as [P1 P2]; auto. split; [exact P1|left; split; [lia|exact P2]]. }
  cbn [firstn exec s_step sn sk sv]. rewrite Ev. cbn [bind].
  destruct n as [|n].
  { cbn [firstn exec]. eexists. split; [reflexivity|]. destruct (P vs) as [P1 P2]; [rewrite (aset_length Ev); auto|auto|].
    split; [exact P1|left; split; [lia|exact P2]]. }
  cbn [firstn exec s_step sn sk sv bind]. assert (X : firstn n (@nil (store V)) = []) by now destruct n. rewrite X. cbn [exec].
  eexists. split; [reflexivity|].
  assert (S : eqs (upd (s_slots l) (sn l) (Some (key, val))) (s_slots (SLeaf (S (sn l)) ks vs))).
  { intros i. unfold s_slots, upd. cbn [sn sk sv]. rewrite (aget_aset i Ek), (aget_aset i Ev).
    destruct (Nat.eqb_spec i (sn l)) as [->|NE].
    - destruct (Nat.ltb_spec (sn l) (S (sn l))); [reflexivity|lia].
    - destruct (Nat.ltb_spec i (S (sn l))), (Nat.ltb_spec i (sn l)); try lia; reflexivity. }
  split; [|right; split; [lia|exact S]]. unfold c_wf. cbn [sn sk sv]. rewrite (aset_length Ek), (aset_length Ev).
  split; [lia|]. repeat (split; auto).
  - intros i Hi. rewrite (aget_aset i Ek), (aget_aset i Ev). destruct (Nat.eqb_spec i (sn l)); [eauto|]. apply HF. lia.
  - eapply uniq_upd; eauto.
Qed.

Lemma u_find_ok l key : c_wf l -> forall n pos, pos + n = sn l ->
  exists r, ul_find n (sk l) pos key = Ok r /\ r <= sn l /\
    (r = sn l -> forall i v, pos <= i -> s_slots l i <> Some (key, v)) /\
    (r < sn l -> exists v, s_slots l r = Some (key, v)).
Proof.
  intros (LN & LK & LV & HF & U). induction n as [|n IH]; intros pos Hp; cbn [ul_find].
  - exists pos. repeat split; try lia. intros _ i v Hi. rewrite s_slots_out by lia. discriminate.
  - destruct (HF pos) as (k & v & Ek & Ev); [lia|]. rewrite Ek. cbn [bind].
    pose proof (@s_slots_at l pos k v ltac:(lia) Ek Ev) as SA.
    destruct (Z.eqb_spec k key) as [->|NE].
    + exists pos. repeat split; try lia. eauto.
    + destruct (IH (S pos)) as (r & E & Hr & H1 & H2); [lia|]. exists r. repeat split; auto; try lia.
      intros Er i w Hi. destruct (Nat.eq_dec i pos) as [->|]; [congruence|]. apply H1; auto. lia.
Qed.
Lemma u_pos_ok l key : c_wf l -> exists r, ul_pos (sk l) (sn l) key = Ok r /\
  (r = sn l /\ absent (s_slots l) key \/ r < sn l /\ exists v, s_slots l r = Some (key, v)).
Proof.
  intros W. destruct (@u_find_ok l key W (sn l) 0 eq_refl) as (r & E & Hr & H1 & H2). exists r. split; [exact E|].
  destruct (Nat.eq_dec r (sn l)) as [Er|].
  - left. split; auto. intros v (i & Hi). eapply (H1 Er i v); [lia|auto].
  - right. split; [lia|]. apply H2. lia.
Qed.
Lemma u_lookup_ok l key : c_wf l -> exists r, sl_lookup ul_pos l key = Ok r /\ answers (s_slots l) key r.
Proof.
  intros W. pose proof W as (LN & LK & LV & HF & U). unfold sl_lookup.
  destruct (u_pos_ok key W) as (r & -> & [[-> A]|[Hr (v & Ev)]]); cbn [bind].
  - rewrite Nat.ltb_irrefl. exists None. split; auto. now apply answers_none.
  - destruct (Nat.ltb_spec r (sn l)); [|lia]. destruct (s_slots_live Ev) as (_ & -> & ->). cbn [bind]. rewrite Z.eqb_refl.
    exists (Some v). split; auto. eapply answers_at; eauto.
Qed.

Lemma c_new_wf : c_wf (sl_new V M).
Proof.
  unfold c_wf, sl_new, anew. cbn [sn sk sv]. rewrite !repeat_length. split; [lia|]. repeat (split; auto).
  - intros i H. lia.
  - intros i j k v w H. apply s_slots_live in H as [H _]. cbn [sn] in H. lia.
Qed.

Lemma u_reach_wf t l : u_reach t M l -> c_wf l.
Proof.
  induction 1 as [|l k v l' _ IH E|l k v b l' _ IH H E|l k v n l' _ IH A Hn E].
  - apply c_new_wf.
  - pose proof IH as (LN & LK & LV & HF & U). unfold ul_insert in E.
    destruct (u_pos_ok k IH) as (r & Er & [[-> A]|[Hr (w & Ew)]]); rewrite Er in E; cbn [bind] in E.
    + rewrite Nat.ltb_irrefl in E. cbn [bind] in E. destruct (Nat.eqb_spec (sn l) M) as [|NE].
      * exfalso. destruct (ul_split t M l) as [[[node sib] s]| |]; try discriminate. cbn [bind] in E.
        match type of E with (do x <- ?m; _) = _ => destruct m as [[a b]| |] end; try discriminate. cbn [bind] in E.
        destruct (findMinKeyPos (sk b) (sn b)) as [x| |]; try discriminate. cbn [bind] in E. destruct (aget (sk b) x); discriminate.
      * destruct (@u_prefix l k v 3 IH ltac:(lia) A) as (l1 & E1 & W1 & _).
        unfold ul_append in E. cbn [firstn exec ul_stores s_step] in E1.
        destruct (aset (sk l) (sn l) k); try discriminate. cbn [bind sn sk sv] in *.
        destruct (aset (sv l) (sn l) v); try discriminate. cbn [bind sn sk sv] in *. congruence.
    + destruct (Nat.ltb_spec r (sn l)); [|lia]. destruct (s_slots_live Ew) as (_ & Hk & Hw). rewrite Hk in E. cbn [bind] in E.
      rewrite Z.eqb_refl in E. destruct (aset (sv l) r v) as [vs| |] eqn:Ev; try discriminate. cbn [bind] in E. injection E as <-.
      unfold c_wf. cbn [sn sk sv]. rewrite (aset_length Ev). repeat (split; auto).
      * intros i Hi. destruct (HF i Hi) as (k' & v' & -> & E'). rewrite (aget_aset i Ev), E'. destruct (i =? r); eauto.
      * apply (@uniq_over V (s_slots l) _ r k w v U Ew). intros i. unfold s_slots, upd. cbn [sn sk sv]. rewrite (aget_aset i Ev).
        destruct (Nat.eqb_spec i r) as [->|]; [|reflexivity]. destruct (Nat.ltb_spec r (sn l)); [|lia]. now rewrite Hk.
  - pose proof IH as (LN & LK & LV & HF & U). unfold ul_erase in E.
    destruct (u_pos_ok k IH) as (r & Er & [[-> A]|[Hr (w & Ew)]]); [destruct (A _ H)|]. rewrite Er in E. cbn [bind] in E.
    destruct (s_slots_live Ew) as (_ & Hk & Hw). rewrite Hk in E. cbn [bind] in E. rewrite Z.eqb_refl in E.
    destruct (Nat.eqb_spec (sn l) 0); [lia|]. destruct (Nat.eqb_spec r (sn l - 1)) as [Erl|Nrl].
    + injection E as <- <-. unfold c_wf. cbn [sn sk sv]. split; [lia|]. repeat (split; auto).
      * intros i Hi. apply HF. lia.
      * apply (@uniq_clear V (s_slots l) _ r U). intros i. unfold s_slots, upd. cbn [sn sk sv].
        destruct (Nat.eqb_spec i r); destruct (Nat.ltb_spec i (sn l - 1)); destruct (Nat.ltb_spec i (sn l)); try lia; reflexivity.
    + destruct (HF (sn l - 1)) as (k' & v' & Ek' & Ev'); [lia|]. rewrite Ek', Ev' in E. cbn [bind] in E.
      destruct (aset (sk l) r k') as [ks| |] eqn:EK; try discriminate. cbn [bind] in E.
      destruct (aset (sv l) r v') as [vs| |] eqn:EV; try discriminate. cbn [bind] in E. injection E as <- <-.
      pose proof (@s_slots_at l (sn l - 1) k' v' ltac:(lia) Ek' Ev') as SL.
      unfold c_wf. cbn [sn sk sv]. rewrite (aset_length EK), (aset_length EV). split; [lia|]. repeat (split; auto).
      * intros i Hi. rewrite (aget_aset i EK), (aget_aset i EV). destruct (i =? r); [eauto|]. apply HF. lia.
      * set (s1 := upd (s_slots l) (sn l - 1) None).
        assert (U1 : uniq s1) by (eapply uniq_clear; [exact U|now intros i]).
        apply (@uniq_upd V (upd s1 r None) _ r k' v').
        -- eapply uniq_clear; [exact U1|now intros i].
        -- intros v0 (i & Hi). unfold upd in Hi. destruct (i =? r); [discriminate|]. unfold s1, upd in Hi.
           destruct (Nat.eqb_spec i (sn l - 1)) as [|NE]; [discriminate|]. apply NE. eapply U; eauto.
        -- intros i. unfold s1, upd. unfold s_slots at 1. cbn [sn sk sv]. rewrite (aget_aset i EK), (aget_aset i EV).
           destruct (Nat.eqb_spec i r) as [->|].
           ++ destruct (Nat.ltb_spec r (sn l - 1)); [reflexivity|lia].
           ++ unfold s_slots. destruct (Nat.eqb_spec i (sn l - 1)), (Nat.ltb_spec i (sn l - 1)), (Nat.ltb_spec i (sn l)); try lia; reflexivity.
  - destruct (@u_prefix l k v n IH Hn A) as (l1 & E1 & W1 & _). congruence.
Qed.

Lemma u_atomic_wf l key val : c_wf l -> absent (s_slots l) key -> sn l < M -> forall n, exists l',
  exec (@s_step V) l (firstn n (ul_stores l key val)) = Ok l' /\ c_wf l' /\
  (same (s_slots l) (s_slots l') \/ plus (s_slots l) key val (s_slots l')) /\
  (length (ul_stores l key val) <= n -> plus (s_slots l) key val (s_slots l')).
Proof.
  intros W A Hn n. destruct (@u_prefix l key val n W Hn A) as (l' & E & W' & C). exists l'. split; [exact E|]. split; [exact W'|].
  assert (S0 : s_slots l (sn l) = None) by now apply s_slots_out.
  assert (P : 3 <= n -> plus (s_slots l) key val (s_slots l')).
  { destruct C as [[? ?]|[? C]]; [lia|]. intros _. eapply plus_upd; eauto. }
  split; [|cbn [ul_stores length]; intros; apply P; lia].
  destruct C as [[Hn' C]|[Hn' C]]; [left; now apply same_eqs|right; auto].
Qed.
Lemma u_atomic t l key val : u_reach t M l -> absent (s_slots l) key -> sn l < M -> forall n, exists l',
  exec (@s_step V) l (firstn n (ul_stores l key val)) = Ok l' /\
  (same (s_slots l) (s_slots l') \/ plus (s_slots l) key val (s_slots l')) /\
  (length (ul_stores l key val) <= n -> plus (s_slots l) key val (s_slots l')).
Proof.
  intros R A Hn n. destruct (@u_atomic_wf l key val (u_reach_wf R) A Hn n) as (l' & E & _ & C). exists l'. auto.
Qed.
Lemma u_stores_append l key val : exec (@s_step V) l (ul_stores l key val) = ul_append l key val.
Proof.
  unfold ul_append, ul_stores. cbn [exec s_step sn sk sv]. destruct (aset (sk l) (sn l) key); cbn [bind sn sk sv]; try reflexivity.
  destruct (aset (sv l) (sn l) val); reflexivity.
Qed.

(** ** Sorted leaves *)
Lemma s_ok_wf l : s_ok M l -> c_wf l.
Proof.
  intros (LN & LK & LV & HF & HS). repeat (split; auto). intros i j k v w Hi Hj.
  apply s_slots_live in Hi as (Li & Ei & _). apply s_slots_live in Hj as (Lj & Ej & _).
  destruct (Nat.lt_trichotomy i j) as [H|[H|H]]; auto.
  - specialize (HS i j k k ltac:(lia) Ei Ej). lia.
  - specialize (HS j i k k ltac:(lia) Ej Ei). lia.
Qed.
Lemma s_append l key val : s_ok M l -> sn l < M -> (forall k v, has (s_slots l) k v -> (k < key)%Z) -> forall n, exists l',
  exec (@s_step V) l (firstn n (sl_stores l (sn l) key val)) = Ok l' /\ s_ok M l' /\
  (same (s_slots l) (s_slots l') \/ plus (s_slots l) key val (s_slots l')).
Proof.
  intros W Hn A n. pose proof (s_ok_wf W) as C. unfold sl_stores. rewrite Nat.sub_diag. cbn [shift_stores app].
  assert (AB : absent (s_slots l) key) by (intros v H; specialize (A _ _ H); lia).
  destruct (@u_prefix l key val n C Hn AB) as (l' & E & (LN' & LK' & LV' & HF' & U') & D). unfold ul_stores in E.
  exists l'. split; [exact E|]. pose proof W as (LN & LK & LV & HF & HS). split.
  - split; [exact LN'|]. split; [exact LK'|]. split; [exact LV'|]. split; [exact HF'|].
    intros i j k k' Hij Ei Ej.
    destruct (HF' i) as (ki & vi & Ki & Vi); [lia|]. destruct (HF' j) as (kj & vj & Kj & Vj); [lia|].
    assert (ki = k) by congruence. assert (kj = k') by congruence. subst ki kj.
    pose proof (@s_slots_at l' i k vi ltac:(lia) Ei Vi) as Si. pose proof (@s_slots_at l' j k' vj ltac:(lia) Ej Vj) as Sj.
    destruct D as [[_ D]|[_ D]]; rewrite D in Si, Sj.
    + apply s_slots_live in Si as (? & ? & _). apply s_slots_live in Sj as (? & ? & _). eapply HS; [|eassumption|eassumption]. lia.
    + unfold upd in *. destruct (Nat.eqb_spec i (sn l)), (Nat.eqb_spec j (sn l)); try lia.
      * apply s_slots_live in Sj as (? & ? & _). lia.
      * injection Sj as <- <-. eapply A. exists i. exact Si.
      * apply s_slots_live in Si as (? & ? & _). apply s_slots_live in Sj as (? & ? & _). eapply HS; [|eassumption|eassumption]. lia.
  - destruct D as [[_ D]|[_ D]]; [left; now apply same_eqs|right]. eapply plus_upd; [|exact D]. now apply s_slots_out.
Qed.

Lemma exec_app {L} (step : L -> store V -> res L) p q (l0 : L) : exec step l0 (p ++ q) = do x <- exec step l0 p; exec step x q.
Proof. revert l0; induction p as [|s p IH]; intros l0; cbn [app exec bind]; [reflexivity|]. destruct (step l0 s); cbn [bind]; auto. Qed.

(** The stores are those of the model of insertInLeafNodeAtPosition. *)
Lemma shift_exec n : forall hi l,
  exec (@s_step V) l (shift_stores V n hi) =
  (do kv <- for_down hi n
             (fun i kv => do ks <- (do x <- aget (fst kv) (i - 1); aset (fst kv) i x);
                          do vs <- (do x <- aget (snd kv) (i - 1); aset (snd kv) i x);
                          Ok (ks, vs)) (sk l, sv l);
   Ok (SLeaf (sn l) (fst kv) (snd kv))).
Proof.
  induction n as [|n IH]; intros hi l; cbn [shift_stores for_down exec s_step bind fst snd].
  - now destruct l.
  - destruct (aget (sk l) (hi - 1)) as [x| |]; cbn [bind]; try reflexivity.
    destruct (aset (sk l) hi x) as [ks| |]; cbn [bind sk sv]; try reflexivity.
    destruct (aget (sv l) (hi - 1)) as [y| |]; cbn [bind]; try reflexivity.
    destruct (aset (sv l) hi y) as [vs| |]; cbn [bind]; try reflexivity. now rewrite IH.
Qed.
Lemma sl_stores_insert l pos key val : exec (@s_step V) l (sl_stores l pos key val) = sl_insert_at l pos key val.
Proof.
  unfold sl_stores, sl_insert_at. rewrite exec_app, shift_exec.
  destruct (for_down (sn l) (sn l - pos) _ (sk l, sv l)) as [[ks vs]| |]; cbn [bind fst snd]; try reflexivity.
  cbn [exec s_step sn sk sv]. destruct (aset ks pos key) as [ks'| |]; cbn [bind sn sk sv]; try reflexivity.
  destruct (aset vs pos val); reflexivity.
Qed.

(** Slots below the insert position never change. *)
Definition s_inv l0 pos l := length (sk l) = M /\ length (sv l) = M /\ pos <= sn l /\
  (forall i, i < sn l0 -> (exists k, aget (sk l) i = Ok k) /\ exists v, aget (sv l) i = Ok v) /\
  forall i, i < pos -> aget (sk l) i = aget (sk l0) i /\ aget (sv l) i = aget (sv l0) i.
Definition s_safe (n0 pos : nat) (s : store V) : Prop :=
  match s with
  | SKey i _ | SVal i _ => pos <= i < M
  | CopyKey i j | CopyVal i j => pos <= i < M /\ j < n0
  | SNum n => pos <= n
  | _ => False
  end.
Lemma s_step_inv l0 pos l s : s_inv l0 pos l -> s_safe (sn l0) pos s -> exists l', s_step l s = Ok l' /\ s_inv l0 pos l'.
Proof.
  intros (LK & LV & HN & HF & HA) HS.
  assert (KEY : forall i k, pos <= i < M -> exists ks, aset (sk l) i k = Ok ks /\ s_inv l0 pos (SLeaf (sn l) ks (sv l))).
  { intros i k Hi. destruct (@aset_ok _ (sk l) i k) as (ks & E); [lia|]. exists ks. split; auto.
    unfold s_inv. cbn [sn sk sv]. rewrite (aset_length E). repeat (split; auto).
    - rewrite (aget_aset i0 E). destruct (i0 =? i); [eauto|]. now apply HF.
    - now apply HF.
    - rewrite (aget_aset i0 E). destruct (Nat.eqb_spec i0 i); [lia|]. now apply HA.
    - now apply HA. }
  assert (VAL : forall i v, pos <= i < M -> exists vs, aset (sv l) i v = Ok vs /\ s_inv l0 pos (SLeaf (sn l) (sk l) vs)).
  { intros i v Hi. destruct (@aset_ok _ (sv l) i v) as (vs & E); [lia|]. exists vs. split; auto.
    unfold s_inv. cbn [sn sk sv]. rewrite (aset_length E). repeat (split; auto).
    - now apply HF.
    - rewrite (aget_aset i0 E). destruct (i0 =? i); [eauto|]. now apply HF.
    - now apply HA.
    - rewrite (aget_aset i0 E). destruct (Nat.eqb_spec i0 i); [lia|]. now apply HA. }
  destruct s as [i k|i v|i j|i j|n|i|i h|i]; cbn [s_safe s_step] in *; try contradiction.
  - destruct (KEY i k HS) as (ks & -> & I). cbn [bind]. eauto.
  - destruct (VAL i v HS) as (vs & -> & I). cbn [bind]. eauto.
  - destruct HS as [Hi Hj]. destruct (HF j Hj) as [(k & ->) _]. cbn [bind]. destruct (KEY i k Hi) as (ks & -> & I). cbn [bind]. eauto.
  - destruct HS as [Hi Hj]. destruct (HF j Hj) as [_ (v & ->)]. cbn [bind]. destruct (VAL i v Hi) as (vs & -> & I). cbn [bind]. eauto.
  - eexists. split; [reflexivity|]. unfold s_inv. cbn [sn sk sv]. repeat (split; auto); try apply HF; try apply HA; auto.
Qed.
Lemma s_exec_inv l0 pos : forall p l, s_inv l0 pos l -> Forall (s_safe (sn l0) pos) p ->
  exists l', exec (@s_step V) l p = Ok l' /\ s_inv l0 pos l'.
Proof.
  induction p as [|s p IH]; intros l I F; cbn [exec]; [eauto|]. inversion F as [|? ? F1 F2]; subst.
  destruct (s_step_inv I F1) as (l1 & -> & I1). cbn [bind]. now apply IH.
Qed.
Lemma shift_safe n0 pos : forall n hi, pos + n = hi -> hi <= n0 -> n0 < M -> Forall (s_safe n0 pos) (shift_stores V n hi).
Proof.
  induction n as [|n IH]; intros hi E H HM; cbn [shift_stores]; [constructor|].
  constructor; [cbn [s_safe]; lia|]. constructor; [cbn [s_safe]; lia|]. apply IH; lia.
Qed.
Lemma Forall_firstn {A} (P : A -> Prop) n (xs : list A) : Forall P xs -> Forall P (firstn n xs).
Proof. intros H. rewrite <- (firstn_skipn n xs) in H. apply Forall_app in H. tauto. Qed.
Lemma s_below l pos key val n : s_ok M l -> sn l < M -> pos <= sn l ->
  exists l', exec (@s_step V) l (firstn n (sl_stores l pos key val)) = Ok l' /\
    forall i, i < pos -> s_slots l' i = s_slots l i.
Proof.
  intros (LN & LK & LV & HF & _) Hn Hp.
  destruct (@s_exec_inv l pos (firstn n (sl_stores l pos key val)) l) as (l' & E & (_ & _ & I1 & _ & I2)).
  - split; [exact LK|]. split; [exact LV|]. split; [exact Hp|]. split; [|auto]. intros i Hi. destruct (HF i Hi) as (k & v & -> & ->). eauto.
  - apply Forall_firstn. unfold sl_stores. apply Forall_app. split.
    + apply shift_safe; lia.
    + repeat constructor; cbn [s_safe]; lia.
  - exists l'. split; [exact E|]. intros i Hi. unfold s_slots. destruct (I2 i Hi) as [-> ->].
    destruct (Nat.ltb_spec i (sn l')), (Nat.ltb_spec i (sn l)); try lia; reflexivity.
Qed.
End Counter.

(** * FPTree leaves *)
Section Fp.
Variables (V : Type) (t : ktype) (fp : Z -> Z) (junk : nat -> Z) (M : nat).
Implicit Types (l : fleaf V) (key k : Z) (val v : V).

Definition f_len l := bm_ok M (fb l) /\ length (ff l) = M /\ length (fk l) = M /\ length (fv l) = M.
Definition f_full l := forall i, bit (fb l) i = true -> exists k v, aget (fk l) i = Ok k /\ aget (fv l) i = Ok v.
(** The slots lookup can see. *)
Definition f_seen l : slots V := fun i =>
  match f_slots M l i with Some (k, v) => match lget (ff l) i with Ok h => if (h =? fp k)%Z then Some (k, v) else None | _ => None end | None => None end.
Definition f_wk l := f_len l /\ f_full l /\ uniq (f_slots M l).
Definition f_wf l := f_wk l /\ eqs (f_slots M l) (f_seen l).

Lemma f_slots_bit l i : f_len l -> f_slots M l i = if bit (fb l) i then pair_of (aget (fk l) i) (aget (fv l) i) else None.
Proof.
  intros (HB & _). unfold f_slots. destruct (Nat.lt_ge_cases i M) as [Hi|Hi].
  - rewrite bm_test_ok by assumption. now destruct (bit (fb l) i).
  - replace (bm_test M (fb l) i) with (@UB bool).
    + destruct HB as (_ & _ & HB). now rewrite HB.
    + unfold bm_test. destruct (Nat.ltb_spec i M); [lia|reflexivity].
Qed.
Lemma f_slots_out l i : f_len l -> M <= i -> f_slots M l i = None.
Proof. intros H Hi. rewrite f_slots_bit by assumption. destruct H as ((_ & _ & HB) & _). now rewrite HB. Qed.
Lemma f_slots_live l i k v : f_len l -> f_slots M l i = Some (k, v) ->
  i < M /\ bit (fb l) i = true /\ aget (fk l) i = Ok k /\ aget (fv l) i = Ok v.
Proof.
  intros H E. destruct (Nat.lt_ge_cases i M); [|rewrite f_slots_out in E by assumption; discriminate].
  rewrite f_slots_bit in E by assumption. destruct (bit (fb l) i); [|discriminate]. unfold pair_of in E.
  destruct (aget (fk l) i); try discriminate. destruct (aget (fv l) i); try discriminate. injection E as <- <-. auto.
Qed.
Lemma f_seen_slot l i k v : f_seen l i = Some (k, v) -> f_slots M l i = Some (k, v).
Proof.
  unfold f_seen. destruct (f_slots M l i) as [[k' v']|]; [|discriminate]. destruct (lget (ff l) i) as [h| |]; try discriminate.
  now destruct (h =? fp k')%Z.
Qed.
Lemma f_seen_uniq l : uniq (f_slots M l) -> uniq (f_seen l).
Proof. intros U i j k v w Hi Hj. eapply U; apply f_seen_slot; eauto. Qed.

Lemma f_find_ok l key : f_len l -> f_full l -> forall n pos, pos + n = M ->
  exists r, fl_find fp M n l pos key = Ok r /\ r <= M /\
    (r = M -> forall i v, pos <= i -> f_seen l i <> Some (key, v)) /\
    (r < M -> exists v, f_seen l r = Some (key, v)).
Proof.
  intros HL HF. pose proof HL as (HB & LF & _). induction n as [|n IH]; intros pos Hp; cbn [fl_find].
  - exists pos. repeat split; try lia. intros _ i v Hi E. apply f_seen_slot in E. rewrite f_slots_out in E by (auto; lia). discriminate.
  - assert (STEP : (forall v, f_seen l pos <> Some (key, v)) -> exists r, fl_find fp M n l (S pos) key = Ok r /\ r <= M /\
      (r = M -> forall i v, pos <= i -> f_seen l i <> Some (key, v)) /\
      (r < M -> exists v, f_seen l r = Some (key, v))).
    { intros NO. destruct (IH (S pos)) as (r & E & Hr & H1 & H2); [lia|]. exists r. repeat split; auto; try lia.
      intros Er i v Hi. destruct (Nat.eq_dec i pos) as [->|]; [apply NO|]. apply H1; auto. lia. }
    assert (SE : forall k v, f_seen l pos = Some (k, v) -> exists h, lget (ff l) pos = Ok h /\ h = fp k).
    { intros k v E. unfold f_seen in E. destruct (f_slots M l pos) as [[k' v']|]; [|discriminate].
      destruct (lget (ff l) pos) as [h| |]; try discriminate. destruct (Z.eqb_spec h (fp k')); [|discriminate]. injection E as <- <-. eauto. }
    rewrite lget_nth with (d := 0%Z) by lia. rewrite lget_nth with (d := 0%Z) in SE by lia. cbn [bind].
    set (h := nth pos (ff l) 0%Z) in *.
    destruct (Z.eqb_spec h (fp key)) as [Eh|Nh].
    + rewrite bm_test_ok by (auto; lia). cbn [bind]. pose proof (f_slots_bit pos HL) as SB. destruct (bit (fb l) pos) eqn:Eb.
      * destruct (HF pos Eb) as (k & v & Ek & Ev). rewrite Ek, Ev in SB. cbn [pair_of] in SB. rewrite Ek. cbn [bind].
        destruct (Z.eqb_spec k key) as [->|NE].
        -- exists pos. repeat split; try lia. intros _. exists v. unfold f_seen. rewrite SB, lget_nth with (d := 0%Z) by lia.
           fold h. now rewrite Eh, Z.eqb_refl.
        -- apply STEP. intros w E. apply f_seen_slot in E. congruence.
      * cbn [bind]. apply STEP. intros w E. apply f_seen_slot in E. congruence.
    + cbn [bind]. apply STEP. intros w E. destruct (SE _ _ E) as (h' & [= <-] & X). congruence.
Qed.
Lemma f_pos_ok l key : f_len l -> f_full l -> exists r, fl_pos fp M l key = Ok r /\
  (r = M /\ absent (f_seen l) key \/ r < M /\ exists v, f_seen l r = Some (key, v)).
Proof.
  intros HL HF. destruct (@f_find_ok l key HL HF M 0 eq_refl) as (r & E & Hr & H1 & H2). exists r. split; [exact E|].
  destruct (Nat.eq_dec r M) as [Er|].
  - left. split; auto. intros v (i & Hi). eapply (H1 Er i v); [lia|auto].
  - right. split; [lia|]. apply H2. lia.
Qed.
Lemma f_lookup_ok l key : f_wk l -> exists r, fl_lookup fp M l key = Ok r /\ answers (f_seen l) key r.
Proof.
  intros (HL & HF & U). unfold fl_lookup. destruct (f_pos_ok key HL HF) as (r & -> & [[-> A]|[Hr (v & Ev)]]); cbn [bind].
  - rewrite Nat.ltb_irrefl. exists None. split; auto. now apply answers_none.
  - destruct (Nat.ltb_spec r M); [|lia]. destruct (f_slots_live HL (f_seen_slot Ev)) as (_ & _ & _ & ->). cbn [bind].
    exists (Some v). split; auto. eapply answers_at; [now apply f_seen_uniq|eauto].
Qed.
Lemma f_scan_loop l : f_len l -> f_full l -> forall n i out, i + n = M ->
  for_up i n (fun i out =>
    do b <- bm_test M (fb l) i;
    if (b : bool) then do k <- aget (fk l) i; do v <- aget (fv l) i; Ok (out ++ [(k, v)])
    else Ok out) out = Ok (out ++ collect (f_slots M l) n i).
Proof.
  intros HL HF. pose proof HL as (HB & _). induction n as [|n IH]; intros i out Hi; cbn [for_up collect].
  - now rewrite app_nil_r.
  - rewrite bm_test_ok by (auto; lia). cbn [bind]. rewrite (f_slots_bit i HL). destruct (bit (fb l) i) eqn:Eb.
    + destruct (HF i Eb) as (k & v & -> & ->). cbn [bind pair_of]. rewrite IH by lia. now rewrite <- app_assoc.
    + cbn [bind]. rewrite IH by lia. reflexivity.
Qed.
Lemma f_scan_ok l : f_wk l -> exists out, fl_scan M l = Ok out /\ reports (f_slots M l) out.
Proof.
  intros (HL & HF & U). unfold fl_scan. rewrite (@f_scan_loop l HL HF M 0 [] eq_refl). eexists. split; [reflexivity|].
  cbn [app]. apply reports_collect; auto. intros i Hi. now apply f_slots_out.
Qed.

(** Every prefix of the stores of an insert of a new key. *)
Lemma f_prefix l u key val n : f_wf l -> absent (f_slots M l) key -> u < M -> bit (fb l) u = false ->
  exists l', exec (@f_step V M) l (firstn n [SKey u key; SVal u val; SBit u; SFp u (fp key)]) = Ok l' /\ f_wk l' /\
    (n < 3 /\ f_wf l' /\ eqs (f_slots M l) (f_slots M l') \/
     3 <= n /\ eqs (upd (f_slots M l) u (Some (key, val))) (f_slots M l') /\
       (eqs (f_slots M l) (f_seen l') \/ eqs (upd (f_slots M l) u (Some (key, val))) (f_seen l')) /\
       (4 <= n -> f_wf l')).
Proof.
  intros ((HL & HF & U) & HE) A Hu Hb. pose proof HL as (HB & LF & LK & LV).
  assert (S0 : f_slots M l u = None) by (rewrite f_slots_bit, Hb; auto).
  destruct n as [|n].
  { exists l. cbn [firstn exec]. split; [reflexivity|]. split; [exact (conj HL (conj HF U))|]. left. split; [lia|]. split; [|now intros i].
    split; [exact (conj HL (conj HF U))|exact HE]. }
  destruct (@aset_ok _ (fk l) u key) as (ks & Ek); [lia|]. destruct (@aset_ok _ (fv l) u val) as (vs & Ev); [lia|].
  destruct (bm_set_ok true HB Hu) as (b & Eb & HB' & Hbb).
  destruct (@lset_some _ (ff l) u (fp key)) as (f & Ef); [lia|].
  assert (GK : forall i, bit (fb l) i = true -> aget ks i = aget (fk l) i).
  { intros i Hi. rewrite (aget_aset i Ek). destruct (Nat.eqb_spec i u); [congruence|reflexivity]. }
  assert (GV : forall i, bit (fb l) i = true -> aget vs i = aget (fv l) i).
  { intros i Hi. rewrite (aget_aset i Ev). destruct (Nat.eqb_spec i u); [congruence|reflexivity]. }
  assert (P : forall vs', length vs' = M -> (forall i, bit (fb l) i = true -> aget vs' i = aget (fv l) i) ->
     f_wf (FLeaf (fb l) (ff l) ks vs') /\ eqs (f_slots M l) (f_slots M (FLeaf (fb l) (ff l) ks vs'))).
  { intros vs' L G. set (l' := FLeaf (fb l) (ff l) ks vs').
    assert (HL' : f_len l') by (unfold f_len, l'; cbn [fb ff fk fv]; rewrite (aset_length Ek); auto).
    assert (S : eqs (f_slots M l) (f_slots M l')).
    { intros i. rewrite (f_slots_bit i HL'), (f_slots_bit i HL). unfold l'. cbn [fb ff fk fv].
      destruct (bit (fb l) i) eqn:Ei; [|reflexivity]. now rewrite GK, G. }
    split; [|exact S]. split; [split; [exact HL'|split]|].
    - intros i Hi. unfold l' in *. cbn [fb ff fk fv] in *. rewrite GK, G by assumption. now apply HF.
    - eapply uniq_eqs; eauto.
    - intros i. rewrite S, <- HE. unfold f_seen. now rewrite S. }
  cbn [firstn exec f_step]. rewrite Ek. cbn [bind].
  destruct n as [|n].
  { cbn [firstn exec]. eexists. split; [reflexivity|]. destruct (P (fv l)) as [P1 P2]; auto. split; [apply P1|]. left. split; [lia|]. auto. }
  cbn [firstn exec f_step fb ff fk fv]. rewrite Ev. cbn [bind].
  destruct n as [|n].
  { cbn [firstn exec]. eexists. split; [reflexivity|]. destruct (P vs) as [P1 P2]; [rewrite (aset_length Ev); auto|auto|].
    split; [apply P1|]. left. split; [lia|]. auto. }
  cbn [firstn exec f_step fb ff fk fv]. rewrite Eb. cbn [bind].
  assert (Q : forall f', length f' = M -> (forall i, i <> u -> lget f' i = lget (ff l) i) ->
     f_wk (FLeaf b f' ks vs) /\ eqs (upd (f_slots M l) u (Some (key, val))) (f_slots M (FLeaf b f' ks vs)) /\
     forall i, i <> u -> f_seen (FLeaf b f' ks vs) i = f_slots M l i).
  { intros f' L G. set (l' := FLeaf b f' ks vs).
    assert (HL' : f_len l') by (unfold f_len, l'; cbn [fb ff fk fv]; rewrite (aset_length Ek), (aset_length Ev); auto).
    assert (S : eqs (upd (f_slots M l) u (Some (key, val))) (f_slots M l')).
    { intros i. rewrite (f_slots_bit i HL'). unfold upd, l'. cbn [fb ff fk fv]. rewrite Hbb.
      destruct (Nat.eqb_spec i u) as [Ei|NE].
      - subst i. now rewrite (aget_aset u Ek), (aget_aset u Ev), Nat.eqb_refl.
      - rewrite (f_slots_bit i HL). destruct (bit (fb l) i) eqn:Ei; [|reflexivity]. now rewrite GK, GV. }
    split; [|split; [exact S|]].
    - split; [exact HL'|]. split; [|eapply uniq_upd; eauto]. intros i Hi. unfold l' in *. cbn [fb ff fk fv] in *. rewrite Hbb in Hi.
      rewrite (aget_aset i Ek), (aget_aset i Ev). destruct (i =? u); eauto.
    - intros i NE. rewrite <- HE. unfold f_seen. rewrite S. unfold upd, l'. cbn [ff]. destruct (Nat.eqb_spec i u); [contradiction|].
      now rewrite G. }
  destruct n as [|n].
  - cbn [firstn exec]. eexists. split; [reflexivity|]. destruct (Q (ff l)) as (Q1 & Q2 & Q3); auto.
    split; [exact Q1|]. right. split; [lia|]. split; [exact Q2|]. split; [|lia].
    assert (D : f_seen (FLeaf b (ff l) ks vs) u = None \/ f_seen (FLeaf b (ff l) ks vs) u = Some (key, val)).
    { unfold f_seen. rewrite Q2. unfold upd. rewrite Nat.eqb_refl. cbn [ff]. destruct (lget (ff l) u) as [h| |]; auto.
      destruct (h =? fp key)%Z; auto. }
    destruct D as [D|D]; [left|right]; intros i; destruct (Nat.eq_dec i u) as [Ei|NE].
    + subst i. now rewrite D.
    + now apply Q3.
    + subst i. unfold upd. now rewrite Nat.eqb_refl.
    + unfold upd. destruct (Nat.eqb_spec i u); [contradiction|]. now apply Q3.
  - cbn [firstn exec f_step fb ff fk fv]. rewrite Ef. cbn [of_opt bind].
    assert (X : firstn n (@nil (store V)) = []) by now destruct n. rewrite X. cbn [exec].
    eexists. split; [reflexivity|]. destruct (Q f) as (Q1 & Q2 & Q3).
    { now rewrite (lset_length Ef). }
    { intros i NE. unfold lget. rewrite (lset_nth i Ef). destruct (Nat.eqb_spec i u); [contradiction|reflexivity]. }
    assert (S : f_seen (FLeaf b f ks vs) u = Some (key, val)).
    { unfold f_seen. rewrite Q2. unfold upd. rewrite Nat.eqb_refl. cbn [ff]. unfold lget. rewrite (lset_nth u Ef), Nat.eqb_refl.
      cbn [of_opt]. now rewrite Z.eqb_refl. }
    assert (Q4 : eqs (upd (f_slots M l) u (Some (key, val))) (f_seen (FLeaf b f ks vs))).
    { intros i. unfold upd. destruct (Nat.eqb_spec i u) as [Ei|NE]; [subst i; exact S|now apply Q3]. }
    split; [exact Q1|]. right. split; [lia|]. split; [exact Q2|]. split; [right; exact Q4|].
    intros _. split; [exact Q1|]. intros i. now rewrite Q2, Q4.
Qed.

Lemma f_new_wf : f_wf (fl_new V junk M).
Proof.
  assert (L : f_len (fl_new V junk M)).
  { unfold f_len, fl_new, anew. cbn [fb ff fk fv]. rewrite !repeat_length, map_length, seq_length. split; [apply bm_new_ok|auto]. }
  assert (S : forall i, f_slots M (fl_new V junk M) i = None).
  { intros i. rewrite f_slots_bit by exact L. unfold fl_new. cbn [fb]. now rewrite bit_new. }
  split; [split; [exact L|split]|].
  - intros i H. unfold fl_new in H. cbn [fb] in H. rewrite bit_new in H. discriminate.
  - intros i j k v w H. rewrite S in H. discriminate.
  - intros i. unfold f_seen. now rewrite S.
Qed.

Lemma f_put_exec l u key val : exec (@f_step V M) l [SKey u key; SVal u val; SBit u; SFp u (fp key)] = fl_insert_at fp M l u key val.
Proof.
  unfold fl_insert_at, fl_put. cbn [exec f_step fb ff fk fv].
  destruct (aset (fk l) u key); cbn [bind fb ff fk fv]; try reflexivity.
  destruct (aset (fv l) u val); cbn [bind fb ff fk fv]; try reflexivity.
  destruct (bm_set M (fb l) u true); cbn [bind fb ff fk fv]; try reflexivity.
  destruct (of_opt (lset (ff l) u (fp key))); reflexivity.
Qed.

Lemma f_absent l k : f_wf l -> absent (f_seen l) k -> absent (f_slots M l) k.
Proof. intros (_ & E) A v (i & H). apply (A v). exists i. now rewrite E. Qed.

Lemma f_reach_wf l : f_reach t fp junk M l -> f_wf l.
Proof.
  induction 1 as [|l k v l' _ IH E|l k b l' _ IH E].
  - apply f_new_wf.
  - pose proof IH as ((HL & HF & U) & HE). pose proof HL as (HB & LF & LK & LV). unfold fl_insert in E.
    destruct (f_pos_ok k HL HF) as (r & Er & [[-> A]|[Hr (w & Ew)]]); rewrite Er in E; cbn [bind] in E.
    + rewrite Nat.ltb_irrefl in E. destruct (getFreeZero_ok HB) as (u & Eu & Hu & _ & Z). rewrite Eu in E. cbn [bind] in E.
      destruct (Nat.eqb_spec u M) as [|NE].
      * exfalso. destruct (fl_split t junk M l) as [[[node sib] s]| |]; try discriminate. cbn [bind] in E.
        destruct (k >? s)%Z.
        { destruct (fl_add fp M sib k v); discriminate. }
        destruct (fl_maxpos t M node) as [p| |]; try discriminate. cbn [bind] in E.
        destruct (aget (fk node) p) as [mx| |]; try discriminate. cbn [bind] in E.
        destruct (k >? mx)%Z; [destruct (fl_add fp M sib k v)|destruct (fl_add fp M node k v)]; discriminate.
      * assert (Hu' : u < M) by lia.
        destruct (@f_prefix l u k v 4 IH (f_absent IH A) Hu' (Z Hu')) as (l1 & E1 & _ & [C|C]); [lia|].
        destruct C as (_ & _ & _ & C). cbn [firstn] in E1. rewrite f_put_exec in E1. rewrite E1 in E. cbn [bind] in E. injection E as <-.
        apply C. lia.
    + destruct (Nat.ltb_spec r M); [|lia]. pose proof (f_seen_slot Ew) as Es. destruct (f_slots_live HL Es) as (_ & Hb & Hk & Hv).
      destruct (aset (fv l) r v) as [vs| |] eqn:Ev; try discriminate. cbn [bind] in E. injection E as <-.
      set (l' := FLeaf (fb l) (ff l) (fk l) vs).
      assert (HL' : f_len l') by (unfold f_len, l'; cbn [fb ff fk fv]; rewrite (aset_length Ev); auto).
      assert (S : eqs (upd (f_slots M l) r (Some (k, v))) (f_slots M l')).
      { intros i. rewrite (f_slots_bit i HL'). unfold l', upd. cbn [fb ff fk fv]. rewrite (aget_aset i Ev).
        destruct (Nat.eqb_spec i r) as [Ei|]; [subst i; now rewrite Hb, Hk|]. symmetry. now apply f_slots_bit. }
      split; [split; [exact HL'|split]|].
      * intros i Hi. unfold l' in *. cbn [fb ff fk fv] in *. rewrite (aget_aset i Ev). destruct (HF i Hi) as (k' & v' & -> & ->).
        destruct (i =? r); eauto.
      * eapply uniq_over; eauto.
      * intros i. unfold f_seen. rewrite S. unfold upd. destruct (Nat.eqb_spec i r) as [Ei|].
        -- subst i. unfold l'. cbn [ff]. unfold f_seen in Ew. rewrite Es in Ew. destruct (lget (ff l) r) as [h| |]; try discriminate.
           destruct (h =? fp k)%Z; [reflexivity|discriminate].
        -- apply (HE i).
  - pose proof IH as ((HL & HF & U) & HE). pose proof HL as (HB & LF & LK & LV). unfold fl_erase in E.
    destruct (f_pos_ok k HL HF) as (r & Er & [[-> A]|[Hr (w & Ew)]]); rewrite Er in E; cbn [bind] in E.
    + rewrite Nat.ltb_irrefl in E. now injection E as <- <-.
    + destruct (Nat.ltb_spec r M); [|lia]. unfold fl_clear in E.
      destruct (bm_reset_ok HB Hr) as (b' & Eb & HB' & Hb). rewrite Eb in E. cbn [bind] in E. injection E as <- <-.
      set (l' := FLeaf b' (ff l) (fk l) (fv l)).
      assert (HL' : f_len l') by (unfold f_len, l'; cbn [fb ff fk fv]; auto).
      assert (S : eqs (upd (f_slots M l) r None) (f_slots M l')).
      { intros i. rewrite (f_slots_bit i HL'). unfold l', upd. cbn [fb ff fk fv]. rewrite Hb.
        destruct (i =? r); [reflexivity|]. symmetry. now apply f_slots_bit. }
      split; [split; [exact HL'|split]|].
      * intros i Hi. unfold l' in *. cbn [fb ff fk fv] in *. rewrite Hb in Hi. destruct (i =? r); [discriminate|auto].
      * eapply uniq_clear; eauto.
      * intros i. unfold f_seen. rewrite S. unfold upd. destruct (i =? r); [reflexivity|]. apply (HE i).
Qed.

Lemma answers_eq (s : slots V) k r r' : answers s k r -> answers s k r' -> r = r'.
Proof.
  intros A B. destruct r as [v|].
  - symmetry. apply B. now apply A.
  - destruct r' as [w|]; auto. apply A. now apply B.
Qed.
Lemma answers_eqs (s s' : slots V) k r : eqs s s' -> answers s' k r -> answers s k r.
Proof. intros E A v. rewrite (A v). apply (same_eqs E). Qed.

Lemma f_atomic l key val : f_reach t fp junk M l -> absent (f_slots M l) key -> (exists i, i < M /\ bm_test M (fb l) i = Ok false) ->
  exists p, fl_stores fp l key val = Ok p /\ forall n, exists l',
    exec (@f_step V M) l (firstn n p) = Ok l' /\
    ((forall k, fl_lookup fp M l' k = fl_lookup fp M l k) \/
     (forall k, fl_lookup fp M l' k = if (k =? key)%Z then Ok (Some val) else fl_lookup fp M l k)) /\
    (same (f_slots M l) (f_slots M l') \/ plus (f_slots M l) key val (f_slots M l')) /\
    (exists out, fl_scan M l' = Ok out /\ reports (f_slots M l') out) /\
    (length p <= n -> plus (f_slots M l) key val (f_slots M l') /\ fl_lookup fp M l' key = Ok (Some val)).
Proof.
  intros R A (i & Hi & Hf). pose proof (f_reach_wf R) as W. pose proof W as ((HL & HF & U) & HE). pose proof HL as (HB & LF & LK & LV).
  rewrite bm_test_ok in Hf by assumption. injection Hf as Hf.
  destruct (getFreeZero_ok HB) as (u & Eu & Hu & H1 & H2).
  assert (Hu' : u < M). { destruct (Nat.lt_ge_cases u M); auto. rewrite H1 in Hf by lia. discriminate. }
  specialize (H2 Hu'). unfold fl_stores. rewrite Eu. cbn [bind]. eexists. split; [reflexivity|]. intros n.
  destruct (@f_prefix l u key val n W A Hu' H2) as (l' & E & W' & C). exists l'. split; [exact E|].
  assert (S0 : f_slots M l u = None) by (rewrite f_slots_bit, H2; auto).
  assert (OLD : eqs (f_slots M l) (f_seen l') -> forall k, fl_lookup fp M l' k = fl_lookup fp M l k).
  { intros S k. destruct (f_lookup_ok k W') as (r' & -> & A'). destruct (f_lookup_ok k (proj1 W)) as (r & -> & A0). f_equal.
    exact (answers_eq (answers_eqs S A') (answers_eqs HE A0)). }
  assert (NEW : eqs (upd (f_slots M l) u (Some (key, val))) (f_seen l') ->
     forall k, fl_lookup fp M l' k = if (k =? key)%Z then Ok (Some val) else fl_lookup fp M l k).
  { intros S k. destruct (f_lookup_ok k W') as (r' & -> & A'). apply (answers_eqs S) in A'.
    destruct (Z.eqb_spec k key) as [->|NE].
    - f_equal. apply A'. exists u. unfold upd. now rewrite Nat.eqb_refl.
    - destruct (f_lookup_ok k (proj1 W)) as (r & -> & A0). apply (answers_eqs HE) in A0. f_equal.
      apply (@answers_eq (f_slots M l) k); auto. intros v. rewrite (A' v). unfold has, upd. split; intros (j & Hj); exists j.
      + destruct (j =? u); [congruence|auto].
      + destruct (Nat.eqb_spec j u); [congruence|auto]. }
  split; [|split; [|split]].
  - destruct C as [(Hn & Wf & S)|(Hn & S & [S'|S'] & _)].
    + left. apply OLD. intros j. now rewrite (proj2 Wf), S.
    + left. now apply OLD.
    + right. now apply NEW.
  - destruct C as [(Hn & Wf & S)|(Hn & S & _)]; [left; now apply same_eqs|right; eapply plus_upd; eauto].
  - now apply f_scan_ok.
  - cbn [length]. intros Hn. destruct C as [(? & _)|(_ & S & _ & Wf)]; [lia|]. specialize (Wf Hn). split; [eapply plus_upd; eauto|].
    rewrite NEW; [now rewrite Z.eqb_refl|]. intros j. now rewrite (proj2 Wf), S.
Qed.
Lemma f_agree l : f_reach t fp junk M l -> exists out, fl_scan M l = Ok out /\ reports (f_slots M l) out /\
  forall k, exists r, fl_lookup fp M l k = Ok r /\ answers (f_slots M l) k r.
Proof.
  intros R. pose proof (f_reach_wf R) as W. destruct (f_scan_ok (proj1 W)) as (out & E & H). exists out. split; [exact E|]. split; [exact H|].
  intros k. destruct (f_lookup_ok k (proj1 W)) as (r & Er & A). exists r. split; [exact Er|]. eapply answers_eqs; [exact (proj2 W)|exact A].
Qed.
End Fp.

(** With a constant fingerprint the FPTree search is the BitPBPTree search. *)
Lemma bl_find_fl {V} M (l : fleaf V) c key : (forall i, i < M -> lget (ff l) i = Ok c) -> forall n pos, pos + n <= M ->
  fl_find (fun _ => c) M n l pos key = bl_find M n (BLeaf (fb l) (fk l) (fv l)) pos key.
Proof.
  intros H. induction n as [|n IH]; intros pos Hp; cbn [fl_find bl_find]; [reflexivity|].
  rewrite H by lia. cbn [bind bb bkey]. rewrite Z.eqb_refl. destruct (bm_test M (fb l) pos) as [[]| |]; cbn [bind]; try reflexivity.
  - destruct (aget (fk l) pos) as [k| |]; cbn [bind]; try reflexivity. destruct (k =? key)%Z; [reflexivity|]. apply IH. lia.
  - apply IH. lia.
Qed.
