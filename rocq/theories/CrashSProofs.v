(** Prefixes of the stores of the leaf splits. *)
From Verif Require Import Base RankModel BitmapModel BitmapProofs BTreeModel SearchModel SLeafModel ULeafModel FLeafModel SlotLemmas FLeafProofs
  CrashModel CrashSpec CrashProofs CrashEProofs CrashSModel CrashSSpec.
Open Scope nat_scope.

Section Exec.
Variables (V L : Type) (step : L -> store V -> res L).
Variables (kat : L -> nat -> res Z) (vat : L -> nat -> res V) (fat : L -> nat -> res Z).
Notation X := (x_exec step kat vat fat).
Lemma x_exec_app (p q : list (xstore V)) : forall (st : sstate L), X st (p ++ q) = do s <- X st p; X s q.
Proof. induction p as [|x p IH]; intros st; cbn [app x_exec bind]; [reflexivity|]. destruct (x_step step kat vat fat st x); cbn [bind]; auto. Qed.

(** The linking. *)
Lemma link_prefix (hasNext : bool) (st : sstate L) (n : nat) : nnext st = (if hasNext then Some Rest else None) -> snext st = None ->
  exists st', X st (firstn n (link_stores hasNext)) = Ok st' /\ snode st' = snode st /\ ssib st' = ssib st /\
    (length (@link_stores V hasNext) - 2 < n -> nnext st' = Some Sib) /\
    (n <= length (@link_stores V hasNext) - 2 -> nnext st' <> Some Sib) /\
    (hasNext = true -> rest_listed st').
Proof.
  intros HN HS. unfold link_stores. destruct hasNext; cbn [app length Nat.sub].
  - destruct n as [|[|[|[|n]]]]; cbn [firstn x_exec x_step bind]; rewrite ?firstn_nil; cbn [x_exec]; eexists; (split; [reflexivity|]); cbn [snode ssib nnext snext];
      splits; auto; try lia; try congruence; unfold rest_listed; cbn [nnext snext]; rewrite ?HN; auto.
  - destruct n as [|[|n]]; cbn [firstn x_exec x_step bind]; rewrite ?firstn_nil; cbn [x_exec]; eexists; (split; [reflexivity|]); cbn [snode ssib nnext snext];
      splits; auto; try lia; try congruence; try discriminate.
Qed.
End Exec.

Lemma read_all_nth (a : arr Z) : forall n i data, read_all n i a = Ok data ->
  length data = n /\ forall m k, nth_error data m = Some k -> aget a (i + m) = Ok k.
Proof.
  induction n as [|n IH]; intros i data E; cbn [read_all] in E.
  - injection E as <-. split; [reflexivity|]. intros m k H. destruct m; discriminate.
  - destruct (aget a i) as [x| |] eqn:Ex; try discriminate. cbn [bind] in E. destruct (read_all n (S i) a) as [d| |] eqn:Ed; try discriminate.
    cbn [bind] in E. injection E as <-. destruct (IH _ _ Ed) as (L & H). split; [cbn [length]; lia|]. intros m k Hm. destruct m as [|m]; cbn [nth_error] in Hm.
    + injection Hm as <-. now rewrite Nat.add_0_r.
    + rewrite <- plus_n_Sm. now apply H.
Qed.
Lemma read_all_at (a : arr Z) n i data m k : read_all n i a = Ok data -> m < n -> aget a (i + m) = Ok k -> nth_error data m = Some k.
Proof.
  intros E Hm Ek. destruct (read_all_nth E) as (L & H). destruct (nth_error data m) as [x|] eqn:X.
  - apply H in X. congruence.
  - apply nth_error_None in X. lia.
Qed.

(** * Bitmap leaves *)
Section Fp.
Variables (V : Type) (fpt : bool) (fp : Z -> Z) (junk : nat -> Z) (M : nat).
Implicit Types (l : fleaf V).
Notation FS := (f_slots M).

Definition f_fine l := f_wk M l /\ (fpt = true -> eqs (FS l) (f_seen fp M l)).

Lemma f_bit_slot l i : f_wk M l -> FS l i = None -> bit (fb l) i = false.
Proof.
  intros (HL & HF & _) E. rewrite (f_slots_bit fp junk i HL) in E. destruct (bit (fb l) i) eqn:B; [|auto].
  destruct (HF i B) as (k & v & X & Y). rewrite X, Y in E. discriminate.
Qed.
Lemma f_dead l l' u : f_fine l -> bit (fb l) u = false -> fb l' = fb l ->
  length (ff l') = M -> length (fk l') = M -> length (fv l') = M ->
  (forall i, i <> u -> aget (fk l') i = aget (fk l) i /\ aget (fv l') i = aget (fv l) i /\ lget (ff l') i = lget (ff l) i) ->
  f_fine l' /\ eqs (FS l) (FS l').
Proof.
  intros ((HL & HF & U) & HE) Hu Eb LF LK LV HA. pose proof HL as (HB & _).
  assert (HL' : f_len M l') by (unfold f_len; rewrite Eb; auto).
  assert (S : eqs (FS l) (FS l')).
  { intros i. rewrite (f_slots_bit fp junk i HL), (f_slots_bit fp junk i HL'), Eb. destruct (bit (fb l) i) eqn:B; [|reflexivity].
    assert (i <> u) by congruence. destruct (HA i) as (-> & -> & _); auto. }
  split; [|exact S]. split; [split; [exact HL'|split]|].
  - intros i B. rewrite Eb in B. assert (i <> u) by congruence. destruct (HA i) as (-> & -> & _); auto.
  - eapply uniq_eqs; eauto.
  - intros T i. rewrite S, <- (HE T). unfold f_seen. rewrite S. destruct (FS l i) as [[k v]|] eqn:E; [|reflexivity].
    assert (i <> u). { intros ->. rewrite (f_slots_bit fp junk u HL), Hu in E. discriminate. }
    destruct (HA i) as (_ & _ & ->); auto.
Qed.
Lemma f_setbit l u k v : f_fine l -> u < M -> bit (fb l) u = false -> aget (fk l) u = Ok k -> aget (fv l) u = Ok v ->
  absent (FS l) k -> (fpt = true -> lget (ff l) u = Ok (fp k)) ->
  exists l', f_step M l (SBit u) = Ok l' /\ f_fine l' /\ eqs (upd (FS l) u (Some (k, v))) (FS l').
Proof.
  intros ((HL & HF & U) & HE) Hu Hb Ek Ev A HH. pose proof HL as (HB & LF & LK & LV). cbn [f_step].
  destruct (bm_set_ok true HB Hu) as (b & Eb & HB' & Hbb). rewrite Eb. cbn [bind]. eexists. split; [reflexivity|].
  set (l' := FLeaf b (ff l) (fk l) (fv l)).
  assert (HL' : f_len M l') by (unfold f_len, l'; cbn [fb ff fk fv]; auto).
  assert (S : eqs (upd (FS l) u (Some (k, v))) (FS l')).
  { intros i. rewrite (f_slots_bit fp junk i HL'). unfold upd, l'. cbn [fb ff fk fv]. rewrite Hbb.
    destruct (Nat.eqb_spec i u) as [->|]; [now rewrite Ek, Ev|]. symmetry. now apply (f_slots_bit fp junk). }
  split; [|exact S]. split; [split; [exact HL'|split]|].
  - intros i Hi. unfold l' in *. cbn [fb ff fk fv] in *. rewrite Hbb in Hi. destruct (Nat.eqb_spec i u) as [Ei|]; [rewrite Ei; eauto|auto].
  - eapply uniq_upd; eauto.
  - intros T i. unfold f_seen. rewrite S. unfold upd. destruct (Nat.eqb_spec i u) as [->|].
    + unfold l'. cbn [ff]. rewrite (HH T), Z.eqb_refl. reflexivity.
    + apply (HE T i).
Qed.
Lemma f_clrbit l u k v : f_fine l -> FS l u = Some (k, v) ->
  exists l', f_step M l (SClear u) = Ok l' /\ f_fine l' /\ eqs (upd (FS l) u None) (FS l') /\ fk l' = fk l /\ fv l' = fv l /\ ff l' = ff l.
Proof.
  intros ((HL & HF & U) & HE) Hs. pose proof HL as (HB & LF & LK & LV). destruct (f_slots_live fp junk HL Hs) as (Hu & _). cbn [f_step].
  destruct (bm_reset_ok HB Hu) as (b & Eb & HB' & Hbb). rewrite Eb. cbn [bind]. eexists. split; [reflexivity|].
  set (l' := FLeaf b (ff l) (fk l) (fv l)).
  assert (HL' : f_len M l') by (unfold f_len, l'; cbn [fb ff fk fv]; auto).
  assert (S : eqs (upd (FS l) u None) (FS l')).
  { intros i. rewrite (f_slots_bit fp junk i HL'). unfold upd, l'. cbn [fb ff fk fv]. rewrite Hbb.
    destruct (i =? u); [reflexivity|]. symmetry. now apply (f_slots_bit fp junk). }
  splits; auto. split; [split; [exact HL'|split]|].
  - intros i Hi. unfold l' in *. cbn [fb ff fk fv] in *. rewrite Hbb in Hi. destruct (i =? u); [discriminate|auto].
  - eapply uniq_clear; eauto.
  - intros T i. unfold f_seen. rewrite S. unfold upd. destruct (i =? u); [reflexivity|]. apply (HE T i).
Qed.

Definition mlen := if fpt then 5 else 4.
Notation FX := (fx_exec M).
Notation st_t := (sstate (fleaf V)).
Definition st_fine (st : st_t) := f_fine (snode st) /\ f_fine (ssib st).
Definition same_next (st st' : st_t) := nnext st' = nnext st /\ snext st' = snext st.

(** One entry. *)
Lemma move_prefix (st : st_t) i j k v : st_fine st -> FS (snode st) i = Some (k, v) -> FS (ssib st) j = None -> j < M ->
  absent (FS (ssib st)) k -> forall q, exists st', FX st (firstn q (move_stores V fpt i j)) = Ok st' /\ st_fine st' /\ same_next st st' /\
    eqs (if q <? mlen then FS (snode st) else upd (FS (snode st)) i None) (FS (snode st')) /\
    eqs (if q <? mlen - 1 then FS (ssib st) else upd (FS (ssib st)) j (Some (k, v))) (FS (ssib st')).
Proof.
  intros [FN FB] Hn Hj Lj A q. destruct st as [nd sb nn ns]. cbn [snode ssib nnext snext] in *.
  pose proof FN as ((HLn & HFn & Un) & HEn). pose proof HLn as (HBn & LFn & LKn & LVn).
  pose proof FB as (WB & HEb). pose proof WB as (HLb & HFb & Ub). pose proof HLb as (HBb & LFb & LKb & LVb).
  destruct (f_slots_live fp junk HLn Hn) as (Li & _ & Ek & Ev). pose proof (f_bit_slot WB Hj) as Hb.
  assert (H0 : eqs (FS nd) (FS nd)) by now intros x.
  assert (REFL : forall (s s' : slots V), eqs s s' -> eqs s' s) by (intros s s' E x; now rewrite E).
  unfold move_stores, mlen. cbn [app].
  destruct (@aset_ok _ (fk sb) j k) as (ks & EK); [lia|]. destruct (@aset_ok _ (fv sb) j v) as (vs & EV); [lia|].
  set (s1 := FLeaf (fb sb) (ff sb) ks (fv sb)). set (s2 := FLeaf (fb sb) (ff sb) ks vs).
  assert (D1 : f_fine s1 /\ eqs (FS sb) (FS s1)).
  { apply (@f_dead sb s1 j); auto; unfold s1; cbn [fb ff fk fv]; [now rewrite (aset_length EK)|]. intros x Hx. rewrite (aget_aset x EK).
    destruct (Nat.eqb_spec x j); [contradiction|]. auto. }
  assert (D2 : f_fine s2 /\ eqs (FS sb) (FS s2)).
  { apply (@f_dead sb s2 j); auto; unfold s2; cbn [fb ff fk fv]; [now rewrite (aset_length EK)|now rewrite (aset_length EV)|]. intros x Hx.
    rewrite (aget_aset x EK), (aget_aset x EV). destruct (Nat.eqb_spec x j); [contradiction|]. auto. }
  assert (K2 : aget ks j = Ok k) by (rewrite (aget_aset j EK), Nat.eqb_refl; reflexivity).
  assert (V2 : aget vs j = Ok v) by (rewrite (aget_aset j EV), Nat.eqb_refl; reflexivity).
  destruct q as [|q].
  { cbn [firstn]. unfold fx_exec. cbn [x_exec]. eexists. split; [reflexivity|]. cbn [snode ssib nnext snext]. unfold st_fine, same_next. cbn [snode ssib nnext snext].
    splits; auto; destruct fpt; try (now intros x). }
  cbn [firstn]. unfold fx_exec. cbn [x_exec x_step snode ssib nnext snext]. rewrite Ek. cbn [bind f_step]. rewrite EK. cbn [bind]. fold s1.
  destruct q as [|q].
  { cbn [firstn x_exec]. eexists. split; [reflexivity|]. unfold st_fine, same_next. cbn [snode ssib nnext snext].
    splits; auto; try apply D1; destruct fpt; try (now intros x); apply D1. }
  cbn [firstn x_exec x_step snode ssib nnext snext]. rewrite Ev. cbn [bind]. unfold s1 at 1. cbn [f_step fb ff fk fv]. rewrite EV. cbn [bind]. fold s2.
  destruct q as [|q].
  { cbn [firstn x_exec]. eexists. split; [reflexivity|]. unfold st_fine, same_next. cbn [snode ssib nnext snext].
    splits; auto; try apply D2; destruct fpt; try (now intros x); apply D2. }
  assert (FIN : forall s3, f_fine s3 -> eqs (FS sb) (FS s3) -> fb s3 = fb sb -> aget (fk s3) j = Ok k -> aget (fv s3) j = Ok v ->
     (fpt = true -> lget (ff s3) j = Ok (fp k)) -> forall q', exists st',
     x_exec (@f_step V M) (fun l => aget (fk l)) (fun l => aget (fv l)) (fun l => lget (ff l)) (SState nd s3 nn ns)
       (firstn q' [XSib (SBit j); XNode (SClear i)]) = Ok st' /\ st_fine st' /\ same_next (SState nd sb nn ns) st' /\
     eqs (if q' <? 2 then FS nd else upd (FS nd) i None) (FS (snode st')) /\
     eqs (if q' <? 1 then FS sb else upd (FS sb) j (Some (k, v))) (FS (ssib st'))).
  { intros s3 F3 S3 B3 K3 V3 H3 q'. destruct q' as [|q'].
    { cbn [firstn x_exec]. eexists. split; [reflexivity|]. unfold st_fine, same_next. cbn [snode ssib nnext snext]. splits; auto. }
    destruct (@f_setbit s3 j k v F3 Lj) as (s4 & E4 & F4 & S4); auto; [now rewrite B3|intros w (x & Hx); apply (A w); exists x; rewrite S3 in Hx; auto|].
    assert (S4' : eqs (upd (FS sb) j (Some (k, v))) (FS s4)).
    { intros x. rewrite S4. unfold upd. destruct (x =? j); [reflexivity|]. apply S3. }
    cbn [firstn x_exec x_step snode ssib nnext snext]. rewrite E4. cbn [bind].
    destruct q' as [|q'].
    { cbn [firstn x_exec]. eexists. split; [reflexivity|]. unfold st_fine, same_next. cbn [snode ssib nnext snext]. splits; auto. }
    destruct (f_clrbit FN Hn) as (n5 & E5 & F5 & S5 & _).
    cbn [firstn x_exec x_step snode ssib nnext snext]. rewrite E5. cbn [bind]. rewrite firstn_nil. cbn [x_exec].
    eexists. split; [reflexivity|]. unfold st_fine, same_next. cbn [snode ssib nnext snext]. splits; auto. }
  destruct fpt eqn:T; cbn [app].
  - destruct (@lset_some _ (ff sb) j (fp k)) as (f & Ef); [lia|].
    assert (Eh : lget (ff nd) i = Ok (fp k)).
    { pose proof (HEn eq_refl i) as X. rewrite Hn in X. unfold f_seen in X. rewrite Hn in X.
      destruct (lget (ff nd) i) as [h| |]; try discriminate. destruct (Z.eqb_spec h (fp k)); [congruence|discriminate]. }
    set (s3 := FLeaf (fb sb) f ks vs).
    assert (D3 : f_fine s3 /\ eqs (FS sb) (FS s3)).
    { apply (@f_dead sb s3 j); auto; unfold s3; cbn [fb ff fk fv]; [now rewrite (lset_length Ef)|now rewrite (aset_length EK)|now rewrite (aset_length EV)|]. intros x Hx.
      rewrite (aget_aset x EK), (aget_aset x EV). unfold lget. rewrite (lset_nth x Ef). destruct (Nat.eqb_spec x j); [contradiction|]. auto. }
    cbn [firstn x_exec x_step snode ssib nnext snext]. rewrite Eh. cbn [bind]. unfold s2 at 1. cbn [f_step fb ff fk fv]. rewrite Ef. cbn [of_opt bind]. fold s3.
    destruct (FIN s3) with (q' := q) as (st' & E & F & N & S1 & S2); auto; try apply D3.
    { unfold s3. cbn [ff]. intros _. unfold lget. rewrite (lset_nth j Ef), Nat.eqb_refl. reflexivity. }
    exists st'. split; [exact E|]. splits; auto.
  - destruct (FIN s2) with (q' := S q) as (st' & E & F & N & S1 & S2); auto; try apply D2; [discriminate|].
    exists st'. split; [exact E|]. splits; auto.
Qed.

Lemma moves_length : forall keys s i j,
  length (moves V fpt keys s i j) = mlen * length (filter (fun k => (k >=? s)%Z) keys).
Proof.
  induction keys as [|k r IH]; intros s i j; cbn [moves filter length]; [lia|].
  destruct (k >=? s)%Z; [|apply IH]. rewrite app_length, IH. unfold move_stores, mlen. destruct fpt; cbn [app length]; lia.
Qed.

Definition union_same (st st' : st_t) : Prop := forall k v,
  has (FS (snode st)) k v \/ has (FS (ssib st)) k v <-> has (FS (snode st')) k v \/ has (FS (ssib st')) k v.
Notation FAPART := (apart (fun l => FS l)).

Lemma upd_has (s s' : slots V) u k v : s u = None -> eqs (upd s u (Some (k, v))) s' ->
  forall k' v', has s' k' v' <-> has s k' v' \/ (k' = k /\ v' = v).
Proof. intros H E. exact (plus_upd H E). Qed.

(** Any number of entries. *)
Lemma moves_prefix : forall keys s i j (st : st_t), st_fine st -> FAPART st -> i + length keys = M -> j <= i ->
  (forall m k, nth_error keys m = Some k -> exists v, FS (snode st) (i + m) = Some (k, v)) ->
  (forall x, j <= x -> FS (ssib st) x = None) -> forall q, exists st', FX st (firstn q (moves V fpt keys s i j)) = Ok st' /\
    st_fine st' /\ same_next st st' /\ union_same st st' /\
    (length (moves V fpt keys s i j) <= q -> FAPART st') /\
    (forall k v, has (FS (snode st')) k v -> has (FS (snode st)) k v) /\
    (q < mlen -> same (FS (snode st)) (FS (snode st'))) /\
    (mlen <= q -> 0 < length (moves V fpt keys s i j) -> exists k v, has (FS (snode st)) k v /\ ~ has (FS (snode st')) k v).
Proof.
  induction keys as [|k0 r IH]; intros s i j st F A HI HJ HN HS q; cbn [moves].
  - rewrite firstn_nil. unfold fx_exec. cbn [x_exec length]. exists st. splits; auto; try (now intros ? ?); try (intros; lia). split; reflexivity.
  - cbn [length] in HI.
    assert (HN' : forall m k, nth_error r m = Some k -> exists v, FS (snode st) (S i + m) = Some (k, v)).
    { intros m k H. destruct (HN (S m) k H) as (v & E). exists v. now rewrite <- E, <- plus_n_Sm. }
    destruct (Z.geb_spec k0 s) as [Hk|Hk]; [|apply IH; auto; lia].
    destruct (HN 0 k0 eq_refl) as (v0 & E0). rewrite Nat.add_0_r in E0. pose proof F as [(WN & _) (WB & _)]. pose proof WN as (HLn & _ & Un).
    assert (AB : absent (FS (ssib st)) k0) by (intros w H; apply (A k0 v0 w); [exists i; auto|auto]).
    assert (LM : length (move_stores V fpt i j) = mlen) by (unfold move_stores, mlen; destruct fpt; reflexivity).
    assert (ML : 4 <= mlen <= 5) by (unfold mlen; destruct fpt; lia).
    destruct (@move_prefix st i j k0 v0 F E0 (HS j (le_n _)) ltac:(lia) AB q) as (st1 & E1 & F1 & (N1 & N2) & S1 & S2).
    rewrite firstn_app, LM. unfold fx_exec in *. rewrite x_exec_app, E1. cbn [bind].
    assert (HAS : has (FS (snode st)) k0 v0) by (exists i; auto).
    assert (ADD : forall k v, has (upd (FS (ssib st)) j (Some (k0, v0))) k v <-> has (FS (ssib st)) k v \/ (k = k0 /\ v = v0)).
    { apply (@upd_has (FS (ssib st)) _ j k0 v0); [apply HS; lia|now intros x]. }
    destruct (Nat.ltb_spec q mlen) as [Hq|Hq].
    + replace (q - mlen) with 0 by lia. cbn [firstn x_exec]. exists st1. split; [reflexivity|].
      pose proof (same_eqs S1) as SN.
      splits; auto; try (intros; lia).
      * split; assumption.
      * intros k v. rewrite (SN k v). destruct (q <? mlen - 1).
        -- now rewrite (same_eqs S2 k v).
        -- rewrite (same_eqs S2 k v), ADD. split; [tauto|]. intros [H|[H|[-> ->]]]; auto.
      * rewrite app_length, LM. lia.
      * intros k v H. now apply SN.
    + assert (Q1 : q <? mlen - 1 = false) by (apply Nat.ltb_ge; lia). rewrite Q1 in S2.
      pose proof (minus_clear Un E0 S1) as MN. pose proof (same_eqs S2) as SP.
      assert (NX : forall v, ~ has (FS (snode st1)) k0 v) by (intros v H; apply MN in H as [_ H]; auto).
      assert (US : union_same st st1).
      { intros k v. rewrite (MN k v), (SP k v), ADD. destruct (Z.eq_dec k k0) as [->|NE].
        - split; [|intros [[_ H]|[H|[_ ->]]]; auto; contradiction]. intros [H|H]; [|auto]. right. right. split; auto. destruct H as (x & Hx). assert (x = i) by (eapply Un; eauto). subst x. congruence.
        - split; [intros [H|H]; auto|intros [[H _]|[H|[H _]]]; auto; contradiction]. }
      destruct (IH s (S i) (S j) st1) with (q := q - mlen) as (st' & E & F' & (N3 & N4) & U' & A' & SUB & _ & _); auto; try lia.
      * intros k v w H1 H2. apply MN in H1 as [H1 H3]. apply SP in H2. apply ADD in H2 as [H2|[H2 _]]; [|contradiction]. eapply A; eauto.
      * intros m k H. destruct (HN' m k H) as (v & Ev). exists v. rewrite S1. unfold upd. destruct (Nat.eqb_spec (S i + m) i); [lia|auto].
      * intros x Hx. rewrite S2. unfold upd. destruct (Nat.eqb_spec x j); [lia|]. apply HS. lia.
      * exists st'. split; [exact E|]. splits; auto; try (intros; lia).
        -- split; congruence.
        -- intros k v. rewrite (US k v). apply U'.
        -- rewrite app_length, LM. intros H. apply A'. lia.
        -- intros k v H. apply SUB, MN in H as [H _]. exact H.
        -- intros _ _. exists k0, v0. split; [exact HAS|]. intros H. apply (NX v0), SUB, H.
Qed.

(** The whole split of a full leaf. *)
Lemma f_split_prefix t l hasNext p : f_fine l -> (forall i, i < M -> bit (fb l) i = true) ->
  fl_split_stores t M fpt l hasNext = Ok p -> forall n, exists st,
  FX (x_init l (fl_new V junk M) hasNext) (firstn n p) = Ok st /\ st_fine st /\
  shared (fun l => FS l) (FS l) st /\ (hasNext = true -> rest_listed st) /\
  (nnext st = Some Sib -> FAPART st) /\
  ((forall k v, has (FS l) k v -> reaches (fun l => FS l) st k v) <-> n < mlen \/ length p - 2 < n).
Proof.
  intros F FULL E n. pose proof F as (W & HE). pose proof W as (HL & HF & U). pose proof HL as (HB & LF & LK & LV). unfold fl_split_stores in E.
  destruct (read_all M 0 (fk l)) as [data| |] eqn:ED; try discriminate. cbn [bind] in E.
  destruct (findSplitKey t data) as [[bs sp]| |]; try discriminate. cbn [bind snd] in E.
  destruct (aget (fk l) sp) as [s| |] eqn:ES; try discriminate. cbn [bind] in E. injection E as <-.
  destruct (read_all_nth ED) as (LD & HD).
  assert (Hsp : sp < M). { unfold aget in ES. rewrite <- LK. apply nth_error_Some. destruct (nth_error (fk l) sp); congruence. }
  pose proof (@read_all_at (fk l) M 0 data sp s ED Hsp ES) as Hs.
  assert (ML : 4 <= mlen <= 5) by (unfold mlen; destruct fpt; lia).
  assert (POS : mlen <= length (moves V fpt data s 0 0)).
  { rewrite moves_length. assert (0 < length (filter (fun k => (k >=? s)%Z) data)); [|nia].
    assert (IN : In s (filter (fun k => (k >=? s)%Z) data)) by (apply filter_In; split; [eapply nth_error_In; eauto|apply Z.geb_le; lia]).
    destruct (filter (fun k => (k >=? s)%Z) data); [destruct IN|cbn [length]; lia]. }
  set (st0 := x_init l (fl_new V junk M) hasNext).
  assert (NEW : f_fine (fl_new V junk M)).
  { destruct (f_new_wf V fp junk M) as (W0 & E0). split; [exact W0|]. intros _. exact E0. }
  assert (NS : forall x, FS (fl_new V junk M) x = None).
  { intros x. destruct NEW as ((HL0 & _) & _). rewrite (f_slots_bit fp junk x HL0). unfold fl_new. cbn [fb]. now rewrite bit_new. }
  destruct (@moves_prefix data s 0 0 st0) with (q := n) as (st1 & E1 & F1 & (N1 & N2) & U1 & A1 & SUB & SAME & LOST).
  - split; [exact F|exact NEW].
  - intros k v w _ (x & Hx). cbn [ssib st0 x_init] in Hx. unfold st0, x_init in Hx. cbn [ssib] in Hx. rewrite NS in Hx. discriminate.
  - rewrite LD. lia.
  - lia.
  - intros m k Hm. cbn [Nat.add]. pose proof (HD m k Hm) as Ek. cbn [Nat.add] in Ek.
    assert (Lm : m < M) by (rewrite <- LD; apply nth_error_Some; congruence).
    destruct (HF m (FULL m Lm)) as (k' & v' & Ek' & Ev'). assert (k' = k) by congruence. subst k'.
    exists v'. unfold st0, x_init. cbn [snode]. rewrite (f_slots_bit fp junk m HL), (FULL m Lm), Ek', Ev'. reflexivity.
  - intros x _. apply NS.
  - assert (SH : shared (fun l => FS l) (FS l) st1).
    { intros k v. pose proof (U1 k v) as X. unfold st0, x_init in X. cbn [snode ssib] in X. rewrite <- X. split; [auto|].
      intros [H|(x & H)]; [auto|]. rewrite NS in H. discriminate. }
    set (ms := moves V fpt data s 0 0) in *.
    assert (LL : length (@link_stores V hasNext) = (if hasNext then 4 else 2)) by now destruct hasNext.
    rewrite firstn_app, app_length. unfold fx_exec in *. rewrite x_exec_app, E1. cbn [bind].
    destruct (@link_prefix V (fleaf V) (@f_step V M) (fun l => aget (fk l)) (fun l => aget (fv l)) (fun l => lget (ff l)) hasNext st1 (n - length ms))
      as (st & E & SN & SB & LK1 & LK2 & RL).
    { rewrite N1. reflexivity. }
    { rewrite N2. reflexivity. }
    exists st. split; [exact E|].
    assert (SH' : shared (fun l => FS l) (FS l) st) by (intros k v; rewrite SN, SB; apply SH).
    splits; auto.
    + unfold st_fine. now rewrite SN, SB.
    + intros HN k v w. rewrite SN, SB. apply A1. destruct (Nat.le_gt_cases (length ms) n) as [|Hlt]; [auto|exfalso].
      replace (n - length ms) with 0 in LK2 by lia. apply LK2; [lia|auto].
    + split.
      * intros ALL. destruct (Nat.lt_ge_cases n mlen) as [|Hn]; [auto|right].
        destruct (Nat.lt_ge_cases (length ms + length (@link_stores V hasNext) - 2) n) as [|Hn2]; [auto|exfalso].
        destruct (LOST Hn) as (k & v & H1 & H2); [lia|]. destruct (ALL k v H1) as [H|[H _]].
        -- rewrite SN in H. auto.
        -- revert H. apply LK2. rewrite LL in *. destruct hasNext; lia.
      * intros [Hn|Hn] k v H.
        -- left. rewrite SN. apply (SAME Hn). exact H.
        -- apply SH' in H as [H|H]; [left; auto|right; split; auto]. apply LK1. rewrite LL in *. destruct hasNext; lia.
Qed.
End Fp.
