(** Erase of BitPBPTree and BitHPBPTree where BitESpec lets it through. *)
From Verif Require Import Base ArrLemmas MapSpec SortedList RankModel RankProofs BitmapModel BitmapProofs UtilSpec BTreeModel BTreeLaws BTreeBranch
  BTreeGhost BTreeInsert BTreeErase BTreeSpec ULeafModel ULeafProofs FLeafModel FLeafProofs FTreeProofs BitTreeModel InsSpec XTree BTreeMain BitProofs BitHModel BitHProofs BitEModel BitESpec.
Open Scope nat_scope.

Section Branch.
Variables (t : ktype) (N : nat).
Hypothesis Ht : (1 <= kt_bits t <= 64)%Z.
Hypothesis HN : 2 <= N.
Hypothesis H64 : N mod 64 <> 0.
Notation brepp := (brepp t N).

Lemma kat_uniq b pa p pb a x bb cs q : brepp b (pa ++ p :: pb) (a ++ x :: bb) cs -> length pa = length a ->
  RankProofs.live (bbk b) (bbits b) q x -> q = p.
Proof.
  intros HR HL Hq. pose proof HR as (_ & _ & _ & HS & _ & _ & _ & HK & _).
  apply (@brepp_live t N Ht _ _ _ _ _ _ HR) in Hq as [Hq Kq]. apply F2_app in HK as [K1 K2]; auto. inversion K2; subst.
  apply ssorted_app in HS as (_ & S2 & S12). apply ssorted_cons in S2 as [_ S2]. rewrite agt_in in S2.
  apply in_app_or in Hq as [Hq|[Hq|Hq]]; auto; exfalso.
  - destruct (F2_in_l K1 Hq) as (y & Hy & Ky). assert (y = x) by (unfold kat in *; congruence). subst y.
    specialize (S12 x x Hy (or_introl eq_refl)). lia.
  - destruct (F2_in_l H4 Hq) as (y & Hy & Ky). assert (y = x) by (unfold kat in *; congruence). subst y. apply S2 in Hy. lia.
Qed.

Lemma kat_live b ps ks cs pa p pb a x bb : brepp b ps ks cs -> ps = pa ++ p :: pb -> ks = a ++ x :: bb -> length pa = length a ->
  RankProofs.live (bbk b) (bbits b) p x.
Proof.
  intros HR -> -> HL. apply (@brepp_live t N Ht _ _ _ _ _ _ HR). split; [apply in_or_app; simpl; auto|].
  destruct HR as (_ & _ & _ & _ & _ & _ & _ & HK & _). apply F2_app in HK as [_ HK]; auto. now inversion HK.
Qed.

Lemma live_bk b ps ks cs : brepp b ps ks cs -> forall i k, RankProofs.live (bbk b) (bbits b) i k -> bkok t k /\ In k ks.
Proof.
  intros HR i k Hl. pose proof (brepp_in Ht HR Hl) as Hi. destruct HR as (_ & _ & _ & _ & HF & _).
  rewrite Forall_forall in HF. auto.
Qed.

Lemma bb_min_ok b p ps x ks cs : brepp b (p :: ps) (x :: ks) cs -> findMinKeyPosB t (bbk b) (bbits b) N = Ok p.
Proof.
  intros HR. destruct (@findMinKeyPosB_ok t (bbk b) (bbits b) N (brepp_bits HR)) as (q & m & E & Hl & Hm).
  { intros i k Hl. apply (live_bk HR) in Hl as [[H1 H2] _]. split; [exact H1|lia]. }
  { exists p, x. eapply (@kat_live b _ _ _ [] p ps [] x ks); eauto. }
  rewrite E. f_equal.
  pose proof (@kat_live b _ _ _ [] p ps [] x ks HR eq_refl eq_refl eq_refl) as Hp.
  assert (m = x).
  { apply Hm in Hp. apply (live_bk HR) in Hl as [_ Hl]. destruct HR as (_ & _ & _ & HS & _).
    apply ssorted_cons in HS as [_ HS]. rewrite agt_in in HS. destruct Hl as [->|Hl]; auto. apply HS in Hl. lia. }
  subst m. eapply (@kat_uniq b [] p ps [] x ks); eauto.
Qed.

Lemma slots_nd b ps ks cs : brepp b ps ks cs -> NoDup (ps ++ [N]).
Proof.
  intros HR. pose proof HR as (_ & _ & _ & _ & _ & ND & _). apply NoDup_app_mk; auto; [constructor; [simpl; tauto|constructor]|].
  intros x Hx [<-|[]]. apply (brepp_lt HR) in Hx. lia.
Qed.

Lemma bb_prev_ok b pa q pb a x bb cs p rest : brepp b (pa ++ q :: pb) (a ++ x :: bb) cs -> length pa = length a ->
  Forall (fun k => (kt_min t < k)%Z) (a ++ x :: bb) -> pb ++ [N] = p :: rest ->
  (if p =? N then findMaxKeyPosB t (bbk b) (bbits b) N
   else do k <- aget (bbk b) p; findMaxKeyPosSmallerThan t (bbk b) (bbits b) N k) = Ok q.
Proof.
  intros HR HL HF EP. pose proof HR as (_ & _ & _ & HS & _ & _ & _ & HK & _). rewrite Forall_forall in HF.
  pose proof (@kat_live b _ _ _ pa q pb a x bb HR eq_refl eq_refl HL) as Hq.
  apply ssorted_app in HS as (S1 & S2 & S12). apply ssorted_cons in S2 as [S2 Sx]. rewrite agt_in in Sx.
  assert (Hlo : forall i k, RankProofs.live (bbk b) (bbits b) i k -> kt_in t k /\ (kt_min t < k)%Z).
  { intros i k Hl. apply (live_bk HR) in Hl as [[H1 H2] Hi]. split; auto. }
  destruct pb as [|p' pb]; cbn [app] in EP; injection EP as <- <-.
  - rewrite Nat.eqb_refl. apply F2_app in HK as [_ HK]; auto. inversion HK as [|? ? ? ? _ HK']; subst. inversion HK'; subst.
    destruct (@findMaxKeyPosB_ok t (bbk b) (bbits b) N (brepp_bits HR) Hlo) as (r & m & E & Hl & Hm); [eauto|].
    rewrite E. f_equal. assert (m = x).
    { apply Hm in Hq. apply (live_bk HR) in Hl as [_ Hl]. apply in_app_or in Hl as [Hl|[Hl|[]]]; auto.
      specialize (S12 m x Hl (or_introl eq_refl)). lia. }
    subst m. eapply kat_uniq; eauto.
  - assert (Hp : p' < N) by (apply (brepp_lt HR); apply in_or_app; simpl; auto).
    destruct (Nat.eqb_spec p' N); [lia|].
    apply F2_app in HK as [_ HK]; auto. inversion HK as [|? ? ? ? _ HK']; subst. inversion HK' as [|? y ? bb' Ky]; subst.
    assert (aget (bbk b) p' = Ok y) as -> by (unfold aget; unfold kat in Ky; now rewrite Ky). cbn [bind].
    destruct (@findMaxKeyPosSmallerThan_ok t (bbk b) (bbits b) N y (brepp_bits HR) Hlo) as (r & E & HC).
    rewrite E. f_equal. destruct HC as [(m & Hl & Hlt & Hm)|[_ HA]].
    + assert (m = x).
      { specialize (Hm _ _ Hq (Sx y (or_introl eq_refl))). apply (live_bk HR) in Hl as [_ Hl].
        apply in_app_or in Hl as [Hl|[Hl|[Hl|Hl]]]; auto.
        - specialize (S12 m x Hl (or_introl eq_refl)). lia.
        - lia.
        - apply ssorted_cons in S2 as [_ S2]. rewrite agt_in in S2. apply S2 in Hl. lia. }
      subst m. eapply kat_uniq; eauto.
    + apply HA in Hq. specialize (Sx y (or_introl eq_refl)). lia.
Qed.

Lemma F2_impl_in {A B} (R R' : A -> B -> Prop) l m : (forall x y, In x l -> R x y -> R' x y) -> Forall2 R l m -> Forall2 R' l m.
Proof. intros H F. induction F; constructor; [apply H; simpl; auto|]. apply IHF. intros; apply H; simpl; auto. Qed.

Lemma bb_drop_left_ok b pa q pb a x bb CA l c CB p rest : brepp b (pa ++ q :: pb) (a ++ x :: bb) (CA ++ l :: c :: CB) ->
  length pa = length a -> length CA = length a -> Forall (fun k => (kt_min t < k)%Z) (a ++ x :: bb) -> pb ++ [N] = p :: rest ->
  exists b', bb_drop_left t N b p = Ok b' /\ bbrep t N b' (a ++ bb) (CA ++ l :: CB).
Proof.
  intros HR LP LC HF EP. unfold bb_drop_left. rewrite (bb_prev_ok HR LP HF EP). cbn [bind].
  pose proof (slots_nd HR) as NDN. pose proof HR as (Lk & Lb & Lc & HS & HB & ND & HI & HK & HC).
  rewrite <- app_assoc in HC, NDN. cbn [app] in HC, NDN. rewrite EP in HC, NDN.
  apply F2_app in HC as [C1 C2]; [|lia]. inversion_clear C2 as [|? ? ? ? Cq C3]. inversion_clear C3 as [|? ? ? ? Cp C4].
  apply NoDup_app_inv in NDN as (_ & ND2 & ND12). inversion_clear ND2 as [|? ? Nq ND3]. inversion_clear ND3 as [|? ? Np ND4].
  assert (Hq : q < N) by (apply (brepp_lt HR); apply in_or_app; simpl; auto).
  assert (Hp : p < S N).
  { assert (Hi : In p (pb ++ [N])) by (rewrite EP; simpl; auto).
    apply in_app_or in Hi as [Hi|[<-|[]]]; [|lia]. assert (p < N); [|lia]. apply (brepp_lt HR). apply in_or_app; simpl; auto. }
  rewrite (cat_get Cq). cbn [bind].
  destruct (@aset_ok _ (bbc b) p l) as [cs1 Ec]; [lia|]. rewrite Ec. cbn [bind].
  destruct (@lset_some _ (bbits b) q false) as [bs1 Eb]; [lia|]. rewrite Eb. cbn [of_opt bind].
  eexists. split; [reflexivity|]. exists (pa ++ pb). unfold BitProofs.brepp. cbn [bbk bbits bbc].
  rewrite (aset_length Ec), (lset_length Eb). apply F2_app in HK as [K1 K2]; auto. inversion_clear K2 as [|? ? ? ? Kx K3].
  apply ssorted_app in HS as (S1 & S2 & S12). apply ssorted_cons in S2 as [S2 Sx].
  apply NoDup_app_inv in ND as (NA & NB & NAB). inversion_clear NB as [|? ? NB1 NB2].
  splits; auto.
  - apply ssorted_app. splits; auto. intros y z Hy Hz. apply S12; simpl; auto.
  - rewrite !Forall_app in *. destruct HB as [HB1 HB2]. inversion HB2; auto.
  - apply NoDup_app_mk; auto. intros y Hy Hz. eapply NAB; eauto. simpl; auto.
  - intros i. rewrite (lset_nth i Eb). specialize (HI i). rewrite in_app_iff in *. cbn [In] in HI.
    destruct (Nat.eqb_spec i q) as [->|Hne].
    + split; [|discriminate]. intros [Hc|Hc]; [exfalso; eapply NAB; eauto; simpl; auto|tauto].
    + rewrite <- HI. split; [tauto|]. intros [?|[?|?]]; auto. congruence.
  - apply Forall2_app; auto.
  - rewrite <- app_assoc, EP. apply Forall2_app.
    + eapply F2_impl_in; [|exact C1]. intros y z Hy Hc. unfold cat in *. cbn [bbc]. rewrite (aset_nth _ Ec).
      destruct (Nat.eqb_spec y p) as [->|]; auto. exfalso. eapply ND12; eauto. simpl; auto.
    + constructor.
      * unfold cat. cbn [bbc]. rewrite (aset_nth _ Ec). now rewrite Nat.eqb_refl.
      * eapply F2_impl_in; [|exact C4]. intros y z Hy Hc. unfold cat in *. cbn [bbc]. rewrite (aset_nth _ Ec).
        destruct (Nat.eqb_spec y p) as [->|]; auto. tauto.
Qed.

Lemma bb_drop_right_ok b p pb y bb c n CB : brepp b (p :: pb) (y :: bb) (c :: n :: CB) ->
  exists b', bb_drop_right t N b p = Ok b' /\ bbrep t N b' bb (c :: CB).
Proof.
  intros HR. pose proof (slots_nd HR) as NDN. pose proof HR as (Lk & Lb & Lc & HS & HB & ND & HI & HK & HC).
  inversion_clear HK as [|? ? ? ? Ky HK']. unfold bb_drop_right.
  assert (aget (bbk b) p = Ok y) as -> by (unfold aget; unfold kat in Ky; now rewrite Ky). cbn [bind].
  destruct (@next_ok t N Ht HN H64 b (p :: pb) [y] bb _ y HR) as (q & pa' & pb' & rest & E & EP & L1 & L2 & EQ & _ & _).
  { apply ale_in. simpl. intros z [<-|[]]. lia. }
  { now apply ssorted_cons in HS. }
  destruct pa' as [|? [|]]; try discriminate L1. cbn [app] in EP. injection EP as <- <-.
  rewrite E. cbn [bind]. cbn [app] in HC, NDN. rewrite EQ in HC, NDN. inversion_clear HC as [|? ? ? ? Cp C2]. inversion_clear C2 as [|? ? ? ? Cq C3].
  inversion_clear NDN as [|? ? Np NDN']. inversion_clear NDN' as [|? ? Nq _]. inversion_clear ND as [|? ? NDp NDb].
  assert (Hp : p < N) by (apply (brepp_lt HR); simpl; auto).
  assert (Hq : q < S N).
  { assert (Hi : In q (pb ++ [N])) by (rewrite EQ; simpl; auto).
    apply in_app_or in Hi as [Hi|[<-|[]]]; [|lia]. assert (q < N); [|lia]. apply (brepp_lt HR). simpl; auto. }
  rewrite (cat_get Cp). cbn [bind].
  destruct (@aset_ok _ (bbc b) q c) as [cs1 Ec]; [lia|]. rewrite Ec. cbn [bind].
  destruct (@lset_some _ (bbits b) p false) as [bs1 Eb]; [lia|]. rewrite Eb. cbn [of_opt bind].
  eexists. split; [reflexivity|]. exists pb. unfold BitProofs.brepp. cbn [bbk bbits bbc].
  rewrite (aset_length Ec), (lset_length Eb). apply ssorted_cons in HS as [S1 S2]. inversion_clear HB. splits; auto.
  - intros i. rewrite (lset_nth i Eb). specialize (HI i). cbn [In] in HI. destruct (Nat.eqb_spec i p) as [->|Hne].
    + split; [tauto|discriminate].
    + rewrite <- HI. split; [tauto|]. intros [?|?]; auto. congruence.
  - rewrite EQ. constructor.
    + unfold cat. cbn [bbc]. rewrite (aset_nth _ Ec). now rewrite Nat.eqb_refl.
    + eapply F2_impl_in; [|exact C3]. intros i z Hi Hc. unfold cat in *. cbn [bbc]. rewrite (aset_nth _ Ec).
      destruct (Nat.eqb_spec i q) as [->|]; auto. tauto.
Qed.

Lemma bb_setkey_ok b pa p pb a y bb cs k : brepp b (pa ++ p :: pb) (a ++ y :: bb) cs -> length pa = length a -> bkok t k ->
  ssorted (a ++ k :: bb) -> exists ks, aset (bbk b) p k = Ok ks /\ bbrep t N (BBranch (bbits b) ks (bbc b)) (a ++ k :: bb) cs.
Proof.
  intros HR LP Hk HS'. pose proof HR as (Lk & Lb & Lc & HS & HB & ND & HI & HK & HC).
  assert (Hp : p < N) by (apply (brepp_lt HR); apply in_or_app; simpl; auto).
  destruct (@aset_ok _ (bbk b) p k) as [ks Ek]; [lia|]. exists ks. split; auto. exists (pa ++ p :: pb).
  unfold BitProofs.brepp. cbn [bbk bbits bbc]. rewrite (aset_length Ek). apply F2_app in HK as [K1 K2]; auto.
  inversion_clear K2 as [|? ? ? ? _ K3]. apply NoDup_app_inv in ND as (NA & NB & NAB). inversion_clear NB as [|? ? NB1 NB2].
  splits; auto.
  - rewrite !Forall_app in *. destruct HB as [HB1 HB2]. inversion_clear HB2. auto.
  - apply NoDup_app_mk; auto; constructor; auto.
  - apply Forall2_app; [|constructor].
    + eapply F2_impl_in; [|exact K1]. intros i z Hi Hz. unfold kat in *. cbn [bbk]. rewrite (aset_nth _ Ek).
      destruct (Nat.eqb_spec i p) as [->|]; auto. exfalso. eapply NAB; eauto. simpl; auto.
    + unfold kat. cbn [bbk]. rewrite (aset_nth _ Ek). now rewrite Nat.eqb_refl.
    + eapply F2_impl_in; [|exact K3]. intros i z Hi Hz. unfold kat in *. cbn [bbk]. rewrite (aset_nth _ Ek).
      destruct (Nat.eqb_spec i p) as [->|]; auto. tauto.
Qed.
End Branch.

Section GErase.
Variables (V : Type) (t : ktype) (N M : nat).
Hypothesis Ht : (1 <= kt_bits t <= 64)%Z.
Hypothesis HN : 2 <= N.
Hypothesis H64 : N mod 64 <> 0.
Hypothesis HM : 2 <= M.
Notation leaf := (fleaf V).
Variable O : leafops leaf V.
Variable rep : leaf -> list (Z * V) -> Prop.
Hypothesis LL : leaf_laws O M (M / 2) (bkok t) rep.
Hypothesis rep_kok : forall l es, rep l es -> Forall (bkok t) (keys es).
Hypothesis l_erase : forall l es k, rep l es -> get k es <> None -> exists l', lo_erase O l k = Ok (true, l') /\ rep l' (del k es).
Hypothesis l_absent : forall l es k, rep l es -> get k es = None -> lo_erase O l k = Ok (false, l).
Hypothesis l_merge : forall l1 l2 e1 e2, rep l1 e1 -> rep l2 e2 -> sorted (e1 ++ e2) -> length e1 + length e2 <= M ->
  exists l, lo_merge O l1 l2 = Ok l /\ rep l (e1 ++ e2).
Hypothesis l_balance : forall dl rl ed er d0 r0, rep dl ed -> rep rl er ->
  aget (fk dl) 0 = Ok d0 -> aget (fk rl) 0 = Ok r0 -> (r0 <= d0)%Z ->
  sorted (er ++ ed) -> length er < length ed -> 1 < length ed ->
  exists d' r' e1 e2, lo_balance O dl rl = Ok (d', r') /\ ed = e1 ++ e2 /\
    length e2 = (length ed + length er) / 2 /\ rep d' e2 /\ rep r' (er ++ e1).
Hypothesis l_minkey : forall l es x v, rep l ((x, v) :: es) -> lo_minkey O l = Ok x.
Notation gt := (gt V).
Notation wf := (wf N M (M / 2) 0).
Notation inv := (inv N rep).
Notation upd_ok := (upd_ok N rep).
Notation nok := (nok (V := V) (bbrep t N)).

Lemma merge_leaf_gh (h : heap leaf) G i j : merge_leaf O (gh h G) i j = do h1 <- merge_leaf O h i j; Ok (gh h1 G).
Proof.
  unfold merge_leaf, getl. cbn [gh hl]. destruct (hl h i); cbn [of_opt bind]; auto. destruct (hl h j); cbn [of_opt bind]; auto.
  destruct (lo_merge O f f0); cbn [bind]; auto. cbn [gh hnx]. destruct (hnx h j); cbn [bind]; auto.
  unfold set_pv_chk, getl, set_nx, set_leaf. cbn [gh hl]. destruct (upd (hl h) i (Some a) n); cbn [of_opt bind]; auto.
Qed.

Definition same_post (dr : nat) (tr : btree V) G A i (ks : list Z) (cs : list gt) Bc lo hi (tr' : btree V) : Prop :=
  broot tr' = broot tr /\ bdepth tr' = bdepth tr /\
  exists b' ks' cs', btb tr' = upd (btb tr) i (Some b') /\ upd_ok (gh (bth tr) G) A cs Bc (gh (bth tr') G) cs' /\
    bbrep t N b' ks' (map (@gid V) cs') /\ kids (wf (M / 2) 0) lo ks' cs' hi /\ ents cs' = ents cs /\ 1 <= length ks' /\ length ks = length ks' + dr.
Definition root_post (tr : btree V) G A i (ks : list Z) (cs : list gt) Bc lo hi (tr' : btree V) : Prop :=
  bdepth tr = 1 /\ bdepth tr' = 0 /\ length ks = 1 /\
  exists b' (g' : gt), btb tr' = upd (btb tr) i (Some b') /\ gid g' = broot tr' /\
    upd_ok (gh (bth tr) G) A cs Bc (gh (bth tr') G) [g'] /\ wf (M / 2) 0 lo hi g' /\ ents [g'] = ents cs.

Lemma fin_setkey (tr : btree V) G A i b pa p pb a y bb CA i1 e1 i2 e2 CB Bc lo hi h1 z (w : V) e1' e2' :
  inv (gh (bth tr) G) A (CA ++ [GL i1 e1; GL i2 e2] ++ CB) Bc ->
  brepp t N b (pa ++ p :: pb) (a ++ y :: bb) (map (@gid V) (CA ++ [GL i1 e1; GL i2 e2] ++ CB)) ->
  length pa = length a -> length CA = length a -> length CB = length bb ->
  kl (wf (M / 2) 0) lo a CA -> kr (wf (M / 2) 0) bb CB hi ->
  Forall (inb (lb lo a) (Some y)) (keys e1) -> Forall (inb (Some y) (hbd bb hi)) (keys e2) ->
  bl (lb lo a) (Some y) -> bl (Some y) (hbd bb hi) ->
  sorted (e1 ++ e2) -> e1 ++ e2 = e1' ++ (z, w) :: e2' -> e1' <> [] ->
  M / 2 <= length e1' <= M -> M / 2 <= S (length e2') <= M -> bkok t z ->
  upd_ok (gh (bth tr) G) (A ++ lids CA) [GL i1 e1; GL i2 e2] (lids CB ++ Bc) (gh h1 G) [GL i1 e1'; GL i2 ((z, w) :: e2')] ->
  exists ks, aset (bbk b) p z = Ok ks /\
    same_post 0 tr G A i (a ++ y :: bb) (CA ++ [GL i1 e1; GL i2 e2] ++ CB) Bc lo hi
      (BTree h1 (upd (btb tr) i (Some (BBranch (bbits b) ks (bbc b)))) (broot tr) (bdepth tr)).
Proof.
  intros I HR LP LA LB KL KR F1 F2 B1 B2 HS E NE C1 C2 Kz U.
  assert (HK : kids (wf (M / 2) 0) lo (a ++ [z] ++ bb) (CA ++ [GL i1 e1'; GL i2 ((z, w) :: e2')] ++ CB) hi).
  { apply kids_ctx; auto. splits; auto. eapply (@bal_kids V N M (M / 2) 0); eauto. }
  destruct (bb_setkey_ok Ht HN H64 HR LP Kz) as (ks & Ek & Rk); [apply (kids_sorted HK)|].
  exists ks. split; auto. unfold same_post. cbn [broot bdepth bth btb]. splits; auto.
  eexists _, (a ++ z :: bb), (CA ++ [GL i1 e1'; GL i2 ((z, w) :: e2')] ++ CB). splits; [reflexivity|..]; auto.
  - now apply upd_ctx.
  - rewrite !map_app in *. exact Rk.
  - rewrite !ents_app. rewrite !(ents_two i1 _ i2). now rewrite E.
  - rewrite !app_length. cbn [length]. lia.
  - rewrite !app_length. cbn [length]. lia.
Qed.

Lemma fin_drop (tr : btree V) G A i b b' a y bb CA i1 e1 i2 e2 CB Bc lo hi h2 :
  inv (gh (bth tr) G) A (CA ++ [GL i1 e1; GL i2 e2] ++ CB) Bc ->
  bbrep t N b (a ++ y :: bb) (map (@gid V) (CA ++ [GL i1 e1; GL i2 e2] ++ CB)) ->
  bbrep t N b' (a ++ bb) (map (@gid V) (CA ++ [GL i1 e1] ++ CB)) ->
  length CA = length a -> length CB = length bb ->
  kl (wf (M / 2) 0) lo a CA -> kr (wf (M / 2) 0) bb CB hi ->
  Forall (inb (lb lo a) (Some y)) (keys e1) -> Forall (inb (Some y) (hbd bb hi)) (keys e2) ->
  bl (lb lo a) (Some y) -> bl (Some y) (hbd bb hi) ->
  sorted (e1 ++ e2) -> M / 2 <= length e1 + length e2 <= M ->
  upd_ok (gh (bth tr) G) (A ++ lids CA) [GL i1 e1; GL i2 e2] (lids CB ++ Bc) (gh h2 G) [GL i1 (e1 ++ e2)] ->
  (2 <= count_bits (bbits b) \/ (count_bits (bbits b) = 1 /\ bdepth tr = 1)) ->
  exists tr', (if count_bits (bbits b') =? 0 then Ok (BTree h2 (upd (btb tr) i (Some b')) i1 (bdepth tr - 1))
       else Ok (BTree h2 (upd (btb tr) i (Some b')) (broot tr) (bdepth tr))) = Ok tr' /\
    (same_post 1 tr G A i (a ++ y :: bb) (CA ++ [GL i1 e1; GL i2 e2] ++ CB) Bc lo hi tr' \/
     root_post tr G A i (a ++ y :: bb) (CA ++ [GL i1 e1; GL i2 e2] ++ CB) Bc lo hi tr').
Proof.
  intros I (ps & HR) (ps' & HR') LA LB KL KR F1 F2 B1 B2 HS HC U HD.
  assert (FA : Forall (inb (lb lo a) (hbd bb hi)) (keys (e1 ++ e2))).
  { rewrite keys_app, Forall_app. split.
    - rewrite Forall_forall in *. intros z Hz. apply F1 in Hz. eapply inb_weak; eauto. intros q. now apply bl_hib.
    - rewrite Forall_forall in *. intros z Hz. apply F2 in Hz. eapply inb_weak; eauto. intros q. now apply bl_lob. }
  assert (HW : wf (M / 2) 0 (lb lo a) (hbd bb hi) (GL i1 (e1 ++ e2))).
  { cbn [BTreeGhost.wf]. rewrite app_length. auto. }
  pose proof (upd_ctx I U) as UC.
  assert (EE : ents (CA ++ [GL i1 (e1 ++ e2)] ++ CB) = ents (CA ++ [GL i1 e1; GL i2 e2] ++ CB)).
  { rewrite !ents_app. now rewrite (ents_two i1 _ i2), ents_GL. }
  assert (HK : kids (wf (M / 2) 0) lo (a ++ bb) (CA ++ [GL i1 (e1 ++ e2)] ++ CB) hi).
  { apply (@kids_ctx _ (wf (M / 2) 0) a CA bb CB lo hi [] [GL i1 (e1 ++ e2)]); auto. splits; auto.
    cbn [kids]. split; auto. eapply bl_trans; eauto. }
  destruct (brepp_len HN H64 HR) as (_ & _ & _ & EC). destruct (brepp_len HN H64 HR') as (_ & _ & _ & EC').
  rewrite app_length in EC. cbn [length] in EC. rewrite EC'. rewrite app_length.
  destruct (Nat.eqb_spec (length a + length bb) 0) as [H0|H0].
  - eexists. split; [reflexivity|]. right. destruct a; [|cbn [length] in H0; lia]. destruct bb; [|cbn [length] in H0; lia].
    destruct CA; [|discriminate LA]. destruct CB; [|discriminate LB]. unfold root_post. cbn [broot bdepth bth btb app] in *.
    splits; auto; try (cbn [length] in *; lia).
    exists b', (GL i1 (e1 ++ e2)). splits; auto.
  - eexists. split; [reflexivity|]. left. unfold same_post. cbn [broot bdepth bth btb]. splits; auto.
    exists b', (a ++ bb), (CA ++ [GL i1 (e1 ++ e2)] ++ CB). splits; auto.
    + exists ps'. rewrite !map_app in *. exact HR'.
    + rewrite app_length. lia.
    + rewrite !app_length. cbn [length]. lia.
Qed.

(** All separators are above the smallest value of KeyType. *)
Lemma seps_pos h A cs Bc lo hi ks : inv h A cs Bc -> kids (wf (M / 2) 0) lo ks cs hi -> Forall (fun k => (kt_min t < k)%Z) ks.
Proof.
  intros I HK. destruct ks as [|y ks]; [constructor|]. destruct (kids_sorted HK) as [HS _].
  destruct cs as [|c cs]; [contradiction HK|]. cbn [kids] in HK. destruct HK as (_ & W & _).
  apply wf0_leaf in W as (j & es & -> & Se & Fe & Ce). pose proof (HML HN H64 HM) as H1.
  destruct es as [|[x w] es]; [cbn [length] in Ce; lia|].
  destruct (@leaf_of _ _ N rep h A _ Bc j ((x, w) :: es) I) as (l & _ & Hl); [simpl; auto|].
  apply rep_kok in Hl. inversion_clear Hl as [|? ? Hx _]. inversion_clear Fe as [|? ? Hxy _].
  cbn [fst] in *. destruct Hxy as [_ Hxy]. cbn [hib] in Hxy. destruct Hx as [[Hx _] [Hx0 _]].
  apply ssorted_cons in HS as [_ HS]. rewrite agt_in in HS. rewrite Forall_forall. intros k [<-|Hk]; [lia|]. apply HS in Hk. lia.
Qed.

Lemma ck_uf (tr : btree V) G A i b pa pb a bb CA c ec CB Bc lo hi l pos rest mg :
  inv (gh (bth tr) G) A (CA ++ [GL c ec] ++ CB) Bc ->
  btb tr i = Some b -> brepp t N b (pa ++ pb) (a ++ bb) (map (@gid V) (CA ++ [GL c ec] ++ CB)) ->
  length pa = length a -> length pb = length bb -> pb ++ [N] = pos :: rest ->
  length CA = length a -> length CB = length bb ->
  kl (wf (M / 2) 0) lo a CA -> kr (wf (M / 2) 0) bb CB hi -> bl (lb lo a) (hbd bb hi) ->
  sorted ec -> Forall (inb (lb lo a) (hbd bb hi)) (keys ec) -> M / 2 - 1 <= length ec < (M + 1) / 2 ->
  hl (bth tr) c = Some l -> rep l ec -> Forall (fun k => (kt_min t < k)%Z) (a ++ bb) ->
  ck_leaf t N M O tr i pos c = Ok mg ->
  exists tr', be_underflow_leaf t N M O tr i pos c = Ok tr' /\
    (same_post (if mg then 1 else 0) tr G A i (a ++ bb) (CA ++ [GL c ec] ++ CB) Bc lo hi tr' \/
     root_post tr G A i (a ++ bb) (CA ++ [GL c ec] ++ CB) Bc lo hi tr').
Proof.
  intros I Eb HR LPA LPB EP LA LB KL KR BLC HS HF HC El Hl KP CK.
  destruct (brepp_len HN H64 HR) as (_ & _ & _ & ECT).
  pose proof (slots_nd Ht HN H64 HR) as NDN.
  (* the right neighbour, if there is one *)
  assert (NX : forall y b0, bb = y :: b0 -> exists n en CB0 ln, CB = GL n en :: CB0 /\ sorted en /\
     Forall (inb (Some y) (hbd b0 hi)) (keys en) /\ M / 2 <= length en <= M /\ bl (Some y) (hbd b0 hi) /\
     kr (wf (M / 2) 0) b0 CB0 hi /\ hnx (bth tr) c = Some n /\ hl (bth tr) n = Some ln /\ rep ln en /\ c <> n /\
     inv (gh (bth tr) G) (A ++ lids CA) [GL c ec; GL n en] (lids CB0 ++ Bc)).
  { intros y b0 ->. destruct CB as [|g CB0]; [discriminate|]. cbn [kr] in KR. destruct KR as (By & Wg & KR).
    apply wf0_leaf in Wg as (n & en & -> & Sn & Fn & Cn).
    change ([GL c ec] ++ GL n en :: CB0) with ([GL c ec; GL n en] ++ CB0) in I. apply inv_sub in I.
    destruct (inv_pair I) as (l1 & l2 & El1 & Hl1 & El2 & Hl2 & Hne & _ & _ & _ & _ & _ & _ & _ & _ & P1 & N1 & P2 & N2 & _).
    exists n, en, CB0, l2. splits; auto; lia. }
  unfold be_underflow_leaf. unfold ck_leaf in CK. cbn zeta in *.
  unfold getbb in *. rewrite Eb in *. unfold getl at 1 in CK. unfold getl at 1. rewrite El in *. cbn [of_opt bind] in *.
  destruct (if 0 <? pos then do p <- of_opt (hpv (bth tr) c); do pl <- getl (bth tr) p; Ok (lo_count O pl) else Ok 0)
    as [pn| |] eqn:EPN; cbn [bind] in CK |- *; try discriminate CK.
  destruct ((0 <? pos) && ((M + 1) / 2 <? pn)) eqn:EC1; [discriminate CK|].
  destruct (if pos <? N then do n <- of_opt (hnx (bth tr) c); do nl <- getl (bth tr) n; Ok (lo_count O nl) else Ok 0)
    as [nn| |] eqn:ENN; cbn [bind] in CK |- *; try discriminate CK.
  destruct ((pos <? N) && ((M + 1) / 2 <? nn)) eqn:EC2.
  - (* entries from the right neighbour *)
    apply andb_prop in EC2 as [C1 C2]. rewrite C1 in *. apply Nat.ltb_lt in C1, C2.
    destruct bb as [|y b0].
    { destruct pb; [|discriminate LPB]. injection EP as <- <-. lia. }
    destruct pb as [|p0 pb]; [discriminate LPB|]. cbn [app] in EP. injection EP as -> EP. injection LPB as LPB.
    destruct (NX y b0 eq_refl) as (n & en & CB0 & ln & -> & Sn & Fn & Cn & By & KR' & N1 & El2 & Hl2 & Hne & IP).
    rewrite N1 in *. cbn [of_opt bind] in *. unfold getl in ENN. rewrite El2 in ENN. cbn [of_opt bind] in ENN. injection ENN as <-.
    rewrite (law_count LL Hl2) in C2. unfold getl in CK. rewrite El2 in CK. cbn [of_opt bind] in CK.
    destruct (aget (fk ln) 0) as [dk| |] eqn:Edk; cbn [bind] in CK; try discriminate CK.
    destruct (aget (fk l) 0) as [rk| |] eqn:Erk; cbn [bind] in CK; try discriminate CK.
    destruct (Z.ltb_spec dk rk) as [_|Hdk]; [discriminate CK|]. injection CK as <-.
    cbn [hbd hd map] in HF, BLC.
    assert (SS : sorted (ec ++ en)) by (eapply sorted_pair; eauto).
    destruct (@l_balance ln l en ec dk rk Hl2 Hl Edk Erk Hdk SS ltac:(lia) ltac:(lia)) as (d' & r' & e1 & e2 & EBal & Een & Le2 & Rd & Rr).
    unfold balance_leaf, getl at 1 2. rewrite El2, El. cbn [of_opt bind]. rewrite EBal. cbn [bind fst snd].
    destruct e2 as [|[yy w] e2]; [cbn [length] in Le2; lia|].
    assert (U : upd_ok (gh (bth tr) G) (A ++ lids CA) [GL c ec; GL n en] (lids CB0 ++ Bc) (gh (set_leaf (set_leaf (bth tr) n d') c r') G)
                  [GL c (ec ++ e1); GL n ((yy, w) :: e2)]).
    { eapply pair_upd; eauto; cbn [gh set_leaf hl].
      - now rewrite upd_same'.
      - rewrite upd_other by auto. now rewrite upd_same'.
      - intros j J1 J2. now rewrite !upd_other by auto. }
    pose proof (f_equal (@length _) Een) as Hlen. rewrite app_length in Hlen. cbn [length] in Hlen, Le2.
    change ([GL c ec] ++ GL n en :: CB0) with ([GL c ec; GL n en] ++ CB0) in *.
    unfold getl at 1. cbn [set_leaf hl]. rewrite upd_other by auto. rewrite upd_same'. cbn [of_opt bind].
    rewrite (l_minkey Rd). cbn [bind].
    destruct (@fin_setkey tr G A i b pa pos pb a y b0 CA c ec n en CB0 Bc lo hi (set_leaf (set_leaf (bth tr) n d') c r') yy w (ec ++ e1) e2 I HR)
      as (ks & EK & FIN); auto.
    + subst en. now rewrite <- app_assoc.
    + intros Hc. apply app_eq_nil in Hc as [-> ->]. cbn [length] in *. lia.
    + rewrite app_length. lia.
    + lia.
    + apply rep_kok in Rd. now inversion_clear Rd.
    + rewrite EK. cbn [bind]. eexists. split; [reflexivity|]. left. exact FIN.
  - destruct (negb ((2 <=? count_bits (bbits b)) || ((count_bits (bbits b) =? 1) && (bdepth tr =? 1)))) eqn:EC3; [discriminate CK|].
    assert (HD : 2 <= count_bits (bbits b) \/ (count_bits (bbits b) = 1 /\ bdepth tr = 1)).
    { apply negb_false_iff, orb_true_iff in EC3 as [E3|E3].
      - left. now apply Nat.leb_le.
      - right. apply andb_prop in E3 as [E3 E4]. apply Nat.eqb_eq in E3, E4. auto. }
    assert (H1 : 1 <= length (a ++ bb)) by lia.
    clear EC3. destruct (rev_case a) as [->|(a0 & x & ->)].
    + (* first child: merge with the right neighbour *)
      destruct pa; [|discriminate LPA]. destruct CA; [|discriminate LA]. cbn [app] in *.
      destruct bb as [|y b0]; [cbn [length] in H1; lia|].
      destruct pb as [|p0 pb]; [discriminate LPB|]. cbn [app] in EP. injection EP as -> EP.
      rewrite (bb_min_ok Ht HN H64 HR) in *. cbn [bind] in *. rewrite Nat.eqb_refl in *. cbn [negb andb] in *.
      destruct (NX y b0 eq_refl) as (n & en & CB0 & ln & -> & Sn & Fn & Cn & By & KR' & N1 & El2 & Hl2 & Hne & IP).
      rewrite N1 in *. cbn [of_opt bind] in *. unfold getl in ENN. rewrite El2 in ENN. cbn [of_opt bind] in ENN.
      assert (Hp : pos < N) by (apply (brepp_lt HR); simpl; auto).
      rewrite (proj2 (Nat.ltb_lt _ _) Hp) in *. injection ENN as <-. rewrite (law_count LL Hl2) in *.
      cbn [andb] in *. apply Nat.ltb_ge in EC2. rewrite (proj2 (Nat.leb_le _ _) EC2).
      cbn [hbd hd map] in HF, BLC.
      assert (SS : sorted (ec ++ en)) by (eapply sorted_pair; eauto).
      destruct (@merge_upd_gen _ _ N M O rep (gh (bth tr) G) _ c ec n en _ l_merge IP SS ltac:(lia)) as (h1 & E1 & EB & EX & EL2 & U).
      rewrite merge_leaf_gh in E1. destruct (merge_leaf O (bth tr) c n) as [h1'| |] eqn:EM; cbn [bind] in E1; try discriminate E1.
      injection E1 as <-. cbn [bind]. cbn [gh hnx] in EX.
      destruct (hnx (bth tr) n) as [nn|] eqn:ENX; [discriminate CK|]. injection CK as <-.
      destruct (inv_pair IP) as (_ & _ & _ & _ & _ & _ & _ & _ & _ & _ & _ & _ & _ & _ & _ & _ & _ & _ & N2 & _).
      cbn [gh hnx] in N2. rewrite ENX in N2. rewrite <- N2 in EX. rewrite EX. cbn [free_leaf bind].
      cbn [map gid] in HR. destruct (bb_drop_right_ok Ht HN H64 HR) as (b' & -> & Rb'). cbn [bind].
      apply (@fin_drop tr G A i b b' [] y b0 [] c ec n en CB0 Bc lo hi); auto.
      * exists (pos :: pb). exact HR.
      * cbn [length app] in LB. lia.
      * apply U; cbn [gh set_nx hl hb hnx hpv hfresh]; auto. intros j. unfold upd. destruct (Nat.eqb_spec j c) as [->|]; auto.
    + (* merge with the left neighbour *)
      rewrite app_length in LA, LPA. cbn [length] in LA, LPA.
      destruct (rev_case CA) as [->|(CA0 & g & ->)]; [cbn [length] in LA; lia|].
      destruct (rev_case pa) as [->|(pa0 & q & ->)]; [cbn [length] in LPA; lia|].
      rewrite app_length in LA, LPA. cbn [length] in LA, LPA. assert (LA0 : length CA0 = length a0) by lia.
      apply kl_snoc in KL; [|exact LA0]. destruct KL as (KL & Bx & Wg).
      apply wf0_leaf in Wg as (p & ep & -> & Sp & Fp & Cp). rewrite lb_snoc in *.
      rewrite <- !app_assoc in *. cbn [app] in *.
      change (CA0 ++ GL p ep :: GL c ec :: CB) with (CA0 ++ [GL p ep; GL c ec] ++ CB) in *.
      pose proof (inv_sub I) as IP.
      destruct (inv_pair IP) as (lp & l2 & Elp & Hlp & El2 & Hl2 & Hne & _ & _ & _ & _ & _ & _ & _ & _ & P1 & N1 & P2 & N2 & _).
      cbn [gh hpv hnx hl] in *. rewrite El in El2. injection El2 as <-.
      assert (SS : sorted (ep ++ ec)) by (eapply sorted_pair; eauto).
      assert (MP : exists mp, findMinKeyPosB t (bbk b) (bbits b) N = Ok mp /\ mp <> pos).
      { rewrite EP in NDN. clear - HR NDN Ht HN H64. destruct pa0 as [|p0 pa0]; destruct a0 as [|x0 a0]; cbn [app] in *.
        - rewrite (bb_min_ok Ht HN H64 HR). eexists. split; [reflexivity|]. inversion_clear NDN as [|? ? H _]. intros ->. apply H; simpl; auto.
        - rewrite (bb_min_ok Ht HN H64 HR). eexists. split; [reflexivity|]. inversion_clear NDN as [|? ? H _]. intros ->. apply H; simpl; auto.
        - rewrite (bb_min_ok Ht HN H64 HR). eexists. split; [reflexivity|]. inversion_clear NDN as [|? ? H _]. intros ->. apply H.
          apply in_or_app. simpl; auto.
        - rewrite (bb_min_ok Ht HN H64 HR). eexists. split; [reflexivity|]. inversion_clear NDN as [|? ? H _]. intros ->. apply H.
          apply in_or_app. simpl; auto. }
      destruct MP as (mp & EMP & HMP). rewrite EMP in *. cbn [bind] in *.
      rewrite (proj2 (Nat.eqb_neq _ _) HMP) in *. cbn [negb andb] in *.
      rewrite P2 in *. cbn [of_opt bind] in *. unfold getl in EPN. unfold getl in CK. rewrite Elp in *. cbn [of_opt bind] in *.
      rewrite (law_count LL Hlp), (law_count LL Hl) in *.
      destruct (Nat.ltb_spec M (length ep + length ec)) as [_|HM2]; [discriminate CK|]. injection CK as <-.
      assert (EPL : pn <=? (M + 1) / 2 = true).
      { apply Nat.leb_le. destruct (0 <? pos); cbn [andb] in EC1.
        - injection EPN as <-. now apply Nat.ltb_ge.
        - injection EPN as <-. lia. }
      rewrite EPL.
      destruct (@merge_upd_gen _ _ N M O rep (gh (bth tr) G) _ p ep c ec _ l_merge IP SS ltac:(lia)) as (h1 & E1 & EB & EX & (l2 & EL2) & U).
      rewrite merge_leaf_gh in E1. destruct (merge_leaf O (bth tr) p c) as [h1'| |] eqn:EM; cbn [bind] in E1; try discriminate E1.
      injection E1 as <-. cbn [bind]. cbn [gh hl] in EL2. cbn [free_leaf]. unfold getl at 1. rewrite EL2. cbn [of_opt bind].
      assert (HR2 : brepp t N b (pa0 ++ q :: pb) (a0 ++ x :: bb) (map (@gid V) CA0 ++ p :: c :: map (@gid V) CB)).
      { rewrite !map_app in HR. exact HR. }
      destruct (@bb_drop_left_ok t N Ht HN H64 b pa0 q pb a0 x bb (map (@gid V) CA0) p c (map (@gid V) CB) pos rest HR2) as (b' & -> & Rb'); auto.
      { lia. }
      { now rewrite map_length. }
      cbn [bind].
      apply (@fin_drop tr G A i b b' a0 x bb CA0 p ep c ec CB Bc lo hi); auto.
      * eexists. exact HR.
      * rewrite !map_app. exact Rb'.
      * lia.
      * apply U; cbn [gh del_leaf hl hb hnx hpv hfresh]; auto. intros j J. now rewrite upd_other by auto.
Qed.

(** ** The descent *)
Definition had (k : Z) (es : list (Z * V)) : bool := match get k es with Some _ => true | None => false end.

Lemma l_er l es k : rep l es -> exists l', lo_erase O l k = Ok (had k es, l') /\ rep l' (del k es).
Proof.
  intros Hl. unfold had. destruct (get k es) eqn:E.
  - destruct (@l_erase l es k Hl) as (l' & H); [congruence|]. eauto.
  - exists l. rewrite (del_none E). split; [|exact Hl]. apply (@l_absent l es k); auto.
Qed.

Definition er_same (n m d : nat) lo hi (tr : btree V) G A (g : gt) Bc k (tr' : btree V) : Prop :=
  broot tr' = broot tr /\ bdepth tr' = bdepth tr /\
  exists G' g' b', gid g' = gid g /\ btb tr' (gid g) = Some b' /\ count_bits (bbits b') = n /\ upd_ok (gh (bth tr) G) A [g] Bc (gh (bth tr') G') [g'] /\ nok (btb tr') [g'] /\
    (forall j, ~ In j (bids [g]) -> btb tr' j = btb tr j) /\ wf m (S d) lo hi g' /\ ents [g'] = del k (ents [g]).
Definition er_root lo hi (tr : btree V) G A (g : gt) Bc k (tr' : btree V) : Prop :=
  bdepth tr = 1 /\ bdepth tr' = 0 /\
  exists g', gid g' = broot tr' /\ upd_ok (gh (bth tr) G) A [g] Bc (gh (bth tr') G) [g'] /\
    wf (M / 2) 0 lo hi g' /\ ents [g'] = del k (ents [g]).

Lemma had_mid (CA : list gt) c CB k : alt k (keys (ents CA)) -> agt k (keys (ents CB)) ->
  had k (ents (CA ++ c :: CB)) = had k (ents [c]).
Proof.
  intros H1 H2. unfold had. change (CA ++ c :: CB) with (CA ++ [c] ++ CB). rewrite !ents_app.
  rewrite get_app_lt by assumption. now rewrite get_app_gt.
Qed.

Lemma ck_SS tr d id k : ck_keys t N M O tr (S (S d)) id k =
  do b <- getbb (btb tr) id; do pos <- bb_pos t N b k; do c <- aget (bbc b) pos;
  do n <- ck_keys t N M O tr (S d) c k;
  if n <? (N + 1) / 2 then UB else Ok (count_bits (bbits b)).
Proof. reflexivity. Qed.
Lemma be_SS tr d id k : be_erase_branch t N M O tr (S (S d)) id k =
  do b <- getbb (btb tr) id; do pos <- bb_pos t N b k; do c <- aget (bbc b) pos;
  do r <- be_erase_branch t N M O tr (S d) c k;
  let '(t1, deleted) := r in
  do b1 <- getbb (btb t1) id; do pos1 <- bb_pos t N b1 k; do cb <- getbb (btb t1) c;
  if count_bits (bbits cb) <? (N + 1) / 2 then
    do r2 <- be_underflow_branch t N M (btb t1) id pos1 c;
    let '(B2, c') := r2 in
    do b2 <- getbb B2 id;
    if (S (S d) =? bdepth t1) && (count_bits (bbits b2) =? 0) then Ok (BTree (bth t1) B2 c' (bdepth t1 - 1), deleted)
    else Ok (BTree (bth t1) B2 (broot t1) (bdepth t1), deleted)
  else Ok (t1, deleted).
Proof. reflexivity. Qed.

Lemma ck_branch_ok d : forall m tr G A g Bc lo hi k n, m <= 1 -> wf m (S d) lo hi g -> inb lo hi k ->
  inv (gh (bth tr) G) A [g] Bc -> nok (btb tr) [g] -> S d <= bdepth tr ->
  ck_keys t N M O tr (S d) (gid g) k = Ok n -> exists r,
  be_erase_branch t N M O tr (S d) (gid g) k = Ok r /\ snd r = had k (ents [g]) /\
  (er_same n m d lo hi tr G A g Bc k (fst r) \/ er_root lo hi tr G A g Bc k (fst r)).
Proof.
  induction d as [|d IH]; intros m tr G A [i es|i ks cs] Bc lo hi k n Hm HW Hk HI HX HD CK; try (cbn [BTreeGhost.wf] in HW; tauto).
  - (* above the leafs *)
    change (m <= length ks <= N /\ kids (wf (M / 2) 0) lo ks cs hi) in HW. destruct HW as [HC HK]. pose proof HI as HI0.
    apply inv_GB in HI as (HI & Hfi & Hni & _). apply nok_GB in HX as [(b & Eb & (ps & Hb)) HX]. cbn [fst snd] in *.
    pose proof (seps_pos HI HK) as KP.
    destruct (route HK Hk) as (a & bb & CA & c & CB & -> & -> & LA & LB & Ha & Hbb & KL & Rc & Bd & KR & Hkc).
    destruct (@next_ok t N Ht HN H64 b ps a bb _ k Hb Ha Hbb) as (p & pa & pb & rest & Ep & -> & LPA & LPB & EPB & _ & _).
    destruct (ctx_ents (wf_okc (m := M / 2) (d := 0)) KL KR Hkc) as [HA HBB].
    apply wf0_leaf in Rc as (j & es & -> & Ss & Fs & Cs).
    pose proof Hb as (_ & _ & _ & _ & _ & _ & _ & _ & Hcat).
    rewrite map_app in Hcat. rewrite <- app_assoc, EPB in Hcat. apply F2_app in Hcat as [_ Hcat]; [|rewrite map_length; lia].
    cbn [map gid] in Hcat. inversion_clear Hcat as [|? ? ? ? Cp _].
    change (CA ++ GL j es :: CB) with (CA ++ [GL j es] ++ CB) in *.
    destruct (@leaf_of _ _ N rep (gh (bth tr) G) A _ Bc j es HI) as (l & El & Hl).
    { rewrite !lvs_app. apply in_or_app. right. simpl. auto. }
    cbn [gh hl] in El.
    destruct (l_er k Hl) as (l' & EE & Hl').
    cbn [gid] in *. cbn [ck_keys] in CK. cbn [be_erase_branch].
    unfold getbb in *. rewrite Eb in *. cbn [of_opt bind] in *.
    unfold bb_pos in *. rewrite Ep in *. cbn [bind] in *. rewrite (cat_get Cp) in *. cbn [bind] in *.
    unfold erase_leaf in *. unfold getl at 1 in CK. unfold getl at 1. rewrite El in *. cbn [of_opt bind] in *.
    rewrite EE in *. cbn [bind fst snd] in *. unfold getl at 1 in CK. unfold getl at 1. cbn [set_leaf hl] in CK |- *. rewrite upd_same' in *. cbn [of_opt bind] in *.
    pose proof (inv_sub HI) as HIc. pose proof (set_leaf_upd HIc Hl') as U0. pose proof (upd_ctx HI U0) as U1.
    assert (EN : ents (CA ++ [GL j (del k es)] ++ CB) = del k (ents (CA ++ [GL j es] ++ CB))).
    { rewrite !ents_app, !ents_GL. rewrite del_app_lt by assumption. now rewrite del_app_gt. }
    assert (HH : had k (ents [GB i (a ++ bb) (CA ++ [GL j es] ++ CB)]) = had k es).
    { rewrite ents_GB. cbn [app]. rewrite had_mid by assumption. now rewrite ents_GL. }
    assert (SD : sorted (del k es)) by now apply sorted_del.
    assert (FD : Forall (inb (lb lo a) (hbd bb hi)) (keys (del k es))).
    { rewrite Forall_forall in *. intros z Hz. apply Fs. eapply del_in_keys; eauto. }
    pose proof (length_del_le k Ss) as LD.
    rewrite (law_count LL Hl') in *.
    destruct (Nat.ltb_spec (length (del k es)) ((M + 1) / 2)) as [HU|HU].
    + match type of CK with context [ck_leaf ?t ?N ?M ?O ?x ?i ?p ?c] => set (t1 := x) in * end.
      destruct (ck_leaf t N M O t1 i p j) as [mg| |] eqn:ECK; cbn [bind] in CK; try discriminate CK.
      destruct (@ck_uf t1 G A i b pa pb a bb CA j (del k es) CB Bc lo hi l' p rest mg) as (tr' & E2 & HP); auto.
      { exact (uo_inv U1). }
      { rewrite !map_app in *. exact Hb. }
      { lia. }
      { unfold t1. cbn [bth set_leaf hl]. apply upd_same'. }
      rewrite E2. cbn [bind]. injection CK as <-. eexists. split; [reflexivity|]. cbn [fst snd]. split; [now rewrite HH|].
      destruct HP as [(P1 & P2 & b' & ks' & cs' & P3 & P4 & P5 & P6 & P7 & P8 & P9) | (P1 & P2 & P3 & b' & g' & P4 & P5 & P6 & P7 & P8)].
      * left. split; [exact P1|]. split; [exact P2|].
        assert (UC : upd_ok (gh (bth tr) G) A (CA ++ [GL j es] ++ CB) Bc (gh (bth tr') G) cs') by (eapply upd_trans; [exact U1|exact P4]).
        assert (Hni2 : ~ In i (bids cs')).
        { intros Hc. destruct (uo_b UC Hc) as [Hc'|Hc']; [now apply Hni|lia]. }
        assert (HX' : nok (btb tr') cs').
        { clear - P6. unfold XTree.nok. enough (nds cs' = []) as -> by constructor.
          clear - P6. revert lo ks' P6. induction cs' as [|g cs IHc]; intros lo ks HK; [reflexivity|].
          destruct ks as [|y ks]; cbn [kids] in HK.
          - destruct cs; [|tauto]. destruct HK as [_ HK]. apply wf0_leaf in HK as (? & ? & -> & _). reflexivity.
          - destruct HK as (_ & HW & HK). apply wf0_leaf in HW as (? & ? & -> & _). change (GL x x0 :: cs) with ([GL x x0] ++ cs). rewrite nds_app.
            cbn [app]. eapply IHc; eauto. }
        exists (upd G i (Some (canon N ks' (map (@gid V) cs')))), (GB i ks' cs'), b'.
        pose proof P5 as (ps' & P5'). destruct (brepp_len HN H64 P5') as (_ & Lc' & Lk' & Lb').
        splits; auto.
        -- rewrite P3. unfold t1. cbn [btb gid]. apply upd_same'.
        -- rewrite Lb'. destruct (brepp_len HN H64 Hb) as (_ & _ & _ & ->). destruct mg; lia.
        -- apply (@upd_node _ _ _ _ (gh (bth tr) G) A i (a ++ bb) _ Bc (gh (bth tr') G) _ (canon N ks' (map (@gid V) cs')) _ _ HI0 UC eq_refl).
           apply canon_brep; auto.
        -- apply nok_GB. split; auto. exists b'. cbn [fst snd]. rewrite P3. rewrite upd_same'. auto.
        -- intros z Hz. rewrite P3. unfold t1. cbn [btb]. apply upd_other. intros ->. apply Hz. rewrite bids_GB. simpl; auto.
        -- cbn [BTreeGhost.wf]. split; auto. lia.
        -- rewrite !ents_GB. now rewrite P7.
      * right. split; [exact P1|]. split; [exact P2|]. exists g'. splits; auto.
        -- apply upd_drop. eapply upd_trans; [exact U1|exact P6].
        -- rewrite ents_GB. now rewrite P8.
    + injection CK as <-. eexists. split; [reflexivity|]. cbn [fst snd]. split; [now rewrite HH|]. left. unfold er_same. cbn [broot bdepth bth btb].
      splits; auto. exists G, (GB i (a ++ bb) (CA ++ [GL j (del k es)] ++ CB)), b.
      assert (EM : map (@gid V) (CA ++ [GL j (del k es)] ++ CB) = map (@gid V) (CA ++ [GL j es] ++ CB)) by now rewrite !map_app.
      splits; auto.
      * exact (upd_node_same HI0 U1 EM).
      * apply nok_GB. split; [exists b; cbn [fst snd]; split; auto; rewrite EM; now exists (pa ++ pb)|].
        apply nok_app in HX as [X1 X2]. apply nok_app in X2 as [_ X2]. apply nok_app. split; auto.
      * cbn [BTreeGhost.wf]. split; auto.
        pose proof (@kids_ctx _ (wf (M / 2) 0) a CA bb CB lo hi [] [GL j (del k es)] LA LB) as EK. cbn [app mn] in EK |- *.
        apply EK. splits; auto. cbn [kids BTreeGhost.wf]. splits; auto; lia.
      * rewrite !ents_GB. exact EN.
  - (* higher up *)
    cbn [BTreeGhost.wf] in HW. destruct HW as [HC HK]. pose proof HI as HI0.
    apply inv_GB in HI as (HI & Hfi & Hni & _). apply nok_GB in HX as [(b & Eb & (ps & Hb)) HX]. cbn [fst snd] in *.
    destruct (route HK Hk) as (a & bb & CA & c & CB & -> & -> & LA & LB & Ha & Hbb & KL & Rc & Bd & KR & Hkc).
    destruct (@next_ok t N Ht HN H64 b ps a bb _ k Hb Ha Hbb) as (p & pa & pb & rest & Ep & -> & LPA & LPB & EPB & _ & _).
    destruct (ctx_ents (wf_okc (m := mn (M / 2) 0 (S d)) (d := S d)) KL KR Hkc) as [HA HBB].
    pose proof Hb as (_ & _ & _ & _ & _ & _ & _ & _ & Hcat).
    rewrite map_app in Hcat. rewrite <- app_assoc, EPB in Hcat. apply F2_app in Hcat as [_ Hcat]; [|rewrite map_length; lia].
    cbn [map gid] in Hcat. inversion_clear Hcat as [|? ? ? ? Cp _].
    change (CA ++ c :: CB) with (CA ++ [c] ++ CB) in HI, HX. pose proof (inv_sub HI) as HIc.
    apply nok_app in HX as [XA HX]. apply nok_app in HX as [Xc XB].
    cbn [gid] in *. rewrite ck_SS in CK. rewrite be_SS.
    unfold getbb at 1 in CK. unfold getbb at 1. rewrite Eb in *. cbn [of_opt bind] in *.
    unfold bb_pos at 1 in CK. unfold bb_pos at 1. rewrite Ep in *. cbn [bind] in *. rewrite (cat_get Cp) in *. cbn [bind] in *.
    destruct (ck_keys t N M O tr (S d) (gid c) k) as [n'| |] eqn:ECK; cbn [bind] in CK; try discriminate CK.
    destruct (Nat.ltb_spec n' ((N + 1) / 2)) as [_|HU]; [discriminate CK|]. injection CK as <-.
    destruct (IH (mn (M / 2) 0 (S d)) tr G _ c _ _ _ k n' ltac:(cbn [mn]; lia) Rc Hkc HIc Xc ltac:(lia) ECK) as ([t1 dl] & E1 & E2 & HP).
    rewrite E1. cbn [bind fst snd] in *.
    destruct HP as [(P1 & P2 & G' & g' & cb & P3 & Ecb & Ccb & P4 & P5 & P6 & P7 & P8) | (P1 & _)]; [|lia].
    assert (Hnc : ~ In i (bids [c])). { intros Hc. apply Hni. apply in_bids_mid. auto. }
    unfold getbb at 1. rewrite (P6 i Hnc), Eb. cbn [of_opt bind].
    unfold bb_pos at 1. rewrite Ep. cbn [bind]. unfold getbb at 1. rewrite Ecb. cbn [of_opt bind]. rewrite Ccb.
    rewrite (proj2 (Nat.ltb_ge _ _) HU). eexists. split; [reflexivity|]. cbn [fst snd]. split.
    { rewrite E2. rewrite ents_GB. now rewrite had_mid by assumption. }
    left. unfold er_same. splits; auto. exists G', (GB i (a ++ bb) (CA ++ [g'] ++ CB)), b.
    pose proof (upd_ctx HI P4) as UC.
    assert (EM : map (@gid V) (CA ++ [g'] ++ CB) = map (@gid V) (CA ++ c :: CB)).
    { rewrite !map_app. cbn [map app]. now rewrite P3. }
    assert (NDB : NoDup (bids (CA ++ [c] ++ CB))) by apply (inv_ndb HI).
    rewrite !bids_app in NDB. apply NoDup_app_inv in NDB as (_ & NDB & ND1). apply NoDup_app_inv in NDB as (_ & _ & ND2).
    splits; auto.
    + cbn [gid]. rewrite P6; auto.
    + exact (upd_node_same HI0 UC EM).
    + apply nok_GB. split; [exists b; cbn [fst snd]; split; [rewrite P6; auto|]; rewrite EM; now exists (pa ++ pb)|].
      apply nok_app. split; [|apply nok_app; split; auto].
      * eapply nok_frame; [|exact XA]. intros z Hz. apply P6. intros Hc. eapply ND1; [exact Hz|]. apply in_or_app; auto.
      * eapply nok_frame; [|exact XB]. intros z Hz. apply P6. intros Hc. eapply ND2; [exact Hc|exact Hz].
    + intros z Hz. apply P6. intros Hc. apply Hz. rewrite bids_GB. right. apply in_bids_mid. auto.
    + cbn [BTreeGhost.wf]. split; auto.
      pose proof (@kids_ctx _ (wf (mn (M / 2) 0 (S d)) (S d)) a CA bb CB lo hi [] [g'] LA LB) as EK. cbn [app] in EK |- *.
      apply EK. splits; auto. cbn [kids]. auto.
    + rewrite !ents_GB. change (CA ++ c :: CB) with (CA ++ [c] ++ CB). rewrite !ents_app, P8.
      rewrite del_app_lt by assumption. now rewrite del_app_gt.
Qed.

(** ** The whole tree *)
Notation btinv := (btinv t N M rep).

Lemma ck_erase_ok tr es k : btinv tr es -> ck_ok t N M O tr k = true -> exists r,
  be_erase t N M O tr k = Ok r /\ snd r = had k es /\ btinv (fst r) (del k es).
Proof.
  intros (G & g & Eg & HW & HI & HX & <-) CK. destruct tr as [h B r0 d]. cbn [to_x xroot xdepth xth xtb broot bdepth bth btb] in *. subst r0.
  unfold ck_ok in CK. unfold be_erase. cbn [bdepth broot bth btb] in *. destruct d as [|d].
  - destruct g as [i es|i ks cs]; [|cbn [rmin BTreeGhost.wf] in HW; tauto]. cbn [gid] in *.
    destruct (inv_GL HI) as (l & El & Hl & _). cbn [gh hl] in El. destruct (l_er k Hl) as (l' & EE & Hl').
    unfold erase_leaf, getl. rewrite El. cbn [of_opt bind]. rewrite EE. cbn [bind fst snd].
    eexists. split; [reflexivity|]. cbn [fst snd]. rewrite ents_GL. splits; auto.
    exists G, (GL i (del k es)). cbn [to_x xroot xdepth xth xtb broot bdepth bth btb gid].
    pose proof (set_leaf_upd HI Hl') as U. cbn [rmin BTreeGhost.wf] in *. destruct HW as (W1 & W2 & W3).
    splits; auto.
    + now apply sorted_del.
    + rewrite Forall_forall in *. intros z Hz. apply W2. eapply del_in_keys; eauto.
    + lia.
    + pose proof (length_del_le k W1). lia.
    + exact (uo_inv U).
    + apply ents_GL.
  - destruct (ck_keys t N M O (BTree h B (gid g) (S d)) (S d) (gid g) k) as [n| |] eqn:EK; try discriminate CK.
    destruct (@ck_branch_ok d (rmin (S d)) (BTree h B (gid g) (S d)) G [] g [] None None k n (le_n 1) HW ltac:(split; exact Logic.I) HI HX (le_n _) EK) as (r & E1 & E2 & HP).
    exists r. split; [exact E1|]. split; [exact E2|]. destruct HP as [(P1 & P2 & G' & g' & _ & P3 & _ & _ & P4 & P5 & P6 & P7 & P8) | (P1 & P2 & g' & P3 & P4 & P5 & P6)].
    + cbn [broot bdepth] in P1, P2. exists G', g'. cbn [to_x xroot xdepth xth xtb]. rewrite P1, P2. splits; auto. exact (uo_inv P4).
    + exists G, g'. cbn [to_x xroot xdepth xth xtb]. rewrite P2. splits; auto.
      * destruct g' as [i es|]; [|cbn [BTreeGhost.wf] in P5; tauto]. cbn [rmin BTreeGhost.wf] in *. destruct P5 as (Q1 & Q2 & Q3). splits; auto; lia.
      * exact (uo_inv P4).
      * destruct g' as [i es|]; [|cbn [BTreeGhost.wf] in P5; tauto]. constructor.
Qed.

(** ** Histories *)
Definition apply_op (o : bop V) (es : list (Z * V)) : list (Z * V) :=
  match o with BInsert k v => ins k v es | BErase _ k => del k es end.
Definition ins_in (o : bop V) : Prop := match o with BInsert k _ => bkok t k | BErase _ k => True end.

Lemma ck_run_ok os : forall tr es, Forall ins_in os -> btinv tr es -> ck_fine t N M O tr os = true -> exists tr',
  be_run t N M O tr os = Ok tr' /\ btinv tr' (fold_left (fun es o => apply_op o es) os es).
Proof.
  induction os as [|o os IH]; intros tr es HF HB CK; cbn [ck_fine be_run fold_left] in *; [eauto|].
  apply andb_prop in CK as [CK CR]. inversion_clear HF as [|? ? Hk HF']. destruct o as [k v|k]; cbn [be_step apply_op ins_in] in *.
  - destruct (@bg_insert_ok V t N M Ht HN H64 HM O rep LL rep_kok tr es k v Hk HB) as (t1 & E & HI). rewrite E in *. cbn [bind] in *. eauto.
  - destruct (ck_erase_ok HB CK) as (r & E & _ & HI). rewrite E in *. cbn [bind] in *. eauto.
Qed.
End GErase.

(** * The leafs of the two trees *)
Section Leafs.
Variables (V : Type) (t : ktype) (M : nat).
Hypothesis Ht : (1 <= kt_bits t <= 64)%Z.
Hypothesis HM : 2 <= M.
Hypothesis HW : (N.of_nat M < W)%N.
Notation leaf := (fleaf V).
Notation rep := (bh_rep (V := V) t M).

Lemma bit_rep_bh l es : bit_rep t M l es <-> rep l es.
Proof.
  unfold bit_rep, bh_rep, fl_repz. split; [tauto|]. intros [H HF]. splits; auto. intros w ->.
  apply Forall_inv in HF. destruct HF as [_ Hq]. cbn [fst] in Hq. lia.
Qed.

Lemma e_minkey (l : leaf) es x v : rep l ((x, v) :: es) -> fl_minkey t M l = Ok x.
Proof. intros H. apply bit_rep_bh in H. destruct H as [H _]. now apply (@fl_minkey_ok V t (fun _ => 0%Z) M l es x v). Qed.
Lemma e_erase (l : leaf) es k : rep l es -> get k es <> None -> exists l', fl_erase (fun _ => 0%Z) M l k = Ok (true, l') /\ rep l' (del k es).
Proof.
  intros [H HF] HG. destruct (@fl_erase_ok V t (fun _ => 0%Z) M l es k H HG) as (l' & E & R). exists l'. split; auto. split; auto.
  rewrite Forall_forall in *. intros z Hz. apply HF. eapply del_in_keys; eauto.
Qed.
Lemma e_absent (l : leaf) es k : rep l es -> get k es = None -> fl_erase (fun _ => 0%Z) M l k = Ok (false, l).
Proof. intros [H HF] HG. exact (@fl_erase_absent V t (fun _ => 0%Z) M l es k H HG). Qed.
Lemma e_merge (l1 l2 : leaf) e1 e2 : rep l1 e1 -> rep l2 e2 -> sorted (e1 ++ e2) -> length e1 + length e2 <= M ->
  exists l, fl_merge M l1 l2 = Ok l /\ rep l (e1 ++ e2).
Proof.
  intros [H1 F1] [H2 F2] HS HL. destruct (@fl_merge_ok V t (fun _ => 0%Z) M l1 l2 e1 e2 H1 H2 HS HL) as (l & E & R). exists l. split; auto. split; auto.
  rewrite keys_app, Forall_app. auto.
Qed.
Lemma e_balance (dl rl : leaf) ed er d0 r0 : rep dl ed -> rep rl er ->
  aget (fk dl) 0 = Ok d0 -> aget (fk rl) 0 = Ok r0 -> (r0 <= d0)%Z ->
  sorted (er ++ ed) -> length er < length ed -> 1 < length ed ->
  exists d' r' e1 e2, fl_balance t (fun _ => 0%Z) M dl rl = Ok (d', r') /\ ed = e1 ++ e2 /\
    length e2 = (length ed + length er) / 2 /\ rep d' e2 /\ rep r' (er ++ e1).
Proof.
  intros [H1 F1] [H2 F2] E0 E1 HL HS H3 H4.
  destruct (@fl_balance_right_ok V t (fun _ => 0%Z) M HW dl rl ed er d0 r0 H1 H2 E0 E1 HL HS H3 H4) as (d' & r' & e1 & e2 & E & Ee & L2 & R1 & R2).
  exists d', r', e1, e2. rewrite Ee, keys_app, Forall_app in F1. destruct F1 as [Fa Fb]. unfold bh_rep. splits; auto.
  rewrite keys_app, Forall_app. auto.
Qed.
End Leafs.

Lemma ops_fold {V} (os : list (mop V)) : forall es, sorted es -> forall x,
  get x (fold_left (fun es o => apply_op o es) (map bop_of os) es) = fold_left (m_step (V := V)) os (fun y => get y es) x.
Proof.
  induction os as [|[k v|k] os IH]; intros es H x; cbn [map bop_of fold_left apply_op m_step]; auto.
  - rewrite IH by now apply sorted_ins. apply fold_m_ext. intros y. unfold m_put. now rewrite get_ins.
  - rewrite IH by now apply sorted_del. apply fold_m_ext. intros y. unfold m_del. now rewrite get_del.
Qed.
Lemma ops_run {V} (os : list (mop V)) x : get x (fold_left (fun es o => apply_op o es) (map bop_of os) []) = m_run os x.
Proof. unfold m_run. rewrite ops_fold by constructor. apply fold_m_ext. reflexivity. Qed.

Section Trees.
Variables (V : Type) (t : ktype) (N M : nat).
Hypothesis Ht : (1 <= kt_bits t <= 64)%Z.
Hypothesis HN : 2 <= N.
Hypothesis H64 : N mod 64 <> 0.
Hypothesis HM : 2 <= M.
Hypothesis HW : (N.of_nat M < W)%N.
Variable O : leafops (fleaf V) V.
Variable rep : fleaf V -> list (Z * V) -> Prop.
Hypothesis LL : leaf_laws O M (M / 2) (bkok t) rep.
Hypothesis HR : forall l es, rep l es <-> bh_rep t M l es.
Hypothesis OE : lo_erase O = fl_erase (fun _ => 0%Z) M.
Hypothesis OM : lo_merge O = fl_merge M.
Hypothesis OB : lo_balance O = fl_balance t (fun _ => 0%Z) M.
Hypothesis OK : forall l es x v, rep l ((x, v) :: es) -> lo_minkey O l = Ok x.

Lemma rk l es : rep l es -> Forall (bkok t) (keys es).
Proof. intros H. apply HR in H. apply H. Qed.
Lemma t_er l es k : rep l es -> get k es <> None -> exists l', lo_erase O l k = Ok (true, l') /\ rep l' (del k es).
Proof. intros H HG. apply HR in H. rewrite OE. destruct (e_erase H HG) as (l' & E & R). exists l'. split; auto. now apply HR. Qed.
Lemma t_ab l es k : rep l es -> get k es = None -> lo_erase O l k = Ok (false, l).
Proof. intros H HG. apply HR in H. rewrite OE. now apply (e_absent H). Qed.
Lemma t_me l1 l2 e1 e2 : rep l1 e1 -> rep l2 e2 -> sorted (e1 ++ e2) -> length e1 + length e2 <= M ->
  exists l, lo_merge O l1 l2 = Ok l /\ rep l (e1 ++ e2).
Proof. intros H1 H2 HS HL. apply HR in H1, H2. rewrite OM. destruct (e_merge H1 H2 HS HL) as (l & E & R). exists l. split; auto. now apply HR. Qed.
Lemma t_ba dl rl ed er d0 r0 : rep dl ed -> rep rl er ->
  aget (fk dl) 0 = Ok d0 -> aget (fk rl) 0 = Ok r0 -> (r0 <= d0)%Z ->
  sorted (er ++ ed) -> length er < length ed -> 1 < length ed ->
  exists d' r' e1 e2, lo_balance O dl rl = Ok (d', r') /\ ed = e1 ++ e2 /\
    length e2 = (length ed + length er) / 2 /\ rep d' e2 /\ rep r' (er ++ e1).
Proof.
  intros H1 H2 E0 E1 H3 H4 H5 H6. apply HR in H1, H2. rewrite OB.
  destruct (e_balance HW H1 H2 E0 E1 H3 H4 H5 H6) as (d' & r' & e1 & e2 & E & Ee & L2 & R1 & R2).
  exists d', r', e1, e2. rewrite !HR. auto.
Qed.

Lemma ck_map os : Forall (ins_in t) (map bop_of os) -> ck_fine t N M O (bg_new O) (map bop_of os) = true -> exists tr,
  be_run t N M O (bg_new O) (map bop_of os) = Ok tr /\
  (forall k, bkok t k -> bg_lookup t N O tr k = Ok (m_run os k)) /\
  forall k, ck_ok t N M O tr k = true -> exists tr' b,
    be_erase t N M O tr k = Ok (tr', b) /\ (b = true <-> m_run os k <> None) /\
    forall x, bkok t x -> bg_lookup t N O tr' x = Ok (m_del (m_run os) k x).
Proof.
  intros HF CK.
  assert (I0 : btinv t N M rep (bg_new O) []) by (apply btinvs_inv, bg_new_inv; auto).
  destruct (@ck_run_ok V t N M Ht HN H64 HM O rep LL rk t_er t_ab t_me t_ba OK (map bop_of os) (bg_new O) [] HF I0 CK) as (tr & E & HI).
  exists tr. split; auto. split.
  - intros k Kk. rewrite <- ops_run. exact (@bg_lookup_ok V t N M Ht HN H64 O rep LL tr _ k Kk HI).
  - intros k EC. rewrite <- ops_run.
    destruct (@ck_erase_ok V t N M Ht HN H64 HM O rep LL rk t_er t_ab t_me t_ba OK tr _ k HI EC) as ([tr' b] & E1 & E2 & I2). cbn [fst snd] in *.
    exists tr', b. split; auto. split.
    + rewrite E2. unfold had. destruct (get k _); split; congruence.
    + intros x Hx. rewrite (@bg_lookup_ok V t N M Ht HN H64 O rep LL tr' _ x Hx I2). f_equal.
      assert (HS : sorted (fold_left (fun es o => apply_op o es) (map bop_of os) [])).
      { assert (H : forall os' es', sorted es' -> sorted (fold_left (fun es o => apply_op (V := V) o es) os' es')).
        { induction os' as [|o os' IHo]; intros es' Hs; cbn [fold_left]; auto. apply IHo. destruct o; cbn [apply_op]; [now apply sorted_ins|now apply sorted_del]. }
        apply H. constructor. }
      rewrite get_del by exact HS. unfold m_del. now rewrite ops_run.
Qed.
End Trees.

Lemma bit_ck V t N M os (O := bit_ops V t M) : (1 <= kt_bits t <= 64)%Z -> 2 <= N -> N mod 64 <> 0 -> 2 <= M -> (N.of_nat M < W)%N ->
  Forall (ins_in t) (map bop_of os) -> ck_fine t N M O (bt_new V t M) (map bop_of os) = true -> exists tr,
  bt_hist t N M (map bop_of os) = Ok tr /\
  (forall k, bkok t k -> bt_lookup t N M tr k = Ok (m_run os k)) /\
  forall k, ck_ok t N M O tr k = true -> exists tr' b,
    be_erase t N M O tr k = Ok (tr', b) /\ (b = true <-> m_run os k <> None) /\
    forall x, bkok t x -> bt_lookup t N M tr' x = Ok (m_del (m_run os) k x).
Proof.
  intros Ht HN H64 HM HW. apply (@ck_map V t N M Ht HN H64 HM HW (bit_ops V t M) (bit_rep t M)); auto.
  - now apply bit_leaf_laws.
  - intros l es. apply (bit_rep_bh Ht HM HW).
  - intros l es x v H. apply (bit_rep_bh Ht HM HW) in H. exact (e_minkey Ht HM HW H).
Qed.
Lemma bh_ck V t N M os (O := bh_ops V t M) : (1 <= kt_bits t <= 64)%Z -> 2 <= N -> N mod 64 <> 0 -> 2 <= M -> M mod 64 <> 0 -> (N.of_nat M < W)%N ->
  Forall (ins_in t) (map bop_of os) -> ck_fine t N M O (bh_new V t M) (map bop_of os) = true -> exists tr,
  be_run t N M O (bh_new V t M) (map bop_of os) = Ok tr /\
  (forall k, bkok t k -> bh_lookup t N M tr k = Ok (m_run os k)) /\
  forall k, ck_ok t N M O tr k = true -> exists tr' b,
    be_erase t N M O tr k = Ok (tr', b) /\ (b = true <-> m_run os k <> None) /\
    forall x, bkok t x -> bh_lookup t N M tr' x = Ok (m_del (m_run os) k x).
Proof.
  intros Ht HN H64 HM HM64 HW. apply (@ck_map V t N M Ht HN H64 HM HW (bh_ops V t M) (bh_rep t M)); auto.
  - now apply bh_leaf_laws.
  - tauto.
  - intros l es x v H. exact (e_minkey Ht HM HW H).
Qed.
