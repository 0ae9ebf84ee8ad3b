(** Branch nodes and whole trees of BitPBPTree (BitTreeModel) with non-negative keys below the
    largest value of KeyType. *)
From Verif Require Import Base ArrLemmas MapSpec SortedList RankModel RankProofs BitmapModel BitmapProofs UtilSpec BTreeModel BTreeLaws BTreeBranch
  BTreeGhost BTreeInsert BTreeSpec ULeafModel ULeafProofs FLeafModel FLeafProofs BitTreeModel InsSpec XTree BTreeMain.
Open Scope nat_scope.

(** ** Bits *)
Lemma nth_firstn {A} n : forall (l : list A) i, i < n -> nth_error (firstn n l) i = nth_error l i.
Proof. induction n as [|n IH]; intros [|x l] [|i] H; simpl; try lia; auto. apply IH. lia. Qed.
Lemma flip_bits_words n ws bs : (0 < n)%nat -> bm_ok n ws -> length bs = n ->
  (forall i, (i < n)%nat -> bm_test n ws i = of_opt (nth_error bs i)) ->
  exists ws', bm_flip n ws = Ok ws' /\ length (flip_bits bs) = n /\
    forall i, (i < n)%nat -> bm_test n ws' i = of_opt (nth_error (flip_bits bs) i).
Proof.
  intros Hn OK L H. destruct (flip_exact Hn OK) as (ws' & E & OK' & HB). exists ws'. split; [exact E|].
  unfold flip_bits. rewrite L. destruct (Nat.eqb_spec (n mod 64) 0) as [H0|H0].
  - assert (64 <= n) by (pose proof (Nat.div_mod n 64); lia).
    split; [rewrite app_length, map_length, firstn_length, repeat_length; lia|].
    intros i Hi. rewrite (bm_test_ok OK' Hi), (HB i Hi). cbn [andb].
    destruct (Nat.leb_spec (n - 64) i) as [Hc|Hc].
    + rewrite nth_error_app2 by (rewrite map_length, firstn_length; lia).
      rewrite nth_error_repeat; [reflexivity|]. rewrite map_length, firstn_length; lia.
    + rewrite nth_error_app1 by (rewrite map_length, firstn_length; lia).
      rewrite nth_error_map, nth_firstn by lia. specialize (H i Hi). rewrite (bm_test_ok OK Hi) in H.
      destruct (nth_error bs i); [|discriminate]. injection H as <-. reflexivity.
  - split; [now rewrite map_length|]. intros i Hi. rewrite (bm_test_ok OK' Hi), (HB i Hi). cbn [andb].
    rewrite nth_error_map. specialize (H i Hi). rewrite (bm_test_ok OK Hi) in H.
    destruct (nth_error bs i); [|discriminate]. injection H as <-. reflexivity.
Qed.

Lemma count_bits_len bs : forall ps i, NoDup ps -> (forall j, In j ps <-> exists m, j = i + m /\ nth_error bs m = Some true) ->
  count_bits bs = length ps.
Proof.
  unfold count_bits. induction bs as [|b bs IH]; intros ps i ND H.
  - destruct ps as [|p ps]; [reflexivity|]. destruct (proj1 (H p)) as (m & _ & E); [simpl; auto|]. destruct m; discriminate.
  - destruct b; cbn [filter id length].
    + assert (In i ps). { apply H. exists 0. split; [lia|reflexivity]. }
      apply in_split in H0 as (a & c & ->). apply NoDup_remove in ND as [ND ND'].
      rewrite (IH (a ++ c) (S i)); auto.
      * rewrite !app_length. cbn [length]. lia.
      * intros j. assert (Hj : In j (a ++ i :: c) <-> In j (a ++ c) \/ j = i).
        { rewrite !in_app_iff. simpl. intuition. }
        rewrite H in Hj. split.
        -- intros Hin. destruct (proj2 Hj (or_introl Hin)) as (m & -> & E). destruct m as [|m].
           ++ rewrite Nat.add_0_r in Hin. tauto.
           ++ exists m. split; [lia|exact E].
        -- intros (m & -> & E). destruct (proj1 Hj) as [Hin|Hin]; auto; [exists (S m); split; [lia|exact E]|lia].
    + apply (IH ps (S i)); auto. intros j. rewrite H. split.
      * intros (m & -> & E). destruct m as [|m]; [discriminate|]. exists m. split; [lia|exact E].
      * intros (m & -> & E). exists (S m). split; [lia|exact E].
Qed.

Lemma count_bits_length bs ps : NoDup ps -> (forall j, In j ps <-> nth_error bs j = Some true) -> count_bits bs = length ps.
Proof.
  intros ND H. apply (@count_bits_len bs ps 0 ND). intros j. rewrite H. split.
  - intros E. exists j. auto.
  - intros (m & -> & E). exact E.
Qed.

Lemma first_free_ok bs : count_bits bs < length bs -> first_free bs < length bs /\ nth_error bs (first_free bs) = Some false.
Proof.
  unfold count_bits. induction bs as [|[] bs IH]; cbn [filter id length first_free nth_error]; intros H; [lia| |split; [lia|reflexivity]].
  destruct IH as [H1 H2]; [lia|]. split; [lia|exact H2].
Qed.

Lemma F2_len {A B} (R : A -> B -> Prop) l m : Forall2 R l m -> length l = length m.
Proof. induction 1; simpl; auto. Qed.
Lemma F2_app {A B} (R : A -> B -> Prop) l1 l2 m1 m2 : length l1 = length m1 ->
  Forall2 R (l1 ++ l2) (m1 ++ m2) -> Forall2 R l1 m1 /\ Forall2 R l2 m2.
Proof.
  revert m1; induction l1 as [|x l1 IH]; intros [|y m1] HL H; try discriminate HL; simpl in *.
  - split; [constructor|exact H].
  - inversion H; subst. injection HL as HL. destruct (IH _ HL H5). split; auto.
Qed.
Lemma F2_split {A B} (R : A -> B -> Prop) l m1 m2 : Forall2 R l (m1 ++ m2) ->
  exists l1 l2, l = l1 ++ l2 /\ Forall2 R l1 m1 /\ Forall2 R l2 m2.
Proof. intros H. apply Forall2_app_inv_r in H as (l1 & l2 & H1 & H2 & ->). eauto. Qed.
Lemma F2_in_l {A B} (R : A -> B -> Prop) l m x : Forall2 R l m -> In x l -> exists y, In y m /\ R x y.
Proof. induction 1; simpl; [tauto|]. intros [->|Hx]; [eauto|]. destruct (IHForall2 Hx) as (z & ? & ?); eauto. Qed.
Lemma F2_in_r {A B} (R : A -> B -> Prop) l m y : Forall2 R l m -> In y m -> exists x, In x l /\ R x y.
Proof. induction 1; simpl; [tauto|]. intros [->|Hx]; [eauto|]. destruct (IHForall2 Hx) as (z & ? & ?); eauto. Qed.

Section Branch.
Variables (t : ktype) (N : nat).
Hypothesis Ht : (1 <= kt_bits t <= 64)%Z.
Hypothesis HN : 2 <= N.
Hypothesis H64 : N mod 64 <> 0.

(** Keys for which the searches and the split are right. *)
Definition bkok (k : Z) : Prop := kt_in t k /\ (0 <= k < kt_max t)%Z.

Definition kat (b : bbranch) (p : nat) (k : Z) := nth_error (bbk b) p = Some (Some k).
Definition cat (b : bbranch) (p c : nat) := nth_error (bbc b) p = Some (Some c).

(** The used positions, in key order, are [ps]. *)
Definition brepp (b : bbranch) (ps : list nat) (ks : list Z) (cs : list nat) : Prop :=
  length (bbk b) = N /\ length (bbits b) = N /\ length (bbc b) = S N /\
  ssorted ks /\ Forall bkok ks /\ NoDup ps /\
  (forall i, In i ps <-> nth_error (bbits b) i = Some true) /\
  Forall2 (kat b) ps ks /\ Forall2 (cat b) (ps ++ [N]) cs.
Definition bbrep b ks cs := exists ps, brepp b ps ks cs.
Definition bbsp (b : bbranch) (ks : list Z) (cs : list nat) : Prop :=
  match cs with c :: _ => cat b 0 c | [] => False end /\
  match ks with k :: _ => kat b 0 k /\ nth_error (bbits b) 0 = Some true | [] => True end.

Lemma brepp_lt b ps ks cs i : brepp b ps ks cs -> In i ps -> i < N.
Proof.
  intros (_ & L & _ & _ & _ & _ & H & _) Hi. apply H in Hi. rewrite <- L. apply nth_error_Some. congruence.
Qed.
Lemma brepp_bits b ps ks cs : brepp b ps ks cs -> bits_ok (bbk b) (bbits b) N.
Proof.
  intros (L1 & L2 & _ & _ & _ & _ & H & HK & _). unfold bits_ok; splits; auto. intros i Hi. apply H in Hi.
  destruct (F2_in_l HK Hi) as (k & _ & E). exists k. exact E.
Qed.
Lemma brepp_live b ps ks cs i k : brepp b ps ks cs -> RankProofs.live (bbk b) (bbits b) i k <-> In i ps /\ kat b i k.
Proof. intros (_ & _ & _ & _ & _ & _ & H & _). unfold RankProofs.live, kat. rewrite <- H. tauto. Qed.

Lemma brepp_in b ps ks cs i k : brepp b ps ks cs -> RankProofs.live (bbk b) (bbits b) i k -> In k ks.
Proof.
  intros HR HL. apply (brepp_live _ _ HR) in HL as [Hi Hk]. destruct HR as (_ & _ & _ & _ & _ & _ & _ & HK & _).
  destruct (F2_in_l HK Hi) as (k' & Hk' & E). unfold kat in *. congruence.
Qed.

Lemma brepp_len b ps ks cs : brepp b ps ks cs -> length ps = length ks /\ length cs = S (length ks) /\ length ks <= N /\
  count_bits (bbits b) = length ks.
Proof.
  intros HR. pose proof HR as (L1 & L2 & _ & _ & _ & ND & H & HK & HC). apply F2_len in HK, HC.
  rewrite app_length in HC. cbn [length] in HC. splits; [lia|lia| |].
  - rewrite <- HK. rewrite <- (seq_length N 0). apply NoDup_incl_length; auto. intros i Hi.
    apply in_seq. split; [lia|]. simpl. eapply brepp_lt; eauto.
  - rewrite <- HK. apply count_bits_length; auto.
Qed.

(** The search for the next larger key finds the position below which the key belongs. *)
Lemma next_ok b ps a bb cs k : brepp b ps (a ++ bb) cs -> ale k a -> agt k bb ->
  exists p pa pb rest, findMinKeyPosGreaterThan t (bbk b) (bbits b) N k = Ok p /\ ps = pa ++ pb /\
    length pa = length a /\ length pb = length bb /\ pb ++ [N] = p :: rest /\ Forall2 (kat b) pa a /\ Forall2 (kat b) pb bb.
Proof.
  intros HR Ha Hb. pose proof HR as (_ & _ & _ & HS & HF & ND & HI & HK & _).
  destruct (F2_split HK) as (pa & pb & -> & K1 & K2).
  destruct (@findMinKeyPosGreaterThan_ok t (bbk b) (bbits b) N k (brepp_bits HR)) as (p & E & HP).
  { intros i x Hx. apply (brepp_in HR) in Hx. rewrite Forall_forall in HF. apply HF in Hx. unfold bkok in Hx. tauto. }
  rewrite ale_in in Ha. rewrite agt_in in Hb.
  destruct HP as [(m & Hl & Hm & Hmin)|[-> Hall]].
  - pose proof (brepp_in HR Hl) as Hin. apply in_app_or in Hin as [Hin|Hin]; [apply Ha in Hin; lia|].
    destruct bb as [|x bb]; [simpl in Hin; tauto|]. inversion K2 as [|q ? pb' ? Kq K2' E1 E2]; subst.
    assert (m = x).
    { assert (m <= x)%Z.
      { apply Hmin with q; [|apply Hb; simpl; auto]. apply (brepp_live _ _ HR). split; auto. apply in_or_app; simpl; auto. }
      apply ssorted_app in HS as (_ & HS & _). apply ssorted_cons in HS as [_ HS]. rewrite agt_in in HS.
      destruct Hin as [->|Hin]; auto. apply HS in Hin. lia. }
    subst m.
    assert (p = q).
    { apply (brepp_live _ _ HR) in Hl as [Hp Kp]. clear - HK Hp Kp Kq HS ND K1.
      apply in_app_or in Hp as [Hp|[Hp|Hp]]; auto; exfalso.
      - apply ssorted_app in HS as (_ & _ & HS). destruct (F2_in_l K1 Hp) as (y & Hy & Ky).
        assert (y = x) by (unfold kat in *; congruence). subst y. specialize (HS x x Hy). simpl in HS. specialize (HS (or_introl eq_refl)). lia.
      - apply ssorted_app in HS as (_ & HS & _). apply ssorted_cons in HS as [_ HS]. rewrite agt_in in HS.
        apply F2_app in HK as [_ HK]; [|apply (F2_len K1)]. inversion HK; subst.
        destruct (F2_in_l H4 Hp) as (y & Hy & Ky). assert (y = x) by (unfold kat in *; congruence). subst y. apply HS in Hy. lia. }
    subst q. exists p, pa, (p :: pb'), (pb' ++ [N]). splits; auto; [apply (F2_len K1)|apply (F2_len K2)].
  - destruct bb as [|x bb].
    + inversion K2; subst. exists N, pa, [], []. splits; auto. apply (F2_len K1).
    + exfalso. inversion K2 as [|q ? pb' ? Kq K2' E1 E2]; subst.
      assert (x <= k)%Z. { apply Hall with q. apply (brepp_live _ _ HR). split; auto. apply in_or_app; simpl; auto. }
      specialize (Hb x (or_introl eq_refl)). lia.
Qed.

Lemma cat_get b p c : cat b p c -> aget (bbc b) p = Ok c.
Proof. unfold cat, aget. intros ->. reflexivity. Qed.

Lemma bb_pos_ok b a bb CA c CB k : bbrep b (a ++ bb) (CA ++ c :: CB) -> length CA = length a -> length CB = length bb ->
  ale k a -> agt k bb -> exists p, bb_pos t N b k = Ok p /\ aget (bbc b) p = Ok c.
Proof.
  intros (ps & HR) LA LB Ha Hb. destruct (next_ok HR Ha Hb) as (p & pa & pb & rest & E & -> & L1 & L2 & EP & _).
  exists p. split; [exact E|]. pose proof HR as (_ & _ & _ & _ & _ & _ & _ & _ & HC).
  rewrite <- app_assoc, EP in HC. apply F2_app in HC as [_ HC]; [|lia]. inversion HC; subst. now apply cat_get.
Qed.

Lemma bb_add_ok b a bb CA c CB s l r : bbrep b (a ++ bb) (CA ++ c :: CB) -> length CA = length a -> length CB = length bb ->
  length (a ++ bb) < N -> bkok s -> ssorted (a ++ s :: bb) ->
  exists b', bb_add t N b (Split s l r) = Ok b' /\ bbrep b' (a ++ s :: bb) (CA ++ l :: r :: CB) /\
    (a <> [] -> bbsp b (a ++ bb) (CA ++ c :: CB) -> bbsp b' (a ++ s :: bb) (CA ++ l :: r :: CB)).
Proof.
  intros (ps & HR) LA LB HL Ks HS'.
  assert (Ha : ale s a).
  { rewrite ale_in. intros z Hz. apply ssorted_app in HS' as (_ & _ & H). specialize (H z s Hz (or_introl eq_refl)). lia. }
  assert (Hb : agt s bb). { apply ssorted_app in HS' as (_ & H & _). now apply ssorted_cons in H. }
  destruct (next_ok HR Ha Hb) as (p & pa & pb & rest & E & -> & L1 & L2 & EP & K1 & K2).
  pose proof HR as (Lk & Lb & Lc & HS & HF & ND & HI & HK & HC).
  destruct (brepp_len HR) as (_ & _ & _ & ECB).
  destruct (@first_free_ok (bbits b)) as [Hu Hf]; [lia|]. set (u := first_free (bbits b)) in *.
  assert (Hup : ~ In u (pa ++ pb)). { intros Hc. apply HI in Hc. congruence. }
  assert (HpN : In p (pb ++ [N])) by (rewrite EP; simpl; auto).
  assert (NDN : NoDup ((pa ++ pb) ++ [N])).
  { apply NoDup_app_mk; auto; [constructor; [simpl; tauto|constructor]|]. intros x Hx [<-|[]]. apply (brepp_lt HR) in Hx. lia. }
  assert (Hup2 : u <> p).
  { intros <-. apply in_app_or in HpN as [Hc|[Hc|[]]]; [apply Hup; apply in_or_app; auto|lia]. }
  assert (HpS : p < S N).
  { apply in_app_or in HpN as [Hc|[<-|[]]]; [|lia]. assert (p < N); [|lia]. apply (brepp_lt HR). apply in_or_app; auto. }
  unfold bb_add. cbn [skey sleft sright]. fold u. rewrite E. cbn [bind].
  destruct (@aset_ok _ (bbk b) u s) as [ks1 Ek]; [lia|].
  destruct (@aset_ok _ (bbc b) u l) as [cs1 Ec]; [lia|].
  destruct (@aset_ok _ cs1 p r) as [cs2 Ec2]; [rewrite (aset_length Ec); lia|].
  destruct (@lset_some _ (bbits b) u true Hu) as [bs1 Eb].
  rewrite Ek. cbn [bind]. rewrite Ec. cbn [bind]. rewrite Ec2. cbn [bind]. rewrite Eb. cbn [of_opt bind].
  eexists. split; [reflexivity|].
  assert (Hkat : forall q x, q <> u -> kat b q x -> kat (BBranch bs1 ks1 cs2) q x).
  { unfold kat. cbn [bbk]. intros q x Hq Hx. rewrite (aset_nth _ Ek). destruct (Nat.eqb_spec q u); [tauto|exact Hx]. }
  assert (Hcat : forall q x, q <> u -> q <> p -> cat b q x -> cat (BBranch bs1 ks1 cs2) q x).
  { unfold cat. cbn [bbc]. intros q x Hq Hq2 Hx. rewrite (aset_nth _ Ec2), (aset_nth _ Ec).
    destruct (Nat.eqb_spec q p); [tauto|]. destruct (Nat.eqb_spec q u); [tauto|exact Hx]. }
  rewrite <- app_assoc, EP in HC. apply F2_app in HC as [C1 C2]; [|lia]. inversion C2 as [|? ? ? ? Cp C2' E1 E2]; subst.
  rewrite <- app_assoc, EP in NDN. apply NoDup_app_inv in NDN as (ND1 & ND2 & ND3). inversion ND2 as [|? ? Hpr ND2']; subst.
  assert (Hur : ~ In u rest).
  { intros Hc. assert (Hc' : In u (pb ++ [N])) by (rewrite EP; simpl; auto).
    apply in_app_or in Hc' as [Hc'|[Hc'|[]]]; [apply Hup; apply in_or_app; auto|lia]. }
  split.
  - exists (pa ++ u :: pb). unfold brepp. cbn [bbk bbits bbc].
    rewrite (aset_length Ek), (lset_length Eb), (aset_length Ec2), (aset_length Ec). splits; auto.
    + rewrite Forall_app in HF |- *. destruct HF as [F1 F2]. split; [exact F1|]. constructor; auto.
    + apply NoDup_app_inv in ND as (N1 & N2 & N3). rewrite in_app_iff in Hup.
      apply NoDup_app_mk; auto; [constructor; tauto|]. intros x Hx [<-|Hy]; [tauto|eauto].
    + intros i. rewrite in_app_iff. cbn [In]. rewrite (lset_nth i Eb). specialize (HI i). rewrite in_app_iff in HI.
      destruct (Nat.eqb_spec i u) as [->|Hne]; [tauto|]. rewrite <- HI. split; [intros [?|[?|?]]; [tauto|congruence|tauto]|tauto].
    + rewrite in_app_iff in Hup. apply Forall2_app.
      * clear - K1 Hkat Hup. induction K1; constructor; [apply Hkat; auto; intros ->; simpl in Hup; tauto|]. apply IHK1. simpl in Hup. tauto.
      * constructor.
        -- unfold kat. cbn [bbk]. rewrite (aset_nth _ Ek). now rewrite Nat.eqb_refl.
        -- clear - K2 Hkat Hup. induction K2; constructor; [apply Hkat; auto; intros ->; simpl in Hup; tauto|]. apply IHK2. simpl in Hup. tauto.
    + rewrite <- app_assoc. cbn [app]. rewrite EP. rewrite in_app_iff in Hup. apply Forall2_app.
      * clear - C1 Hcat Hup ND3. induction C1; constructor.
        -- apply Hcat; auto; intros ->; [simpl in Hup; tauto|]. exact (ND3 _ (or_introl eq_refl) (or_introl eq_refl)).
        -- apply IHC1; [simpl in Hup; tauto|]. intros w Hy1 Hy2; apply (ND3 w); [right; exact Hy1|exact Hy2].
      * constructor.
        -- unfold cat. cbn [bbc]. rewrite (aset_nth _ Ec2), (aset_nth _ Ec). rewrite Nat.eqb_refl.
           destruct (Nat.eqb_spec u p); [tauto|reflexivity].
        -- constructor.
           ++ unfold cat. cbn [bbc]. rewrite (aset_nth _ Ec2). now rewrite Nat.eqb_refl.
           ++ clear - C2' Hcat Hur Hpr. induction C2'; constructor.
              ** apply Hcat; auto; intros ->; simpl in *; tauto.
              ** apply IHC2'; simpl in *; tauto.
  - intros Hne [H1 H2]. destruct a as [|x a]; [congruence|]. destruct CA as [|c0 CA]; [discriminate LA|].
    cbn [app] in H1, H2 |- *. destruct H2 as [H2 H3].
    assert (0 <> u) by (intros <-; congruence).
    assert (0 <> p).
    { intros <-. inversion K1 as [|q ? pa' ? Kq K1' F1 F2]; subst.
      assert (In 0 ((q :: pa') ++ pb)) by (apply HI; exact H3).
      destruct (Nat.eq_dec 0 q) as [<-|Hq]; [exact (ND3 _ (or_introl eq_refl) (or_introl eq_refl))|].
      assert (In 0 pb \/ In 0 pa') as [Hz|Hz] by (cbn [app In] in H0; rewrite in_app_iff in H0; destruct H0 as [H0|[H0|H0]]; [congruence|auto|auto]).
      - destruct (F2_in_l K2 Hz) as (y & Hy & Ky). assert (y = x) by (unfold kat in *; congruence). subst y.
        apply ssorted_app in HS as (_ & _ & HS). specialize (HS x x (or_introl eq_refl) Hy). lia.
      - eapply ND3; [right; exact Hz|simpl; auto]. }
    split; [apply Hcat; auto|split; [apply Hkat; auto|]]. cbn [bbits]. rewrite (lset_nth _ Eb). destruct (Nat.eqb_spec 0 u); [tauto|exact H3].
Qed.

Lemma NoDup_full ps : NoDup ps -> length ps = N -> (forall i, In i ps -> i < N) -> forall i, i < N -> In i ps.
Proof.
  intros ND HL H i Hi. apply (NoDup_length_incl (l := ps) (l' := seq 0 N)); auto.
  - rewrite seq_length. lia.
  - intros j Hj. apply in_seq. apply H in Hj. lia.
  - apply in_seq. lia.
Qed.

Lemma all_some (a : arr Z) : (forall i, i < length a -> exists k, nth_error a i = Some (Some k)) -> exists data, a = map Some data.
Proof.
  induction a as [|o a IH]; intros H; [exists []; reflexivity|].
  destruct (H 0) as (k & E); [simpl; lia|]. injection E as ->.
  destruct IH as (data & ->); [intros i Hi; apply (H (S i)); simpl; lia|]. exists (k :: data). reflexivity.
Qed.

Lemma bb_split_ok b ks cs : bbrep b ks cs -> length ks = N ->
  exists a sk bb ca cb b1 b2, bb_split t N b = Ok (b1, b2, sk) /\ ks = a ++ sk :: bb /\ cs = ca ++ cb /\
      length ca = S (length a) /\ bbrep b1 a ca /\ bbrep b2 bb cb /\ (bbsp b ks cs -> bbsp b1 a ca).
Proof.
  intros (ps & HR) EN. pose proof HR as (Lk & Lb & Lc & HS & HF & ND & HI & HK & HC).
  destruct (brepp_len HR) as (LP & _ & _ & _).
  assert (HA : forall i, i < N -> In i ps) by (apply NoDup_full; auto; [lia|intros i Hi; now apply (brepp_lt HR)]).
  destruct (@all_some (bbk b)) as (data & Ed).
  { intros i Hi. destruct (F2_in_l HK (HA i ltac:(lia))) as (k & _ & E). exists k. exact E. }
  assert (LD : length data = N) by (rewrite <- Lk, Ed, map_length; reflexivity).
  assert (Hat : forall i k, nth_error data i = Some k <-> kat b i k).
  { intros i k. unfold kat. rewrite Ed, nth_error_map. destruct (nth_error data i); simpl; split; congruence. }
  assert (Hkd : forall i k, kat b i k -> In k ks).
  { intros i k Hk. assert (i < N) by (rewrite <- Lk; apply nth_error_Some; unfold kat in Hk; congruence).
    apply (brepp_in HR (i := i)). apply (brepp_live _ _ HR). auto. }
  assert (Huniq : forall i j k, kat b i k -> kat b j k -> i = j).
  { intros i j k Hi Hj.
    assert (i < N) by (rewrite <- Lk; apply nth_error_Some; unfold kat in Hi; congruence).
    assert (j < N) by (rewrite <- Lk; apply nth_error_Some; unfold kat in Hj; congruence).
    pose proof (HA i H) as Ii. pose proof (HA j H0) as Ij. apply In_nth_error in Ii as (x & Ex). apply In_nth_error in Ij as (y & Ey).
    assert (Hn : forall z q kk, nth_error ps z = Some q -> kat b q kk -> nth_error ks z = Some kk).
    { clear - HK. induction HK; intros [|z] q kk Hz Hq; simpl in *; try discriminate; eauto.
      injection Hz as ->. unfold kat in *. congruence. }
    pose proof (Hn _ _ _ Ex Hi) as Nx. pose proof (Hn _ _ _ Ey Hj) as Ny.
    assert (x = y); [|congruence]. apply ssorted_NoDup in HS. rewrite NoDup_nth_error in HS. apply HS.
    - apply nth_error_Some. congruence.
    - congruence. }
  destruct (@findSplitKey_nonneg t data Ht) as (x & pos & E & Hx & _).
  { lia. }
  { apply NoDup_nth_error. intros i j Hi Hij. destruct (nth_error data i) as [k|] eqn:Ek; [|apply nth_error_Some in Hi; congruence].
    symmetry in Hij. apply Hat in Ek, Hij. eauto. }
  { intros k Hk. apply In_nth_error in Hk as (i & Hi). apply Hat in Hi. apply Hkd in Hi. rewrite Forall_forall in HF.
    apply HF in Hi. unfold bkok in Hi. tauto. }
  assert (ER : read_all N 0 (bbk b) = Ok data).
  { rewrite Ed, <- LD. pose proof (@read_all_ok data [] []) as R. rewrite app_nil_r in R. exact R. }
  pose proof (proj1 (Hat _ _) Hx) as Kx. pose proof (Hkd _ _ Kx) as Hin. apply in_split in Hin as (a & bb & ->).
  destruct (F2_split HK) as (pa & pb & -> & K1 & K2). inversion K2 as [|q ? pb' ? Kq K2' E1 E2]; subst.
  assert (q = pos) by eauto. subst q.
  rewrite <- app_assoc in HC. cbn [app] in HC. apply Forall2_app_inv_l in HC as (CA & C2 & C1 & HC2 & ->).
  inversion HC2 as [|? cm ? CB Cm HC2' E1 E2]; subst.
  assert (HposN : pos < N) by (apply (brepp_lt HR); apply in_or_app; simpl; auto).
  assert (Cl : exists last, cat b N last).
  { assert (In N (pb' ++ [N])) by (apply in_or_app; simpl; auto). destruct (F2_in_l HC2' H) as (z & _ & Hz). eauto. }
  destruct Cl as (last & Cl).
  unfold bb_split. rewrite ER. cbn [bind]. rewrite E. cbn [bind].
  assert (aget (bbk b) pos = Ok x) as -> by (unfold aget; unfold kat in Kx; rewrite Kx; reflexivity). cbn [bind].
  destruct (@lset_some _ (map (fun d => (d <? x)%Z) data) pos false) as [mb Emb]; [rewrite map_length; lia|].
  rewrite Emb. cbn [of_opt bind].
  assert (Lmb : length mb = N) by (rewrite (lset_length Emb), map_length; exact LD).
  assert (flip_bits mb = map negb mb) as ->.
  { unfold flip_bits. rewrite Lmb. destruct (Nat.eqb_spec (N mod 64) 0); [contradiction|reflexivity]. }
  destruct (@lset_some _ (map negb mb) pos false) as [sb Esb]; [rewrite map_length; lia|].
  rewrite Esb. cbn [of_opt bind].
  rewrite (cat_get Cl). cbn [bind].
  destruct (@aset_ok _ (bbc b) (length data) last) as [cs1 Ec1]; [lia|]. rewrite LD in Ec1. rewrite Ec1. cbn [bind].
  rewrite (cat_get Cm). cbn [bind].
  destruct (@aset_ok _ (bbc b) N cm) as [cn Ecn]; [lia|]. rewrite Ecn. cbn [bind].
  exists a, x, bb, (CA ++ [cm]), CB. eexists _, _. split; [reflexivity|].
  assert (LCA : length CA = length a) by (rewrite <- (F2_len C1), <- (F2_len K1); reflexivity).
  apply NoDup_app_inv in ND as (N1 & N2 & N3). inversion N2 as [|? ? N2' N2'']; subst.
  pose proof HS as HS0. apply ssorted_app in HS as (S1 & S2 & S12). apply ssorted_cons in S2 as [S2 S2'].
  apply Forall_app in HF as [F1 F2]. inversion F2 as [|? ? Fx F2']; subst.
  assert (Hm : forall i, nth_error mb i = Some true <-> In i pa).
  { intros i. rewrite (lset_nth _ Emb). split.
    - destruct (Nat.eqb_spec i pos); [discriminate|]. rewrite nth_error_map. destruct (nth_error data i) as [k|] eqn:Ek; [|discriminate].
      cbn [option_map]. intros [= Hlt]. apply Z.ltb_lt in Hlt. apply Hat in Ek. pose proof (Hkd _ _ Ek) as Hk.
      apply in_app_or in Hk as [Hk|[->|Hk]]; [|lia|rewrite agt_in in S2'; apply S2' in Hk; lia].
      destruct (F2_in_r K1 Hk) as (j & Hj & Kj). now rewrite (Huniq _ _ _ Ek Kj).
    - intros Hi. destruct (Nat.eqb_spec i pos) as [->|_]; [exfalso; eapply N3; [exact Hi|simpl; auto]|].
      destruct (F2_in_l K1 Hi) as (k & Hk & Kk). rewrite nth_error_map, (proj2 (Hat _ _) Kk). cbn [option_map]. f_equal.
      apply Z.ltb_lt. apply S12; simpl; auto. }
  assert (Hsb : forall i, nth_error sb i = Some true <-> In i pb').
  { intros i. rewrite (lset_nth _ Esb). split.
    - destruct (Nat.eqb_spec i pos) as [|Hne]; [discriminate|]. rewrite nth_error_map. destruct (nth_error mb i) as [[]|] eqn:Em; try discriminate.
      intros _. assert (i < N) by (rewrite <- Lmb; apply nth_error_Some; congruence).
      apply HA in H. apply in_app_or in H as [H|[H|H]]; auto; [|congruence]. apply Hm in H. congruence.
    - intros Hi. destruct (Nat.eqb_spec i pos) as [->|_]; [tauto|].
      assert (HiN : i < N) by (apply (brepp_lt HR); apply in_or_app; simpl; auto).
      rewrite nth_error_map. destruct (nth_error mb i) as [[]|] eqn:Em; [|reflexivity|].
      + apply Hm in Em. exfalso. eapply N3; [exact Em|simpl; auto].
      + apply nth_error_None in Em. lia. }
  splits.
  - reflexivity.
  - rewrite <- app_assoc. reflexivity.
  - rewrite app_length. simpl. lia.
  - exists pa. unfold brepp. cbn [bbk bbits bbc]. rewrite (aset_length Ecn). splits; auto.
    + intros i. rewrite Hm. tauto.
    + apply Forall2_app.
      * assert (HpaN : forall i, In i pa -> i <> N).
        { intros i Hi ->. assert (N < N); [|lia]. apply (brepp_lt HR). apply in_or_app; auto. }
        clear - C1 Ecn HpaN. induction C1; constructor.
        -- unfold cat. cbn [bbc]. rewrite (aset_nth _ Ecn). destruct (Nat.eqb_spec x N) as [->|_]; [|exact H].
           exfalso. apply (HpaN N); simpl; auto.
        -- apply IHC1. intros; apply HpaN; simpl; auto.
      * constructor; [|constructor]. unfold cat. cbn [bbc]. rewrite (aset_nth _ Ecn). now rewrite Nat.eqb_refl.
  - exists pb'. unfold brepp. cbn [bbk bbits bbc]. rewrite (aset_length Ec1), (lset_length Esb), map_length. splits; auto.
    + intros i. rewrite Hsb. tauto.
    + assert (Hsame : forall i y, cat b i y -> cat (BBranch sb (bbk b) cs1) i y).
      { intros i y Hy. unfold cat in *. cbn [bbc]. rewrite (aset_nth _ Ec1). destruct (Nat.eqb_spec i N) as [->|_]; [|exact Hy].
        rewrite Cl in Hy. exact Hy. }
      clear - HC2' Hsame. induction HC2'; constructor; auto.
  - intros [H1 H2].
    assert (HN0 : forall y, cat b 0 y -> cat (BBranch mb (bbk b) cn) 0 y).
    { intros y Hy. unfold cat in *. cbn [bbc]. rewrite (aset_nth _ Ecn). destruct (Nat.eqb_spec 0 N); [lia|exact Hy]. }
    split.
    + destruct CA as [|c0 CA]; cbn [app] in *; auto.
    + destruct a as [|y a]; [exact I|]. cbn [app] in H2. destruct H2 as [H2 H3]. split; [exact H2|]. cbn [bbits].
      apply Hm. inversion K1 as [|q ? pa1 ? Kq1 K11 F3 F4]; subst. left. exact (Huniq _ _ _ Kq1 H2).
Qed.

Definition bb_root (si : split) : res bbranch :=
  do ks <- aset (anew N) 0 (skey si);
  do cs <- aset (anew (S N)) 0 (sleft si);
  do cs' <- aset cs N (sright si);
  do bs <- of_opt (lset (repeat false N) 0 true);
  Ok (BBranch bs ks cs').

Lemma bb_root_ok s l r : bkok s -> exists b, bb_root (Split s l r) = Ok b /\ bbrep b [s] [l; r] /\ bbsp b [s] [l; r].
Proof.
  intros Ks. unfold bb_root. cbn [skey sleft sright].
  destruct (@aset_ok _ (anew (A := Z) N) 0 s) as [ks Ek]; [unfold anew; rewrite repeat_length; lia|].
  destruct (@aset_ok _ (anew (A := nat) (S N)) 0 l) as [cs Ec]; [unfold anew; rewrite repeat_length; lia|].
  destruct (@aset_ok _ cs N r) as [cs' Ec']; [rewrite (aset_length Ec); unfold anew; rewrite repeat_length; lia|].
  destruct (@lset_some _ (repeat false N) 0 true) as [bs Eb]; [rewrite repeat_length; lia|].
  rewrite Ek. cbn [bind]. rewrite Ec. cbn [bind]. rewrite Ec'. cbn [bind]. rewrite Eb. cbn [of_opt bind].
  eexists. split; [reflexivity|].
  assert (K0 : kat (BBranch bs ks cs') 0 s) by (unfold kat; cbn [bbk]; now rewrite (aset_nth _ Ek)).
  assert (C0 : cat (BBranch bs ks cs') 0 l).
  { unfold cat; cbn [bbc]. rewrite (aset_nth _ Ec'), (aset_nth _ Ec). destruct (Nat.eqb_spec 0 N); [lia|reflexivity]. }
  assert (CN : cat (BBranch bs ks cs') N r).
  { unfold cat; cbn [bbc]. rewrite (aset_nth _ Ec'). now rewrite Nat.eqb_refl. }
  assert (B0 : forall i, nth_error bs i = Some true <-> i = 0).
  { intros i. rewrite (lset_nth _ Eb). destruct (Nat.eqb_spec i 0) as [->|Hne]; [tauto|]. split; [|tauto].
    intros Hc. apply nth_error_In in Hc. apply repeat_spec in Hc. discriminate. }
  split.
  - exists [0]. unfold brepp. cbn [bbk bbits bbc]. rewrite (aset_length Ek), (aset_length Ec'), (aset_length Ec), (lset_length Eb).
    unfold anew. rewrite !repeat_length. splits; auto.
    + apply ssorted_cons. split; constructor.
    + constructor; [simpl; tauto|constructor].
    + intros i. rewrite B0. simpl. intuition.
    + cbn [app]. auto.
  - split; [exact C0|]. split; [exact K0|]. cbn [bbits]. now apply B0.
Qed.

Definition bitq : brops bbranch :=
  BrOps (bb_pos t N) (fun b p => aget (bbc b) p) (fun b => Ok (count_bits (bbits b) =? N)) (fun b _ => bb_split t N b)
    (fun b _ si => bb_add t N b si) (fun b _ si => bb_add t N b si) bb_root (fun b => aget (bbc b) 0).

Lemma bit_laws : br_laws N bitq bkok bbrep bbsp.
Proof.
  constructor; cbn [bitq xo_pos xo_child xo_full xo_split xo_add0 xo_add1 xo_root xo_first].
  - intros b ks cs (ps & HR). destruct (brepp_len HR) as (_ & H1 & H2 & _). splits; auto. apply HR.
  - intros b a bb CA c CB k HR LA LB HS Ha Hb Kk. destruct (bb_pos_ok HR LA LB Ha Hb) as (p & E1 & E2).
    exists p. splits; auto. intros HL s l r Ks Hs. now apply bb_add_ok.
  - intros b a bb CA c CB k s l r HR LA LB Ha Hb Kk HL Ks Hs. now apply bb_add_ok.
  - intros b ks cs (ps & HR). destruct (brepp_len HR) as (_ & _ & _ & ->). reflexivity.
  - intros b ks cs s HR HL _ _. now apply bb_split_ok.
  - intros s l r Ks. now apply bb_root_ok.
  - intros b ks c cs [H _]. now apply cat_get.
Qed.
End Branch.

(** ** Leaves holding only admissible keys *)
Lemma laws_restrict {L V} (O : leafops L V) M minL kok (ik : Z -> Prop) lrep : leaf_laws O M minL kok lrep -> (forall k, ik k -> kok k) ->
  leaf_laws O M minL ik (fun l es => lrep l es /\ Forall ik (keys es)).
Proof.
  intros LL Hk. constructor.
  - split; [apply (law_new LL)|constructor].
  - intros l es [H _]. exact (law_sorted LL H).
  - intros l es [H _]. exact (law_cap LL H).
  - intros l es [H _]. exact (law_count LL H).
  - intros l es k [H _]. exact (law_lookup LL k H).
  - intros l es k v Kk [H HF].
    assert (HF' : Forall ik (keys (ins k v es))).
    { rewrite Forall_forall in *. intros x Hx. apply ins_in_keys in Hx as [->|Hx]; auto. }
    destruct (law_insert LL v (Hk _ Kk) H) as [(l' & E & H')|(l1 & l2 & sk & e1 & e2 & E & Ei & H1 & H2 & R)].
    + left. exists l'. auto.
    + right. exists l1, l2, sk, e1, e2. rewrite Ei, keys_app, Forall_app in HF'. splits; auto; try tauto.
  - intros l es [H _]. exact (law_scan LL H).
  - exact (law_bpos LL).
Qed.

Section GTree.
Variables (V : Type) (t : ktype) (N M : nat).
Hypothesis Ht : (1 <= kt_bits t <= 64)%Z.
Hypothesis HN : 2 <= N.
Hypothesis H64 : N mod 64 <> 0.
Hypothesis HM : 2 <= M.
Notation leaf := (fleaf V).
Variable O : leafops leaf V.
Variable rep : leaf -> list (Z * V) -> Prop.
Hypothesis LL : leaf_laws O M (M / 2) (bkok t) rep.
Hypothesis rep_kok : forall l es, rep l es -> Forall (bkok t) (keys es).
Notation Q := (bitq t N).

Definition to_x (tr : btree V) : xtree leaf bbranch := XTree (bth tr) (btb tr) (broot tr) (bdepth tr).

Lemma bt_find_x B d id k : bt_find t N B d id k = x_find Q B d id k.
Proof. reflexivity. Qed.
Lemma bt_first_x B d id : bt_first B d id = x_first Q B d id.
Proof. reflexivity. Qed.
Lemma bg_insert_branch_x d : forall h B id k v,
  match d with 0 => do x <- insert_leaf O h id k v; Ok (fst x, B, snd x) | S _ => bg_insert_branch t N O h B d id k v end
  = x_insert O Q h B d id k v.
Proof.
  induction d as [|d IH]; intros h B id k v; [reflexivity|].
  cbn [bg_insert_branch x_insert]. unfold getbb, xget. destruct (B id) as [b|]; cbn [of_opt bind]; auto.
  cbn [bitq xo_pos xo_child xo_full xo_split xo_add0 xo_add1].
  destruct (bb_pos t N b k) as [p| |]; cbn [bind]; auto. destruct (aget (bbc b) p) as [c| |]; cbn [bind]; auto.
  rewrite IH. destruct (x_insert O Q h B d c k v) as [[[h1 B1] [si|]]| |]; cbn [bind]; auto.
Qed.
Lemma bg_insert_x tr k v : (do t' <- bg_insert t N O tr k v; Ok (to_x t')) = x_ins O Q (to_x tr) k v.
Proof.
  unfold bg_insert, x_ins. cbn [to_x xth xtb xroot xdepth]. rewrite bg_insert_branch_x.
  destruct (x_insert O Q (bth tr) (btb tr) (bdepth tr) (broot tr) k v) as [[[h1 B1] [si|]]| |]; cbn [bind]; auto.
  cbn [fresh bitq xo_root]. unfold bb_root.
  destruct (aset (anew N) 0 (skey si)); cbn [bind]; auto. destruct (aset (anew (S N)) 0 (sleft si)); cbn [bind]; auto.
  destruct (aset a0 N (sright si)); cbn [bind]; auto. destruct (lset (repeat false N) 0 true); cbn [of_opt bind]; auto.
Qed.

Definition btinv (tr : btree V) es := xinv N M rep (M / 2) (bbrep t N) (to_x tr) es.
Definition btinvs (tr : btree V) es := xinvs N M rep (M / 2) (bbrep t N) bbsp (to_x tr) es.

Lemma HML : 1 <= M / 2.
Proof. apply (Nat.div_le_mono 2 M 2); lia. Qed.
Lemma bkok_mid x y z : bkok t x -> bkok t y -> (x <= z <= y)%Z -> bkok t z.
Proof. unfold bkok, kt_in. lia. Qed.
Lemma bg_new_inv : btinvs (bg_new O) [].
Proof. exact (@xinvs_new leaf V bbranch N M O rep (M / 2) (bbrep t N) bbsp (bkok t) LL HN). Qed.
Lemma btinvs_inv tr es : btinvs tr es -> btinv tr es.
Proof. apply xinvs_xinv. Qed.

Lemma bg_insert_ok tr es k v : bkok t k -> btinv tr es -> exists tr', bg_insert t N O tr k v = Ok tr' /\ btinv tr' (ins k v es).
Proof.
  intros Kk H.
  destruct (@x_ins_ok leaf V bbranch N M O Q rep (M / 2) (bkok t) (bbrep t N) bbsp (bkok t) LL (fun k H => H) bkok_mid
              rep_kok HN (bit_laws Ht HN H64) HML (to_x tr) es k v Kk H) as (x & E & HI).
  rewrite <- bg_insert_x in E. destruct (bg_insert t N O tr k v) as [tr'| |]; cbn [bind] in E; try discriminate.
  injection E as <-. exists tr'. auto.
Qed.
Lemma bg_insert_sp tr es k v : bkok t k -> Forall (fun x => (x <= k)%Z) (keys es) -> btinvs tr es ->
  exists tr', bg_insert t N O tr k v = Ok tr' /\ btinvs tr' (ins k v es).
Proof.
  intros Kk HF H.
  destruct (@x_ins_sp leaf V bbranch N M O Q rep (M / 2) (bkok t) (bbrep t N) bbsp (bkok t) LL (fun k H => H) bkok_mid
              rep_kok HN (bit_laws Ht HN H64) HML (to_x tr) es k v Kk HF H) as (x & E & HI).
  rewrite <- bg_insert_x in E. destruct (bg_insert t N O tr k v) as [tr'| |]; cbn [bind] in E; try discriminate.
  injection E as <-. exists tr'. auto.
Qed.
Lemma bg_lookup_ok tr es k : bkok t k -> btinv tr es -> bg_lookup t N O tr k = Ok (get k es).
Proof.
  intros Kk H. unfold bg_lookup. rewrite bt_find_x.
  exact (@x_lookup_ok leaf V bbranch N M O Q rep (M / 2) (bkok t) (bbrep t N) bbsp (bkok t) LL (bit_laws Ht HN H64) (to_x tr) es k Kk H).
Qed.
Lemma bg_scan_ok tr es : btinvs tr es -> exists out, bg_scan O tr = Ok out /\ Permutation out es /\ in_runs M out.
Proof.
  intros H. unfold bg_scan. rewrite bt_first_x.
  exact (@x_scan_ok leaf V bbranch N M O Q rep (M / 2) (bkok t) (bbrep t N) bbsp (bkok t) LL (fun k H => H) bkok_mid rep_kok HN (bit_laws Ht HN H64) (to_x tr) es H).
Qed.

(** ** Histories *)

Lemma bg_run_ok os : forall tr es, Forall (bkok t) (map fst os) -> btinv tr es ->
  exists tr', bg_run t N O tr os = Ok tr' /\ btinv tr' (ins_all os es).
Proof.
  induction os as [|[k v] os IH]; intros tr es HF HI; cbn [bg_run ins_all]; [eauto|].
  inversion HF; subst. destruct (bg_insert_ok v H1 HI) as (tr' & -> & HI'). cbn [bind]. eauto.
Qed.
Lemma bg_run_sp os : forall tr es, Forall (bkok t) (map fst os) -> ascending os -> after es os -> btinvs tr es ->
  exists tr', bg_run t N O tr os = Ok tr' /\ btinvs tr' (ins_all os es).
Proof.
  induction os as [|[k v] os IH]; intros tr es HF HA HB HI; cbn [bg_run ins_all]; [eauto|].
  inversion HF; subst. destruct (after_step HA HB) as (H3 & H4 & H5).
  destruct (bg_insert_sp v H1 H3 HI) as (tr' & -> & HI'). cbn [bind]. eauto.
Qed.

Lemma bg_map os : Forall (bkok t) (map fst os) ->
  exists tr, bg_run t N O (bg_new O) os = Ok tr /\
    forall k, bkok t k -> bg_lookup t N O tr k = Ok (m_run (inserts os) k).
Proof.
  intros HF. destruct (@bg_run_ok os _ _ HF (btinvs_inv bg_new_inv)) as (tr & E & HI). exists tr. split; auto.
  intros k Kk. rewrite (bg_lookup_ok Kk HI). f_equal. apply ins_all_run.
Qed.
Lemma bg_scan_asc os : Forall (bkok t) (map fst os) -> ascending os ->
  exists tr out, bg_run t N O (bg_new O) os = Ok tr /\ bg_scan O tr = Ok out /\
    enumerates (m_run (inserts os)) out /\ in_runs M out.
Proof.
  intros HF HA. destruct (@bg_run_sp os _ [] HF HA ltac:(intros x Hx; contradiction Hx) bg_new_inv) as (tr & E & HI).
  destruct (bg_scan_ok HI) as (out & E2 & HP & HR). exists tr, out. splits; auto.
  eapply enumerates_ext; [|apply (@perm_enumerates V (ins_all os []) out); auto].
  - intros k. apply ins_all_run.
  - apply ins_all_sorted. constructor.
Qed.
End GTree.

Section Tree.
Variables (V : Type) (t : ktype) (N M : nat).
Hypothesis Ht : (1 <= kt_bits t <= 64)%Z.
Hypothesis HN : 2 <= N.
Hypothesis H64 : N mod 64 <> 0.
Hypothesis HM : 2 <= M.
Hypothesis HW : (N.of_nat M < W)%N.
Notation leaf := (fleaf V).
Notation O := (bit_ops V t M).

Definition bit_rep (l : leaf) (es : list (Z * V)) : Prop :=
  fl_repz t (fun _ => 0%Z) M l es /\ Forall (bkok t) (keys es).

Lemma bit_leaf_laws : leaf_laws O M (M / 2) (bkok t) bit_rep.
Proof.
  assert (LL : leaf_laws O M (M / 2) (kt_in t) (fl_repz (V := V) t (fun _ => 0%Z) M)).
  { destruct (@flz_laws V t (fun _ => 0%Z) (fun _ => 0%Z) M) as [H1 H2 H3 H4 H5 H6 H7 H8]; auto.
    constructor; assumption. }
  apply (laws_restrict LL). intros k [H _]. exact H.
Qed.

Lemma bit_rep_kok l es : bit_rep l es -> Forall (bkok t) (keys es).
Proof. intros [_ H]. exact H. Qed.

Lemma bt_map os : Forall (bkok t) (map fst os) ->
  exists tr, bt_run t N M (bt_new V t M) os = Ok tr /\
    forall k, bkok t k -> bt_lookup t N M tr k = Ok (m_run (inserts os) k).
Proof. exact (bg_map Ht HN H64 HM bit_leaf_laws bit_rep_kok (os := os)). Qed.
Lemma bt_scan_asc os : Forall (bkok t) (map fst os) -> ascending os ->
  exists tr out, bt_run t N M (bt_new V t M) os = Ok tr /\ bt_scan t M tr = Ok out /\
    enumerates (m_run (inserts os)) out /\ in_runs M out.
Proof. exact (bg_scan_asc Ht HN H64 HM bit_leaf_laws bit_rep_kok (os := os)). Qed.
End Tree.

Lemma bkok_of t k : (0 <= k < kt_max t)%Z -> bkok t k.
Proof.
  intros H. split; [|exact H]. unfold kt_in. split; [|lia]. unfold kt_min. destruct (kt_signed t); [|lia].
  pose proof (Z.pow_nonneg 2 (kt_bits t - 1)). lia.
Qed.
