(** Leaf functions of BitHPBPTree: the copying split, for capacities that are not multiples of 64
    and keys from 0 up to but excluding the largest value of KeyType. *)
From Verif Require Import Base ArrLemmas MapSpec SortedList RankModel RankProofs BitmapModel BitmapProofs UtilSpec BTreeModel BTreeLaws SLeafModel SLeafProofs ULeafModel ULeafProofs SlotLemmas
  FLeafModel FLeafProofs BitTreeModel InsSpec XTree BTreeMain BitProofs BitHModel.
Open Scope nat_scope.

Section Leaf.
Variables (V : Type) (t : ktype) (M : nat).
Hypothesis HM : 2 <= M.
Hypothesis HW : (N.of_nat M < W)%N.
Hypothesis Ht : (1 <= kt_bits t <= 64)%Z.
Hypothesis H64 : M mod 64 <> 0.
Notation leaf := (fleaf V).
Notation nofp := (fun _ : Z => 0%Z).
Notation fa_rep := (fa_rep (V := V) nofp M).
Notation fl_rep := (fl_rep (V := V) t nofp M).

Lemma bm_of_list_ok m : forall i ws, bm_ok M ws -> i + length m <= M ->
  exists ws', bm_of_list M m i ws = Ok ws' /\ bm_ok M ws' /\
    forall j, bit ws' j = if (i <=? j) && (j <? i + length m) then nth (j - i) m false else bit ws j.
Proof.
  clear HM HW Ht H64. induction m as [|b m IH]; intros i ws OK H; cbn [bm_of_list length] in *.
  - exists ws. splits; auto. intros j. destruct (Nat.leb_spec i j), (Nat.ltb_spec j (i + 0)); auto; lia.
  - destruct (bm_set_ok b OK (p := i)) as (w1 & -> & OK1 & H1); [lia|]. cbn [bind].
    destruct (IH (S i) w1 OK1) as (w2 & -> & OK2 & H2); [lia|]. exists w2. splits; auto.
    intros j. rewrite H2, H1. destruct (Nat.eqb_spec j i) as [->|NE].
    + destruct (Nat.leb_spec (S i) i); [lia|]. cbn [andb]. destruct (Nat.leb_spec i i); [|lia].
      destruct (Nat.ltb_spec i (i + S (length m))); [|lia]. cbn [andb]. now rewrite Nat.sub_diag.
    + destruct (Nat.leb_spec (S i) j), (Nat.leb_spec i j); try lia; cbn [andb]; auto.
      replace (j <? i + S (length m)) with (j <? S i + length m) by (f_equal; lia).
      destruct (j <? S i + length m); auto. replace (j - i) with (S (j - S i)) by lia. reflexivity.
Qed.

Definition drop (s : Z) (x : Z * V) : option (Z * V) := if lt_key s x then None else Some x.
Lemma somes_drop s xs : somes (map (drop s) xs) = filter (ge_key s) xs.
Proof.
  clear HM HW Ht H64. induction xs as [|x xs IH]; [reflexivity|]. cbn [map somes filter]. unfold drop at 1.
  unfold lt_key, ge_key in *. destruct (fst x >=? s)%Z; cbn [negb somes]; now rewrite IH.
Qed.

Lemma bh_split_ok l xs : fa_rep l (map Some xs) -> NoDup (keys xs) -> Forall (bkok t) (keys xs) ->
  exists l1 l2 s, bh_split t M l = Ok (l1, l2, s) /\
    fa_rep l1 (map (@keep V s) xs) /\ fk l1 = map Some (keys xs) /\ fa_rep l2 (map (drop s) xs) /\
    length (filter (lt_key s) xs) = (M + 1) / 2 /\ length (filter (ge_key s) xs) = M / 2 /\ In s (keys xs).
Proof.
  clear HW. intros HR ND HK. pose proof HR as (HL & OK & LF & LK & LV & HC). rewrite map_length in HL. unfold bh_split.
  assert (EK : fk l = map Some (keys xs)).
  { apply (read_all_slots M); [congruence|]. intros i [k v] E. specialize (HC i (Some (k, v))). rewrite nth_error_map, E in HC.
    specialize (HC eq_refl). unfold cell in HC. tauto. }
  assert (ER : read_all M 0 (fk l) = Ok (keys xs)).
  { rewrite EK. pose proof (@read_all_ok (keys xs) [] []) as R. rewrite keys_length, HL, app_nil_r in R. exact R. }
  rewrite ER. cbn [bind].
  destruct (@findSplitKey_nonneg t (keys xs) Ht) as (s & pos & E & Es & Hb); auto.
  { rewrite keys_length. lia. }
  { intros d Hd. rewrite Forall_forall in HK. destruct (HK d Hd) as [H1 H2]. split; auto. lia. }
  rewrite E. cbn [bind fst snd].
  assert (EA : aget (fk l) pos = Ok s) by (apply aget_nth; rewrite EK, nth_error_map, Es; reflexivity).
  rewrite EA. cbn [bind].
  destruct (@bm_of_list_ok (map (fun d => (d <? s)%Z) (keys xs)) 0 (bm_new M) (bm_new_ok M)) as (b & -> & OKb & Hbit).
  { rewrite map_length, keys_length. lia. }
  cbn [bind]. destruct (@flip_exact M b) as (nb & -> & OKn & Hn); [lia|exact OKb|]. cbn [bind].
  assert (BI : forall i x, nth_error xs i = Some x -> i < M /\ bit b i = lt_key s x /\ bit nb i = negb (lt_key s x)).
  { intros i x Ex. pose proof (nth_error_Some_lt Ex) as Hi. assert (Hi' : i < M) by lia. split; [exact Hi'|].
    assert (B1 : bit b i = lt_key s x).
    { rewrite Hbit, map_length, keys_length. cbn [Nat.leb andb Nat.add]. destruct (Nat.ltb_spec i (length xs)); [|lia].
      rewrite Nat.sub_0_r. assert (Q : nth_error (map (fun d => (d <? s)%Z) (keys xs)) i = Some (fst x <? s)%Z).
      { unfold keys. rewrite !nth_error_map, Ex. reflexivity. }
      rewrite (nth_error_nth _ _ _ Q). unfold lt_key. destruct (Z.ltb_spec (fst x) s), (Z.geb_spec (fst x) s); auto; lia. }
    split; [exact B1|]. rewrite Hn by exact Hi'. destruct (Nat.eqb_spec (M mod 64) 0); [lia|]. cbn [andb]. now rewrite B1. }
  do 3 eexists. split; [reflexivity|].
  pose proof (Permutation_length (filter_both s xs)) as PL. rewrite app_length in PL.
  pose proof (below_filter s xs) as BF. rewrite Hb, keys_length in BF.
  assert (SLOT : forall i x, nth_error xs i = Some x -> aget (fk l) i = Ok (fst x) /\ aget (fv l) i = Ok (snd x) /\ lget (ff l) i = Ok 0%Z).
  { intros i [k v] Ex. specialize (HC i (Some (k, v))). rewrite nth_error_map, Ex in HC. specialize (HC eq_refl). cbn [cell fst snd] in *. tauto. }
  splits; try (cbn [fk]; auto; fail); try lia.
  - unfold FLeafProofs.fa_rep. cbn [fb ff fk fv]. rewrite map_length. splits; auto. intros i o Eo.
    rewrite nth_error_map in Eo. destruct (nth_error xs i) as [x|] eqn:Ex; [|discriminate]. injection Eo as <-.
    destruct (BI i x Ex) as (_ & B1 & _). destruct (SLOT i x Ex) as (Q1 & Q2 & Q3). unfold keep.
    destruct (lt_key s x) eqn:EL; [destruct x as [k v]|]; cbn [cell fb ff fk fv fst snd] in *; auto.
  - unfold FLeafProofs.fa_rep. cbn [fb ff fk fv]. rewrite map_length. splits; auto. intros i o Eo.
    rewrite nth_error_map in Eo. destruct (nth_error xs i) as [x|] eqn:Ex; [|discriminate]. injection Eo as <-.
    destruct (BI i x Ex) as (_ & _ & B2). destruct (SLOT i x Ex) as (Q1 & Q2 & Q3). unfold drop.
    destruct (lt_key s x) eqn:EL; [|destruct x as [k v]]; cbn [cell fb ff fk fv fst snd negb] in *; auto.
  - eapply nth_error_In; eauto.
Qed.

Definition bh_rep (l : leaf) (es : list (Z * V)) : Prop := fl_rep l es /\ Forall (bkok t) (keys es).

Lemma bh_insert_ok l es k v : bkok t k -> bh_rep l es ->
  (exists l', bh_insert_leaf t M l k v = Ok (LDone l') /\ fl_rep l' (ins k v es)) \/
  (exists l1 l2 sk e1 e2,
     bh_insert_leaf t M l k v = Ok (LSplit l1 l2 sk) /\
     ins k v es = e1 ++ e2 /\ fl_rep l1 e1 /\ fl_rep l2 e2 /\
     M / 2 <= length e1 /\ M / 2 <= length e2 /\ e1 <> [] /\ e2 <> [] /\
     alt sk (keys e1) /\ age sk (keys e2)).
Proof.
  intros [Kk Kb] [FR HB0]. pose proof FR as (HS & HK & sl & HP & HR).
  pose proof (@fl_insert_ok V t nofp (fun _ => 0%Z) M HM Ht l es k v Kk FR) as OLD.
  pose proof (sorted_ins k v HS) as HSi. unfold bh_insert_leaf. unfold fl_insert in OLD.
  destruct (fl_pos_ok k HR) as (r & Er0 & C). rewrite Er0 in *. cbn [bind] in *. destruct C as [[-> NI]|[Hr (w & Ew)]].
  2:{ destruct (Nat.ltb_spec r M); [|lia]. left. destruct OLD as [(l' & E & R & _)|(? & ? & ? & ? & ? & E & _)]; [eauto|].
      destruct (aset (fv l) r v); discriminate E. }
  rewrite Nat.ltb_irrefl in *. destruct (free_ok HR) as (r & Er & Hr & F1 & F2). rewrite Er in *. cbn [bind] in *.
  destruct (Nat.eqb_spec r M) as [Em|NF].
  2:{ left. destruct OLD as [(l' & E & R & _)|(? & ? & ? & ? & ? & E & _)]; [eauto|].
      destruct (fl_insert_at nofp M l r k v); discriminate E. }
  clear OLD. right. specialize (F2 Em). pose proof HR as (HL & OK & LF & LK & LV & HC).
  assert (HKi : Forall (kt_in t) (keys (ins k v es))).
  { rewrite Forall_forall in *. intros x Hx. apply ins_in_keys in Hx as [->|Hx]; auto. }
  assert (NIe : ~ In k (keys es)) by (intros HI; apply NI; now apply (keys_perm_in k HP)).
  assert (PI : Permutation ((k, v) :: somes sl) (ins k v es)).
  { rewrite ins_new_perm by assumption. now constructor. }
  assert (EF : sl = map Some (somes sl)) by (apply somes_full; lia).
  set (xs := somes sl) in *. rewrite EF in HR.
  assert (HKx : Forall (bkok t) (keys xs)) by (eapply Permutation_Forall; [apply Permutation_sym, perm_keys, HP|exact HB0]).
  destruct (bh_split_ok HR (ua_nodup HS HP) HKx) as (l1 & l2 & s & E & H1 & EK1 & H2 & L1 & L2 & Is).
  rewrite E. cbn [bind].
  assert (S1 : somes (map (@keep V s) xs) = filter (lt_key s) xs) by apply somes_keep.
  assert (S2 : somes (map (drop s) xs) = filter (ge_key s) xs) by apply somes_drop.
  set (sl1 := map (@keep V s) xs) in *. set (sl2 := map (drop s) xs) in *.
  set (x1 := filter (lt_key s) xs) in *. set (x2 := filter (ge_key s) xs) in *.
  assert (B1 : forall x, In x (keys x1) -> (x < s)%Z).
  { intros x Hx. apply in_map_iff in Hx as ([y u] & <- & Hx). apply filter_In in Hx as [_ Hx].
    unfold lt_key in Hx. cbn [fst] in *. destruct (Z.geb_spec y s); [discriminate|lia]. }
  assert (B2 : forall x, In x (keys x2) -> (s <= x)%Z).
  { intros x Hx. apply in_map_iff in Hx as ([y u] & <- & Hx). apply filter_In in Hx as [_ Hx].
    unfold ge_key in Hx. cbn [fst] in *. destruct (Z.geb_spec y s); [lia|discriminate]. }
  assert (PX : Permutation (x1 ++ x2) xs) by apply filter_both.
  assert (NKs : k <> s) by (intros ->; contradiction).
  assert (MD : (M + 1) / 2 < M /\ M / 2 < M /\ M / 2 <= (M + 1) / 2 /\ 1 <= M / 2).
  { splits; try (apply Nat.div_lt_upper_bound; lia); [apply Nat.div_le_mono; lia|apply (Nat.div_le_mono 2 M 2); lia]. }
  destruct (@fl_add_ok V nofp M l2 sl2 k v H2) as (b & sb & Eb & Hb & Pb); [rewrite S2; lia|].
  destruct (@fl_add_ok V nofp M l1 sl1 k v H1) as (a & sa & Ea & Ha & Pa); [rewrite S1; lia|].
  rewrite S2 in Pb. rewrite S1 in Pa.
  assert (RIGHT : forall s', (forall x, In x (keys x1) -> (x < s')%Z) -> (s' <= k)%Z -> (s' <= s)%Z ->
    exists e1 e2, ins k v es = e1 ++ e2 /\ fl_rep l1 e1 /\ fl_rep b e2 /\
    M / 2 <= length e1 /\ M / 2 <= length e2 /\ e1 <> [] /\ e2 <> [] /\ alt s' (keys e1) /\ age s' (keys e2)).
  { intros s' B3 B4 B5. pose proof (Permutation_length Pb) as Lb. cbn [length] in Lb.
    destruct (@fl_finish V t nofp M l1 b sl1 sb s' (ins k v es)) as (e1 & e2 & R1 & R2 & R3 & R4 & R5 & R6 & R7 & R8 & R9 & R10 & R11); auto; rewrite ?S1; try lia;
      [..|exists e1, e2; splits; auto].
    - rewrite Pb. rewrite <- Permutation_middle. rewrite PX. exact PI.
    - auto.
    - intros x Hx. apply (keys_perm_in x Pb) in Hx. cbn [keys map fst] in Hx. destruct Hx as [<-|Hx]; auto.
      specialize (B2 _ Hx). lia. }
  destruct (Z.gtb_spec k s) as [Gs|Gs].
  - rewrite Eb. cbn [bind]. destruct (RIGHT s) as (e1 & e2 & R); auto; try lia.
    exists l1, b, s, e1, e2. split; [reflexivity|exact R].
  - unfold fl_maxpos, findMaxKeyPosB.
    destruct (@fl_ext_ok V nofp M Z.gtb (kt_min t) l1 sl1 order_gtb H1) as (p & Ep & Cp).
    { rewrite S1. intros E1. rewrite E1 in L1. cbn [length] in L1. lia. }
    { rewrite S1. intros y Hy. apply kt_max_ext. rewrite Forall_forall in HKx. apply HKx.
      apply (keys_perm_in y PX). rewrite keys_app, in_app_iff. auto. }
    rewrite Ep. cbn [bind]. rewrite S1 in Cp.
    assert (exists mx, aget (fk l1) p = Ok mx /\ ((k > mx)%Z -> forall x, In x (keys x1) -> (x < k)%Z)) as (mx & Emx & Hmx).
    { destruct Cp as [(k' & v' & Ek' & Hk')|[-> Hk']].
      - exists k'. pose proof H1 as (_ & _ & _ & _ & _ & C1). specialize (C1 _ _ Ek'). unfold cell in C1.
        split; [tauto|]. intros Hgt x Hx. specialize (Hk' _ Hx). destruct (Z.gtb_spec x k'); [discriminate|lia].
      - rewrite EK1. destruct xs as [|[k0 v0] xs'] eqn:Exs; [cbn [length] in F2; lia|]. exists k0. split; [reflexivity|].
        intros Hgt x Hx. specialize (Hk' _ Hx). subst x.
        assert (B0 : (kt_min t <= k0)%Z). { inversion HKx as [|? ? [[Hq _] _] _]; subst. exact Hq. }
        lia. }
    rewrite Emx. cbn [bind]. destruct (Z.gtb_spec k mx) as [Gm|Gm].
    + rewrite Eb. cbn [bind]. destruct (RIGHT k) as (e1 & e2 & R); auto; try lia. { intros x Hx. apply Hmx; auto; lia. }
      exists l1, b, k, e1, e2. split; [reflexivity|exact R].
    + rewrite Ea. cbn [bind]. pose proof (Permutation_length Pa) as La. cbn [length] in La.
      destruct (@fl_finish V t nofp M a l2 sa sl2 s (ins k v es)) as (e1 & e2 & R1 & R2 & R3 & R4 & R5 & R6 & R7 & R8 & R9 & R10 & R11); auto; rewrite ?S2; try lia.
      * rewrite Pa. cbn [app]. rewrite PX. exact PI.
      * intros x Hx. apply (keys_perm_in x Pa) in Hx. cbn [keys map fst] in Hx. destruct Hx as [<-|Hx]; auto. lia.
      * auto.
      * exists a, l2, s, e1, e2. splits; auto.
Qed.

Lemma bh_leaf_laws : leaf_laws (bh_ops V t M) M (M / 2) (bkok t) bh_rep.
Proof.
  destruct (@fl_laws V t nofp (fun _ => 0%Z) M) as [H1 H2 H3 H4 H5 H6 H7 H8]; auto.
  constructor.
  - split; [exact H1|constructor].
  - intros l es [H _]. eauto.
  - intros l es [H _]. exact (H3 _ _ H).
  - intros l es [H _]. exact (H4 _ _ H).
  - intros l es k [H _]. exact (H5 _ _ k H).
  - intros l es k v Kk H. pose proof H as [_ HF].
    assert (HF' : Forall (bkok t) (keys (ins k v es))).
    { rewrite Forall_forall in *. intros x Hx. apply ins_in_keys in Hx as [->|Hx]; auto. }
    destruct (bh_insert_ok v Kk H) as [(l' & E & R)|(l1 & l2 & sk & e1 & e2 & E & Ei & R1 & R2 & R)].
    + left. exists l'. split; [exact E|split; auto].
    + right. exists l1, l2, sk, e1, e2. rewrite Ei, keys_app in HF'. apply Forall_app in HF' as [HFa HFb].
      unfold bh_rep. splits; auto; tauto.
  - intros l es [H _]. exact (H7 _ _ H).
  - exact H8.
Qed.
Lemma bh_rep_kok l es : bh_rep l es -> Forall (bkok t) (keys es).
Proof. intros [_ H]. exact H. Qed.
Lemma bh_minkey_ok l es x v : bh_rep l ((x, v) :: es) -> lo_minkey (bh_ops V t M) l = Ok x.
Proof.
  intros [H HF]. apply (@fl_minkey_ok V t nofp M l es x v). split; [exact H|]. intros w [= -> _ _].
  inversion HF as [|? ? [_ Hq] _]; subst. lia.
Qed.
End Leaf.
