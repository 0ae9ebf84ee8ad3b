(** The leaf operations of the wBPTree in terms of the entries stored. *)
From Verif Require Import Base ArrLemmas MapSpec SortedList SearchModel SearchProofs RankModel
  BitmapModel BitmapProofs BTreeModel BitTreeModel FLeafProofs WbModel WbSpec WbProofs WbMove WbMain.
Open Scope nat_scope.

Section Leaf.
Variables (V : Type) (M : nat).
Notation leaf := (wleaf V).
Implicit Types l : leaf.

Lemma stored_key l es x : wrep M l es -> In x (keys es) -> exists v, stored M l x v.
Proof.
  intros H Hx. unfold keys in Hx. apply in_map_iff in Hx as ((k & v) & <- & Hin). exists v.
  apply (wrep_stored H). now apply (get_in _ _ (wrep_sorted H)).
Qed.
Lemma key_stored l es x v : wrep M l es -> stored M l x v -> In x (keys es).
Proof.
  intros H Hx. apply (wrep_stored H) in Hx. apply (get_in _ _ (wrep_sorted H)) in Hx.
  unfold keys. apply in_map_iff. exists (x, v). auto.
Qed.

Lemma stored_app l1 l2 (es ea eb : list (Z * V)) : wrep M l1 ea -> wrep M l2 eb -> es = ea ++ eb -> sorted es ->
  forall k v, stored M l1 k v \/ stored M l2 k v <-> get k es = Some v.
Proof.
  intros H1 H2 -> HO k v. rewrite (wrep_stored H1), (wrep_stored H2).
  rewrite <- (get_in k v (wrep_sorted H1)), <- (get_in k v (wrep_sorted H2)), <- (get_in k v HO), in_app_iff. reflexivity.
Qed.

Lemma leaf_lookup l key : good_leaf M l ->
  (exists v, stored M l key v /\ w_lookup l key = Ok (Some v)) \/ ((forall v, ~ stored M l key v) /\ w_lookup l key = Ok None).
Proof.
  intros G. destruct (good_wrep G) as (es & H). rewrite (w_lookup_ok key H).
  destruct (get key es) as [v|] eqn:E; [left|right].
  - exists v. split; auto. now apply (wrep_stored H).
  - split; auto. intros v Hv. apply (wrep_stored H) in Hv. congruence.
Qed.

Lemma leaf_insert l key val n : good_leaf M l -> w_count l = Ok n -> n < M -> (forall v, ~ stored M l key v) ->
  exists l', w_insert M l key val = Ok (LDone l') /\ good_leaf M l' /\ w_count l' = Ok (S n) /\
    forall k v, stored M l' k v <-> (k = key /\ v = val) \/ stored M l k v.
Proof.
  intros G HN HL HS. destruct (good_wrep G) as (es & H). pose proof (w_count_ok H) as E. unfold w_count in HN.
  rewrite E in HN. injection HN as <-. pose proof (get_none_stored H HS) as GN.
  destruct (@w_insert_room _ _ _ _ key val H (or_introl HL)) as (l' & E' & H'). exists l'. splits; auto.
  - now apply (wrep_good H').
  - unfold w_count. rewrite (w_count_ok H'). now rewrite length_ins_new by eauto using wrep_sorted.
  - intros k v. rewrite (wrep_stored H'), (wrep_stored H), get_ins by apply (wrep_sorted H).
    destruct (Z.eqb_spec k key) as [->|NE].
    + rewrite GN. split; [intros [= ->]; auto|intros [[_ ->]|]; [auto|discriminate]].
    + intuition congruence.
Qed.

Lemma leaf_overwrite l key val w n : good_leaf M l -> w_count l = Ok n -> stored M l key w ->
  exists l', w_insert M l key val = Ok (LDone l') /\ good_leaf M l' /\ w_count l' = Ok n /\
    forall k v, stored M l' k v <-> (k = key /\ v = val) \/ (k <> key /\ stored M l k v).
Proof.
  intros G HN HS. destruct (good_wrep G) as (es & H). pose proof (w_count_ok H) as E. unfold w_count in HN.
  rewrite E in HN. injection HN as <-. apply (wrep_stored H) in HS.
  destruct (@w_insert_room _ _ _ _ key val H) as (l' & E' & H'); [right; congruence|]. exists l'. splits; auto.
  - now apply (wrep_good H').
  - unfold w_count. rewrite (w_count_ok H').
    destruct (locate key (wrep_sorted H)) as [(a & b & -> & Ha & Hb)|(a & w' & b & -> & Ha & Hb)].
    + rewrite (get_new Ha Hb) in HS. discriminate.
    + rewrite ins_old by auto. now rewrite !app_length.
  - intros k v. rewrite (wrep_stored H'), (wrep_stored H), get_ins by apply (wrep_sorted H).
    destruct (Z.eqb_spec k key) as [->|NE].
    + split; [intros [= ->]; auto|intros [[_ ->]|[]]; congruence].
    + intuition congruence.
Qed.

(** ** erase *)
Lemma leaf_erase l key w n : good_leaf M l -> w_count l = Ok n -> n < M -> stored M l key w ->
  exists l', w_erase M l key = Ok (true, l') /\ good_leaf M l' /\ w_count l' = Ok (n - 1) /\
    forall k v, stored M l' k v <-> k <> key /\ stored M l k v.
Proof.
  intros G HN HL HS. destruct (good_wrep G) as (es & H). pose proof (w_count_ok H) as E. unfold w_count in HN.
  rewrite E in HN. injection HN as <-. apply (wrep_stored H) in HS.
  destruct (@w_erase_ok _ _ _ _ key H HL) as (l' & E' & H'); [congruence|]. exists l'. splits; auto.
  - now apply (wrep_good H').
  - unfold w_count. rewrite (w_count_ok H').
    destruct (locate key (wrep_sorted H)) as [(a & b & -> & Ha & Hb)|(a & w' & b & -> & Ha & Hb)].
    + rewrite (get_new Ha Hb) in HS. discriminate.
    + rewrite del_old by auto. rewrite !app_length. cbn [length]. f_equal. lia.
  - intros k v. rewrite (wrep_stored H'), (wrep_stored H), get_del by apply (wrep_sorted H).
    destruct (Z.eqb_spec k key) as [->|NE]; [split; [discriminate|intros []; congruence]|intuition congruence].
Qed.

Lemma leaf_erase_absent l key k v : good_leaf M l -> (forall v, ~ stored M l key v) -> stored M l k v -> (key < k)%Z ->
  w_erase M l key = Ok (false, l).
Proof.
  intros G HS HK HL. destruct (good_wrep G) as (es & H). pose proof (get_none_stored H HS) as GN.
  destruct (locate key (wrep_sorted H)) as [(a & b & -> & Ha & Hb)|(a & w' & b & -> & Ha & Hb)].
  - destruct b as [|e b].
    + exfalso. pose proof (key_stored H HK) as Hin. rewrite app_nil_r in Hin. unfold alt in Ha. rewrite Forall_forall in Ha.
      specialize (Ha _ Hin). lia.
    + eapply w_erase_absent; eauto. now inversion Hb.
  - rewrite (get_old w' b Ha) in GN. discriminate.
Qed.

(** A full leaf: the loop of eraseFromLeafNodeAtPosition reads one slot too many. *)
Lemma erase_loop_full (s : arr nat) : forall n i, length s = i + n -> 0 < n ->
  for_up i n (fun i s => do x <- cget s (i + 1); cset s i x) s = UB.
Proof.
  intros n. revert s. induction n as [|n IH]; intros s i HL Hn; [lia|]. cbn [for_up]. unfold cget.
  destruct (nth_error s (i + 1)) as [x|] eqn:E; [|reflexivity]. cbn [of_opt bind]. unfold cset.
  assert (i + 1 < length s) by (apply nth_error_Some; congruence).
  destruct (lset s i x) as [s'|] eqn:ES; [|reflexivity]. cbn [of_opt bind]. apply IH; [|lia].
  rewrite (lset_length ES). lia.
Qed.
Lemma leaf_erase_full l key : good_leaf M l -> w_count l = Ok M ->
  (exists v, stored M l key v) \/ (forall k v, stored M l k v -> (k < key)%Z) -> w_erase M l key = UB.
Proof.
  intros G HN HS. destruct (good_wrep G) as (es & H). pose proof (w_count_ok H) as E. unfold w_count in HN.
  rewrite E in HN. injection HN as HN.
  assert (EL : length (ws l) = S M) by (destruct H as (? & ? & ? & ? & _); auto).
  destruct HS as [[w HS]|HS].
  - apply (wrep_stored H) in HS. unfold w_erase.
    destruct (locate key (wrep_sorted H)) as [(a & b & -> & Ha & Hb)|(a & w' & b & -> & Ha & Hb)].
    { rewrite (get_new Ha Hb) in HS. discriminate. }
    rewrite (w_pos_ok H (pos_alt_eq w' Ha Hb)). cbn [bind].
    destruct (w_entry_ok H) as (p & F1 & F2 & _). rewrite F1. cbn [bind]. rewrite F2. cbn [bind fst]. rewrite Z.eqb_refl.
    unfold w_erase_at. rewrite F1. cbn [bind]. destruct (bm_reset M (wb l) p) as [b'| |] eqn:EB; cbn [bind]; auto.
    + rewrite E. cbn [bind]. rewrite erase_loop_full; [reflexivity| |]; rewrite app_length in HN; cbn [length] in HN;
        rewrite app_length; cbn [length]; lia.
    + exfalso. unfold bm_reset, lget in EB. destruct (p <? M); [|discriminate].
      destruct (nth_error _ _); cbn [of_opt bind] in EB; [|discriminate]. destruct (lset _ _ _); discriminate.
  - unfold w_erase. assert (Ha : alt key (keys es)).
    { apply Forall_forall. intros x Hx. destruct (stored_key H Hx) as [v Hv]. eauto. }
    rewrite <- (app_nil_r es) in H. rewrite (w_pos_ok H (@pos_alt_agt _ _ es [] Ha (Forall_nil _))). cbn [bind].
    unfold aget. replace (nth_error (ws l) (S (length es))) with (@None (option nat)); [reflexivity|].
    symmetry. apply nth_error_None. lia.
Qed.

(** ** split *)
Lemma leaf_split l key val r : good_leaf M l -> w_count l = Ok M -> 2 <= M -> (forall v, ~ stored M l key v) -> rank_of l key r ->
  exists l1 l2 sk, w_insert M l key val = Ok (LSplit l1 l2 sk) /\ good_leaf M l1 /\ good_leaf M l2 /\
    (forall k v, stored M l1 k v \/ stored M l2 k v <-> (k = key /\ v = val) \/ stored M l k v) /\
    (forall k v, stored M l2 k v -> (sk <= k)%Z) /\ (exists v, stored M l2 sk v) /\
    (S r <> (M + 1) / 2 -> forall k v, stored M l1 k v -> (k < sk)%Z) /\
    (S r = (M + 1) / 2 -> sk = key /\ stored M l2 key val /\ exists k v, stored M l1 k v /\ (key < k)%Z).
Proof.
  intros G HN M2 HS HR. destruct (good_wrep G) as (es & H). pose proof (w_count_ok H) as E. unfold w_count in HN.
  rewrite E in HN. injection HN as HN. pose proof (get_none_stored H HS) as GN.
  pose proof (wrep_sorted H) as HO.
  destruct (locate key HO) as [(a & b & EE & Ha & Hb)|(a & w' & b & -> & Ha & Hb)].
  2:{ rewrite (get_old w' b Ha) in GN. discriminate. }
  rewrite EE in H, HN. assert (r = length a) as -> by (eapply wrep_rank; eauto).
  destruct (@split_at _ es ((M + 1) / 2)) as (ea & eb & EE2 & La).
  { rewrite EE, HN. lia. }
  destruct (@w_insert_full _ _ _ a b key val ea eb H HN M2 Ha Hb) as (l1 & l2 & e2 & r2 & EI & C); auto; [congruence|].
  exists l1, l2, (fst e2). split; auto.
  assert (Oa : sorted ea /\ sorted eb /\ forall x y, In x (keys ea) -> In y (keys eb) -> (x < y)%Z).
  { rewrite EE2 in HO. unfold sorted in *. rewrite keys_app in HO. now apply ssorted_app in HO. }
  destruct Oa as (Oa & Ob & Oab).
  assert (first : forall l2, wrep M l2 (e2 :: r2) ->
    (forall k v, stored M l2 k v -> (fst e2 <= k)%Z) /\ exists v, stored M l2 (fst e2) v).
  { intros l2' H2. split.
    - intros k v Hk. pose proof (key_stored H2 Hk) as Hin. pose proof (wrep_sorted H2) as O2. unfold sorted in O2.
      cbn [keys map] in O2, Hin. apply ssorted_cons in O2 as [_ O2]. destruct Hin as [->|Hin]; [lia|].
      unfold agt in O2. rewrite Forall_forall in O2. specialize (O2 _ Hin). cbv beta in O2. lia.
    - apply (stored_key H2). now left. }
  assert (U : forall k v, (k = key /\ v = val) \/ stored M l k v <-> get k (ins key val (ea ++ eb)) = Some v).
  { intros k v. rewrite <- EE in H. rewrite (wrep_stored H), <- EE2, get_ins by (rewrite EE2; rewrite <- EE2; auto).
    destruct (Z.eqb_spec k key) as [->|NE].
    - rewrite GN. split; [intros [[_ ->]|]; [auto|discriminate]|intros [= ->]; auto].
    - intuition congruence. }
  destruct C as [(LT & H1 & H2 & Eb)|(GE & H1 & H2 & Eb)].
  - (* the key goes to the left *)
    assert (Hkb : agt key (keys eb)).
    { rewrite EE2 in EE. symmetry in EE. apply app_eq_app in EE as (m & [[Ea Em]|[Ea Em]]).
      - rewrite Ea, app_length in LT. lia.
      - rewrite Em in Hb. rewrite keys_app in Hb. now apply Forall_app in Hb. }
    splits; try (now apply (wrep_good H1)); try (now apply (wrep_good H2)); try (now apply (first _ H2)).
    + intros k v. rewrite (stored_app H1 H2 eq_refl).
      * rewrite U, <- Eb. now rewrite ins_app_gt.
      * rewrite <- Eb, <- ins_app_gt by auto. apply sorted_ins. now rewrite <- EE2.
    + intros _ k v Hk. pose proof (key_stored H1 Hk) as Hin. apply ins_in_keys in Hin as [->|Hin].
      * rewrite Eb in Hkb. now inversion Hkb.
      * apply Oab; auto. rewrite Eb. now left.
    + intros EQ. lia.
  - splits; try (now apply (wrep_good H1)); try (now apply (wrep_good H2)); try (now apply (first _ H2)).
    + (* both halves together *)
      intros k v. rewrite (wrep_stored H1), (wrep_stored H2), <- Eb, U.
      rewrite get_ins by auto. rewrite get_ins by now rewrite <- EE2.
      destruct (Z.eqb_spec k key) as [->|NE].
      * split; [intros [Hk|Hk]; auto|auto]. exfalso. rewrite EE2 in GN.
        assert (In (key, v) (ea ++ eb)) as Hin by (apply in_app_iff; left; now apply get_in).
        apply get_in in Hin; [congruence|now rewrite <- EE2].
      * rewrite <- (get_in k v Oa), <- (get_in k v Ob), <- (@get_in _ (ea ++ eb) k v) by now rewrite <- EE2.
        now rewrite in_app_iff.
    + intros NE k v Hk. pose proof (key_stored H1 Hk) as Hin.
      assert (Hx : In (fst e2) (keys (ins key val eb))) by (rewrite Eb; now left).
      apply ins_in_keys in Hx as [->|Hx]; [|now apply Oab].
      (* ea is a prefix of a *)
      assert (exists m, a = ea ++ m) as [m Em].
      { rewrite EE2 in EE. symmetry in EE. apply app_eq_app in EE as (m & [[Ea Em]|[Ea Em]]); eauto.
        rewrite Ea, app_length in La. exists []. destruct m; [now rewrite Ea, !app_nil_r|cbn [length] in La; lia]. }
      rewrite Em, keys_app in Ha. unfold alt in Ha. apply Forall_app in Ha as [Ha _]. rewrite Forall_forall in Ha. now apply Ha.
    + intros EQ. assert (exists e, ea = a ++ [e] /\ (key < fst e)%Z /\ agt key (keys eb)) as (e & Ea & He & Hk).
      { rewrite EE2 in EE. symmetry in EE. apply app_eq_app in EE as (m & [[Ea Em]|[Ea Em]]).
        - rewrite Ea, app_length in EQ. lia.
        - rewrite Ea, app_length in La. destruct m as [|e [|e' m]]; cbn [length] in La; [lia| |lia].
          exists e. rewrite Em in Hb. cbn [app keys map] in Hb. inversion Hb; auto. }
      rewrite ins_gt in Eb by auto. injection Eb as <- <-. cbn [fst].
      splits; auto.
      * apply (wrep_stored H2). cbn. now rewrite Z.eqb_refl.
      * destruct (@stored_key l1 ea (fst e) H1) as [v Hv]; eauto.
        rewrite Ea, keys_app. apply in_app_iff. right. now left.
Qed.

(** ** merge and balance *)
Lemma leaf_merge l1 l2 n1 n2 : good_leaf M l1 -> good_leaf M l2 -> w_count l1 = Ok n1 -> w_count l2 = Ok n2 -> n1 + n2 <= M ->
  (forall k v k' v', stored M l1 k v -> stored M l2 k' v' -> (k < k')%Z) ->
  exists l, w_merge M l1 l2 = Ok l /\ good_leaf M l /\ w_count l = Ok (n1 + n2) /\
    forall k v, stored M l k v <-> stored M l1 k v \/ stored M l2 k v.
Proof.
  intros G1 G2 N1 N2 HL HO. destruct (good_wrep G1) as (e1 & H1). destruct (good_wrep G2) as (e2 & H2).
  unfold w_count in N1, N2. rewrite (w_count_ok H1) in N1. rewrite (w_count_ok H2) in N2. injection N1 as <-. injection N2 as <-.
  destruct (w_merge_ok H1 H2 HL) as (l & E & H).
  { intros x y Hx Hy. destruct (stored_key H1 Hx), (stored_key H2 Hy). eauto. }
  exists l. splits; auto.
  - now apply (wrep_good H).
  - unfold w_count. rewrite (w_count_ok H). now rewrite app_length.
  - intros k v. rewrite (wrep_stored H). symmetry. apply (stored_app H1 H2 eq_refl (wrep_sorted H)).
Qed.

Lemma leaf_balance (d r : leaf) nd nr : good_leaf M d -> good_leaf M r -> w_count d = Ok nd -> w_count r = Ok nr -> 0 < nr -> nr < nd ->
  (forall k v k' v', stored M d k v -> stored M r k' v' -> (k < k')%Z) \/
  (forall k v k' v', stored M d k v -> stored M r k' v' -> (k' < k)%Z) ->
  exists d' r', w_balance M d r = Ok (d', r') /\ good_leaf M d' /\ good_leaf M r' /\
    w_count d' = Ok ((nd + nr) / 2) /\ w_count r' = Ok (nd + nr - (nd + nr) / 2) /\
    (forall k v, stored M d' k v \/ stored M r' k v <-> stored M d k v \/ stored M r k v) /\
    ((forall k v k' v', stored M d k v -> stored M r k' v' -> (k < k')%Z) ->
     forall k v k' v', stored M d' k v -> stored M r' k' v' -> (k < k')%Z) /\
    ((forall k v k' v', stored M d k v -> stored M r k' v' -> (k' < k)%Z) ->
     forall k v k' v', stored M d' k v -> stored M r' k' v' -> (k' < k)%Z).
Proof.
  intros G1 G2 N1 N2 HP HL HO. destruct (good_wrep G1) as (ed & H1). destruct (good_wrep G2) as (er & H2).
  unfold w_count in N1, N2. rewrite (w_count_ok H1) in N1. rewrite (w_count_ok H2) in N2. injection N1 as <-. injection N2 as <-.
  assert (NE : er <> []) by (intros ->; cbn [length] in HP; lia).
  assert (NED : exists x v, stored M d x v).
  { destruct ed as [|[x v] ed]; [cbn [length] in HL; lia|]. exists x. apply (stored_key H1). now left. }
  assert (NER : exists x v, stored M r x v).
  { destruct er as [|[x v] er]; [congruence|]. exists x. apply (stored_key H2). now left. }
  destruct HO as [HO|HO].
  - destruct (@split_at _ ed ((length ed + length er) / 2)) as (ea & eb & -> & La); [lia|].
    assert (HO' : forall x y, In x (keys (ea ++ eb)) -> In y (keys er) -> (x < y)%Z).
    { intros x y Hx Hy. destruct (stored_key H1 Hx), (stored_key H2 Hy). eauto. }
    destruct (w_balance_left H1 H2 NE HL La HO') as (d' & r' & E & D' & R'). exists d', r'.
    assert (HS : sorted (ea ++ eb ++ er)).
    { rewrite app_assoc. unfold sorted. rewrite keys_app. apply ssorted_app. splits; auto; [apply (wrep_sorted H1)|apply (wrep_sorted H2)]. }
    splits; auto.
    + now apply (wrep_good D').
    + now apply (wrep_good R').
    + unfold w_count. rewrite (w_count_ok D'). now rewrite La.
    + unfold w_count. rewrite (w_count_ok R'). rewrite <- La, !app_length. f_equal. lia.
    + intros k v. rewrite (stored_app D' R' eq_refl HS). symmetry. apply (stored_app H1 H2); auto. now rewrite app_assoc.
    + intros _ k v k' v' Hk Hk'. unfold sorted in HS. rewrite keys_app in HS. apply ssorted_app in HS as (_ & _ & HS).
      apply HS; eauto using key_stored.
    + intros HO2. exfalso. destruct NED as (x & v & Hx), NER as (y & w & Hy). specialize (HO _ _ _ _ Hx Hy).
      specialize (HO2 _ _ _ _ Hx Hy). lia.
  - destruct (@split_at _ ed (length ed - (length ed + length er) / 2)) as (ea & eb & -> & La); [lia|].
    assert (Lb : length eb = (length (ea ++ eb) + length er) / 2) by (rewrite app_length in *; lia).
    assert (HO' : forall x y, In x (keys er) -> In y (keys (ea ++ eb)) -> (x < y)%Z).
    { intros x y Hx Hy. destruct (stored_key H2 Hx), (stored_key H1 Hy). eauto. }
    destruct (w_balance_right H1 H2 NE HL Lb HO') as (d' & r' & E & D' & R'). exists d', r'.
    assert (HS : sorted ((er ++ ea) ++ eb)).
    { rewrite <- app_assoc. unfold sorted. rewrite keys_app. apply ssorted_app. splits; auto; [apply (wrep_sorted H2)|apply (wrep_sorted H1)]. }
    splits; auto.
    + now apply (wrep_good D').
    + now apply (wrep_good R').
    + unfold w_count. rewrite (w_count_ok D'). now rewrite Lb.
    + unfold w_count. rewrite (w_count_ok R'). rewrite <- Lb, !app_length. f_equal. lia.
    + intros k v. rewrite or_comm, (stored_app R' D' eq_refl HS). symmetry. rewrite or_comm. apply (stored_app H2 H1); auto. now rewrite app_assoc.
    + intros HO2. exfalso. destruct NED as (x & v & Hx), NER as (y & w & Hy). specialize (HO _ _ _ _ Hx Hy).
      specialize (HO2 _ _ _ _ Hx Hy). lia.
    + intros _ k v k' v' Hk Hk'. unfold sorted in HS. rewrite keys_app in HS. apply ssorted_app in HS as (_ & _ & HS).
      apply HS; eauto using key_stored.
Qed.

(** ** The first split of a tree *)
Variable N : nat.

Lemma run_fill (os : list (Z * V)) : forall t es, t1 M t es -> length es + length os <= M -> NoDup (map fst os) ->
  (forall k, In k (map fst os) -> get k es = None) ->
  exists t' es', wt_run N M t os = Ok t' /\ t1 M t' es' /\ length es' = length es + length os /\
    forall x, In x (keys es') <-> In x (keys es) \/ In x (map fst os).
Proof.
  induction os as [|[k v] os IH]; intros t es Ht HL ND HN; cbn [length map fst wt_run] in *.
  - exists t, es. splits; auto. cbn [In]. tauto.
  - assert (GN : get k es = None) by (apply HN; now left).
    apply NoDup_cons_iff in ND as [ND1 ND2].
    destruct (@t1_insert _ _ N t es k v Ht) as (t' & E & Ht'); [left; lia|]. rewrite E. cbn [bind].
    assert (HO : sorted es) by (destruct Ht as (_ & _ & l & _ & H); exact (wrep_sorted H)).
    assert (LI : length (ins k v es) = S (length es)) by now rewrite length_ins_new.
    destruct (IH t' (ins k v es) Ht') as (t2 & es2 & E2 & H2 & L2 & K2); auto.
    + lia.
    + intros x Hx. rewrite get_ins by auto. destruct (Z.eqb_spec x k) as [->|]; [contradiction|]. apply HN. now right.
    + exists t2, es2. splits; auto; [lia|]. intros x. rewrite K2, ins_in_keys. cbn [In]. intuition.
Qed.

Lemma first_split (os : list (Z * V)) : 2 <= M -> 1 <= N -> NoDup (map fst os) -> length os = S M ->
  exists (t : wtree V) sk, wt_run N M (wt_new V M) os = Ok t /\ In sk (map fst os) /\ forall k, (sk <= k)%Z -> wt_lookup t k = UB.
Proof.
  intros M2 N1 ND HL. destruct (@exists_last _ os) as (os0 & (key & val) & ->); [intros ->; discriminate HL|].
  rewrite app_length in HL. cbn [length] in HL. rewrite map_app in ND. cbn [map fst] in ND.
  pose proof (NoDup_remove_1 _ _ _ ND) as ND1. rewrite app_nil_r in ND1.
  pose proof (NoDup_remove_2 _ _ _ ND) as ND2. rewrite app_nil_r in ND2.
  destruct (@run_fill os0 (wt_new V M) []) as (t & es & E & Ht & LE & KE); auto; [apply t1_new|cbn [length]; lia|].
  cbn [length] in LE. assert (RA : forall xs ys (t : wtree V), wt_run N M t (xs ++ ys) = do t' <- wt_run N M t xs; wt_run N M t' ys).
  { induction xs as [|[k v] xs IH]; intros ys t0; cbn [app wt_run bind]; auto.
    destruct (wt_insert N M t0 k v) as [t1'| |]; cbn [bind]; auto. }
  rewrite RA, E. cbn [bind wt_run]. clear RA.
  destruct Ht as (D & NX & l & El & H). pose proof (wrep_sorted H) as HO.
  assert (GN : get key es = None).
  { destruct (get key es) as [v|] eqn:G; auto. exfalso. apply ND2. apply get_in in G; auto.
    assert (In key (keys es)) as Hin by (unfold keys; apply in_map_iff; exists (key, v); auto). apply KE in Hin. now destruct Hin. }
  destruct (locate key HO) as [(a & b & EE & Ha & Hb)|(a & w' & b & -> & Ha & Hb)].
  2:{ rewrite (get_old w' b Ha) in GN. discriminate. }
  destruct (@split_at _ es ((M + 1) / 2)) as (ea & eb & EE2 & La); [lia|].
  rewrite EE in H. destruct (@w_insert_full _ _ _ a b key val ea eb H) as (l1 & l2 & e2 & r2 & EI & C); auto; [rewrite <- EE; lia|congruence|].
  assert (KX : In (fst e2) (map fst (os0 ++ [(key, val)]))).
  { rewrite map_app, in_app_iff. cbn [map fst In].
    assert (In (fst e2) (keys eb) \/ fst e2 = key) as [X|X].
    { destruct C as [(_ & _ & _ & Eb)|(_ & _ & _ & Eb)].
      - left. rewrite Eb. now left.
      - assert (X : In (fst e2) (keys (ins key val eb))) by (rewrite Eb; now left). apply ins_in_keys in X. tauto. }
    - left. assert (Y : In (fst e2) (keys es)) by (rewrite EE2, keys_app; apply in_app_iff; auto). apply KE in Y. now destruct Y.
    - right. now left. }
  unfold wt_insert. rewrite D. unfold insert_leaf, getl. rewrite El. cbn [of_opt bind]. cbn [w_ops lo_insert].
  rewrite EI. cbn [bind]. unfold new_leaf. cbn [set_leaf hnx].
  assert (UN : upd (hnx (wth t)) (hfresh (wth t)) None (wroot t) = None).
  { unfold upd. destruct (_ =? _); auto. }
  rewrite UN. cbn [bind fst snd skey sleft sright]. destruct N as [|n]; [lia|].
  unfold fresh. unfold wb_new. cbn [wbk bs wbc bb anew repeat aset lset of_opt bind].
  change (Some (wroot t) :: None :: repeat None n) with (Some (wroot t) :: repeat (@None nat) (S n)).
  destruct (@aset_ok _ (Some (wroot t) :: repeat None (S n)) (S n) (hfresh (wth t))) as (cs & EC).
  { cbn [length]. rewrite repeat_length. lia. }
  rewrite EC. cbn [bind].
  destruct (@bm_set_ok (S n) (bm_new (S n)) 0 true (bm_new_ok (S n))) as (b1 & EB & _ & _); [lia|]. rewrite EB. cbn [bind].
  eexists. exists (fst e2). split; [reflexivity|]. split; [exact KX|]. intros k Hk.
  unfold wt_lookup. cbn [wtb wdepth wroot wt_find]. unfold getwb at 1, upd at 1. rewrite Nat.eqb_refl. cbn [of_opt bind].
  unfold wb_pos. cbn [wbk bs]. rewrite (@sbsearch_pos_correct true k [fst e2] []).
  - cbn [length bind]. destruct n; reflexivity.
  - split; [reflexivity|]. intros [|i] x Hx; [|destruct i; discriminate Hx]. injection Hx as <-. exists 0. split; reflexivity.
  - repeat constructor.
  - repeat constructor. exact Hk.
Qed.
End Leaf.
