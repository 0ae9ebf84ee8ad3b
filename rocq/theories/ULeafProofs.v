(** The unsorted leaf code satisfies the leaf laws, for every capacity M >= 2. *)
From Verif Require Import Base ArrLemmas MapSpec SortedList SearchModel SearchProofs RankModel RankProofs
  BTreeModel BTreeLaws SLeafModel SLeafProofs ULeafModel.
Open Scope nat_scope.

Section ULeafProofs.
Variables (V : Type) (t : ktype) (M : nat).
Hypothesis HM : 2 <= M.
Hypothesis Ht : (1 <= kt_bits t <= 64)%Z.
Notation leaf := (sleaf V).
Implicit Types (xs es : list (Z * V)) (l : leaf).

(** The arrays hold [xs], in this order. *)
Definition ua_rep (l : leaf) (xs : list (Z * V)) : Prop :=
  sn l = length xs /\ length xs <= M /\ length (sk l) = M /\ length (sv l) = M /\
  pre (sk l) (keys xs) /\ pre (sv l) (vals xs).

Definition ul_rep (l : leaf) (es : list (Z * V)) : Prop :=
  sorted es /\ Forall (kt_in t) (keys es) /\ exists xs, Permutation xs es /\ ua_rep l xs.
Definition ul_hint (l : leaf) (es : list (Z * V)) (k : Z) : Prop :=
  ul_rep l es /\ (es = [] -> aget (sk l) 0 = Ok k).

Lemma perm_keys (xs es : list (Z * V)) : Permutation xs es -> Permutation (keys xs) (keys es).
Proof. apply Permutation_map. Qed.

Lemma sorted_keys_nodup (es : list (Z * V)) : sorted es -> NoDup (keys es).
Proof.
  clear HM Ht.
  unfold sorted. generalize (keys es). intros l H.
  induction H as [|x l _ IH F]; constructor; auto. rewrite Forall_forall in F.
  intros Hx. specialize (F x Hx). lia.
Qed.

Lemma ua_nodup xs es : sorted es -> Permutation xs es -> NoDup (keys xs).
Proof. clear HM Ht.
  intros HS HP. eapply Permutation_NoDup; [apply Permutation_sym, perm_keys, HP|]. now apply sorted_keys_nodup.
Qed.

(** Sorted lists with the same entries are equal. *)
Lemma sorted_perm_eq : forall (a b : list (Z * V)), sorted a -> sorted b -> Permutation a b -> a = b.
Proof.
  clear HM Ht M t.
  induction a as [|[x v] a IH]; intros b HA HB HP.
  - apply Permutation_nil in HP. now subst.
  - destruct b as [|[y w] b]; [apply Permutation_sym, Permutation_nil in HP; discriminate|].
    unfold sorted in *. cbn [keys map fst] in *. inversion HA as [|? ? SA FA]; inversion HB as [|? ? SB FB]; subst.
    rewrite Forall_forall in FA, FB.
    assert (E : (x, v) = (y, w)).
    { assert (I1 : In (x, v) ((y, w) :: b)) by (eapply Permutation_in; [exact HP|simpl; auto]).
      assert (I2 : In (y, w) ((x, v) :: a)) by (eapply Permutation_in; [apply Permutation_sym, HP|simpl; auto]).
      destruct I1 as [I1|I1]; [now rewrite I1|]. destruct I2 as [I2|I2]; [now rewrite I2|].
      apply (in_map fst) in I1. apply (in_map fst) in I2. cbn [fst] in *.
      specialize (FA _ I2). specialize (FB _ I1). lia. }
    injection E as -> ->. f_equal. apply IH; auto. eapply Permutation_cons_inv; eauto.
Qed.

(** ** Arrays *)
Lemma ua_key l xs1 x v xs2 i : ua_rep l (xs1 ++ (x, v) :: xs2) -> i = length xs1 ->
  aget (sk l) i = Ok x /\ aget (sv l) i = Ok v.
Proof. clear HM Ht.
  intros (_ & _ & _ & _ & Hk & Hv) ->. rewrite keys_app in Hk. rewrite vals_app in Hv.
  simpl in *. split; eapply pre_get; eauto; now rewrite ?keys_length, ?vals_length.
Qed.

Lemma ul_find_ok key : forall zs2 a rest, ~ In key zs2 ->
  ul_find (length zs2) (map Some (a ++ zs2) ++ rest) (length a) key = Ok (length a + length zs2).
Proof. clear HM Ht.
  induction zs2 as [|x zs2 IH]; intros a rest NI; cbn [length ul_find].
  - f_equal. lia.
  - rewrite map_app, <- app_assoc. cbn [map app]. rewrite aget_app by now rewrite map_length. cbn [bind].
    destruct (Z.eqb_spec x key) as [->|_]; [simpl in NI; tauto|].
    replace (map Some a ++ Some x :: map Some zs2 ++ rest) with (map Some ((a ++ [x]) ++ zs2) ++ rest)
      by (rewrite !map_app, <- !app_assoc; reflexivity).
    replace (S (length a)) with (length (a ++ [x])) by (rewrite app_length; cbn [length]; lia).
    rewrite IH by (simpl in NI; tauto). f_equal. rewrite app_length. cbn [length]. lia.
Qed.

Lemma ul_find_hit key zs3 : forall zs2 a rest n, ~ In key zs2 -> length zs2 < n ->
  ul_find n (map Some (a ++ zs2 ++ key :: zs3) ++ rest) (length a) key = Ok (length a + length zs2).
Proof. clear HM Ht.
  induction zs2 as [|x zs2 IH]; intros a rest n NI Hn; destruct n as [|n]; try (cbn [length] in Hn; lia); cbn [length ul_find].
  - rewrite map_app, <- app_assoc. cbn [map app]. rewrite aget_app by now rewrite map_length. cbn [bind].
    rewrite Z.eqb_refl. f_equal. lia.
  - rewrite map_app, <- app_assoc. cbn [map app]. rewrite aget_app by now rewrite map_length. cbn [bind].
    destruct (Z.eqb_spec x key) as [->|_]; [simpl in NI; tauto|].
    replace (map Some a ++ Some x :: map Some (zs2 ++ key :: zs3) ++ rest) with (map Some ((a ++ [x]) ++ zs2 ++ key :: zs3) ++ rest)
      by (rewrite !map_app, <- !app_assoc; reflexivity).
    replace (S (length a)) with (length (a ++ [x])) by (rewrite app_length; cbn [length]; lia).
    rewrite IH; [f_equal; rewrite app_length; cbn [length]; lia|simpl in NI; tauto|cbn [length] in Hn; lia].
Qed.

Lemma ul_pos_miss l xs k : ua_rep l xs -> ~ In k (keys xs) -> ul_pos (sk l) (sn l) k = Ok (length xs).
Proof. clear HM Ht.
  intros (Hn & _ & _ & _ & [R Hk] & _) NI. unfold ul_pos. rewrite Hk, Hn, <- (keys_length xs).
  apply (@ul_find_ok k (keys xs) [] R NI).
Qed.
Lemma ul_pos_hit l xs1 k v xs2 : ua_rep l (xs1 ++ (k, v) :: xs2) -> ~ In k (keys xs1) ->
  ul_pos (sk l) (sn l) k = Ok (length xs1).
Proof. clear HM Ht.
  intros (Hn & _ & _ & _ & [R Hk] & _) NI. unfold ul_pos. rewrite Hk, Hn, <- (keys_length xs1).
  rewrite keys_app. cbn [keys map fst].
  apply (@ul_find_hit k (map fst xs2) (keys xs1) [] R _ NI).
  rewrite keys_length, app_length. cbn [length]. lia.
Qed.

(** A key is stored at one place or not at all. *)
Lemma ua_split xs es k : sorted es -> Permutation xs es ->
  get k es = None /\ ~ In k (keys xs) \/
  exists v xs1 xs2, get k es = Some v /\ xs = xs1 ++ (k, v) :: xs2 /\ ~ In k (keys xs1) /\ ~ In k (keys xs2).
Proof. clear HM Ht.
  intros HS HP. pose proof (ua_nodup HS HP) as ND. destruct (get k es) as [v|] eqn:G.
  - right. apply get_in in G; [|exact HS].
    apply (Permutation_in _ (Permutation_sym HP)) in G. apply in_split in G as (xs1 & xs2 & ->).
    exists v, xs1, xs2. rewrite keys_app in ND. cbn [keys map fst] in ND.
    apply NoDup_remove_2 in ND. rewrite in_app_iff in ND. splits; tauto.
  - left. split; auto. intros HI. apply (Permutation_in _ (perm_keys HP)) in HI.
    apply in_map_iff in HI as ([x v] & E & HI). cbn [fst] in E. subst x.
    apply get_in in HI; [congruence|exact HS].
Qed.

Lemma ul_lookup_ok l es k : ul_rep l es -> sl_lookup ul_pos l k = Ok (get k es).
Proof. clear HM Ht.
  intros (HS & _ & xs & HP & HR). pose proof HR as (Hn & _). unfold sl_lookup.
  destruct (ua_split k HS HP) as [[G NI]|(v & xs1 & xs2 & G & -> & NI & _)].
  - rewrite (ul_pos_miss HR NI). cbn [bind]. rewrite Hn, Nat.ltb_irrefl. now rewrite G.
  - rewrite (ul_pos_hit HR NI). cbn [bind]. rewrite Hn, app_length. cbn [length].
    destruct (Nat.ltb_spec (length xs1) (length xs1 + S (length xs2))) as [_|]; [|lia].
    destruct (ua_key HR eq_refl) as [-> ->]. cbn [bind]. rewrite Z.eqb_refl. now rewrite G.
Qed.

Lemma ul_append_ok l xs k v : ua_rep l xs -> length xs < M ->
  exists l', ul_append l k v = Ok l' /\ ua_rep l' (xs ++ [(k, v)]).
Proof. clear HM Ht.
  intros (Hn & HC & LK & LV & Hk & Hv) HL. unfold ul_append.
  destruct (pre_set_end (i := sn l) k Hk) as (k1 & E1 & P1 & L1); [now rewrite keys_length|rewrite keys_length; lia|].
  destruct (pre_set_end (i := sn l) v Hv) as (v1 & F1 & Q1 & M1); [now rewrite vals_length|rewrite vals_length; lia|].
  rewrite E1. cbn [bind]. rewrite F1. cbn [bind]. eexists. split; [reflexivity|].
  unfold ua_rep. cbn [sn sk sv]. rewrite keys_app, vals_app, app_length. cbn [length]. splits; auto; lia.
Qed.

Lemma read_all_ok : forall zs a rest, read_all (length zs) (length a) (map Some (a ++ zs) ++ rest) = Ok zs.
Proof. clear HM Ht.
  induction zs as [|x zs IH]; intros a rest; cbn [length read_all]; [reflexivity|].
  rewrite map_app, <- app_assoc. cbn [map app]. rewrite aget_app by now rewrite map_length. cbn [bind].
  replace (map Some a ++ Some x :: map Some zs ++ rest) with (map Some ((a ++ [x]) ++ zs) ++ rest)
    by (rewrite !map_app, <- !app_assoc; reflexivity).
  replace (S (length a)) with (length (a ++ [x])) by (rewrite app_length; cbn [length]; lia).
  rewrite IH. reflexivity.
Qed.

(** ** Split *)
Definition ge_key (s : Z) (x : Z * V) : bool := (fst x >=? s)%Z.
Definition lt_key (s : Z) (x : Z * V) : bool := negb (fst x >=? s)%Z.

(** State of the node in the loop: compacted entries [A], then stale cells, then the rest [Q]. *)
Definition node_st (l : leaf) (A Q : list (Z * V)) (i : nat) : Prop :=
  sn l = length A /\ length A <= i /\ length (sk l) = M /\ length (sv l) = M /\
  (exists J R, sk l = map Some (keys A) ++ J ++ map Some (keys Q) ++ R /\ length A + length J = i) /\
  (exists J R, sv l = map Some (vals A) ++ J ++ map Some (vals Q) ++ R /\ length A + length J = i).

Lemma arr_push {T} (a : arr T) (zs : list T) J x Q R i :
  a = map Some zs ++ J ++ map Some (x :: Q) ++ R -> length zs + length J = i ->
  aget a i = Ok x /\
  exists a', aset a (length zs) x = Ok a' /\ length a' = length a /\
    exists J', a' = map Some (zs ++ [x]) ++ J' ++ map Some Q ++ R /\ S (length zs) + length J' = S i.
Proof. clear HM Ht.
  intros -> Hi. split.
  - rewrite app_assoc. cbn [map app]. apply aget_app. rewrite app_length, map_length. lia.
  - destruct J as [|j J].
    + exists (map Some zs ++ Some x :: map Some Q ++ R). cbn [map app]. splits.
      * apply aset_app. now rewrite map_length.
      * reflexivity.
      * exists []. rewrite map_app, <- app_assoc. cbn [map app length] in *. split; [reflexivity|lia].
    + exists (map Some zs ++ Some x :: J ++ map Some (x :: Q) ++ R). cbn [app]. splits.
      * apply aset_app. now rewrite map_length.
      * rewrite !app_length. cbn [length]. rewrite !app_length. reflexivity.
      * exists (J ++ [Some x]). rewrite map_app, <- !app_assoc. cbn [map app length] in *.
        split; auto. rewrite app_length. cbn [length]. lia.
Qed.

Lemma split_loop s : forall Q A B i node sib, node_st node A Q i -> ua_rep sib B -> length B + length Q <= M ->
  exists node' sib', for_up i (length Q) (ul_split_step s) (node, sib) = Ok (node', sib') /\
    node_st node' (A ++ filter (lt_key s) Q) [] (i + length Q) /\ ua_rep sib' (B ++ filter (ge_key s) Q).
Proof. clear HM Ht.
  induction Q as [|[x v] Q IH]; intros A B i node sib HN HB HL.
  - cbn [length for_up filter]. rewrite !app_nil_r, Nat.add_0_r. eauto.
  - cbn [length for_up]. destruct HN as (Hn & HA & LK & LV & (J & R & Ek & EJ) & (J2 & R2 & Ev & EJ2)).
    cbn [keys vals map fst snd] in Ek, Ev.
    pose proof (keys_length A) as KA. pose proof (vals_length A) as VA.
    assert (EJk : length (keys A) + length J = i) by lia. assert (EJv : length (vals A) + length J2 = i) by lia.
    destruct (arr_push Ek EJk) as (G1 & k' & S1 & L1 & J' & K1 & K2).
    destruct (arr_push Ev EJv) as (G2 & v' & S2 & L2 & J2' & W1 & W2).
    unfold ul_split_step at 1. rewrite G1. cbn [bind]. rewrite G2. cbn [bind filter].
    unfold ge_key at 1, lt_key at 1. cbn [fst]. destruct (x >=? s)%Z; cbn [negb].
    + destruct (ul_append_ok x v HB) as (sib1 & E1 & HB1); [cbn [length] in HL; lia|]. rewrite E1. cbn [bind].
      destruct (IH A (B ++ [(x, v)]) (S i) node sib1) as (n' & s' & E' & N' & B'); auto.
      * unfold node_st. splits; auto; try lia.
        -- exists (J ++ [Some x]), R. rewrite Ek, <- app_assoc. split; auto. rewrite app_length. cbn [length]. lia.
        -- exists (J2 ++ [Some v]), R2. rewrite Ev, <- app_assoc. split; auto. rewrite app_length. cbn [length]. lia.
      * rewrite app_length. cbn [length] in *. lia.
      * exists n', s'. rewrite E'. rewrite <- app_assoc in B'. rewrite Nat.add_succ_comm in N'. auto.
    + unfold ul_append. rewrite Hn.
      rewrite KA in S1. rewrite VA in S2. rewrite S1. cbn [bind].
      rewrite S2. cbn [bind].
      destruct (IH (A ++ [(x, v)]) B (S i) (SLeaf (S (length A)) k' v') sib) as (n' & s' & E' & N' & B'); auto.
      * unfold node_st. cbn [sn sk sv]. rewrite app_length, keys_app, vals_app. cbn [length]. splits; try lia.
        -- exists J', R. split; auto. lia.
        -- exists J2', R2. split; auto. lia.
      * cbn [length] in HL. lia.
      * exists n', s'. rewrite E'. rewrite <- app_assoc in N'. rewrite Nat.add_succ_comm in N'. auto.
Qed.

Lemma below_filter s (xs : list (Z * V)) : length (filter (lt_key s) xs) = below s (keys xs).
Proof. clear HM Ht.
  unfold below. induction xs as [|[x v] xs IH]; [reflexivity|]. cbn [filter keys map fst].
  unfold lt_key at 1. cbn [fst]. destruct (Z.geb_spec x s), (Z.ltb_spec x s); try lia; cbn [negb length]; auto.
Qed.

Lemma filter_both s (xs : list (Z * V)) : Permutation (filter (lt_key s) xs ++ filter (ge_key s) xs) xs.
Proof. clear HM Ht.
  induction xs as [|[x v] xs IH]; [constructor|]. cbn [filter]. unfold lt_key at 1, ge_key at 1. cbn [fst].
  destruct (x >=? s)%Z; cbn [negb].
  - apply Permutation_sym, Permutation_cons_app, Permutation_sym, IH.
  - cbn [app]. now constructor.
Qed.

Lemma ul_split_ok l xs : ua_rep l xs -> length xs = M -> NoDup (keys xs) -> Forall (kt_in t) (keys xs) ->
  exists l1 l2 s, ul_split t M l = Ok (l1, l2, s) /\
    ua_rep l1 (filter (lt_key s) xs) /\ ua_rep l2 (filter (ge_key s) xs) /\
    length (filter (lt_key s) xs) = (M + 1) / 2 /\ length (filter (ge_key s) xs) = M / 2 /\ In s (keys xs).
Proof.
  intros HR HL ND HK. pose proof HR as (Hn & _ & LK & LV & Hk & Hv). unfold ul_split.
  assert (ER : read_all M 0 (sk l) = Ok (keys xs)).
  { destruct Hk as [R ->]. rewrite <- HL, <- (keys_length xs). apply (@read_all_ok (keys xs) [] R). }
  rewrite ER. cbn [bind].
  destruct (@findSplitKey_ok t (keys xs) Ht) as (s & pos & E & Es & Hb); auto.
  { rewrite keys_length. lia. }
  { intros d Hd. rewrite Forall_forall in HK. auto. }
  rewrite E. cbn [bind snd]. rewrite (pre_get_nth Hk Es). cbn [bind].
  destruct (@split_loop s xs [] [] 0 (SLeaf 0 (sk l) (sv l)) (sl_new V M)) as (n' & s' & El & Hn' & Hs').
  - unfold node_st. cbn [sn sk sv length]. splits; auto.
    + destruct Hk as [R Ek]. exists [], R. auto.
    + destruct Hv as [R Ev]. exists [], R. auto.
  - unfold ua_rep, sl_new, anew. cbn [sn sk sv length]. rewrite !repeat_length. splits; auto; try lia.
    + exists (repeat None M). reflexivity.
    + exists (repeat None M). reflexivity.
  - cbn [length]. lia.
  - rewrite HL in El. rewrite El. cbn [bind fst snd]. exists n', s', s.
    pose proof (Permutation_length (filter_both s xs)) as PL. rewrite app_length in PL.
    pose proof (below_filter s xs) as BF. rewrite Hb, keys_length in BF. cbn [app] in *.
    splits; auto; try lia.
    + destruct Hn' as (A1 & A2 & A3 & A4 & (J & R & A5 & _) & (J2 & R2 & A6 & _)).
      unfold ua_rep. splits; auto; try lia.
      * exists (J ++ R). rewrite A5. reflexivity.
      * exists (J2 ++ R2). rewrite A6. reflexivity.
    + eapply nth_error_In; eauto.
Qed.

Lemma ua_extreme better l xs : order better -> ua_rep l xs -> xs <> [] ->
  exists p m, find_ext better (sk l) (sn l) = Ok p /\ aget (sk l) p = Ok m /\ nth_error (keys xs) p = Some m /\
    (forall y, In y (keys xs) -> better y m = false).
Proof. clear HM Ht.
  intros HO (Hn & _ & _ & _ & Hk & _) NE. pose proof Hk as [R Ek].
  destruct (@find_ext_ok better (sk l) (keys xs) R HO Ek) as (p & m & E & Em & Hm).
  { destruct xs; [congruence|discriminate]. }
  rewrite keys_length, <- Hn in E. exists p, m. splits; auto. eapply pre_get_nth; eauto.
Qed.

(** The sorted version of a list of entries with distinct keys. *)
Definition sortl (xs : list (Z * V)) : list (Z * V) := fold_right (fun x => ins (fst x) (snd x)) [] xs.

Lemma sortl_sorted xs : sorted (sortl xs).
Proof. clear HM Ht. induction xs as [|[x v] xs IH]; [constructor|]. now apply sorted_ins. Qed.
Lemma ins_new_perm k v (es : list (Z * V)) : sorted es -> ~ In k (keys es) -> Permutation (ins k v es) ((k, v) :: es).
Proof. clear HM Ht.
  intros HS NI. destruct (locate k HS) as [(a & b & -> & Ha & Hb)|(a & w & b & -> & Ha & Hb)].
  - rewrite ins_new by assumption. symmetry. apply Permutation_middle.
  - exfalso. apply NI. rewrite keys_app, in_app_iff. simpl. auto.
Qed.
Lemma sortl_perm xs : NoDup (keys xs) -> Permutation (sortl xs) xs.
Proof. clear HM Ht.
  induction xs as [|[x v] xs IH]; intros ND; [constructor|]. cbn [keys map fst] in ND. inversion ND as [|? ? NI ND']; subst.
  cbn [sortl fold_right fst snd]. fold (sortl xs). rewrite ins_new_perm.
  - constructor. now apply IH.
  - apply sortl_sorted.
  - intros HI. apply NI. eapply Permutation_in; [apply perm_keys, IH, ND'|exact HI].
Qed.

(** A leaf holding [xs], seen as its sorted entries. *)
Lemma ul_rep_sortl l xs : ua_rep l xs -> NoDup (keys xs) -> Forall (kt_in t) (keys xs) -> ul_rep l (sortl xs).
Proof. clear HM Ht.
  intros HR ND HK. pose proof (sortl_perm ND) as P. unfold ul_rep. splits.
  - apply sortl_sorted.
  - eapply Permutation_Forall; [apply Permutation_sym, perm_keys, P|exact HK].
  - exists xs. split; auto. now apply Permutation_sym.
Qed.

Lemma nodup_parts xs1 xs2 : NoDup (keys (xs1 ++ xs2)) -> NoDup (keys xs1) /\ NoDup (keys xs2).
Proof. clear HM Ht. rewrite keys_app. intros ND. split; [eapply NoDup_app_left|eapply NoDup_app_right]; eauto. Qed.

Lemma perm_sort_app xs1 xs2 es : sorted es -> Permutation (xs1 ++ xs2) es ->
  (forall x y, In x (keys xs1) -> In y (keys xs2) -> (x < y)%Z) ->
  es = sortl xs1 ++ sortl xs2.
Proof. clear HM Ht.
  intros HS HP H1. pose proof (ua_nodup HS HP) as ND. apply nodup_parts in ND as [N1 N2].
  apply sorted_perm_eq; auto.
  - apply sorted_app. splits; try apply sortl_sorted. intros x y Hx Hy.
    apply (Permutation_in _ (perm_keys (sortl_perm N1))) in Hx. apply (Permutation_in _ (perm_keys (sortl_perm N2))) in Hy.
    auto.
  - rewrite <- HP. symmetry. apply Permutation_app; now apply sortl_perm.
Qed.

Lemma sortl_length xs : NoDup (keys xs) -> length (sortl xs) = length xs.
Proof. clear HM Ht. intros ND. apply Permutation_length, sortl_perm, ND. Qed.

Lemma ins_old_perm k v w xs1 xs2 es : sorted es -> Permutation (xs1 ++ (k, w) :: xs2) es ->
  Permutation (xs1 ++ (k, v) :: xs2) (ins k v es).
Proof. clear HM Ht.
  intros HS HP. destruct (locate k HS) as [(a & b & -> & Ha & Hb)|(a & w' & b & -> & Ha & Hb)].
  - exfalso. assert (HI : In k (keys (a ++ b))).
    { eapply Permutation_in; [apply perm_keys, HP|]. rewrite keys_app, in_app_iff. simpl. auto. }
    rewrite keys_app, in_app_iff in HI. rewrite alt_in in Ha. rewrite agt_in in Hb.
    destruct HI as [HI|HI]; [specialize (Ha _ HI)|specialize (Hb _ HI)]; lia.
  - rewrite ins_old by assumption.
    assert (E : w = w').
    { pose proof (sorted_keys_nodup HS) as ND.
      assert (I1 : In (k, w) (a ++ (k, w') :: b)) by (eapply Permutation_in; [exact HP|apply in_elt]).
      apply get_in in I1; [|exact HS]. rewrite get_old in I1 by assumption. congruence. }
    subst w'. apply Permutation_app_inv in HP. now apply Permutation_elt.
Qed.

Lemma del_perm k w xs1 xs2 es : sorted es -> Permutation (xs1 ++ (k, w) :: xs2) es ->
  Permutation (xs1 ++ xs2) (del k es).
Proof. clear HM Ht.
  intros HS HP. destruct (locate k HS) as [(a & b & -> & Ha & Hb)|(a & w' & b & -> & Ha & Hb)].
  - exfalso. assert (HI : In k (keys (a ++ b))).
    { eapply Permutation_in; [apply perm_keys, HP|]. rewrite keys_app, in_app_iff. simpl. auto. }
    rewrite keys_app, in_app_iff in HI. rewrite alt_in in Ha. rewrite agt_in in Hb.
    destruct HI as [HI|HI]; [specialize (Ha _ HI)|specialize (Hb _ HI)]; lia.
  - rewrite del_old by assumption.
    assert (E : w = w').
    { assert (I1 : In (k, w) (a ++ (k, w') :: b)) by (eapply Permutation_in; [exact HP|apply in_elt]).
      apply get_in in I1; [|exact HS]. rewrite get_old in I1 by assumption. congruence. }
    subst w'. now apply Permutation_app_inv in HP.
Qed.

(** ** Insert *)
Lemma finish_split (node sib : leaf) xs1 xs2 es : sorted es -> Forall (kt_in t) (keys es) ->
  ua_rep node xs1 -> ua_rep sib xs2 -> Permutation (xs1 ++ xs2) es ->
  (forall x y, In x (keys xs1) -> In y (keys xs2) -> (x < y)%Z) ->
  xs1 <> [] -> xs2 <> [] -> M / 2 <= length xs1 -> M / 2 <= length xs2 ->
  exists s e1 e2,
    (do p <- findMinKeyPos (sk sib) (sn sib); do k <- aget (sk sib) p; Ok (LSplit node sib k)) = Ok (LSplit node sib s) /\
    es = e1 ++ e2 /\ ul_rep node e1 /\ ul_rep sib e2 /\
    M / 2 <= length e1 /\ M / 2 <= length e2 /\ e1 <> [] /\ e2 <> [] /\
    alt s (keys e1) /\ age s (keys e2).
Proof. clear HM Ht.
  intros HS HK H1 H2 HP HX NE1 NE2 L1 L2.
  destruct (ua_extreme order_ltb H2 NE2) as (p & m & E & Em & Hm & Hmin).
  fold findMinKeyPos in E. rewrite E. cbn [bind]. rewrite Em. cbn [bind].
  pose proof (ua_nodup HS HP) as ND. apply nodup_parts in ND as [N1 N2].
  pose proof (Permutation_Forall (Permutation_sym (perm_keys HP)) HK) as HK'.
  rewrite keys_app, Forall_app in HK'. destruct HK' as [K1 K2].
  apply nth_error_In in Hm.
  exists m, (sortl xs1), (sortl xs2). rewrite !sortl_length by assumption. splits; auto.
  - now apply perm_sort_app.
  - now apply ul_rep_sortl.
  - now apply ul_rep_sortl.
  - intros E0. apply (f_equal (@length _)) in E0. rewrite sortl_length in E0 by assumption. destruct xs1; [congruence|discriminate].
  - intros E0. apply (f_equal (@length _)) in E0. rewrite sortl_length in E0 by assumption. destruct xs2; [congruence|discriminate].
  - apply alt_in. intros x Hx. apply (Permutation_in _ (perm_keys (sortl_perm N1))) in Hx. auto.
  - apply age_in. intros x Hx. apply (Permutation_in _ (perm_keys (sortl_perm N2))) in Hx.
    specialize (Hmin _ Hx). apply Z.ltb_ge in Hmin. lia.
Qed.

Lemma ul_insert_ok l es k v : kt_in t k -> ul_rep l es ->
  (exists l', ul_insert t M l k v = Ok (LDone l') /\ ul_rep l' (ins k v es)) \/
  (exists l1 l2 sk e1 e2,
     ul_insert t M l k v = Ok (LSplit l1 l2 sk) /\
     ins k v es = e1 ++ e2 /\ ul_rep l1 e1 /\ ul_rep l2 e2 /\
     M / 2 <= length e1 /\ M / 2 <= length e2 /\ e1 <> [] /\ e2 <> [] /\
     alt sk (keys e1) /\ age sk (keys e2)).
Proof.
  intros Kk (HS & HK & xs & HP & HR). pose proof HR as (Hn & HC & LK & LV & Hk & Hv).
  pose proof (sorted_ins k v HS) as HSi. unfold ul_insert.
  assert (HKi : Forall (kt_in t) (keys (ins k v es))).
  { rewrite Forall_forall in *. intros x Hx. apply ins_in_keys in Hx as [->|Hx]; auto. }
  destruct (ua_split k HS HP) as [[G NI]|(w & xs1 & xs2 & G & -> & NI & _)].
  - rewrite (ul_pos_miss HR NI). cbn [bind]. replace (length xs <? sn l) with false by (rewrite Hn; symmetry; apply Nat.ltb_irrefl). cbn [bind].
    assert (NIe : ~ In k (keys es)).
    { intros HI. apply NI. eapply Permutation_in; [apply Permutation_sym, perm_keys, HP|exact HI]. }
    assert (PI : Permutation (xs ++ [(k, v)]) (ins k v es)).
    { rewrite ins_new_perm by assumption. rewrite <- Permutation_cons_append. now constructor. }
    destruct (Nat.eqb_spec (sn l) M) as [EF|NF].
    + right. rewrite Hn in EF.
      assert (HKx : Forall (kt_in t) (keys xs)) by (eapply Permutation_Forall; [apply Permutation_sym, perm_keys, HP|exact HK]).
      destruct (ul_split_ok HR EF (ua_nodup HS HP) HKx) as (l1 & l2 & s & E & H1 & H2 & L1 & L2 & Is).
      rewrite E. cbn [bind].
      set (x1 := filter (lt_key s) xs) in *. set (x2 := filter (ge_key s) xs) in *.
      assert (B1 : forall x, In x (keys x1) -> (x < s)%Z).
      { intros x Hx. apply in_map_iff in Hx as ([y u] & <- & Hx). apply filter_In in Hx as [_ Hx].
        unfold lt_key in Hx. cbn [fst] in *. destruct (Z.geb_spec y s); [discriminate|lia]. }
      assert (B2 : forall x, In x (keys x2) -> (s <= x)%Z).
      { intros x Hx. apply in_map_iff in Hx as ([y u] & <- & Hx). apply filter_In in Hx as [_ Hx].
        unfold ge_key in Hx. cbn [fst] in *. destruct (Z.geb_spec y s); [lia|discriminate]. }
      assert (Is2 : In s (keys x2)).
      { apply in_map_iff in Is as ([y u] & <- & Hx). apply in_map_iff. exists (y, u). split; auto.
        apply filter_In. split; auto. unfold ge_key. cbn [fst]. apply Z.geb_le. lia. }
      assert (PX : Permutation (x1 ++ x2 ++ [(k, v)]) (ins k v es)).
      { rewrite app_assoc. rewrite <- PI. apply Permutation_app_tail. apply filter_both. }
      assert (NE1 : x1 <> []) by (intros E1; rewrite E1 in L1; cbn [length] in L1; lia).
      assert (RIGHT : (forall x, In x (keys x1) -> (x < k)%Z) ->
        exists b, ul_append l2 k v = Ok b /\ exists s' e1 e2,
        (do p <- findMinKeyPos (sk b) (sn b); do k0 <- aget (sk b) p; Ok (LSplit l1 b k0)) = Ok (LSplit l1 b s') /\
        ins k v es = e1 ++ e2 /\ ul_rep l1 e1 /\ ul_rep b e2 /\
        M / 2 <= length e1 /\ M / 2 <= length e2 /\ e1 <> [] /\ e2 <> [] /\
        alt s' (keys e1) /\ age s' (keys e2)).
      { intros HB. destruct (ul_append_ok k v H2) as (b & Eb & Hb); [lia|]. exists b. split; auto.
        eapply finish_split; eauto; try lia.
        - intros x y Hx Hy. rewrite keys_app, in_app_iff in Hy. destruct Hy as [Hy|[<-|[]]]; auto.
          specialize (B1 _ Hx). specialize (B2 _ Hy). lia.
        - destruct x2; discriminate.
        - rewrite app_length. lia. }
      destruct (Z.gtb_spec k s) as [Gs|Gs].
      * destruct RIGHT as (b & Eb & s' & e1 & e2 & EF' & R).
        { intros x Hx. specialize (B1 _ Hx). lia. }
        rewrite Eb. cbn [bind]. exists l1, b, s', e1, e2. split; [exact EF'|exact R].
      * destruct (ua_extreme order_gtb H1 NE1) as (p & m & Ep & Em & Hm & Hmax).
        fold findMaxKeyPos in Ep. rewrite Ep. cbn [bind]. rewrite Em. cbn [bind].
        destruct (Z.gtb_spec k m) as [Gm|Gm].
        -- destruct RIGHT as (b & Eb & s' & e1 & e2 & EF' & R).
           { intros x Hx. specialize (Hmax _ Hx). destruct (Z.gtb_spec x m); [discriminate|lia]. }
           rewrite Eb. cbn [bind]. exists l1, b, s', e1, e2. split; [exact EF'|exact R].
        -- destruct (ul_append_ok k v H1) as (a & Ea & Ha); [lia|]. rewrite Ea. cbn [bind].
           assert (Hks : (k < s)%Z).
           { apply nth_error_In in Hm. specialize (B1 _ Hm). lia. }
           destruct (@finish_split a l2 (x1 ++ [(k, v)]) x2 (ins k v es)) as (s' & e1 & e2 & EF' & R); auto; try lia.
           ++ rewrite <- PX, <- app_assoc. apply Permutation_app_head, Permutation_app_comm.
           ++ intros x y Hx Hy. rewrite keys_app, in_app_iff in Hx. specialize (B2 _ Hy). destruct Hx as [Hx|[<-|[]]].
              ** specialize (B1 _ Hx). lia.
              ** cbn [fst]. lia.
           ++ destruct x1; discriminate.
           ++ intros E2. rewrite E2 in L2. cbn [length] in L2. lia.
           ++ rewrite app_length. lia.
           ++ exists a, l2, s', e1, e2. split; [exact EF'|exact R].
    + left. destruct (ul_append_ok k v HR) as (l' & E & H'); [lia|]. rewrite E. cbn [bind].
      exists l'. split; auto. unfold ul_rep. splits; auto. exists (xs ++ [(k, v)]). auto.
  - left. rewrite (ul_pos_hit HR NI). cbn [bind]. rewrite Hn, app_length. cbn [length].
    destruct (Nat.ltb_spec (length xs1) (length xs1 + S (length xs2))) as [_|]; [|lia].
    destruct (ua_key HR eq_refl) as [Ek _]. rewrite Ek. cbn [bind]. rewrite Z.eqb_refl.
    rewrite vals_app in Hv. cbn [vals map snd] in Hv.
    destruct (pre_set (i := length xs1) v Hv) as (v1 & F1 & Q1 & M1); [now rewrite vals_length|].
    rewrite F1. cbn [bind]. eexists. split; [reflexivity|]. unfold ul_rep. splits; auto.
    exists (xs1 ++ (k, v) :: xs2). split; [eapply ins_old_perm; eauto|].
    unfold ua_rep. cbn [sn sk sv]. rewrite app_length in *. cbn [length] in *. splits; auto; try lia.
    + rewrite keys_app in *. exact Hk.
    + rewrite vals_app. exact Q1.
Qed.


(** ** Erase, merge, balance *)

(** The last entry fills the hole at [length xs1]. *)
Lemma fill_hole l xs1 x v xs2 : ua_rep l (xs1 ++ (x, v) :: xs2) ->
  exists k' v' ks vs xs', aget (sk l) (sn l - 1) = Ok k' /\ aget (sv l) (sn l - 1) = Ok v' /\
    aset (sk l) (length xs1) k' = Ok ks /\ aset (sv l) (length xs1) v' = Ok vs /\
    ua_rep (SLeaf (sn l - 1) ks vs) xs' /\ Permutation xs' (xs1 ++ xs2).
Proof. clear HM Ht.
  intros (Hn & HC & LK & LV & Hk & Hv).
  assert (EX : exists k' v' xs', nth_error (xs1 ++ (x, v) :: xs2) (sn l - 1) = Some (k', v') /\
    Permutation xs' (xs1 ++ xs2) /\ exists tl, xs1 ++ (k', v') :: xs2 = xs' ++ tl).
  { rewrite app_length in Hn. cbn [length] in Hn. rewrite Hn. destruct xs2 as [|[y w] ys _] using rev_ind.
    - exists x, v, xs1. cbn [length]. splits.
      + rewrite nth_error_app2 by lia. replace (length xs1 + 1 - 1 - length xs1) with 0 by lia. reflexivity.
      + now rewrite app_nil_r.
      + exists [(x, v)]. reflexivity.
    - exists y, w, (xs1 ++ (y, w) :: ys). splits.
      + rewrite app_length. cbn [length]. rewrite nth_error_app2 by lia.
        replace (length xs1 + S (length ys + 1) - 1 - length xs1) with (S (length ys)) by lia. cbn [nth_error].
        rewrite nth_error_app2 by lia. now rewrite Nat.sub_diag.
      + apply Permutation_app_head. apply Permutation_cons_append.
      + exists [(y, w)]. rewrite <- app_assoc. reflexivity. }
  destruct EX as (k' & v' & xs' & En & P & tl & ET).
  assert (LX : length xs' = sn l - 1).
  { apply Permutation_length in P. rewrite !app_length in *. cbn [length] in *. lia. }
  assert (Gk : aget (sk l) (sn l - 1) = Ok k').
  { eapply pre_get_nth; [exact Hk|]. unfold keys. now rewrite nth_error_map, En. }
  assert (Gv : aget (sv l) (sn l - 1) = Ok v').
  { eapply pre_get_nth; [exact Hv|]. unfold vals. now rewrite nth_error_map, En. }
  rewrite keys_app in Hk. rewrite vals_app in Hv. cbn [keys vals map fst snd] in Hk, Hv.
  destruct (pre_set (i := length xs1) k' Hk) as (ks & S1 & P1 & L1); [now rewrite keys_length|].
  destruct (pre_set (i := length xs1) v' Hv) as (vs & S2 & P2 & L2); [now rewrite vals_length|].
  exists k', v', ks, vs, xs'. splits; auto. unfold ua_rep. cbn [sn sk sv]. splits; auto; try lia.
  - eapply (@pre_app_l _ _ _ (keys tl)). rewrite <- keys_app, <- ET, keys_app. exact P1.
  - eapply (@pre_app_l _ _ _ (vals tl)). rewrite <- vals_app, <- ET, vals_app. exact P2.
Qed.

Lemma ul_erase_ok l es k : ul_rep l es -> get k es <> None ->
  exists l', ul_erase l k = Ok (true, l') /\ ul_hint l' (del k es) k.
Proof. clear HM Ht.
  intros (HS & HK & xs & HP & HR) HG.
  destruct (ua_split k HS HP) as [[G NI]|(w & xs1 & xs2 & G & -> & NI & _)]; [congruence|].
  pose proof HR as (Hn & HC & LK & LV & Hk & Hv). unfold ul_erase.
  rewrite (ul_pos_hit HR NI). cbn [bind]. destruct (ua_key HR eq_refl) as [Ek Ev]. rewrite Ek. cbn [bind].
  rewrite Z.eqb_refl. rewrite app_length in Hn. cbn [length] in Hn.
  destruct (Nat.eqb_spec (sn l) 0) as [|_]; [lia|].
  pose proof (del_perm HS HP) as PD.
  assert (SD : sorted (del k es)) by now apply sorted_del.
  assert (KD : Forall (kt_in t) (keys (del k es))).
  { rewrite Forall_forall in *. intros z Hz. apply HK. eapply del_in_keys; eauto. }
  destruct (Nat.eqb_spec (length xs1) (sn l - 1)) as [El|Nl].
  - eexists. split; [reflexivity|]. assert (xs2 = []) by (destruct xs2; [reflexivity|cbn [length] in Hn; lia]). subst xs2.
    rewrite app_nil_r in PD. unfold ul_hint, ul_rep. splits; auto.
    + exists xs1. split; auto. unfold ua_rep. cbn [sn sk sv]. rewrite app_length in HC. splits; auto; try lia.
      * eapply pre_app_l. rewrite keys_app in Hk. exact Hk.
      * eapply pre_app_l. rewrite vals_app in Hv. exact Hv.
    + intros E. cbn [sk]. rewrite E in PD. apply Permutation_sym, Permutation_nil in PD. subst xs1. exact Ek.
  - destruct (fill_hole HR) as (k' & v' & ks & vs & xs' & G1 & G2 & S1 & S2 & HR' & P').
    rewrite G1. cbn [bind]. rewrite G2. cbn [bind]. rewrite S1. cbn [bind]. rewrite S2. cbn [bind].
    eexists. split; [reflexivity|]. unfold ul_hint, ul_rep. splits; auto.
    + exists xs'. split; auto. now rewrite P'.
    + intros E. rewrite E in PD. apply Permutation_sym, Permutation_nil in PD.
      apply app_eq_nil in PD as [-> ->]. cbn [length] in *. lia.
Qed.

Lemma ua_merge l1 l2 xs1 xs2 : ua_rep l1 xs1 -> ua_rep l2 xs2 -> length xs1 + length xs2 <= M ->
  exists l, sl_merge l1 l2 = Ok l /\ ua_rep l (xs1 ++ xs2).
Proof. clear HM Ht.
  intros (Hn1 & HC1 & LK1 & LV1 & Hk1 & Hv1) (Hn2 & HC2 & LK2 & LV2 & Hk2 & Hv2) HL. unfold sl_merge.
  destruct (@arr_copy Z (fun i => sn l1 + i) (fun i => i) (sk l2) (sk l1) [] (keys xs2) (keys xs1) (sn l2))
    as (k1 & E1 & P1 & L1); auto.
  { now rewrite keys_length. }
  { rewrite !keys_length. lia. }
  { intros. rewrite keys_length. lia. }
  destruct (@arr_copy V (fun i => sn l1 + i) (fun i => i) (sv l2) (sv l1) [] (vals xs2) (vals xs1) (sn l2))
    as (v1 & F1 & Q1 & M1); auto.
  { now rewrite vals_length. }
  { rewrite !vals_length. lia. }
  { intros. rewrite vals_length. lia. }
  rewrite (for_up_pair E1 F1). cbn [bind fst snd]. eexists. split; [reflexivity|].
  unfold ua_rep. cbn [sn sk sv]. rewrite app_length, keys_app, vals_app. splits; auto; lia.
Qed.

Lemma ul_merge_ok l1 l2 e1 e2 : ul_rep l1 e1 -> ul_rep l2 e2 -> sorted (e1 ++ e2) -> length e1 + length e2 <= M ->
  exists l, sl_merge l1 l2 = Ok l /\ ul_rep l (e1 ++ e2).
Proof. clear HM Ht.
  intros (_ & K1 & xs1 & P1 & R1) (_ & K2 & xs2 & P2 & R2) HS HL.
  destruct (ua_merge R1 R2) as (l & E & R).
  { now rewrite (Permutation_length P1), (Permutation_length P2). }
  exists l. split; auto. unfold ul_rep. splits; auto.
  - rewrite keys_app, Forall_app. auto.
  - exists (xs1 ++ xs2). split; auto. now apply Permutation_app.
Qed.

Lemma ul_moves better : order better -> forall c i d r xd xr, ua_rep d xd -> ua_rep r xr -> NoDup (keys xd) ->
  c <= length xd -> length xr + c <= M ->
  exists d' r' xd' mv, for_up i c (fun _ => ul_move (find_ext better)) (d, r) = Ok (d', r') /\
    ua_rep d' xd' /\ ua_rep r' (xr ++ mv) /\ Permutation (xd' ++ mv) xd /\ length mv = c /\
    forall x y, In x (keys xd') -> In y (keys mv) -> better x y = false.
Proof. clear HM Ht.
  intros HO. induction c as [|c IH]; intros i d r xd xr Hd Hr ND HL HL2.
  - exists d, r, xd, []. cbn [for_up keys map In length]. rewrite !app_nil_r. splits; auto. tauto.
  - assert (NE : xd <> []) by (destruct xd; [cbn [length] in HL; lia|discriminate]).
    destruct (ua_extreme HO Hd NE) as (p & m & E & Em & Hm & Hbest).
    unfold keys in Hm. rewrite nth_error_map in Hm. destruct (nth_error xd p) as [[m' v]|] eqn:En; [|discriminate].
    cbn [option_map fst] in Hm. injection Hm as ->.
    destruct (nth_error_split _ _ En) as (xs1 & xs2 & EX & EL). 
    cbn [for_up]. unfold ul_move at 1. rewrite E. cbn [bind]. rewrite Em. cbn [bind].
    rewrite EX in Hd. destruct (ua_key Hd (eq_sym EL)) as [_ Ev]. rewrite Ev. cbn [bind].
    destruct (ul_append_ok m v Hr) as (r1 & Er & Hr1); [lia|]. rewrite Er. cbn [bind].
    pose proof Hd as (Hnd & _).
    destruct (Nat.eqb_spec (sn d) 0) as [E0|_]; [rewrite app_length in Hnd; cbn [length] in Hnd; lia|].
    destruct (fill_hole Hd) as (k' & v' & ks & vs & xs' & G1 & G2 & S1 & S2 & HR' & P').
    rewrite G1. cbn [bind]. rewrite G2. cbn [bind]. rewrite <- EL, S1. cbn [bind]. rewrite S2. cbn [bind].
    pose proof (Permutation_length P') as PL. rewrite app_length in PL.
    assert (LX : length xd = S (length xs')) by (rewrite EX, app_length; cbn [length]; lia).
    assert (PX : Permutation ((m, v) :: xs') xd) by (rewrite EX, P'; apply Permutation_middle).
    assert (ND' : NoDup (keys xs')).
    { apply perm_keys in PX. apply Permutation_sym in PX. apply (Permutation_NoDup PX) in ND.
      cbn [keys map fst] in ND. now inversion ND. }
    destruct (IH (S i) (SLeaf (sn d - 1) ks vs) r1 xs' (xr ++ [(m, v)])) as (d' & r' & xd' & mv & EI & D' & R' & PM & LM & BM); auto; try lia.
    { rewrite app_length. cbn [length]. lia. }
    exists d', r', xd', ((m, v) :: mv). rewrite <- app_assoc in R'. cbn [app length] in *. splits; auto.
    + rewrite <- PX, <- PM. symmetry. apply Permutation_middle.
    + intros x y Hx [<-|Hy]; auto. cbn [fst]. apply Hbest.
      eapply Permutation_in; [apply perm_keys, PX|]. right.
      eapply Permutation_in; [apply perm_keys, PM|]. rewrite keys_app, in_app_iff. now left.
Qed.

Lemma hint_r0 l es xs k : ua_rep l xs -> Permutation xs es -> (es = [] -> aget (sk l) 0 = Ok k) ->
  exists r0, aget (sk l) 0 = Ok r0 /\ (In r0 (keys es) \/ es = [] /\ r0 = k).
Proof. clear HM Ht.
  intros HR HP Hh. destruct xs as [|[x v] xs].
  - apply Permutation_nil in HP. subst es. exists k. auto.
  - exists x. destruct (@ua_key l [] x v xs 0 HR eq_refl) as [E _]. split; auto. left.
    eapply Permutation_in; [apply perm_keys, HP|]. simpl. auto.
Qed.

Lemma ul_balance_left_ok dl rl ed er k : ul_rep dl ed -> ul_hint rl er k ->
  sorted (ed ++ er) -> alt k (keys ed) -> length er < length ed -> 1 < length ed ->
  exists d' r' e1 e2, ul_balance dl rl = Ok (d', r') /\ ed = e1 ++ e2 /\
    length e1 = (length ed + length er) / 2 /\ ul_rep d' e1 /\ ul_rep r' (e2 ++ er).
Proof. clear HM Ht.
  intros (Sd & Kd & xd & Pd & Rd) ((Sr & Kr & xr & Pr & Rr) & Hh) HS Hk HL H1.
  pose proof (Permutation_length Pd) as PLd. pose proof (Permutation_length Pr) as PLr.
  pose proof Rd as (Hnd & HCd & _). pose proof Rr as (Hnr & HCr & _).
  unfold ul_balance. rewrite Hnd, Hnr, PLd, PLr. set (bal := (length ed + length er) / 2).
  assert (Hbal : 2 * bal <= length ed + length er < 2 * bal + 2) by (unfold bal; lia).
  destruct (Nat.ltb_spec (length ed) bal) as [|_]; [lia|].
  destruct (Nat.eqb_spec (length ed - bal) 0) as [|_]; [lia|].
  destruct (hint_r0 Rr Pr Hh) as (r0 & E0 & Hr0).
  destruct xd as [|[d0 w0] xd0] eqn:Exd; [cbn [length] in PLd; lia|]. rewrite <- Exd in *.
  assert (Ed0 : aget (sk dl) 0 = Ok d0) by (rewrite Exd in Rd; exact (proj1 (@ua_key dl [] d0 w0 xd0 0 Rd eq_refl))).
  assert (Id0 : In d0 (keys ed)) by (eapply Permutation_in; [apply perm_keys, Pd|rewrite Exd; simpl; auto]).
  rewrite Ed0, E0. cbn [bind]. apply sorted_app in HS as (_ & _ & SX).
  assert (Lt : (d0 < r0)%Z).
  { destruct Hr0 as [Hr0|[_ ->]]; [now apply SX|]. rewrite alt_in in Hk. now apply Hk. }
  destruct (Z.ltb_spec d0 r0) as [_|]; [|lia]. unfold findMaxKeyPos.
  destruct (@ul_moves Z.gtb order_gtb (length ed - bal) 0 dl rl xd xr) as (d' & r' & xd' & mv & E & D' & R' & PM & LM & BM); auto; try lia.
  { exact (ua_nodup Sd Pd). }
  assert (PM' : Permutation (xd' ++ mv) ed) by (now rewrite PM).
  pose proof (ua_nodup Sd PM') as ND. pose proof (nodup_parts ND) as [N1 N2].
  assert (CX : forall x y, In x (keys xd') -> In y (keys mv) -> (x < y)%Z).
  { intros x y Hx Hy. specialize (BM x y Hx Hy). destruct (Z.gtb_spec x y); [discriminate|].
    assert (x <> y); [|lia]. intros ->. rewrite keys_app in ND.
    clear - ND Hx Hy. induction (keys xd') as [|z l IH]; [contradiction|]. simpl in ND. inversion ND; subst.
    destruct Hx as [->|Hx]; [|auto]. apply H1. rewrite in_app_iff. auto. }
  pose proof (perm_sort_app Sd PM' CX) as EE.
  pose proof (Permutation_Forall (Permutation_sym (perm_keys PM')) Kd) as KM. rewrite keys_app, Forall_app in KM. destruct KM as [KM1 KM2].
  pose proof (Permutation_length PM') as PLM. rewrite app_length in PLM.
  exists d', r', (sortl xd'), (sortl mv). splits; auto.
  - rewrite sortl_length by assumption. lia.
  - now apply ul_rep_sortl.
  - unfold ul_rep. splits.
    + apply sorted_app. splits; auto; [apply sortl_sorted|]. intros x y Hx Hy. apply SX; auto.
      rewrite EE, keys_app, in_app_iff. auto.
    + rewrite keys_app, Forall_app. split; auto.
      eapply Permutation_Forall; [apply Permutation_sym, perm_keys, sortl_perm; auto|auto].
    + exists (xr ++ mv). split; auto. rewrite Permutation_app_comm. apply Permutation_app; auto.
      apply Permutation_sym. now apply sortl_perm.
Qed.

Lemma ul_balance_right_ok dl rl ed er k : ul_rep dl ed -> ul_hint rl er k ->
  sorted (er ++ ed) -> agt k (keys ed) -> length er < length ed -> 1 < length ed ->
  exists d' r' e1 e2, ul_balance dl rl = Ok (d', r') /\ ed = e1 ++ e2 /\
    length e2 = (length ed + length er) / 2 /\ ul_rep d' e2 /\ ul_rep r' (er ++ e1).
Proof. clear HM Ht.
  intros (Sd & Kd & xd & Pd & Rd) ((Sr & Kr & xr & Pr & Rr) & Hh) HS Hk HL H1.
  pose proof (Permutation_length Pd) as PLd. pose proof (Permutation_length Pr) as PLr.
  pose proof Rd as (Hnd & HCd & _). pose proof Rr as (Hnr & HCr & _).
  unfold ul_balance. rewrite Hnd, Hnr, PLd, PLr. set (bal := (length ed + length er) / 2).
  assert (Hbal : 2 * bal <= length ed + length er < 2 * bal + 2) by (unfold bal; lia).
  destruct (Nat.ltb_spec (length ed) bal) as [|_]; [lia|].
  destruct (Nat.eqb_spec (length ed - bal) 0) as [|_]; [lia|].
  destruct (hint_r0 Rr Pr Hh) as (r0 & E0 & Hr0).
  destruct xd as [|[d0 w0] xd0] eqn:Exd; [cbn [length] in PLd; lia|]. rewrite <- Exd in *.
  assert (Ed0 : aget (sk dl) 0 = Ok d0) by (rewrite Exd in Rd; exact (proj1 (@ua_key dl [] d0 w0 xd0 0 Rd eq_refl))).
  assert (Id0 : In d0 (keys ed)) by (eapply Permutation_in; [apply perm_keys, Pd|rewrite Exd; simpl; auto]).
  rewrite Ed0, E0. cbn [bind]. apply sorted_app in HS as (_ & _ & SX).
  assert (Lt : (r0 < d0)%Z).
  { destruct Hr0 as [Hr0|[_ ->]]; [now apply SX|]. rewrite agt_in in Hk. now apply Hk. }
  destruct (Z.ltb_spec d0 r0) as [|_]; [lia|]. unfold findMinKeyPos.
  destruct (@ul_moves Z.ltb order_ltb (length ed - bal) 0 dl rl xd xr) as (d' & r' & xd' & mv & E & D' & R' & PM & LM & BM); auto; try lia.
  { exact (ua_nodup Sd Pd). }
  assert (PM' : Permutation (mv ++ xd') ed) by (now rewrite Permutation_app_comm, PM).
  pose proof (ua_nodup Sd PM') as ND. pose proof (nodup_parts ND) as [N1 N2].
  assert (CX : forall x y, In x (keys mv) -> In y (keys xd') -> (x < y)%Z).
  { intros x y Hx Hy. specialize (BM y x Hy Hx). apply Z.ltb_ge in BM.
    assert (x <> y); [|lia]. intros ->. rewrite keys_app in ND.
    clear - ND Hx Hy. induction (keys mv) as [|z l IH]; [contradiction|]. simpl in ND. inversion ND; subst.
    destruct Hx as [->|Hx]; [|auto]. apply H1. rewrite in_app_iff. auto. }
  pose proof (perm_sort_app Sd PM' CX) as EE.
  pose proof (Permutation_Forall (Permutation_sym (perm_keys PM')) Kd) as KM. rewrite keys_app, Forall_app in KM. destruct KM as [KM1 KM2].
  pose proof (Permutation_length PM') as PLM. rewrite app_length in PLM.
  exists d', r', (sortl mv), (sortl xd'). splits; auto.
  - rewrite sortl_length by assumption. lia.
  - now apply ul_rep_sortl.
  - unfold ul_rep. splits.
    + apply sorted_app. splits; auto; [apply sortl_sorted|]. intros x y Hx Hy. apply SX; auto.
      rewrite EE, keys_app, in_app_iff. auto.
    + rewrite keys_app, Forall_app. split; auto.
      eapply Permutation_Forall; [apply Permutation_sym, perm_keys, sortl_perm; auto|auto].
    + exists (xr ++ mv). split; auto. apply Permutation_app; auto.
      apply Permutation_sym. now apply sortl_perm.
Qed.

Lemma ul_minkey_ok l es x v : ul_rep l ((x, v) :: es) -> ul_minkey l = Ok x.
Proof. clear HM Ht.
  intros (HS & _ & xs & HP & HR). unfold ul_minkey.
  destruct (ua_extreme order_ltb HR) as (p & m & E & Em & Hm & Hmin).
  { intros ->. apply Permutation_nil in HP. discriminate. }
  fold findMinKeyPos in E. rewrite E. cbn [bind]. rewrite Em. f_equal.
  apply nth_error_In in Hm. apply (Permutation_in _ (perm_keys HP)) in Hm.
  assert (Hx : (x <? m)%Z = false).
  { apply Hmin. eapply Permutation_in; [apply Permutation_sym, perm_keys, HP|]. simpl. auto. }
  apply Z.ltb_ge in Hx. cbn [keys map fst] in Hm. destruct Hm as [->|Hm]; auto.
  unfold sorted in HS. cbn [keys map fst] in HS. inversion HS as [|? ? _ F]; subst. rewrite Forall_forall in F.
  specialize (F _ Hm). lia.
Qed.

Lemma ua_scan_from l : forall xs2 xs1, ua_rep l (xs1 ++ xs2) -> sl_scan_from (length xs2) (length xs1) l = Ok xs2.
Proof. clear HM Ht.
  induction xs2 as [|[x v] xs2 IH]; intros xs1 HR; cbn [length sl_scan_from]; [reflexivity|].
  destruct (ua_key HR eq_refl) as [-> ->]. cbn [bind].
  replace (S (length xs1)) with (length (xs1 ++ [(x, v)])) by (rewrite app_length; cbn [length]; lia).
  rewrite IH; [reflexivity|]. now rewrite <- app_assoc.
Qed.

Lemma ul_laws : leaf_laws (un_ops V t M) M (M / 2) (kt_in t) ul_rep.
Proof.
  constructor; cbn [un_ops lo_new lo_count lo_lookup lo_insert lo_scan lo_bpos]; intros.
  - unfold ul_rep. splits; [constructor|constructor|]. exists []. split; [constructor|].
    unfold ua_rep, sl_new, anew. cbn [sn sk sv length]. rewrite !repeat_length. splits; auto; try lia;
    now exists (repeat None M).
  - now destruct H.
  - destruct H as (_ & _ & xs & HP & HR). rewrite <- (Permutation_length HP). now destruct HR as (_ & ? & _).
  - destruct H as (_ & _ & xs & HP & HR). rewrite <- (Permutation_length HP). now destruct HR as (? & _).
  - now apply ul_lookup_ok.
  - now apply ul_insert_ok.
  - destruct H as (_ & _ & xs & HP & HR). exists xs. split; auto. unfold sl_scan.
    pose proof HR as (-> & _). exact (@ua_scan_from l xs [] HR).
  - apply lsearch_pos_correct; simpl; auto.
Qed.

End ULeafProofs.
