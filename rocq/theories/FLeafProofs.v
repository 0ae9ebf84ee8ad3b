(** The FPTree leaf code satisfies the leaf laws, for every capacity M >= 2 and every
    fingerprint function. *)
From Verif Require Import Base ArrLemmas MapSpec SortedList SearchModel SearchProofs RankModel RankProofs
  BitmapModel BitmapProofs PopcountProofs BTreeModel BTreeLaws SLeafModel SLeafProofs ULeafModel ULeafProofs SlotLemmas FLeafModel.
Open Scope nat_scope.

Lemma get_none {V} (es : list (Z * V)) k : sorted es -> get k es = None <-> ~ In k (keys es).
Proof.
  intros HS. split.
  - intros G HI. apply in_map_iff in HI as ([x v] & <- & HI). apply (get_in x v HS) in HI. cbn [fst] in G. congruence.
  - intros HN. destruct (get k es) as [v|] eqn:G; auto. apply get_in in G; [|exact HS]. exfalso. apply HN. now apply (in_map fst) in G.
Qed.

Lemma aget_nth {A} (a : arr A) i x : aget a i = Ok x <-> nth_error a i = Some (Some x).
Proof.
  unfold aget. destruct (nth_error a i) as [[y|]|]; split; intros H; try discriminate; congruence.
Qed.
Lemma aget_aset {A} (a : arr A) i x a' j : aset a i x = Ok a' -> aget a' j = if j =? i then Ok x else aget a j.
Proof. intros H. unfold aget. rewrite (aset_nth j H). destruct (j =? i); reflexivity. Qed.

Section FLeafProofs.
Variables (V : Type) (t : ktype) (fp : Z -> Z) (junk : nat -> Z) (M : nat).
Hypothesis HM : 2 <= M.
Hypothesis HW : (N.of_nat M < W)%N.
Hypothesis Ht : (1 <= kt_bits t <= 64)%Z.
Notation leaf := (fleaf V).
Implicit Types (xs es : list (Z * V)) (sl : list (option (Z * V))) (l : leaf).

Definition cell (l : leaf) (i : nat) (o : option (Z * V)) : Prop :=
  match o with
  | None => bit (fb l) i = false
  | Some (k, v) => bit (fb l) i = true /\ aget (fk l) i = Ok k /\ aget (fv l) i = Ok v /\ lget (ff l) i = Ok (fp k)
  end.

(** The slots of the leaf hold [sl]. *)
Definition fa_rep (l : leaf) (sl : list (option (Z * V))) : Prop :=
  length sl = M /\ bm_ok M (fb l) /\ length (ff l) = M /\ length (fk l) = M /\ length (fv l) = M /\
  forall i o, nth_error sl i = Some o -> cell l i o.

Definition fl_rep (l : leaf) (es : list (Z * V)) : Prop :=
  sorted es /\ Forall (kt_in t) (keys es) /\ exists sl, Permutation (somes sl) es /\ fa_rep l sl.

(** If the largest value of KeyType is the only key, it is in slot 0 (findMinKeyPos answers 0 then). *)
Definition slot0 (l : leaf) (es : list (Z * V)) : Prop :=
  forall v, es = [(kt_max t, v)] -> aget (fk l) 0 = Ok (kt_max t).
Definition fl_repz (l : leaf) (es : list (Z * V)) : Prop := fl_rep l es /\ slot0 l es.

Lemma fa_at l sl i : fa_rep l sl -> i < M -> exists o, nth_error sl i = Some o /\ cell l i o.
Proof.
  clear HM HW Ht; try clear junk; try clear fp; try clear t. intros (HL & _ & _ & _ & _ & H) Hi. destruct (nth_error sl i) as [o|] eqn:E.
  - eauto.
  - apply nth_error_None in E. lia.
Qed.

Lemma fl_new_rep : fa_rep (fl_new V junk M) (repeat None M).
Proof.
  clear HM HW Ht; try clear junk; try clear fp; try clear t. unfold fa_rep, fl_new, anew. cbn [fb ff fk fv]. splits; try apply repeat_length.
  - apply bm_new_ok.
  - now rewrite map_length, seq_length.
  - intros i o E. apply nth_error_In, repeat_spec in E. subst o. cbn [cell]. apply bit_new.
Qed.

Lemma fl_put_ok l sl p k v h : fa_rep l sl -> p < M -> h = fp k ->
  exists l' sl', fl_put M l p k v h = Ok l' /\ lset sl p (Some (k, v)) = Some sl' /\ fa_rep l' sl'.
Proof.
  clear HM HW Ht; try clear junk; try clear fp; try clear t. intros (HL & HB & HF & HK & HV & HC) Hp ->. unfold fl_put.
  destruct (@aset_ok _ (fk l) p k) as (ks & E1); [lia|]. rewrite E1. cbn [bind].
  destruct (@aset_ok _ (fv l) p v) as (vs & E2); [lia|]. rewrite E2. cbn [bind].
  destruct (bm_set_ok true HB Hp) as (b & E3 & HB' & Hb). rewrite E3. cbn [bind].
  destruct (@lset_some _ (ff l) p (fp k)) as (f & E4); [lia|]. rewrite E4. cbn [of_opt bind].
  destruct (@lset_some _ sl p (Some (k, v))) as (sl' & E5); [lia|].
  eexists _, sl'. split; [reflexivity|]. split; [exact E5|].
  unfold fa_rep. cbn [fb ff fk fv]. rewrite (lset_length E5), (lset_length E4), (aset_length E1), (aset_length E2).
  splits; auto. intros i o E. rewrite (lset_nth i E5) in E.
  destruct (Nat.eqb_spec i p) as [->|NE].
  - injection E as <-. unfold cell. cbn [fb ff fk fv]. rewrite Hb, Nat.eqb_refl, (aget_aset p E1), (aget_aset p E2), !Nat.eqb_refl.
    splits; auto. unfold lget. now rewrite (lset_nth p E4), Nat.eqb_refl.
  - specialize (HC i o E). assert (X : (i =? p) = false) by now apply Nat.eqb_neq.
    destruct o as [[k' v']|]; unfold cell in *; cbn [fb ff fk fv]; rewrite Hb, X; auto.
    rewrite (aget_aset i E1), (aget_aset i E2), X. destruct HC as (C1 & C2 & C3 & C4). splits; auto.
    unfold lget in *. now rewrite (lset_nth i E4), X.
Qed.

Lemma fl_clear_ok l sl p : fa_rep l sl -> p < M ->
  exists l' sl', fl_clear M l p = Ok l' /\ fk l' = fk l /\ fv l' = fv l /\ ff l' = ff l /\ lset sl p None = Some sl' /\ fa_rep l' sl'.
Proof.
  clear HM HW Ht; try clear junk; try clear fp; try clear t. intros (HL & HB & HF & HK & HV & HC) Hp. unfold fl_clear.
  destruct (bm_reset_ok HB Hp) as (b & E3 & HB' & Hb). rewrite E3. cbn [bind].
  destruct (@lset_some _ sl p (@None (Z * V))) as (sl' & E5); [lia|].
  eexists _, sl'. split; [reflexivity|]. cbn [fb ff fk fv]. splits; auto.
  unfold fa_rep. cbn [fb ff fk fv]. rewrite (lset_length E5).
  splits; auto. intros i o E. rewrite (lset_nth i E5) in E.
  destruct (Nat.eqb_spec i p) as [->|NE].
  - injection E as <-. unfold cell. cbn [fb]. now rewrite Hb, Nat.eqb_refl.
  - specialize (HC i o E). assert (X : (i =? p) = false) by now apply Nat.eqb_neq.
    destruct o as [[k' v']|]; unfold cell in *; cbn [fb ff fk fv]; rewrite Hb, X; auto.
Qed.

Lemma fl_find_ok l sl key : fa_rep l sl -> forall n pos, pos + n = M ->
  exists r, fl_find fp M n l pos key = Ok r /\ pos <= r <= M /\
    (r = M -> forall i v, pos <= i -> nth_error sl i <> Some (Some (key, v))) /\
    (r < M -> exists v, nth_error sl r = Some (Some (key, v))).
Proof.
  clear HM HW Ht; try clear junk; try clear fp; try clear t. intros HR. pose proof HR as (HL & HB & HF & _). induction n as [|n IH]; intros pos Hp; cbn [fl_find].
  - exists pos. splits; auto; try lia. intros _ i v Hi E. apply nth_error_Some_lt in E. lia.
  - destruct (@fa_at l sl pos HR) as (o & Eo & Co); [lia|].
    rewrite lget_nth with (d := 0%Z) by lia. cbn [bind].
    assert (STEP : (forall v, o <> Some (key, v)) -> exists r, fl_find fp M n l (S pos) key = Ok r /\ pos <= r <= M /\
      (r = M -> forall i v, pos <= i -> nth_error sl i <> Some (Some (key, v))) /\
      (r < M -> exists v, nth_error sl r = Some (Some (key, v)))).
    { intros NO. destruct (IH (S pos)) as (r & E & Hr & H1 & H2); [lia|]. exists r. splits; auto; try lia.
      intros Er i v Hi. destruct (Nat.eq_dec i pos) as [->|].
      - rewrite Eo. intros [= X]. eapply NO; eauto.
      - apply H1; auto. lia. }
    destruct (Z.eqb_spec (nth pos (ff l) 0%Z) (fp key)) as [Eh|Nh].
    + rewrite bm_test_ok by (auto; lia). cbn [bind]. destruct o as [[k v]|]; unfold cell in Co.
      * destruct Co as (-> & -> & _). cbn [bind]. destruct (Z.eqb_spec k key) as [->|NE].
        -- exists pos. splits; auto; try lia. intros _. eauto.
        -- apply STEP. intros v' [= ? ?]. congruence.
      * rewrite Co. cbn [bind]. apply STEP. discriminate.
    + cbn [bind]. apply STEP. intros v ->. unfold cell in Co. destruct Co as (_ & _ & _ & C4).
      rewrite lget_nth with (d := 0%Z) in C4 by lia. congruence.
Qed.

Lemma fl_pos_ok l sl key : fa_rep l sl -> exists r, fl_pos fp M l key = Ok r /\
  (r = M /\ ~ In key (keys (somes sl)) \/ r < M /\ exists v, nth_error sl r = Some (Some (key, v))).
Proof.
  clear HM HW Ht; try clear junk; try clear fp; try clear t. intros HR. destruct (@fl_find_ok l sl key HR M 0) as (r & E & Hr & H1 & H2); auto.
  exists r. split; [exact E|]. destruct (Nat.eq_dec r M) as [Er|Nr].
  - left. split; auto. intros HI. apply in_map_iff in HI as ([k v] & Ek & HI). cbn [fst] in Ek. subst k.
    apply in_somes in HI as (i & Ei). eapply (H1 Er i v); [lia|exact Ei].
  - right. split; [lia|]. apply H2. lia.
Qed.

Lemma in_keys_slot sl i k v : nth_error sl i = Some (Some (k, v)) -> In k (keys (somes sl)).
Proof. clear HM HW Ht; try clear junk; try clear fp; try clear t. intros H. apply in_map_iff. exists (k, v). split; auto. apply in_somes. eauto. Qed.

Lemma keys_perm_in xs es k : Permutation xs es -> In k (keys xs) <-> In k (keys es).
Proof. clear HM HW Ht; try clear junk; try clear fp; try clear t. intros P. split; apply Permutation_in; [|symmetry]; now apply perm_keys. Qed.

Lemma fl_lookup_ok l es k : fl_rep l es -> fl_lookup fp M l k = Ok (get k es).
Proof.
  clear HM HW Ht; try clear junk; try clear fp; try clear t. intros (HS & _ & sl & HP & HR). unfold fl_lookup.
  destruct (fl_pos_ok k HR) as (r & -> & C). cbn [bind]. destruct C as [[-> NI]|[Hr (v & Ev)]].
  - rewrite Nat.ltb_irrefl. destruct (get k es) as [v|] eqn:G; auto. exfalso. apply NI.
    apply (keys_perm_in k HP). apply get_in in G; [|exact HS]. now apply (in_map fst) in G.
  - destruct (Nat.ltb_spec r M); [|lia]. pose proof HR as (_ & _ & _ & _ & _ & HC). specialize (HC _ _ Ev).
    unfold cell in HC. destruct HC as (_ & _ & -> & _). cbn [bind]. do 2 f_equal. symmetry.
    apply get_in; [exact HS|]. eapply Permutation_in; [exact HP|]. apply in_somes. eauto.
Qed.

(** ** The free slot *)
Lemma free_ok l sl : fa_rep l sl -> exists r, getFreeZero (fb l) = Ok r /\ r <= M /\
  (r < M -> nth_error sl r = Some None) /\ (r = M -> length (somes sl) = M).
Proof.
  clear HM HW Ht; try clear junk; try clear fp; try clear t. intros HR. pose proof HR as (HL & HB & _ & _ & _ & HC).
  destruct (getFreeZero_ok HB) as (r & E & Hr & H1 & H2). exists r. splits; auto.
  - intros Hlt. destruct (fa_at HR Hlt) as ([[k v]|] & Eo & Co); auto.
    unfold cell in Co. rewrite H2 in Co by assumption. destruct Co; discriminate.
  - intros ->. rewrite <- HL. apply somes_free. intros i Hi Ei. specialize (HC _ _ Ei). cbn [cell] in HC.
    rewrite H1 in HC by lia. discriminate.
Qed.

Lemma free_first l sl r : fa_rep l sl -> somes sl = [] -> getFreeZero (fb l) = Ok r -> r = 0.
Proof.
  clear HM HW Ht; try clear junk; try clear fp; try clear t. intros HR E Er. pose proof HR as (HL & HB & _ & _ & _ & HC).
  destruct (getFreeZero_ok HB) as (r' & E' & Hr & H1 & H2). rewrite Er in E'. injection E' as <-.
  destruct r as [|r]; auto. exfalso. specialize (H1 0 ltac:(lia)).
  destruct (@fa_at l sl 0 HR) as ([[k v]|] & Eo & Co); [lia| |].
  - assert (HI : In (k, v) (somes sl)) by (apply in_somes; eauto). rewrite E in HI. destruct HI.
  - cbn [cell] in Co. congruence.
Qed.

Lemma fl_add_ok l sl k v : fa_rep l sl -> length (somes sl) < M ->
  exists l' sl', fl_add fp M l k v = Ok l' /\ fa_rep l' sl' /\ Permutation (somes sl') ((k, v) :: somes sl).
Proof.
  clear HM HW Ht; try clear junk; try clear fp; try clear t. intros HR HL. unfold fl_add. destruct (free_ok HR) as (r & -> & Hr & H1 & H2). cbn [bind].
  assert (Hlt : r < M) by lia. specialize (H1 Hlt).
  destruct (@fl_put_ok l sl r k v (fp k) HR Hlt eq_refl) as (l' & sl' & E & Es & R'). unfold fl_insert_at. rewrite E.
  exists l', sl'. splits; auto. eapply somes_set; eauto.
Qed.

(** ** Extreme keys *)
Lemma bm_list_ok ws : bm_ok M ws -> forall n i, i + n <= M ->
  exists bs, bm_list M n ws i = Ok bs /\ length bs = n /\ forall j, j < n -> nth_error bs j = Some (bit ws (i + j)).
Proof.
  clear HM HW Ht; try clear junk; try clear fp; try clear t. intros HB. induction n as [|n IH]; intros i Hi; cbn [bm_list].
  - exists []. splits; auto. intros; lia.
  - rewrite bm_test_ok by (auto; lia). cbn [bind]. destruct (IH (S i)) as (bs & -> & L & H); [lia|]. cbn [bind].
    eexists. splits; [reflexivity|simpl; lia|]. intros [|j] Hj; cbn [nth_error].
    + now rewrite Nat.add_0_r.
    + rewrite H by lia. do 2 f_equal. lia.
Qed.

Lemma fl_ext_ok better lim l sl : order better -> fa_rep l sl -> somes sl <> [] ->
  (forall k, In k (keys (somes sl)) -> k = lim \/ better k lim = true) ->
  exists p, (do bs <- bm_list M M (fb l) 0; find_ext_bits better lim (fk l) bs M) = Ok p /\
    ((exists k v, nth_error sl p = Some (Some (k, v)) /\ forall y, In y (keys (somes sl)) -> better y k = false)
     \/ p = 0 /\ forall y, In y (keys (somes sl)) -> y = lim).
Proof.
  clear HM HW Ht; try clear junk; try clear fp; try clear t. intros HO HR NE HL. pose proof HR as (LS & HB & _ & LK & _ & HC).
  destruct (@bm_list_ok (fb l) HB M 0) as (bs & -> & Lb & Hb); auto. cbn [bind].
  assert (LV1 : forall i k v, nth_error sl i = Some (Some (k, v)) -> live (fk l) bs i k).
  { intros i k v E. pose proof (nth_error_Some_lt E) as Hi. specialize (HC _ _ E). unfold cell in HC.
    destruct HC as (C1 & C2 & _). split; [rewrite Hb by lia; cbn [Nat.add]; now rewrite C1|now apply aget_nth]. }
  assert (LV2 : forall i k, live (fk l) bs i k -> exists v, nth_error sl i = Some (Some (k, v))).
  { intros i k [E1 E2]. pose proof (nth_error_Some_lt E1) as Hi. rewrite Hb in E1 by lia. cbn [Nat.add] in E1.
    destruct (@fa_at l sl i HR) as ([[k' v']|] & Eo & Co); [lia| |]; unfold cell in Co.
    - destruct Co as (_ & C2 & _). apply aget_nth in C2. rewrite E2 in C2. injection C2 as ->. eauto.
    - congruence. }
  destruct (@find_ext_bits_ok better lim (fk l) bs M HO) as (p & E & C).
  - unfold bits_ok. splits; auto. intros i Ei. pose proof (nth_error_Some_lt Ei) as Hi. rewrite Hb in Ei by lia.
    cbn [Nat.add] in Ei. destruct (@fa_at l sl i HR) as ([[k' v']|] & Eo & Co); [lia| |]; unfold cell in Co.
    + destruct Co as (_ & C2 & _). apply aget_nth in C2. eauto.
    + congruence.
  - destruct (somes sl) as [|[k v] r] eqn:Es; [congruence|].
    assert (HI : In (k, v) (somes sl)) by (rewrite Es; simpl; auto). apply in_somes in HI as (i & Ei).
    exists i, k. eauto.
  - intros i k Hl. apply LV2 in Hl as (v & Ev). apply HL. eapply in_keys_slot; eauto.
  - exists p. split; auto. destruct C as [(m & Hm & _ & Hb')|[-> H0]].
    + left. apply LV2 in Hm as (v & Ev). exists m, v. split; auto. intros y Hy.
      apply in_map_iff in Hy as ([y' w] & <- & Hy). apply in_somes in Hy as (i & Ei). cbn [fst].
      apply (Hb' i). eauto.
    + right. split; auto. intros y Hy. apply in_map_iff in Hy as ([y' w] & <- & Hy). apply in_somes in Hy as (i & Ei). cbn [fst].
      apply (H0 i). eauto.
Qed.

Lemma kt_max_ext k : kt_in t k -> k = kt_min t \/ (k >? kt_min t)%Z = true.
Proof. clear HM HW Ht; try clear junk; try clear fp; try clear t. intros [H1 H2]. destruct (Z.gtb_spec k (kt_min t)); auto. left. lia. Qed.
Lemma kt_min_ext k : kt_in t k -> k = kt_max t \/ (k <? kt_max t)%Z = true.
Proof. clear HM HW Ht; try clear junk; try clear fp; try clear t. intros [H1 H2]. destruct (Z.ltb_spec k (kt_max t)); auto. left. lia. Qed.

(** ** Split *)
Definition keep (s : Z) (x : Z * V) : option (Z * V) := if lt_key s x then Some x else None.
Lemma somes_keep s xs : somes (map (keep s) xs) = filter (lt_key s) xs.
Proof.
  clear HM HW Ht; try clear junk; try clear fp; try clear t. induction xs as [|x xs IH]; [reflexivity|]. cbn [map somes filter]. unfold keep at 1.
  destruct (lt_key s x); cbn [somes]; now rewrite IH.
Qed.

Lemma fl_split_loop s : forall Q P B m node sib,
  fa_rep node (map (keep s) P ++ map Some Q) -> fa_rep sib (map Some B ++ repeat None m) -> length Q <= m ->
  exists node' sib' j', for_up (length P) (length Q) (fl_split_step M s) (node, sib, length B) = Ok (node', sib', j') /\
    fa_rep node' (map (keep s) (P ++ Q)) /\ fk node' = fk node /\
    exists m', fa_rep sib' (map Some (B ++ filter (ge_key s) Q) ++ repeat None m').
Proof.
  clear HM HW Ht; try clear junk; try clear fp; try clear t. induction Q as [|[x v] Q IH]; intros P B m node sib HN HB HL.
  - cbn [length for_up filter map]. rewrite !app_nil_r in *. exists node, sib, (length B). splits; auto.
    exists m. exact HB.
  - cbn [length for_up]. pose proof HN as (LN & _ & _ & _ & _ & HC).
    assert (EX : nth_error (map (keep s) P ++ map Some ((x, v) :: Q)) (length P) = Some (Some (x, v))).
    { rewrite nth_error_app2 by (rewrite map_length; lia). rewrite map_length, Nat.sub_diag. reflexivity. }
    pose proof (HC _ _ EX) as CX. unfold cell in CX. destruct CX as (_ & Ck & Cv & Ch).
    pose proof (nth_error_Some_lt EX) as HP. rewrite LN in HP.
    unfold fl_split_step at 1. rewrite Ck. cbn [bind]. cbn [filter]. unfold ge_key at 1. cbn [fst].
    destruct (x >=? s)%Z eqn:EG.
    + rewrite Cv. cbn [bind]. rewrite Ch. cbn [bind].
      pose proof HB as (LB & _). rewrite app_length, map_length, repeat_length in LB.
      destruct m as [|m]; [cbn [length] in HL; lia|].
      destruct (@fl_put_ok sib _ (length B) x v (fp x) HB) as (sib1 & sl1 & E1 & Es1 & HB1); [lia|reflexivity|].
      rewrite E1. cbn [bind]. destruct (fl_clear_ok HN HP) as (node1 & nl1 & E2 & Ek & Ev & Ef & En1 & HN1).
      rewrite E2. cbn [bind].
      cbn [repeat] in Es1. rewrite lset_app_at in Es1 by now rewrite map_length. injection Es1 as <-.
      cbn [map] in En1. rewrite lset_app_at in En1 by now rewrite map_length. injection En1 as <-.
      destruct (IH (P ++ [(x, v)]) (B ++ [(x, v)]) m node1 sib1) as (n' & s' & j' & E & H1 & H2 & m' & H3).
      * rewrite map_app, <- app_assoc. cbn [map app]. unfold keep at 2. unfold lt_key. cbn [fst]. rewrite EG. exact HN1.
      * rewrite map_app, <- app_assoc. exact HB1.
      * cbn [length] in HL. lia.
      * rewrite !app_length in E. cbn [length] in E. rewrite !Nat.add_1_r in E. rewrite E. exists n', s', j'.
        rewrite <- app_assoc in H1. cbn [app] in H1. splits; auto; [congruence|].
        exists m'. rewrite <- app_assoc in H3. exact H3.
    + destruct (IH (P ++ [(x, v)]) B m node sib) as (n' & s' & j' & E & H1 & H2 & m' & H3); auto.
      * rewrite map_app, <- app_assoc. cbn [map app]. unfold keep at 2. unfold lt_key. cbn [fst]. rewrite EG. exact HN.
      * cbn [length] in HL. lia.
      * cbn [bind]. rewrite !app_length in E. cbn [length] in E. rewrite !Nat.add_1_r in E. rewrite E. exists n', s', j'.
        rewrite <- app_assoc in H1. cbn [app] in H1. splits; auto. eauto.
Qed.

Lemma read_all_slots (a : arr Z) xs : length a = length xs ->
  (forall i x, nth_error xs i = Some x -> aget a i = Ok (fst x)) -> a = map Some (keys xs).
Proof.
  clear HM HW Ht; try clear junk; try clear fp; try clear t. revert a. induction xs as [|x xs IH]; intros a L H; destruct a as [|o a]; try (cbn [length] in L; lia); auto.
  pose proof (H 0 x eq_refl) as H0. apply aget_nth in H0. cbn [nth_error] in H0. injection H0 as ->.
  cbn [keys map]. f_equal. apply IH; [cbn [length] in L; lia|]. intros i y E. specialize (H (S i) y E).
  apply aget_nth in H. apply aget_nth. exact H.
Qed.

Lemma fl_split_ok l xs : fa_rep l (map Some xs) -> NoDup (keys xs) -> Forall (kt_in t) (keys xs) ->
  exists l1 l2 s m, fl_split t junk M l = Ok (l1, l2, s) /\
    fa_rep l1 (map (keep s) xs) /\ fk l1 = map Some (keys xs) /\ fa_rep l2 (map Some (filter (ge_key s) xs) ++ repeat None m) /\
    length (filter (lt_key s) xs) = (M + 1) / 2 /\ length (filter (ge_key s) xs) = M / 2 /\ In s (keys xs).
Proof.
  clear HW. intros HR ND HK. pose proof HR as (HL & _ & _ & LK & _ & HC). rewrite map_length in HL. unfold fl_split.
  assert (EK : fk l = map Some (keys xs)).
  { apply read_all_slots; [lia|]. intros i [k v] E. specialize (HC i (Some (k, v))). rewrite nth_error_map, E in HC.
    specialize (HC eq_refl). unfold cell in HC. tauto. }
  assert (ER : read_all M 0 (fk l) = Ok (keys xs)).
  { rewrite EK. pose proof (@read_all_ok (keys xs) [] []) as R. rewrite keys_length, HL, app_nil_r in R. exact R. }
  rewrite ER. cbn [bind].
  destruct (@findSplitKey_ok t (keys xs) Ht) as (s & pos & E & Es & Hb); auto.
  { rewrite keys_length. lia. }
  { intros d Hd. rewrite Forall_forall in HK. auto. }
  rewrite E. cbn [bind snd].
  assert (EA : aget (fk l) pos = Ok s) by (apply aget_nth; rewrite EK, nth_error_map, Es; reflexivity).
  rewrite EA. cbn [bind].
  destruct (@fl_split_loop s xs [] [] M l (fl_new V junk M)) as (n' & s' & j' & El & H1 & H2 & m & H3); auto.
  { apply fl_new_rep. }
  { lia. }
  cbn [length] in El. rewrite HL in El. rewrite El. cbn [bind fst snd]. exists n', s', s, m.
  pose proof (Permutation_length (filter_both s xs)) as PL. rewrite app_length in PL.
  pose proof (below_filter s xs) as BF. rewrite Hb, keys_length in BF. cbn [app] in *.
  splits; auto; try lia.
  - congruence.
  - eapply nth_error_In; eauto.
Qed.

Lemma fl_finish (node sib : leaf) sl1 sl2 s es : sorted es -> Forall (kt_in t) (keys es) ->
  fa_rep node sl1 -> fa_rep sib sl2 -> Permutation (somes sl1 ++ somes sl2) es ->
  (forall x, In x (keys (somes sl1)) -> (x < s)%Z) -> (forall x, In x (keys (somes sl2)) -> (s <= x)%Z) ->
  1 <= length (somes sl1) -> 1 <= length (somes sl2) -> M / 2 <= length (somes sl1) -> M / 2 <= length (somes sl2) ->
  exists e1 e2, es = e1 ++ e2 /\ fl_rep node e1 /\ fl_rep sib e2 /\
    M / 2 <= length e1 /\ M / 2 <= length e2 /\ e1 <> [] /\ e2 <> [] /\ alt s (keys e1) /\ age s (keys e2) /\
    Permutation (somes sl1) e1 /\ Permutation (somes sl2) e2.
Proof.
  clear HM HW Ht; try clear junk; try clear fp; try clear t. intros HS HK H1 H2 HP B1 B2 P1 P2 L1 L2.
  pose proof (ua_nodup HS HP) as ND. apply nodup_parts in ND as [N1 N2].
  pose proof (Permutation_Forall (Permutation_sym (perm_keys HP)) HK) as HK'.
  rewrite keys_app, Forall_app in HK'. destruct HK' as [K1 K2].
  assert (REP : forall l sl, fa_rep l sl -> NoDup (keys (somes sl)) -> Forall (kt_in t) (keys (somes sl)) -> fl_rep l (sortl (somes sl))).
  { intros l sl HR ND HF. pose proof (sortl_perm ND) as P. unfold fl_rep. splits.
    - apply sortl_sorted.
    - eapply Permutation_Forall; [apply Permutation_sym, perm_keys, P|exact HF].
    - exists sl. split; auto. now apply Permutation_sym. }
  exists (sortl (somes sl1)), (sortl (somes sl2)). rewrite !sortl_length by assumption. splits; auto.
  - apply perm_sort_app; auto. intros x y Hx Hy. specialize (B1 _ Hx). specialize (B2 _ Hy). lia.
  - intros E0. apply (f_equal (@length _)) in E0. rewrite sortl_length in E0 by assumption. cbn [length] in E0. lia.
  - intros E0. apply (f_equal (@length _)) in E0. rewrite sortl_length in E0 by assumption. cbn [length] in E0. lia.
  - apply alt_in. intros x Hx. apply (keys_perm_in x (sortl_perm N1)) in Hx. auto.
  - apply age_in. intros x Hx. apply (keys_perm_in x (sortl_perm N2)) in Hx. specialize (B2 _ Hx). lia.
  - symmetry. now apply sortl_perm.
  - symmetry. now apply sortl_perm.
Qed.

Lemma slot0_lt l es s : alt s (keys es) -> (s <= kt_max t)%Z -> slot0 l es.
Proof. clear HM HW Ht; try clear junk; try clear fp; try clear t. intros H Hs v ->. rewrite alt_in in H. specialize (H (kt_max t) ltac:(simpl; auto)). lia. Qed.
Lemma slot0_long l es : 2 <= length es -> slot0 l es.
Proof. clear HM HW Ht; try clear junk; try clear fp; try clear t. intros H v ->. cbn [length] in H. lia. Qed.
Lemma slot0_front l es x sl' : fa_rep l (Some x :: sl') -> Permutation (x :: somes sl') es -> slot0 l es.
Proof.
  clear HM HW Ht; try clear junk; try clear fp; try clear t. intros (_ & _ & _ & _ & _ & HC) HP v ->. apply Permutation_sym, Permutation_length_1_inv in HP.
  injection HP as -> _. specialize (HC 0 _ eq_refl). cbn [cell] in HC. tauto.
Qed.

Lemma fl_insert_ok l es k v : kt_in t k -> fl_rep l es ->
  (exists l', fl_insert t fp junk M l k v = Ok (LDone l') /\ fl_rep l' (ins k v es) /\ (slot0 l es -> slot0 l' (ins k v es))) \/
  (exists l1 l2 sk e1 e2,
     fl_insert t fp junk M l k v = Ok (LSplit l1 l2 sk) /\
     ins k v es = e1 ++ e2 /\ fl_rep l1 e1 /\ fl_rep l2 e2 /\
     M / 2 <= length e1 /\ M / 2 <= length e2 /\ e1 <> [] /\ e2 <> [] /\
     alt sk (keys e1) /\ age sk (keys e2) /\ slot0 l1 e1 /\ slot0 l2 e2).
Proof.
  clear HW. intros Kk (HS & HK & sl & HP & HR). pose proof HR as (HL & HB & HF & LK & LV & HC).
  pose proof (sorted_ins k v HS) as HSi. unfold fl_insert.
  assert (HKi : Forall (kt_in t) (keys (ins k v es))).
  { rewrite Forall_forall in *. intros x Hx. apply ins_in_keys in Hx as [->|Hx]; auto. }
  destruct (fl_pos_ok k HR) as (r & -> & C). cbn [bind]. destruct C as [[-> NI]|[Hr (w & Ew)]].
  - rewrite Nat.ltb_irrefl. destruct (free_ok HR) as (r & Er & Hr & F1 & F2). rewrite Er. cbn [bind].
    assert (NIe : ~ In k (keys es)) by (intros HI; apply NI; now apply (keys_perm_in k HP)).
    assert (PI : Permutation ((k, v) :: somes sl) (ins k v es)).
    { rewrite ins_new_perm by assumption. now constructor. }
    destruct (Nat.eqb_spec r M) as [->|NF].
    + right. specialize (F2 eq_refl).
      assert (EF : sl = map Some (somes sl)) by (apply somes_full; lia).
      set (xs := somes sl) in *. rewrite EF in HR.
      assert (HKx : Forall (kt_in t) (keys xs)) by (eapply Permutation_Forall; [apply Permutation_sym, perm_keys, HP|exact HK]).
      destruct (fl_split_ok HR (ua_nodup HS HP) HKx) as (l1 & l2 & s & m & E & H1 & EK1 & H2 & L1 & L2 & Is).
      rewrite E. cbn [bind].
      assert (S1 : somes (map (keep s) xs) = filter (lt_key s) xs) by apply somes_keep.
      assert (S2 : somes (map Some (filter (ge_key s) xs) ++ repeat None m) = filter (ge_key s) xs)
        by (rewrite somes_app, somes_map, somes_none; apply app_nil_r).
      set (sl1 := map (keep s) xs) in *. set (sl2 := map Some (filter (ge_key s) xs) ++ repeat None m) in *.
      set (x1 := filter (lt_key s) xs) in *. set (x2 := filter (ge_key s) xs) in *.
      assert (B1 : forall x, In x (keys x1) -> (x < s)%Z).
      { intros x Hx. apply in_map_iff in Hx as ([y u] & <- & Hx). apply filter_In in Hx as [_ Hx].
        unfold lt_key in Hx. cbn [fst] in *. destruct (Z.geb_spec y s); [discriminate|lia]. }
      assert (B2 : forall x, In x (keys x2) -> (s <= x)%Z).
      { intros x Hx. apply in_map_iff in Hx as ([y u] & <- & Hx). apply filter_In in Hx as [_ Hx].
        unfold ge_key in Hx. cbn [fst] in *. destruct (Z.geb_spec y s); [lia|discriminate]. }
      assert (PX : Permutation (x1 ++ x2) xs) by apply filter_both.
      assert (NKs : k <> s) by (intros ->; contradiction).
      destruct (@fl_add_ok l2 sl2 k v H2) as (b & sb & Eb & Hb & Pb); [rewrite S2; lia|].
      destruct (@fl_add_ok l1 sl1 k v H1) as (a & sa & Ea & Ha & Pa); [rewrite S1; lia|].
      rewrite S2 in Pb. rewrite S1 in Pa.
      assert (RIGHT : forall s', (forall x, In x (keys x1) -> (x < s')%Z) -> (s' <= k)%Z -> (s' <= s)%Z ->
        exists e1 e2, ins k v es = e1 ++ e2 /\ fl_rep l1 e1 /\ fl_rep b e2 /\
        M / 2 <= length e1 /\ M / 2 <= length e2 /\ e1 <> [] /\ e2 <> [] /\ alt s' (keys e1) /\ age s' (keys e2) /\
        slot0 l1 e1 /\ slot0 b e2).
      { intros s' B3 B4 B5. pose proof (Permutation_length Pb) as Lb. cbn [length] in Lb.
        destruct (@fl_finish l1 b sl1 sb s' (ins k v es)) as (e1 & e2 & R1 & R2 & R3 & R4 & R5 & R6 & R7 & R8 & R9 & R10 & R11); auto; rewrite ?S1; try lia;
          [..|exists e1, e2; splits; auto; [eapply slot0_lt; [exact R8|]; destruct Kk; lia|apply slot0_long;
              rewrite <- (Permutation_length R11), (Permutation_length Pb); cbn [length]; lia]].
        - rewrite Pb. rewrite <- Permutation_middle. rewrite PX. exact PI.
        - auto.
        - intros x Hx. apply (keys_perm_in x Pb) in Hx. cbn [keys map fst] in Hx. destruct Hx as [<-|Hx]; auto.
          specialize (B2 _ Hx). lia. }
      destruct (Z.gtb_spec k s) as [Gs|Gs].
      * rewrite Eb. cbn [bind]. destruct (RIGHT s) as (e1 & e2 & R); auto; try lia.
        exists l1, b, s, e1, e2. split; [reflexivity|exact R].
      * unfold fl_maxpos, findMaxKeyPosB.
        destruct (@fl_ext_ok Z.gtb (kt_min t) l1 sl1 order_gtb H1) as (p & Ep & Cp).
        { rewrite S1. intros E1. rewrite E1 in L1. cbn [length] in L1. lia. }
        { rewrite S1. intros y Hy. apply kt_max_ext. rewrite Forall_forall in HKx. apply HKx.
          apply (keys_perm_in y PX). rewrite keys_app, in_app_iff. auto. }
        rewrite Ep. cbn [bind]. rewrite S1 in Cp.
        assert (exists mx, aget (fk l1) p = Ok mx /\ ((k > mx)%Z -> forall x, In x (keys x1) -> (x < k)%Z)) as (mx & Emx & Hmx).
        { destruct Cp as [(k' & v' & Ek' & Hk')|[-> Hk']].
          - exists k'. pose proof H1 as (_ & _ & _ & _ & _ & C1). specialize (C1 _ _ Ek'). unfold cell in C1.
            split; [tauto|]. intros Hgt x Hx. specialize (Hk' _ Hx). destruct (Z.gtb_spec x k'); [discriminate|lia].
          - rewrite EK1. destruct xs as [|[k0 v0] xs'] eqn:Exs; [cbn [length] in F2; lia|]. exists k0. split; [reflexivity|].
            intros Hgt x Hx. specialize (Hk' _ Hx). subst x.
            assert (B0 : (kt_min t <= k0)%Z). { inversion HKx as [|? ? [Hq _] _]; subst. exact Hq. }
            lia. }
        rewrite Emx. cbn [bind]. destruct (Z.gtb_spec k mx) as [Gm|Gm].
        -- rewrite Eb. cbn [bind]. destruct (RIGHT k) as (e1 & e2 & R); auto; try lia. { intros x Hx. apply Hmx; auto; lia. }
           exists l1, b, k, e1, e2. split; [reflexivity|exact R].
        -- rewrite Ea. cbn [bind]. pose proof (Permutation_length Pa) as La. cbn [length] in La.
           destruct (@fl_finish a l2 sa sl2 s (ins k v es)) as (e1 & e2 & R1 & R2 & R3 & R4 & R5 & R6 & R7 & R8 & R9 & R10 & R11); auto; rewrite ?S2; try lia.
           ++ rewrite Pa. cbn [app]. rewrite PX. exact PI.
           ++ intros x Hx. apply (keys_perm_in x Pa) in Hx. cbn [keys map fst] in Hx. destruct Hx as [<-|Hx]; auto. lia.
           ++ auto.
           ++ exists a, l2, s, e1, e2. splits; auto.
              ** eapply slot0_lt; [exact R8|]. rewrite Forall_forall in HKx. destruct (HKx s) as [_ Hq]; auto.
              ** subst sl2. destruct x2 as [|y x2']; [cbn [length] in L2; lia|]. cbn [map app] in H2, R11.
                 eapply slot0_front; [exact H2|exact R11].
    + left. assert (Hlt : r < M) by lia.
      destruct (@fl_put_ok l sl r k v (fp k) HR Hlt eq_refl) as (l' & sl' & E & Es & R'). unfold fl_insert_at. rewrite E. cbn [bind].
      exists l'. splits; auto.
      * unfold fl_rep. splits; auto. exists sl'. split; auto. rewrite <- PI. eapply somes_set; eauto.
      * intros _ v' Ev. assert (E0 : es = []).
        { destruct es as [|x es']; auto. apply (f_equal (@length _)) in Ev. rewrite length_ins_new in Ev.
          - cbn [length] in Ev. lia.
          - exact HS.
          - now apply get_none. }
        subst es. apply Permutation_sym, Permutation_nil in HP.
        assert (r = 0) by exact (free_first HR HP Er). subst r.
        cbn [ins] in Ev. injection Ev as -> _. unfold fl_put in E.
        destruct (aset (fk l) 0 (kt_max t)) as [ks| |] eqn:Ek; try discriminate E. cbn [bind] in E.
        destruct (aset (fv l) 0 v); try discriminate E. cbn [bind] in E.
        destruct (bm_set M (fb l) 0 true); try discriminate E. cbn [bind] in E.
        destruct (lset (ff l) 0 (fp (kt_max t))); try discriminate E. cbn [bind of_opt] in E. injection E as <-.
        cbn [fk]. now rewrite (aget_aset 0 Ek).
  - left. destruct (Nat.ltb_spec r M); [|lia].
    destruct (@aset_ok _ (fv l) r v) as (vs & E); [lia|]. rewrite E. cbn [bind].
    destruct (@lset_some _ sl r (Some (k, v))) as (sl' & Es); [lia|].
    eexists. split; [reflexivity|]. split.
    2:{ intros HZ v' Ev. cbn [fk]. assert (In k (keys es)) by (apply (keys_perm_in k HP); eapply in_keys_slot; eauto).
        assert (Le : length es = 1).
        { apply (f_equal (@length _)) in Ev. rewrite length_ins_old in Ev by (auto; intros G; apply get_none in G; auto). exact Ev. }
        destruct es as [|[k0 w0] [|? ?]]; try discriminate Le. cbn [keys map fst In] in H0. destruct H0 as [->|[]].
        cbn [ins] in Ev. rewrite Z.ltb_irrefl, Z.eqb_refl in Ev. injection Ev as -> _. eapply HZ; reflexivity. }
    unfold fl_rep. splits; auto. exists sl'. split.
    + destruct (somes_replace Ew Es) as (a & b & S1 & ->). rewrite S1 in HP. eapply ins_old_perm; eauto.
    + unfold fa_rep. cbn [fb ff fk fv]. rewrite (lset_length Es), (aset_length E). splits; auto.
      intros i o Ei. rewrite (lset_nth i Es) in Ei. destruct (Nat.eqb_spec i r) as [->|NE].
      * injection Ei as <-. specialize (HC _ _ Ew). unfold cell in *. cbn [fb ff fk fv].
        rewrite (aget_aset r E), Nat.eqb_refl. destruct HC as (C1 & C2 & C3 & C4). splits; auto.
      * specialize (HC _ _ Ei). unfold cell in *. cbn [fb ff fk fv]. destruct o as [[k' v']|]; auto.
        rewrite (aget_aset i E). replace (i =? r) with false by (symmetry; now apply Nat.eqb_neq). exact HC.
Qed.

(** ** Scan *)
Lemma fl_scan_loop l sl : fa_rep l sl -> forall n i out, i + n = M ->
  for_up i n (fun i out =>
    do b <- bm_test M (fb l) i;
    if (b : bool) then do k <- aget (fk l) i; do v <- aget (fv l) i; Ok (out ++ [(k, v)])
    else Ok out) out = Ok (out ++ somes (skipn i sl)).
Proof.
  clear HM HW Ht; try clear junk; try clear fp; try clear t. intros HR. pose proof HR as (LS & HB & _). induction n as [|n IH]; intros i out Hi.
  - cbn [for_up]. rewrite skipn_all2 by lia. now rewrite app_nil_r.
  - cbn [for_up]. rewrite bm_test_ok by (auto; lia). cbn [bind].
    destruct (@fa_at l sl i HR) as (o & Eo & Co); [lia|].
    pose proof (skipn_at Eo) as ES.
    rewrite ES. destruct o as [[k v]|]; unfold cell in Co.
    + destruct Co as (-> & -> & -> & _). cbn [bind]. rewrite IH by lia. cbn [somes]. now rewrite <- app_assoc.
    + rewrite Co. cbn [bind]. rewrite IH by lia. reflexivity.
Qed.
Lemma fl_scan_ok l sl : fa_rep l sl -> fl_scan M l = Ok (somes sl).
Proof. clear HM HW Ht; try clear junk; try clear fp; try clear t. intros HR. apply (fl_scan_loop HR (i := 0) []). reflexivity. Qed.

Lemma fl_range_loop l sl lo hi : fa_rep l sl -> forall n i out st, i + n = M ->
  for_up i n (fun i o =>
    do b <- bm_test M (fb l) i;
    if (b : bool) then
      do k <- aget (fk l) i;
      if (k <? lo)%Z then Ok o
      else if (k >? hi)%Z then Ok (fst o, true)
      else do v <- aget (fv l) i; Ok (fst o ++ [(k, v)], snd o)
    else Ok o) (out, st) =
  Ok (out ++ filter (in_range lo hi) (somes (skipn i sl)),
      st || existsb (fun x => negb (fst x <? lo)%Z && (fst x >? hi)%Z) (somes (skipn i sl))).
Proof.
  clear HM HW Ht; try clear junk; try clear fp; try clear t. intros HR. pose proof HR as (LS & HB & _). induction n as [|n IH]; intros i out st Hi.
  - cbn [for_up]. rewrite skipn_all2 by lia. cbn [somes filter existsb]. now rewrite app_nil_r, orb_false_r.
  - cbn [for_up]. rewrite bm_test_ok by (auto; lia). cbn [bind].
    destruct (@fa_at l sl i HR) as (o & Eo & Co); [lia|].
    pose proof (skipn_at Eo) as ES.
    rewrite ES. destruct o as [[k v]|]; unfold cell in Co.
    + destruct Co as (-> & -> & -> & _). cbn [bind fst snd somes filter existsb]. unfold in_range at 1. cbn [fst].
      destruct (Z.ltb_spec k lo), (Z.leb_spec lo k); try lia; cbn [negb andb orb].
      * cbn [bind]. now rewrite IH by lia.
      * rewrite Z.gtb_ltb. destruct (Z.ltb_spec hi k), (Z.leb_spec k hi); try lia; cbn [bind].
        -- rewrite IH by lia. cbn [orb]. now rewrite orb_true_r.
        -- rewrite IH by lia. rewrite <- app_assoc. reflexivity.
    + rewrite Co. cbn [bind]. rewrite IH by lia. reflexivity.
Qed.

Lemma perm_filter (f : Z * V -> bool) xs es : Permutation xs es -> Permutation (filter f xs) (filter f es).
Proof.
  clear HM HW Ht; try clear junk; try clear fp; try clear t. induction 1 as [|x a b _ IH|x y a|]; cbn [filter].
  - constructor.
  - destruct (f x); auto.
  - destruct (f x), (f y); auto. constructor.
  - etransitivity; eauto.
Qed.

Lemma fl_range_ok l es lo hi : fl_rep l es -> exists out stop, fl_range M l lo hi = Ok (out, stop) /\
  Permutation out (filter (in_range lo hi) es) /\ (stop = true -> exists x, In x (keys es) /\ (hi < x)%Z).
Proof.
  clear HM HW Ht; try clear junk; try clear fp; try clear t. intros (_ & _ & sl & HP & HR). unfold fl_range.
  rewrite (fl_range_loop lo hi HR (i := 0) [] false) by reflexivity. cbn [skipn app orb].
  eexists _, _. splits; [reflexivity|now apply perm_filter|].
  intros HE. apply existsb_exists in HE as ([x v] & Hx & Hc). cbn [fst] in Hc. apply andb_prop in Hc as [_ Hc].
  exists x. split; [|destruct (Z.gtb_spec x hi); [lia|discriminate]].
  apply (keys_perm_in x HP). now apply (in_map fst) in Hx.
Qed.

(** ** count *)
Lemma cnt_somes l sl : forall n i, fa_rep l sl -> i + n = M -> cnt (bit (fb l)) i n = length (somes (skipn i sl)).
Proof.
  clear HM HW Ht; try clear junk; try clear fp; try clear t. induction n as [|n IH]; intros i HR Hi; unfold cnt in *; cbn [seq filter].
  - pose proof HR as (LS & _). rewrite skipn_all2 by lia. reflexivity.
  - destruct (@fa_at l sl i HR) as (o & Eo & Co); [lia|].
    pose proof (skipn_at Eo) as ES.
    rewrite ES. specialize (IH (S i) HR ltac:(lia)). destruct o as [[k v]|]; unfold cell in Co.
    + destruct Co as (-> & _). cbn [length somes]. now rewrite IH.
    + rewrite Co. cbn [somes]. exact IH.
Qed.
Lemma fl_count_ok l sl : fa_rep l sl -> fl_count l = length (somes sl).
Proof.
  clear HM Ht. intros HR. pose proof HR as (_ & HB & _). unfold fl_count. rewrite (bm_count_ok HW HB).
  rewrite Nnat.Nat2N.id. apply (@cnt_somes l sl M 0 HR). reflexivity.
Qed.

Theorem fl_laws : leaf_laws (fp_ops V t fp junk M) M (M / 2) (kt_in t) fl_rep.
Proof.
  constructor; cbn [fp_ops lo_new lo_count lo_lookup lo_insert lo_scan lo_bpos].
  - unfold fl_rep. splits; [constructor|constructor|]. exists (repeat None M). split; [now rewrite somes_none|apply fl_new_rep].
  - intros l es (HS & _). exact HS.
  - intros l es (_ & _ & sl & HP & (HL & _)). rewrite <- (Permutation_length HP), <- HL. apply somes_length.
  - intros l es (_ & _ & sl & HP & HR). rewrite (fl_count_ok HR). now apply Permutation_length.
  - intros l es k HR. now apply fl_lookup_ok.
  - intros l es k v Hk HR. destruct (fl_insert_ok v Hk HR) as [(l' & E & R & _)|(l1 & l2 & sk & e1 & e2 & R)]; [left; eauto|].
    right. exists l1, l2, sk, e1, e2. tauto.
  - intros l es (_ & _ & sl & HP & HR). rewrite (fl_scan_ok HR). eauto.
  - intros. apply bsearch_pos_correct; simpl; auto.
Qed.

Theorem flz_laws : leaf_laws (fp_ops V t fp junk M) M (M / 2) (kt_in t) fl_repz.
Proof.
  pose proof fl_laws as LL. constructor.
  - split; [apply (law_new LL)|]. intros v. discriminate.
  - intros l es [H _]. exact (law_sorted LL H).
  - intros l es [H _]. exact (law_cap LL H).
  - intros l es [H _]. exact (law_count LL H).
  - intros l es k [H _]. exact (law_lookup LL k H).
  - intros l es k v Hk [HR HZ]. destruct (fl_insert_ok v Hk HR) as [(l' & E & R & Z')|(l1 & l2 & sk & e1 & e2 & R)].
    + left. exists l'. split; [exact E|split; auto].
    + right. exists l1, l2, sk, e1, e2. unfold fl_repz. tauto.
  - intros l es [H _]. exact (law_scan LL H).
  - exact (law_bpos LL).
Qed.

Lemma fl_range_law : range_law (fp_ops V t fp junk M) fl_repz.
Proof. intros l es lo hi [H _]. exact (fl_range_ok lo hi H). Qed.

Lemma fl_minkey_ok l es x v : fl_repz l ((x, v) :: es) -> fl_minkey t M l = Ok x.
Proof.
  clear HM HW Ht; try clear junk; try clear fp; try clear t. intros [(HS & HK & sl & HP & HR) HZ]. unfold fl_minkey, fl_minpos, findMinKeyPosB.
  destruct (@fl_ext_ok Z.ltb (kt_max t) l sl order_ltb HR) as (p & E & C).
  - intros E. rewrite E in HP. apply Permutation_nil in HP. discriminate.
  - intros y Hy. apply kt_min_ext. rewrite Forall_forall in HK. apply HK. now apply (keys_perm_in y HP).
  - rewrite E. cbn [bind]. destruct C as [(k & w & Ek & Hk)|[-> H0]].
    + pose proof HR as (_ & _ & _ & _ & _ & HC). specialize (HC _ _ Ek). cbn [cell] in HC. destruct HC as (_ & -> & _).
      f_equal. assert (In k (keys ((x, v) :: es))) as HI by (apply (keys_perm_in k HP); eapply in_keys_slot; eauto).
      assert (In x (keys (somes sl))) as HI2 by (apply (keys_perm_in x HP); simpl; auto).
      specialize (Hk _ HI2). destruct (Z.ltb_spec x k); [discriminate|]. cbn [keys map fst In] in HI.
      destruct HI as [|HI]; auto. unfold sorted in HS; cbn [keys map fst] in HS; apply ssorted_cons in HS as [_ HA]. rewrite agt_in in HA. specialize (HA _ HI). lia.
    + assert (HX : forall y, In y (keys ((x, v) :: es)) -> y = kt_max t).
      { intros y Hy. apply H0. now apply (keys_perm_in y HP). }
      assert (x = kt_max t) by (apply HX; simpl; auto). subst x.
      destruct es as [|[y w] es].
      * eapply HZ. reflexivity.
      * assert (y = kt_max t) by (apply HX; simpl; auto). subst y.
        unfold sorted in HS; cbn [keys map fst] in HS; apply ssorted_cons in HS as [_ HA]. rewrite agt_in in HA. specialize (HA (kt_max t) ltac:(simpl; auto)). lia.
Qed.

End FLeafProofs.
