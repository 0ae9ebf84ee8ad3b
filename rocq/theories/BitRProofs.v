(** BitPBPTree and BitHPBPTree: what the range scan reports. *)
From Verif Require Import Base ArrLemmas MapSpec SortedList RankModel BitmapModel BitmapProofs BTreeModel ULeafModel SlotLemmas FLeafModel FLeafProofs BitTreeModel BitHModel.
From Coq Require Import Permutation.
Open Scope nat_scope.

Lemma nodup_snoc (l : list Z) k : NoDup l -> ~ In k l -> NoDup (l ++ [k]).
Proof.
  intros ND HN. apply (Permutation_NoDup (Permutation_cons_append l k)). now constructor.
Qed.

Section BitR.
Variables (V : Type) (t : ktype) (N M : nat).
Hypothesis HM : 1 <= M.
Notation leaf := (fleaf V).
Notation fp0 := (fun _ : Z => 0%Z).
Variable O : leafops leaf V.
Hypothesis Onew : lo_new O = fl_new V (fun _ => 0%Z) M.
Hypothesis Orange : lo_range O = @bit_range V M.
Hypothesis Oins : forall l k v l', fl_insert t (fun _ => 0%Z) (fun _ => 0%Z) M l k v = Ok (LDone l') -> lo_insert O l k v = Ok (LDone l').
Notation fa := (@fa_rep V fp0 M).

(** ** Only slots that are not in use *)
Definition dead (l : leaf) (e : Z * V) : Prop :=
  exists i, i < M /\ bm_test M (fb l) i = Ok false /\ aget (fk l) i = Ok (fst e) /\ aget (fv l) i = Ok (snd e).

Lemma bit_range_dead l lo hi : forall n i out st out' st', i + n <= M -> Forall (dead l) out ->
  for_up i n (fun i (s : list (Z * V) * bool) =>
       do b <- bm_test M (fb l) i;
       if (b : bool) then Ok s else
       do k <- aget (fk l) i;
       if (k <? lo)%Z then Ok s else
       if (k >? hi)%Z then Ok (fst s, true) else
       do v <- aget (fv l) i; Ok (fst s ++ [(k, v)], snd s)) (out, st) = Ok (out', st') -> Forall (dead l) out' /\ Forall (fun e => lo <= fst e <= hi)%Z (skipn (length out) out') .
Proof.
  clear HM Onew Orange Oins. intros n. assert (G : forall i out st out' st', i + n <= M -> Forall (dead l) out ->
    for_up i n (fun i (s : list (Z * V) * bool) =>
       do b <- bm_test M (fb l) i;
       if (b : bool) then Ok s else
       do k <- aget (fk l) i;
       if (k <? lo)%Z then Ok s else
       if (k >? hi)%Z then Ok (fst s, true) else
       do v <- aget (fv l) i; Ok (fst s ++ [(k, v)], snd s)) (out, st) = Ok (out', st') ->
    exists r, out' = out ++ r /\ Forall (dead l) r /\ Forall (fun e => lo <= fst e <= hi)%Z r).
  { induction n as [|n IH]; intros i out st out' st' Hi HF; cbn [for_up].
    - intros [= <- _]. exists []. rewrite app_nil_r. auto.
    - destruct (bm_test M (fb l) i) as [b| |] eqn:Eb; cbn [bind]; try discriminate. destruct b; [apply IH; auto; lia|].
      destruct (aget (fk l) i) as [k| |] eqn:Ek; cbn [bind]; try discriminate.
      destruct (Z.ltb_spec k lo); [apply IH; auto; lia|]. destruct (k >? hi)%Z eqn:Eh; [cbn [fst]; apply IH; auto; lia|].
      destruct (aget (fv l) i) as [v| |] eqn:Ev; cbn [bind fst snd]; try discriminate. intros E.
      assert (D : dead l (k, v)) by (exists i; cbn [fst snd]; splits; auto; lia).
      apply IH in E as (r & -> & H1 & H2); [|lia|apply Forall_app; auto].
      exists ((k, v) :: r). rewrite <- app_assoc. splits; auto. constructor; auto. cbn [fst]. rewrite Z.gtb_ltb in Eh. apply Z.ltb_ge in Eh. lia. }
  intros i out st out' st' Hi HF E. apply G in E as (r & -> & H1 & H2); auto. split; [apply Forall_app; auto|].
  rewrite skipn_app, skipn_all, Nat.sub_diag. exact H2.
Qed.

Lemma range_dead h lo hi : forall fuel o out, range_chain O fuel h o lo hi = Ok out ->
  Forall (fun e => (lo <= fst e <= hi)%Z /\ exists j l, hl h j = Some l /\ dead l e) out.
Proof.
  clear HM Onew Oins. induction fuel as [|f IH]; intros [j|] out; cbn [range_chain]; try (intros [= <-]; constructor); try discriminate.
  unfold getl. destruct (hl h j) as [l|] eqn:El; cbn [of_opt bind]; [|discriminate].
  rewrite Orange. unfold bit_range. destruct (for_up _ _ _ _) as [[r st]| |] eqn:E; cbn [bind fst snd]; try discriminate.
  apply bit_range_dead in E as [H1 H2]; [|lia|constructor]. cbn [length skipn] in H2.
  assert (HR : Forall (fun e => (lo <= fst e <= hi)%Z /\ exists j l, hl h j = Some l /\ dead l e) r).
  { rewrite Forall_forall in *. intros e He. split; auto. exists j, l. auto. }
  destruct st; [intros [= <-]; exact HR|].
  destruct (range_chain O f h (hnx h j) lo hi) as [r'| |] eqn:E'; cbn [bind]; try discriminate. intros [= <-]. apply Forall_app. eauto.
Qed.

(** ** One leaf *)
(** The first slots are in use, the others have never been written. *)
Definition filled (l : leaf) (xs : list (Z * V)) : Prop :=
  fa l (map Some xs ++ repeat None (M - length xs)) /\ length xs <= M /\ NoDup (keys xs) /\ forall i, length xs <= i < M -> aget (fk l) i = UB.

Lemma filled_new : filled (fl_new V (fun _ => 0%Z) M) [].
Proof.
  clear HM Onew Orange Oins. split; [cbn [map app length]; rewrite Nat.sub_0_r; apply fl_new_rep|]. cbn [length]. splits; [lia|constructor|].
  intros i Hi. cbn [fl_new fk]. unfold aget, anew. rewrite nth_error_repeat by lia. reflexivity.
Qed.

Lemma somes_some (xs : list (Z * V)) n : somes (map Some xs ++ repeat None n) = xs.
Proof. clear. induction xs as [|x xs IH]; cbn [map app somes]; [induction n; auto|now f_equal]. Qed.

Lemma filled_put l xs k v l' : filled l xs -> length xs < M -> ~ In k (keys xs) -> fl_put M l (length xs) k v 0%Z = Ok l' -> filled l' (xs ++ [(k, v)]).
Proof.
  clear HM Onew Orange Oins. intros (HR & HL & ND & HU) Hlt HN E.
  destruct (@fl_put_ok V fp0 M l _ (length xs) k v 0%Z HR Hlt eq_refl) as (l1 & sl1 & E1 & Es & R1). rewrite E in E1. injection E1 as <-.
  destruct (M - length xs) as [|m] eqn:EM; [lia|]. cbn [repeat] in Es. rewrite lset_app_at in Es by now rewrite map_length. injection Es as <-.
  unfold filled. rewrite map_app, app_length, keys_app. cbn [map length]. splits.
  - rewrite <- app_assoc. cbn [app]. replace (M - (length xs + 1)) with m by lia. exact R1.
  - lia.
  - now apply nodup_snoc.
  - intros i Hi. unfold fl_put in E. destruct (aset (fk l) (length xs) k) as [ks| |] eqn:Ea; cbn [bind] in E; try discriminate.
    destruct (aset (fv l) _ v); cbn [bind] in E; try discriminate. destruct (bm_set M (fb l) _ true); cbn [bind] in E; try discriminate.
    destruct (lset (ff l) _ _); cbn [of_opt bind] in E; try discriminate. injection E as <-. cbn [fk].
    rewrite (aget_aset i Ea). destruct (Nat.eqb_spec i (length xs)); [lia|]. apply HU. lia.
Qed.

Lemma filled_set l xs p k v : filled l xs -> p < M -> nth_error (map Some xs ++ repeat None (M - length xs)) p = Some (Some (k, v)) -> forall w,
  exists vs xs', aset (fv l) p w = Ok vs /\ filled (FLeaf (fb l) (ff l) (fk l) vs) xs' /\ keys xs' = keys xs.
Proof.
  clear HM Onew Orange Oins. intros (HR & HL & ND & HU) Hp Hk w. pose proof HR as (L1 & L2 & L3 & L4 & L5 & L6).
  destruct (@aset_ok _ (fv l) p w) as (vs & E); [lia|].
  destruct (Nat.lt_ge_cases p (length xs)) as [Hlt|Hge].
  2:{ rewrite nth_error_app2 in Hk by (rewrite map_length; lia). apply nth_error_In, repeat_spec in Hk. discriminate. }
  rewrite nth_error_app1, nth_error_map in Hk by (rewrite map_length; lia).
  destruct (nth_error xs p) as [x|] eqn:Ex; [|discriminate]. cbn [option_map] in Hk. injection Hk as ->.
  apply nth_error_split in Ex as (a & b & -> & <-). exists vs, (a ++ (k, w) :: b). split; auto.
  assert (EK : keys (a ++ (k, w) :: b) = keys (a ++ (k, v) :: b)) by (rewrite !keys_app; reflexivity). split; auto.
  assert (EL : length (a ++ (k, w) :: b) = length (a ++ (k, v) :: b)) by (rewrite !app_length; reflexivity).
  unfold filled. rewrite EK, EL. splits; auto. unfold fa_rep. cbn [fb ff fk fv]. splits; auto.
  - rewrite app_length, map_length in L1 |- *. rewrite EL. exact L1.
  - now rewrite (aset_length E).
  - intros i o Ei. destruct (Nat.eq_dec i (length a)) as [->|NE].
    + rewrite map_app, <- app_assoc in Ei, L6. rewrite nth_error_app2 in Ei by (rewrite map_length; lia). rewrite map_length, Nat.sub_diag in Ei. cbn in Ei. injection Ei as <-.
      specialize (L6 (length a) (Some (k, v))). rewrite nth_error_app2 in L6 by (rewrite map_length; lia). rewrite map_length, Nat.sub_diag in L6. cbn in L6.
      specialize (L6 eq_refl). unfold cell in *. cbn [fb ff fk fv]. rewrite (aget_aset (length a) E), Nat.eqb_refl. tauto.
    + assert (EI : nth_error (map Some (a ++ (k, v) :: b) ++ repeat None (M - length (a ++ (k, v) :: b))) i = Some o).
      { rewrite <- Ei. rewrite !map_app, <- !app_assoc. destruct (Nat.lt_ge_cases i (length a)).
        - now rewrite !nth_error_app1 by (rewrite map_length; lia).
        - rewrite !(nth_error_app2 (map Some a)) by (rewrite map_length; lia). rewrite map_length. destruct (i - length a) eqn:X; [lia|]. cbn [map app nth_error]. reflexivity. }
      specialize (L6 i o EI). destruct o as [[k' v']|]; unfold cell in *; cbn [fb ff fk fv]; auto. rewrite (aget_aset i E). destruct (Nat.eqb_spec i (length a)); [lia|]. exact L6.
Qed.

(** The keys of a history, each once, in the order of their first insert. *)
Fixpoint firsts (seen : list Z) (ks : list Z) : list Z :=
  match ks with
  | [] => seen
  | k :: r => if in_dec Z.eq_dec k seen then firsts seen r else firsts (seen ++ [k]) r
  end.

Lemma filled_insert l xs k v : filled l xs -> (In k (keys xs) \/ length xs < M) ->
  exists l' xs', fl_insert t fp0 (fun _ => 0%Z) M l k v = Ok (LDone l') /\ filled l' xs' /\
    keys xs' = if in_dec Z.eq_dec k (keys xs) then keys xs else keys xs ++ [k].
Proof.
  intros HF HC. pose proof HF as (HR & HL & ND & HU). unfold fl_insert.
  destruct (fl_pos_ok k HR) as (r & E & HP). rewrite E. cbn [bind]. rewrite somes_some in HP.
  destruct HP as [[-> HN]|[Hr (w & Hw)]].
  - rewrite Nat.ltb_irrefl. destruct HC as [HC|HC]; [contradiction|].
    destruct (free_ok HR) as (p & Ep & Hp & H1 & H2). rewrite Ep. cbn [bind]. rewrite somes_some in H2.
    assert (HpM : p < M) by lia. destruct (Nat.eqb_spec p M); [lia|]. specialize (H1 HpM).
    assert (p = length xs) as ->.
    { destruct (Nat.lt_ge_cases p (length xs)) as [X|X].
      - rewrite nth_error_app1, nth_error_map in H1 by (rewrite map_length; lia). destruct (nth_error xs p); discriminate.
      - destruct (getFreeZero_ok (proj1 (proj2 HR))) as (r' & E' & _ & Hs & _). rewrite Ep in E'. injection E' as <-.
        destruct (Nat.eq_dec p (length xs)) as [|NE]; auto. exfalso. specialize (Hs (length xs) ltac:(lia)).
        destruct HR as (_ & _ & _ & _ & _ & HR). specialize (HR (length xs) None). rewrite nth_error_app2 in HR by (rewrite map_length; lia).
        rewrite map_length, Nat.sub_diag in HR. destruct (M - length xs) eqn:EM; [lia|]. specialize (HR eq_refl). cbn [cell] in HR. congruence. }
    unfold fl_insert_at. destruct (@fl_put_ok V fp0 M l _ (length xs) k v 0%Z HR HC eq_refl) as (l' & sl & E1 & _). rewrite E1. cbn [bind].
    exists l', (xs ++ [(k, v)]). splits; auto; [eapply filled_put; eauto|]. rewrite keys_app. destruct (in_dec Z.eq_dec k (keys xs)); [contradiction|reflexivity].
  - destruct (Nat.ltb_spec r M); [|lia]. destruct (filled_set HF Hr Hw v) as (vs & xs' & E1 & HF' & EK). rewrite E1. cbn [bind].
    exists (FLeaf (fb l) (ff l) (fk l) vs), xs'. split; [reflexivity|]. split; [exact HF'|]. rewrite EK. destruct (in_dec Z.eq_dec k (keys xs)) as [|NI]; auto. exfalso. apply NI.
    destruct (Nat.lt_ge_cases r (length xs)) as [Hlt|Hge].
    + rewrite nth_error_app1, nth_error_map in Hw by (rewrite map_length; lia). destruct (nth_error xs r) as [x|] eqn:Ex; [|discriminate]. cbn [option_map] in Hw. injection Hw as ->.
      apply nth_error_In in Ex. apply (in_map fst) in Ex. exact Ex.
    + rewrite nth_error_app2 in Hw by (rewrite map_length; lia). apply nth_error_In, repeat_spec in Hw. discriminate.
Qed.

Lemma firsts_len ks : forall seen, length seen <= length (firsts seen ks).
Proof.
  clear. induction ks as [|k ks IH]; intros seen; cbn [firsts]; auto. destruct (in_dec Z.eq_dec k seen); auto.
  specialize (IH (seen ++ [k])). rewrite app_length in IH. cbn [length] in IH. lia.
Qed.

Lemma run_one os : forall tr l xs, hl (bth tr) (broot tr) = Some l -> bdepth tr = 0 -> hnx (bth tr) (broot tr) = None -> filled l xs ->
  length (firsts (keys xs) (map fst os)) <= M ->
  exists tr' l' xs', bg_run t N O tr os = Ok tr' /\ hl (bth tr') (broot tr') = Some l' /\ bdepth tr' = 0 /\ hnx (bth tr') (broot tr') = None /\ filled l' xs' /\
    keys xs' = firsts (keys xs) (map fst os).
Proof.
  induction os as [|[k v] os IH]; intros tr l xs El Ed En HF HL; cbn [map fst firsts] in *.
  - exists tr, l, xs. splits; auto.
  - cbn [bg_run]. unfold bg_insert. rewrite Ed. unfold insert_leaf, getl. rewrite El. cbn [of_opt bind].
    destruct (@filled_insert l xs k v HF) as (l' & xs' & E & HF' & EK).
    { destruct (in_dec Z.eq_dec k (keys xs)) as [|NI]; auto. right. pose proof (firsts_len (map fst os) (keys xs ++ [k])) as X. rewrite app_length in X. cbn [length] in X. unfold keys in X. rewrite map_length in X. fold (keys xs) in X. lia. }
    rewrite (Oins E). cbn [bind fst snd].
    destruct (IH (BTree (set_leaf (bth tr) (broot tr) l') (btb tr) (broot tr) 0) l' xs') as (tr' & l2 & x2 & E2 & R); cbn [bth broot bdepth set_leaf hl hnx]; auto.
    + unfold upd. now rewrite Nat.eqb_refl.
    + rewrite EK. destruct (in_dec Z.eq_dec k (keys xs)); auto.
    + exists tr', l2, x2. rewrite E2. rewrite EK in R. destruct (in_dec Z.eq_dec k (keys xs)); auto.
Qed.

Lemma filled_range l xs lo hi : filled l xs -> bit_range M l lo hi = if length xs =? M then Ok ([], false) else UB.
Proof.
  intros (HR & HL & ND & HU). pose proof HR as (_ & HB & _ & _ & _ & HC). unfold bit_range.
  assert (BT : forall i, i < length xs -> bit (fb l) i = true).
  { intros i Hi. destruct (nth_error xs i) as [[k v]|] eqn:Ex; [|apply nth_error_None in Ex; lia].
    assert (X : nth_error (map Some xs ++ repeat None (M - length xs)) i = Some (Some (k, v))) by (rewrite nth_error_app1, nth_error_map, Ex by (rewrite map_length; lia); reflexivity).
    apply HC in X. unfold cell in X. tauto. }
  assert (BF : forall i, length xs <= i < M -> bit (fb l) i = false).
  { intros i Hi. assert (X : nth_error (map Some xs ++ repeat None (M - length xs)) i = Some None).
    { rewrite nth_error_app2 by (rewrite map_length; lia). rewrite map_length. apply nth_error_repeat. lia. }
    exact (HC _ _ X). }
  assert (G : forall n i, i + n = M -> i <= length xs ->
    for_up i n (fun i (s : list (Z * V) * bool) =>
       do b <- bm_test M (fb l) i;
       if (b : bool) then Ok s else
       do k <- aget (fk l) i;
       if (k <? lo)%Z then Ok s else
       if (k >? hi)%Z then Ok (fst s, true) else
       do v <- aget (fv l) i; Ok (fst s ++ [(k, v)], snd s)) ([], false) = if length xs =? M then Ok ([], false) else UB).
  { induction n as [|n IH]; intros i Hi Hle; cbn [for_up].
    - destruct (Nat.eqb_spec (length xs) M); [reflexivity|lia].
    - rewrite bm_test_ok by (auto; lia). cbn [bind]. destruct (Nat.eq_dec i (length xs)) as [->|NE].
      + rewrite BF by lia. rewrite HU by lia. cbn [bind]. destruct (Nat.eqb_spec (length xs) M); [lia|reflexivity].
      + rewrite BT by lia. cbn [bind]. apply IH; lia. }
  apply G; lia.
Qed.

Lemma one_leaf_range os lo hi : length (nodup Z.eq_dec (map fst os)) <= M ->
  exists tr, bg_run t N O (bg_new O) os = Ok tr /\
    bg_range t N O tr lo hi = if length (nodup Z.eq_dec (map fst os)) =? M then Ok [] else UB.
Proof.
  assert (G : forall ks seen, NoDup seen -> NoDup (firsts seen ks) /\ forall x, In x (firsts seen ks) <-> In x seen \/ In x ks).
  { clear. induction ks as [|k ks IH]; intros seen ND; cbn [firsts]; [split; auto; simpl; tauto|].
    destruct (in_dec Z.eq_dec k seen) as [HI|HI].
    - destruct (IH seen ND) as [H1 H2]. split; auto. intros x. rewrite H2. simpl. split; [tauto|]. intros [|[->|]]; auto.
    - destruct (IH (seen ++ [k])) as [H1 H2]; [now apply nodup_snoc|].
      split; auto. intros x. rewrite H2, in_app_iff. simpl. tauto. }
  assert (EL : length (firsts [] (map fst os)) = length (nodup Z.eq_dec (map fst os))).
  { destruct (G (map fst os) [] ltac:(constructor)) as [H1 H2]. apply Nat.le_antisymm; apply NoDup_incl_length; auto using NoDup_nodup.
    - intros x Hx. apply nodup_In. apply H2 in Hx as [[]|Hx]; auto.
    - intros x Hx. apply nodup_In in Hx. apply H2. auto. }
  intros HL. rewrite <- EL in *.
  destruct (@run_one os (bg_new O) (fl_new V (fun _ => 0%Z) M) [] ltac:(cbn; now rewrite Onew) eq_refl eq_refl filled_new HL) as (tr & l & xs & E & El & Ed & En & HF & EK).
  exists tr. split; auto. unfold bg_range. rewrite Ed. cbn [bt_find bind range_chain]. unfold getl. rewrite El. cbn [of_opt bind]. rewrite Orange.
  rewrite (filled_range lo hi HF). cbn [keys map] in EK. rewrite <- EK. unfold keys. rewrite map_length. destruct (length xs =? M); [|reflexivity]. cbn [bind fst snd]. rewrite En.
  destruct (hfresh (bth tr)); reflexivity.
Qed.

Lemma tree_dead (tr : btree V) lo hi out : bg_range t N O tr lo hi = Ok out ->
  Forall (fun e => (lo <= fst e <= hi)%Z /\ exists j l, hl (bth tr) j = Some l /\ dead l e) out.
Proof.
  clear HM Onew Oins. unfold bg_range. destruct (bt_find _ _ _ _ _ _) as [i| |]; cbn [bind]; try discriminate. apply range_dead.
Qed.
End BitR.

Lemma bh_ins_done (V : Type) t M (l : fleaf V) k v l' :
  fl_insert t (fun _ => 0%Z) (fun _ => 0%Z) M l k v = Ok (LDone l') -> bh_insert_leaf t M l k v = Ok (LDone l').
Proof.
  unfold fl_insert, bh_insert_leaf. destruct (fl_pos _ _ _ _) as [p| |]; cbn [bind]; try discriminate. destruct (p <? M); auto.
  destruct (getFreeZero _) as [u| |]; cbn [bind]; try discriminate. destruct (u =? M); auto.
  destruct (fl_split _ _ _ _) as [[[n s] sk]| |]; cbn [bind]; try discriminate.
  repeat (match goal with |- context [if ?b then _ else _] => destruct b | |- context [bind ?m _] => destruct m; cbn [bind] end; try discriminate).
Qed.
