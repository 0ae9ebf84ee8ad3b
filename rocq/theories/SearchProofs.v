From Verif Require Import Base MapSpec SortedList SearchModel.
Open Scope Z_scope.

Lemma aget_live (ks : list Z) R i k :
  nth_error ks i = Some k -> aget (map Some ks ++ R) i = Ok k.
Proof.
  intros H. unfold aget. rewrite nth_error_app1.
  - rewrite (map_nth_error Some _ _ H). reflexivity.
  - rewrite map_length. apply nth_error_Some. congruence.
Qed.

(** What a position search must return: the split point of the sorted prefix. *)
Definition pos_spec (isBranch : bool) (key : Z) (a b : list Z) : Prop :=
  if isBranch then ale key a /\ agt key b else alt key a /\ age key b.

Lemma pos_spec_nth isBranch key a b i k :
  ssorted (a ++ b) -> pos_spec isBranch key a b -> nth_error (a ++ b) i = Some k ->
  (k < key -> (i < length a)%nat) /\ (key < k -> (length a <= i)%nat) /\
  (k = key -> if isBranch then S i = length a else i = length a).
Proof.
  intros HS HP HN. apply ssorted_app in HS as (SA & SB & SAB).
  destruct (Nat.lt_ge_cases i (length a)) as [L|L].
  - rewrite nth_error_app1 in HN by assumption.
    assert (Hin := nth_error_In _ _ HN). destruct isBranch; simpl in HP; destruct HP as [H1 H2].
    + rewrite ale_in in H1. pose proof (H1 _ Hin) as H1i. repeat split; intros; try lia. subst k.
      (* key occurs in a: it must be the last element *)
      destruct (nth_error_split _ _ HN) as (l1 & l2 & E & EL). subst a.
      destruct l2 as [|y l2]; [rewrite app_length; simpl; lia|].
      exfalso. apply ssorted_app in SA as (_ & SA & _). apply ssorted_cons in SA as [_ SA].
      rewrite agt_in in SA. specialize (SA y (or_introl eq_refl)).
      assert (y <= key) by (apply H1; apply in_or_app; right; simpl; auto). lia.
    + rewrite alt_in in H1. specialize (H1 _ Hin). repeat split; intros; lia.
  - rewrite nth_error_app2 in HN by assumption.
    assert (Hin := nth_error_In _ _ HN). destruct isBranch; simpl in HP; destruct HP as [H1 H2].
    + rewrite agt_in in H2. specialize (H2 _ Hin). repeat split; intros; lia.
    + rewrite age_in in H2. pose proof (H2 _ Hin) as H2i. repeat split; intros; try lia. subst k.
      destruct (nth_error_split _ _ HN) as (l1 & l2 & E & EL). subst b.
      destruct l1 as [|y l1]; [simpl in EL; lia|].
      exfalso. apply ssorted_cons in SB as [_ SB]. rewrite agt_in in SB.
      specialize (SB key). assert (y < key) by (apply SB; apply in_or_app; right; simpl; auto).
      assert (key <= y) by (apply H2; simpl; auto). lia.
Qed.

Lemma bsearch_correct isBranch key a b R :
  ssorted (a ++ b) -> pos_spec isBranch key a b ->
  forall fuel l r pos,
  0 <= l -> r < Z.of_nat (length (a ++ b)) ->
  l <= Z.of_nat (length a) <= r + 1 ->
  (r < l -> Z.of_nat pos = l) ->
  r - l < Z.of_nat fuel ->
  bsearch fuel isBranch (map Some (a ++ b) ++ R) l r pos key = Ok (length a).
Proof.
  intros HS HP. induction fuel as [|fuel IH]; intros l r pos Hl Hr Hlr Hpos Hf.
  - simpl. destruct (Z.leb_spec l r); [lia|]. f_equal. lia.
  - cbn [bsearch]. destruct (Z.leb_spec l r) as [L|L].
    + set (p := Z.to_nat ((l + r) / 2)).
      assert (Hp : l <= Z.of_nat p <= r) by (unfold p; lia).
      destruct (nth_error (a ++ b) p) as [k|] eqn:E.
      2:{ exfalso. apply nth_error_None in E. lia. }
      rewrite (aget_live _ E). cbn [bind].
      destruct (pos_spec_nth HS HP E) as (C1 & C2 & C3).
      destruct (Z.eqb_spec k key) as [->|Nk].
      * specialize (C3 eq_refl). destruct isBranch; f_equal; lia.
      * destruct (Z.ltb_spec k key) as [Lk|Lk].
        -- specialize (C1 Lk). apply IH; lia.
        -- assert (C2' : (length a <= p)%nat) by (apply C2; lia). apply IH; lia.
    + f_equal. lia.
Qed.

Lemma bsearch_pos_correct isBranch key a b R :
  ssorted (a ++ b) -> pos_spec isBranch key a b ->
  bsearch_pos isBranch (map Some (a ++ b) ++ R) (length (a ++ b)) key = Ok (length a).
Proof.
  intros HS HP. unfold bsearch_pos. apply bsearch_correct; auto; rewrite ?app_length; lia.
Qed.

Lemma lsearch_correct isBranch key b R : forall a c P,
  pos_spec isBranch key a b -> ssorted (a ++ b) ->
  P = length c ->
  lsearch (length (a ++ b)) isBranch (map Some (c ++ a ++ b) ++ R) P key = Ok (P + length a)%nat.
Proof.
  induction a as [|x a IH]; intros c P HP HS ->.
  - cbn [app length]. rewrite Nat.add_0_r. destruct b as [|y b]; [reflexivity|].
    cbn [length lsearch]. erewrite aget_live with (k := y).
    2:{ rewrite nth_error_app2 by lia. now rewrite Nat.sub_diag. }
    cbn [bind]. destruct isBranch; simpl in HP; destruct HP as [_ HP]; inversion HP; subst.
    + destruct (Z.leb_spec y key); [lia|reflexivity].
    + destruct (Z.ltb_spec y key); [lia|reflexivity].
  - cbn [app length lsearch]. erewrite aget_live with (k := x).
    2:{ rewrite nth_error_app2 by lia. now rewrite Nat.sub_diag. }
    cbn [bind].
    assert (HT : (if isBranch then x <=? key else x <? key) = true).
    { destruct isBranch; simpl in HP; destruct HP as [HP _]; inversion HP; subst; lia. }
    rewrite HT. replace (c ++ x :: a ++ b) with ((c ++ [x]) ++ a ++ b) by (rewrite <- app_assoc; reflexivity).
    rewrite (IH (c ++ [x])).
    + f_equal. lia.
    + destruct isBranch; simpl in *; destruct HP as [HP1 HP2]; inversion HP1; auto.
    + simpl in HS. now apply ssorted_cons in HS as [HS _].
    + rewrite app_length. simpl. lia.
Qed.

Lemma lsearch_pos_correct isBranch key a b R :
  ssorted (a ++ b) -> pos_spec isBranch key a b ->
  lsearch_pos isBranch (map Some (a ++ b) ++ R) (length (a ++ b)) key = Ok (length a).
Proof.
  intros HS HP. unfold lsearch_pos. now apply (@lsearch_correct isBranch key b R a [] 0%nat).
Qed.

(** ** The slot variant: it follows the plain search on the keys listed in slot order. *)
Definition slot_keys (keys : arr Z) (slots : arr nat) (ks : list Z) : Prop :=
  aget slots 0 = Ok (length ks) /\
  forall i k, nth_error ks i = Some k -> exists s, aget slots (S i) = Ok s /\ aget keys s = Ok k.

Lemma sbsearch_shift isBranch keys slots ks key : slot_keys keys slots ks ->
  forall fuel l r pos p, 0 <= l -> r < Z.of_nat (length ks) ->
  bsearch fuel isBranch (map Some ks) l r pos key = Ok p ->
  sbsearch fuel isBranch keys slots (l + 1) (r + 1) (S pos) key = Ok (S p).
Proof.
  intros [_ H]. induction fuel as [|f IH]; intros l r pos p Hl Hr E.
  - cbn [bsearch sbsearch] in *. destruct (Z.leb_spec l r); [discriminate|].
    destruct (Z.leb_spec (l + 1) (r + 1)); [lia|]. congruence.
  - cbn [bsearch sbsearch] in *. destruct (Z.leb_spec l r); destruct (Z.leb_spec (l + 1) (r + 1)); try lia; [|congruence].
    replace (Z.to_nat ((l + 1 + (r + 1)) / 2)) with (S (Z.to_nat ((l + r) / 2))) by lia.
    set (q := Z.to_nat ((l + r) / 2)) in *.
    destruct (nth_error ks q) as [k|] eqn:EK.
    2:{ apply nth_error_None in EK. unfold q in EK. lia. }
    destruct (H q k EK) as (s & Es & Ek). rewrite Es. cbn [bind]. rewrite Ek. cbn [bind].
    assert (EA : aget (map Some ks) q = Ok k).
    { unfold aget. rewrite nth_error_map, EK. reflexivity. }
    rewrite EA in E. cbn [bind] in E. destruct (k =? key).
    + destruct isBranch; congruence.
    + destruct (k <? key).
      * replace (Z.of_nat (S (S q))) with (Z.of_nat (S q) + 1) by lia. apply IH; auto. lia.
      * replace (Z.of_nat (S q) - 1) with (Z.of_nat q - 1 + 1) by lia. apply IH; auto. unfold q. lia.
Qed.

Lemma sbsearch_pos_correct isBranch key a b keys slots :
  slot_keys keys slots (a ++ b) -> ssorted (a ++ b) -> pos_spec isBranch key a b ->
  sbsearch_pos isBranch keys slots key = Ok (S (length a)).
Proof.
  intros HK HS HP. unfold sbsearch_pos. destruct HK as [H0 H1]. rewrite H0. cbn [bind].
  pose proof (@bsearch_correct isBranch key a b [] HS HP (S (length (a ++ b))) 0 (Z.of_nat (length (a ++ b)) - 1) 0) as BC.
  rewrite app_nil_r in BC.
  eapply sbsearch_shift with (l := 0) (r := Z.of_nat (length (a ++ b)) - 1) in BC.
  - replace (Z.of_nat (length (a ++ b)) - 1 + 1) with (Z.of_nat (length (a ++ b))) in BC by lia. exact BC.
  - split; eauto.
  - lia.
  - lia.
  - lia.
  - lia.
  - rewrite app_length. lia.
  - lia.
  - lia.
Qed.
