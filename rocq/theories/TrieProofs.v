(** The trie of [TrieModel] implements the map of [TrieSpec]. *)
From Coq Require Import FinFun.
From Verif Require Import Base TrieModel TrieSpec.
Open Scope Z_scope.

Ltac dk := match goal with |- context [list_eq_dec Z.eq_dec ?a ?b] => destruct (list_eq_dec Z.eq_dec a b) end.

Section TrieProofs.
Variable V : Type.
Implicit Types (n c : tnode V) (ch : Z -> option (tnode V)) (k x y : list Z).

Fixpoint nget n x : option V :=
  let '(TNode i v s ch) := n in
  match x with
  | [] => if i then v else None
  | b :: r => match ch b with Some c => nget c r | None => None end
  end.

Definition bytes : list Z := map Z.of_nat (seq 0 256).
Definition has ch (b : Z) : bool := match ch b with Some _ => true | None => false end.
Definition cnt ch : Z := Z.of_nat (length (filter (has ch) bytes)).

Lemma in_bytes b : In b bytes <-> 0 <= b < 256.
Proof.
  unfold bytes. rewrite in_map_iff. split.
  - intros (m & <- & H). apply in_seq in H. lia.
  - intros H. exists (Z.to_nat b). split; [lia|]. apply in_seq. lia.
Qed.
Lemma nd_bytes : NoDup bytes.
Proof. unfold bytes. apply Injective_map_NoDup; [intros a b; lia|apply seq_NoDup]. Qed.

(** Well-formedness; [live] nodes lead to a value. *)
Definition live n : Prop := t_isv n = true \/ t_size n <> 0.
Inductive twf (p : bool) : tnode V -> Prop :=
  Twf i v s ch : (i = true -> v <> None) -> s = cnt ch -> (forall b, has ch b = true -> 0 <= b < 256) ->
    (forall b c, ch b = Some c -> twf p c /\ (p = true -> live c)) -> twf p (TNode i v s ch).

Lemma twf_ind2 (p : bool) (P : tnode V -> Prop) :
  (forall i v s ch, (i = true -> v <> None) -> s = cnt ch -> (forall b, has ch b = true -> 0 <= b < 256) ->
     (forall b c, ch b = Some c -> twf p c /\ (p = true -> live c)) -> (forall b c, ch b = Some c -> P c /\ (p = true -> live c)) -> P (TNode i v s ch)) ->
  forall n, twf p n -> P n.
Proof.
  intros H. fix F 2. intros n [i v s ch W1 W2 W3 W4]. apply H; auto. intros b c E. destruct (W4 b c E) as (Wc & Lc). split; [apply F; exact Wc|exact Lc].
Qed.

Lemma filter_len_upd (f g : Z -> bool) (b : Z) (l : list Z) : NoDup l -> (forall x : Z, x <> b -> f x = g x) ->
  Z.of_nat (length (filter f l)) = Z.of_nat (length (filter g l)) + (if in_dec Z.eq_dec b l then (if f b then 1 else 0) - (if g b then 1 else 0) else 0).
Proof.
  intros ND H. induction l as [|a l IH]; [reflexivity|]. apply NoDup_cons_iff in ND as [N1 N2]. specialize (IH N2). cbn [filter].
  destruct (in_dec Z.eq_dec b (a :: l)) as [I|I], (in_dec Z.eq_dec b l) as [J|J].
  - assert (a <> b) by (intros ->; tauto). rewrite (H a) by assumption. destruct (g a); cbn [length]; lia.
  - destruct I as [->|I]; [|tauto]. destruct (f b), (g b); cbn [length]; lia.
  - destruct I. now right.
  - assert (a <> b) by (intros ->; apply I; now left). rewrite (H a) by assumption. destruct (g a); cbn [length]; lia.
Qed.

Lemma cnt_upd ch b o : 0 <= b < 256 -> cnt (c_upd ch b o) = cnt ch + (match o with Some _ => 1 | None => 0 end) - (if has ch b then 1 else 0).
Proof.
  intros Hb. unfold cnt. rewrite (@filter_len_upd (has (c_upd ch b o)) (has ch) b).
  - destruct (in_dec Z.eq_dec b bytes) as [I|I]; [|apply in_bytes in Hb; tauto]. unfold has at 2. unfold c_upd. rewrite Z.eqb_refl. destruct o; lia.
  - apply nd_bytes.
  - intros x Hx. unfold has, c_upd. destruct (Z.eqb_spec x b); [congruence|reflexivity].
Qed.
Lemma cnt_range ch : 0 <= cnt ch <= 256.
Proof.
  assert (A : forall l : list Z, (length (filter (has ch) l) <= length l)%nat) by (induction l as [|a l IH]; cbn; [lia|destruct (has ch a); cbn; lia]).
  unfold cnt. specialize (A bytes). unfold bytes in *. rewrite map_length, seq_length in A. lia.
Qed.
Lemma cnt_0 ch : cnt ch = 0 <-> forall b, 0 <= b < 256 -> ch b = None.
Proof.
  unfold cnt. split.
  - intros H b Hb. assert (E : filter (has ch) bytes = []) by (destruct (filter (has ch) bytes); [reflexivity|cbn in H; lia]).
    destruct (ch b) eqn:X; [|reflexivity]. assert (I : In b (filter (has ch) bytes)) by (apply filter_In; split; [now apply in_bytes|unfold has; now rewrite X]).
    rewrite E in I. destruct I.
  - intros H. replace (filter (has ch) bytes) with (@nil Z); [reflexivity|]. symmetry. destruct (filter (has ch) bytes) as [|b l] eqn:E; [reflexivity|].
    assert (I : In b (filter (has ch) bytes)) by (rewrite E; now left). apply filter_In in I as [I1 I2]. apply in_bytes in I1. unfold has in I2. rewrite H in I2; [discriminate|assumption].
Qed.

Lemma cnt_nz ch : cnt ch <> 0 -> exists b c, ch b = Some c.
Proof.
  unfold cnt. intros H. destruct (filter (has ch) bytes) as [|b l] eqn:E; [now destruct H|].
  assert (I : In b (filter (has ch) bytes)) by (rewrite E; now left). apply filter_In in I as [_ I]. unfold has in I. destruct (ch b) as [c|] eqn:EC; [eauto|discriminate].
Qed.

Lemma wf_node0 p : twf p t_node0.
Proof. constructor; try discriminate. symmetry. now apply cnt_0. Qed.

Lemma c_upd_same ch b o : c_upd ch b o b = o.
Proof. unfold c_upd. now rewrite Z.eqb_refl. Qed.
Lemma c_upd_other ch (b : Z) o (x : Z) : x <> b -> c_upd ch b o x = ch x.
Proof. intros H. unfold c_upd. destruct (Z.eqb_spec x b); [congruence|reflexivity]. Qed.

Lemma wf_set p i v s ch b c : twf p (TNode i v s ch) -> 0 <= b < 256 -> twf p c -> (p = true -> live c) ->
  twf p (TNode i v (s + if has ch b then 0 else 1) (c_upd ch b (Some c))).
Proof.
  intros W Hb Wc Lc. inversion W as [? ? ? ? W1 W2 W3 W4]; subst. constructor; auto.
  - rewrite cnt_upd by assumption. destruct (has ch b); lia.
  - intros x. unfold has. destruct (Z.eq_dec x b) as [->|N]; [auto|]. rewrite c_upd_other by assumption. apply W3.
  - intros x d. destruct (Z.eq_dec x b) as [->|N]; [rewrite c_upd_same; intros [= <-]; auto|]. rewrite c_upd_other by assumption. apply W4.
Qed.

(** ** insert *)
Lemma insert_ok p k v : byte_key k -> forall n, twf p n -> forall n' r, t_insert n k v = (n', r) ->
  twf p n' /\ live n' /\ (r = true <-> nget n k = None) /\ forall x, nget n' x = b_put (nget n) k v x.
Proof.
  induction 1 as [|b k Hb Hk IH]; intros [i w s ch] W n' r E; cbn [t_insert] in E.
  - injection E as <- <-. inversion W as [? ? ? ? W1 W2 W3 W4]; subst. splits.
    + constructor; auto. discriminate.
    + now left.
    + cbn [nget]. destruct i; cbn; [|tauto]. destruct w; [|now destruct W1]. split; discriminate.
    + intros [|b x]; reflexivity.
  - pose proof W as W0. inversion W as [? ? ? ? W1 W2 W3 W4]; subst. pose proof (cnt_range ch) as CR.
    assert (exists c, twf p c /\ (forall x, nget c x = nget (TNode i w (cnt ch) ch) (b :: x)) /\ t_insert (TNode i w (cnt ch) ch) (b :: k) v =
      let '(c', r) := t_insert c k v in (TNode i w (cnt ch + if has ch b then 0 else 1) (c_upd ch b (Some c')), r)) as (c & Wc & Gc & Ec).
    { cbn [t_insert]. unfold has. destruct (ch b) as [c|] eqn:EB.
      - exists c. splits; [now apply (W4 b)|intros x; cbn; now rewrite EB|]. now rewrite Z.add_0_r.
      - exists t_node0. splits; [apply wf_node0|intros x; cbn; rewrite EB; now destruct x|]. unfold u16. rewrite Z.mod_small by lia. reflexivity. }
    cbn [t_insert] in Ec. rewrite Ec in E. clear Ec. destruct (t_insert c k v) as [c' r0] eqn:EI. injection E as <- <-.
    destruct (IH c Wc c' r0 EI) as (A1 & A2 & A3 & A4). splits.
    + now apply wf_set.
    + right. cbn [t_size]. destruct (has ch b) eqn:HB; [|lia]. rewrite Z.add_0_r. intros E0. rewrite cnt_0 in E0. unfold has in HB. rewrite E0 in HB by assumption. discriminate.
    + rewrite A3, Gc. reflexivity.
    + intros [|d x].
      * reflexivity.
      * unfold b_put. cbn [nget]. destruct (Z.eq_dec d b) as [->|N].
        -- rewrite c_upd_same, A4. unfold b_put. rewrite Gc. cbn [nget]. destruct (list_eq_dec Z.eq_dec x k), (list_eq_dec Z.eq_dec (b :: x) (b :: k)); congruence || reflexivity.
        -- rewrite c_upd_other by assumption. destruct (list_eq_dec Z.eq_dec (d :: x) (b :: k)); congruence || reflexivity.
Qed.

(** ** insert cut off *)
Lemma cut_ok k v : byte_key k -> forall n m, twf false n -> twf false (t_insert_cut m n k v) /\
  ((forall x, nget (t_insert_cut m n k v) x = nget n x) \/ (forall x, nget (t_insert_cut m n k v) x = b_put (nget n) k v x)).
Proof.
  induction 1 as [|b k Hb Hk IH]; intros [i w s ch] m W; cbn [t_insert_cut].
  - destruct m; [auto|]. inversion W as [? ? ? ? W1 W2 W3 W4]; subst. split; [constructor; auto; discriminate|]. right.
    intros [|b x]; reflexivity.
  - pose proof W as W0. inversion W as [? ? ? ? W1 W2 W3 W4]; subst. pose proof (cnt_range ch) as CR.
    assert (X : forall c m', twf false c -> (forall x, nget c x = nget (TNode i w (cnt ch) ch) (b :: x)) ->
      let n' := TNode i w (cnt ch + if has ch b then 0 else 1) (c_upd ch b (Some (t_insert_cut m' c k v))) in
      twf false n' /\ ((forall x, nget n' x = nget (TNode i w (cnt ch) ch) x) \/ (forall x, nget n' x = b_put (nget (TNode i w (cnt ch) ch)) (b :: k) v x))).
    { intros c m' Wc Gc. destruct (IH c m' Wc) as (A1 & A2). split; [now apply wf_set|]. destruct A2 as [A2|A2]; [left|right]; intros [|d x].
      - reflexivity.
      - cbn [nget]. destruct (Z.eq_dec d b) as [->|N]; [|now rewrite c_upd_other]. rewrite c_upd_same, A2, Gc. reflexivity.
      - reflexivity.
      - unfold b_put. cbn [nget]. destruct (Z.eq_dec d b) as [->|N].
        + rewrite c_upd_same, A2. unfold b_put. rewrite Gc. cbn [nget]. destruct (list_eq_dec Z.eq_dec x k), (list_eq_dec Z.eq_dec (b :: x) (b :: k)); congruence || reflexivity.
        + rewrite c_upd_other by assumption. destruct (list_eq_dec Z.eq_dec (d :: x) (b :: k)); congruence || reflexivity. }
    destruct (ch b) as [c|] eqn:EB.
    + specialize (X c m (proj1 (W4 b c EB))). unfold has in X. rewrite EB, Z.add_0_r in X. apply X. intros x. cbn. now rewrite EB.
    + destruct m as [|m]; [auto|]. unfold u16. rewrite Z.mod_small by lia. specialize (X t_node0 m (wf_node0 false)). unfold has in X. rewrite EB in X. apply X.
      intros x. cbn. rewrite EB. now destruct x.
Qed.

(** Cut off late enough, it is the whole insert. *)
Lemma cut_full k v : forall n m, (length k < m)%nat -> t_insert_cut m n k v = fst (t_insert n k v).
Proof.
  induction k as [|b k IH]; intros [i w s ch] m Hm; cbn [t_insert_cut t_insert length] in *.
  - destruct m; [lia|reflexivity].
  - destruct (ch b) as [c|].
    + rewrite IH by lia. now destruct (t_insert c k v).
    + destruct m; [lia|]. rewrite IH by lia. now destruct (t_insert t_node0 k v).
Qed.

(** ** lookup *)
Lemma lookup_short p k : (length k < 256)%nat -> forall n, twf p n -> forall i, (i <= length k)%nat -> t_lookup_from k n i = Ok (nget n (skipn i k)).
Proof.
  intros HL n W. induction W as [i v s ch W1 W2 W3 W4 IH] using twf_ind2. intros j Hj. cbn [t_lookup_from]. destruct (Nat.ltb_spec j (length k)) as [L|L].
  - destruct (nth_error k j) as [b|] eqn:E; [|apply nth_error_None in E; lia].
    assert (ES : skipn j k = b :: skipn (S j) k).
    { clear -E. revert j E. induction k as [|a k IH]; intros [|j] E; cbn in *; try discriminate; [congruence|]. now apply IH. }
    rewrite ES. cbn [nget]. destruct (ch b) as [c|] eqn:EC; [|reflexivity].
    rewrite Nat.mod_small by lia. rewrite Nat.add_1_r. apply (proj1 (IH b c EC)). lia.
  - rewrite skipn_all2 by lia. cbn [nget]. destruct i; [|reflexivity]. destruct v; [reflexivity|]. now destruct W1.
Qed.

Lemma lookup_long p k : (256 <= length k)%nat -> forall n, twf p n -> forall i, (i < 256)%nat -> t_lookup_from k n i = Ok None.
Proof.
  intros HL n W. induction W as [i v s ch W1 W2 W3 W4 IH] using twf_ind2. intros j Hj. cbn [t_lookup_from]. destruct (Nat.ltb_spec j (length k)) as [L|L]; [|lia].
  destruct (nth_error k j) as [b|] eqn:E; [|apply nth_error_None in E; lia]. destruct (ch b) as [c|] eqn:EC; [|reflexivity].
  apply (proj1 (IH b c EC)). apply Nat.mod_upper_bound. lia.
Qed.

(** ** remove *)
Lemma live_stored n : twf true n -> live n -> exists y, nget n y <> None.
Proof.
  intros W. induction W as [i v s ch W1 W2 W3 W4 IH] using twf_ind2. intros [H|H]; cbn in H.
  - subst i. exists []. cbn. auto.
  - subst s. destruct (filter (has ch) bytes) as [|b l] eqn:E.
    { exfalso. apply H. unfold cnt. now rewrite E. }
    assert (I : In b (filter (has ch) bytes)) by (rewrite E; now left). apply filter_In in I as [_ I]. unfold has in I. destruct (ch b) as [c|] eqn:EC; [|discriminate].
    destruct (IH b c EC) as (IHc & Lc). destruct IHc as (y & Hy); [auto|]. exists (b :: y). cbn. now rewrite EC.
Qed.

Lemma prefix_nil x : prefix [] x.
Proof. now exists x. Qed.
Lemma prefix_cons a x b y : prefix (a :: x) (b :: y) <-> a = b /\ prefix x y.
Proof. split; [intros (s & [= -> ->]); split; [reflexivity|now exists s]|intros (-> & s & ->); now exists s]. Qed.
Lemma prefix_nil_r x : prefix x [] <-> x = [].
Proof. split; [intros (s & H); destruct x; [reflexivity|discriminate]|intros ->; apply prefix_nil]. Qed.
Lemma prefix_dec x y : {prefix x y} + {~ prefix x y}.
Proof.
  revert y. induction x as [|a x IH]; intros [|b y]; [left; apply prefix_nil|left; apply prefix_nil|right; intros H; apply prefix_nil_r in H; discriminate|].
  destruct (Z.eq_dec a b) as [->|N]; [|right; rewrite prefix_cons; tauto]. destruct (IH y); [left|right]; rewrite prefix_cons; tauto.
Qed.

Lemma remove_ok k : byte_key k -> forall n, twf true n -> forall n' r, t_remove n k = (n', r) ->
  twf true n' /\ (r = true <-> nget n k <> None) /\ (r = false -> t_size n' = t_size n /\ t_isv n' = t_isv n /\ forall x, nget n' x = nget n x) /\
  (r = true -> (t_size n' = 0 -> forall y, nget n y <> None -> prefix y k) /\ (t_size n' <> 0 -> exists y, nget n y <> None /\ ~ prefix y k) /\
     forall x, (survives (nget n) k x -> nget n' x = nget n x) /\ (~ survives (nget n) k x -> nget n' x = None)).
Proof.
  induction 1 as [|b k Hb Hk IH]; intros [i w s ch] W n' r E; cbn [t_remove] in E.
  - injection E as <- <-. inversion W as [? ? ? ? W1 W2 W3 W4]; subst. splits.
    + constructor; auto; discriminate.
    + cbn. destruct i; [|split; [discriminate|tauto]]. tauto.
    + cbn. intros ->. splits; auto.
    + cbn [t_size]. intros ->. splits.
      * rewrite cnt_0. intros H [|b y] Hy; [apply prefix_nil|]. exfalso. apply Hy. cbn. destruct (ch b) eqn:EC; [|reflexivity].
        rewrite H in EC; [discriminate|]. apply W3. unfold has. now rewrite EC.
      * intros H. apply cnt_nz in H as (b & c & EC). destruct (W4 b c EC) as (Wc & Lc). destruct (live_stored Wc (Lc eq_refl)) as (y & Hy).
        exists (b :: y). cbn [nget]. rewrite EC. split; [assumption|]. intros X. apply prefix_nil_r in X. discriminate.
      * intros x. split; intros HS.
        -- destruct x as [|b x]; [|reflexivity]. destruct HS. congruence.
        -- destruct x as [|b x]; [reflexivity|]. exfalso. apply HS. split; [discriminate|]. intros _ H. apply prefix_nil_r in H. discriminate.
  - pose proof W as W0. inversion W as [? ? ? ? W1 W2 W3 W4]; subst. pose proof (cnt_range ch) as CR.
    destruct (ch b) as [c|] eqn:EC.
    2:{ injection E as <- <-. splits; auto; cbn [nget]; rewrite ?EC; [split; [discriminate|congruence]|discriminate]. }
    destruct (W4 b c EC) as (Wc & Lc). specialize (Lc eq_refl). destruct (t_remove c k) as [c' r0] eqn:ER.
    destruct (IH c Wc c' r0 ER) as (A1 & A2 & A3 & A4).
    assert (HB : has ch b = true) by (unfold has; now rewrite EC).
    assert (C1 : 1 <= cnt ch).
    { destruct (Z.eq_dec (cnt ch) 0) as [Z0|]; [|lia]. rewrite cnt_0 in Z0. rewrite Z0 in EC by assumption. discriminate. }
    assert (G : forall x, nget (TNode i w (cnt ch) ch) (b :: x) = nget c x) by (intros x; cbn; now rewrite EC).
    destruct r0; cbn [andb] in E.
    + destruct (A4 eq_refl) as (S0 & S1 & SV). specialize (A2) as [A2 _]. specialize (A2 eq_refl).
      assert (SVI : forall x, x <> [] -> survives (nget (TNode i w (cnt ch) ch)) (b :: k) (b :: x) <-> survives (nget c) k x).
      { intros x NX. unfold survives. rewrite prefix_cons. split; intros (H1 & H2); (split; [congruence|]); intros _ HP.
        - destruct (H2 ltac:(discriminate) (conj eq_refl HP)) as ([|b' y] & Y1 & Y2 & Y3); [apply prefix_nil_r in Y2; discriminate|]. apply prefix_cons in Y2 as (<- & Y2).
          rewrite prefix_cons in Y3. exists y. rewrite <- G. tauto.
        - destruct HP as (_ & HP). destruct (H2 NX HP) as (y & Y1 & Y2 & Y3). exists (b :: y). rewrite G, !prefix_cons. tauto. }
      destruct (Z.eqb_spec (t_size c') 0) as [Z0|Z0]; injection E as <- <-.
      * assert (Wn : twf true (TNode i w (u16 (cnt ch - 1)) (c_upd ch b None))).
        { unfold u16. rewrite Z.mod_small by lia. constructor; auto.
          - rewrite cnt_upd by assumption. rewrite HB. lia.
          - intros x. unfold has. destruct (Z.eq_dec x b) as [->|N]; [auto|]. rewrite c_upd_other by assumption. apply W3.
          - intros x d. destruct (Z.eq_dec x b) as [->|N]; [rewrite c_upd_same; discriminate|]. rewrite c_upd_other by assumption. apply W4. }
        specialize (S0 Z0). clear Z0. rename S0 into Z0. splits; [assumption|rewrite G; tauto|discriminate|]. intros _.
        cbn [t_size]. inversion Wn as [? ? ? ? _ Q _ _]; subst. rewrite Q. splits.
        -- rewrite cnt_0. intros H [|d y] Hy; [apply prefix_nil|]. destruct (Z.eq_dec d b) as [->|N]; [rewrite G in Hy; apply prefix_cons; auto|].
              exfalso. apply Hy. cbn. destruct (ch d) eqn:ED; [|reflexivity]. specialize (H d). rewrite c_upd_other, ED in H by assumption. discriminate H. apply W3. unfold has. now rewrite ED.
        -- intros H. apply cnt_nz in H as (d & e & ED). destruct (Z.eq_dec d b) as [->|N]; [rewrite c_upd_same in ED; discriminate|]. rewrite c_upd_other in ED by assumption.
           destruct (W4 d e ED) as (We & Le). destruct (live_stored We (Le eq_refl)) as (y & Hy). exists (d :: y). cbn [nget]. rewrite ED. split; [assumption|].
           intros X. apply prefix_cons in X as (-> & _). congruence.
        -- intros [|d x].
           ++ split; [intros _; reflexivity|]. intros HS. destruct HS. split; [discriminate|congruence].
           ++ cbn [nget]. destruct (Z.eq_dec d b) as [->|N].
              ** rewrite c_upd_same, EC. split; [|reflexivity]. intros (H1 & H2). destruct (nget c x) as [v|] eqn:EX; [|reflexivity]. exfalso.
                 assert (HP : prefix x k) by (apply Z0; congruence). destruct H2 as ([|d y] & Y1 & Y2 & Y3); [discriminate|now apply prefix_cons|apply prefix_nil_r in Y2; discriminate|].
                 apply prefix_cons in Y2 as (<- & Y2). cbn [nget] in Y1; rewrite EC in Y1. apply Y3. apply prefix_cons. auto.
              ** rewrite c_upd_other by assumption. split; [reflexivity|]. intros HS. destruct HS. split; [congruence|]. intros _ HP. apply prefix_cons in HP as (-> & _). congruence.
      * assert (Wn : twf true (TNode i w (cnt ch) (c_upd ch b (Some c')))).
        { pose proof (@wf_set true i w (cnt ch) ch b c' W0 Hb A1) as X. rewrite HB, Z.add_0_r in X. apply X. intros _. now right. }
        splits; [assumption|rewrite G; tauto|discriminate|]. intros _.
        destruct (S1 Z0) as (y0 & Y1 & Y2).
        assert (Y3 : nget (TNode i w (cnt ch) ch) (b :: y0) <> None) by now rewrite G.
        assert (Y4 : ~ prefix (b :: y0) (b :: k)) by (rewrite prefix_cons; tauto).
        cbn [t_size]. splits; [intros; lia|eauto|].
        -- intros [|d x].
           ++ split; [intros _; reflexivity|]. intros HS. destruct HS. split; [discriminate|congruence].
           ++ cbn [nget]. destruct (Z.eq_dec d b) as [->|N].
              ** rewrite c_upd_same, EC. destruct x as [|a x].
                 --- destruct (SV []) as [SV1 SV2]. split; intros HS.
                     +++ apply SV1. destruct HS as (HS & _). split; [congruence|congruence].
                     +++ apply SV2. intros (H1 & _). apply HS. split; [congruence|]. intros _ _. exists (b :: y0). splits; auto. apply prefix_cons. split; [reflexivity|apply prefix_nil].
                 --- destruct (SV (a :: x)) as [SV1 SV2]. rewrite SVI by discriminate. auto.
              ** rewrite c_upd_other by assumption. split; [reflexivity|]. intros HS. destruct HS. split; [congruence|]. intros _ HP. apply prefix_cons in HP as (-> & _). congruence.
    + injection E as <- <-. destruct (A3 eq_refl) as (B1 & B2 & B3).
      assert (Wn : twf true (TNode i w (cnt ch) (c_upd ch b (Some c')))).
      { pose proof (@wf_set true i w (cnt ch) ch b c' W0 Hb A1) as X. rewrite HB, Z.add_0_r in X. apply X. intros _. unfold live in *. now rewrite B1, B2. }
      splits; [assumption|rewrite G; exact A2| |intros X; discriminate X]. intros _. cbn [t_size t_isv]. split; [reflexivity|]. split; [reflexivity|]. intros [|d x]; cbn [nget]; [reflexivity|].
      destruct (Z.eq_dec d b) as [->|N]; [rewrite c_upd_same, EC; apply B3|rewrite c_upd_other by assumption; reflexivity].
Qed.
End TrieProofs.
