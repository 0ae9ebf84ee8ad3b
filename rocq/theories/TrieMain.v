(** Histories of the trie: plain ones, ones with power failures, and the node count. *)
From Verif Require Import Base TrieModel TrieSpec TrieProofs.
Open Scope Z_scope.

Section TrieMain.
Variable V : Type.
Implicit Types (n c : tnode V) (ch : Z -> option (tnode V)) (k x y : list Z).

(** ** Inserts only *)
Lemma puts_ok p (l : list (list Z * V)) : Forall (fun e => byte_key (fst e)) l -> forall n (m : bmap V), twf p n -> (forall x, nget n x = m x) ->
  let n' := fold_left (@t_step V) (map (fun e => TIns (fst e) (snd e)) l) n in
  twf p n' /\ forall x, nget n' x = fold_left (fun m e => b_put m (fst e) (snd e)) l m x.
Proof.
  induction 1 as [|[k v] l Hk Hl IH]; intros n m W G; [auto|]. cbn [map fold_left fst snd t_step]. destruct (t_insert n k v) as [n1 r] eqn:E.
  destruct (insert_ok Hk W E) as (A1 & _ & _ & A4). apply IH; [exact A1|]. intros x. cbn [fst]. rewrite A4. unfold b_put. rewrite G. reflexivity.
Qed.

(** ** Inserts and removes *)
Lemma run_ok (os : list (top V)) : Forall (@op_bytes V) os -> forall n (m : bmap V), twf true n -> (forall x, nget n x = m x) ->
  let n' := fold_left (@t_step V) os n in twf true n' /\ exists m', b_run m os m' /\ forall x, nget n' x = m' x.
Proof.
  induction 1 as [|o os Ho Hos IH]; intros n m W G; [cbn; eauto|]. cbn [fold_left].
  assert (X : twf true (t_step n o) /\ b_step m o (nget (t_step n o))).
  { destruct o as [k v|k]; cbn [t_step op_bytes b_step] in *.
    - destruct (t_insert n k v) as [n1 r] eqn:E. destruct (insert_ok Ho W E) as (A1 & _ & _ & A4). split; [exact A1|].
      intros x. cbn [fst]. rewrite A4. unfold b_put. now rewrite G.
    - destruct (t_remove n k) as [n1 r] eqn:E. destruct (remove_ok Ho W E) as (A1 & A2 & A3 & A4). split; [exact A1|]. cbn [fst].
      assert (S : forall x, survives m k x <-> survives (nget n) k x).
      { intros x. unfold survives. split; intros (H1 & H2); (split; [exact H1|]); intros H3 H4; destruct (H2 H3 H4) as (y & Y1 & Y2); exists y; (split; [|exact Y2]); [rewrite G|rewrite <- G]; exact Y1. }
      split; intros HM x.
      + rewrite <- G in HM. destruct r; [destruct A2 as [A2 _]; exfalso; apply (A2 eq_refl); exact HM|]. destruct (A3 eq_refl) as (_ & _ & A5). rewrite A5, G. reflexivity.
      + rewrite <- G in HM. destruct (A4 (proj2 A2 HM)) as (_ & _ & A5). destruct (A5 x) as (A6 & A7). rewrite S. rewrite <- (G x). auto. }
  destruct X as (W1 & B1). destruct (IH (t_step n o) (nget (t_step n o)) W1 (fun x => eq_refl)) as (W2 & m' & B2 & G2). split; [exact W2|]. exists m'. split; [|exact G2].
  exists (nget (t_step n o)). auto.
Qed.

(** ** remove, possibly cut off, in a trie with dead nodes *)
Lemma size_0 p n : twf p n -> t_size n = 0 -> forall b x, nget n (b :: x) = None.
Proof.
  intros [i v s ch W1 W2 W3 W4] Z0 b x. cbn [t_size nget] in *. subst s. rewrite cnt_0 in Z0. destruct (ch b) eqn:E; [|reflexivity].
  rewrite Z0 in E; [discriminate|]. apply W3. unfold has. now rewrite E.
Qed.

Lemma wf_unset i v ch (b : Z) : 0 <= b < 256 -> twf false (TNode i v (cnt ch) ch) -> has ch b = true -> twf false (TNode i v (u16 (cnt ch - 1)) (c_upd ch b None)).
Proof.
  intros Hb W HB. inversion W as [? ? ? ? W1 W2 W3 W4]; subst. pose proof (cnt_range ch) as CR.
  assert (C1 : 1 <= cnt ch).
  { destruct (Z.eq_dec (cnt ch) 0) as [Z0|]; [|lia]. rewrite cnt_0 in Z0. unfold has in HB. rewrite Z0 in HB by assumption. discriminate. }
  unfold u16. rewrite Z.mod_small by lia. constructor; auto.
  - rewrite cnt_upd by assumption. rewrite HB. lia.
  - intros d. unfold has. destruct (Z.eq_dec d b) as [->|N]; [auto|]. rewrite c_upd_other by assumption. apply W3.
  - intros d e. destruct (Z.eq_dec d b) as [->|N]; [rewrite c_upd_same; discriminate|]. rewrite c_upd_other by assumption. apply W4.
Qed.

Definition gone (m : bmap V) k (m' : bmap V) : Prop := m' k = None /\ forall x, m' x = m x \/ (prefix x k /\ m' x = None).
Lemma remove_cut_ok k : byte_key k -> forall n m, twf false n -> forall n' o, t_remove_cut m n k = (n', o) ->
  twf false n' /\ ((forall x, nget n' x = nget n x) \/ gone (nget n) k (nget n')) /\
  (forall r m', o = Some (r, m') -> gone (nget n) k (nget n') /\ (r = true <-> nget n k <> None)).
Proof.
  induction 1 as [|b k Hb Hk IH]; intros [i w s ch] m W n' o E; cbn [t_remove_cut] in E.
  - assert (X : gone (nget (TNode i w s ch)) [] (nget (TNode false w s ch))).
    { split; [reflexivity|]. intros [|b x]; [right; split; [apply prefix_nil|reflexivity]|left; reflexivity]. }
    inversion W as [? ? ? ? W1 W2 W3 W4]; subst. destruct m as [|m]; injection E as <- <-.
    + splits; [exact W|left; reflexivity|discriminate].
    + splits; [constructor; auto; discriminate|right; exact X|]. intros r m' [= <- <-]. split; [exact X|]. cbn [nget]. destruct i; [|split; [discriminate|tauto]]. tauto.
  - pose proof W as W0. inversion W as [? ? ? ? W1 W2 W3 W4]; subst. destruct (ch b) as [c|] eqn:EC.
    2:{ assert (NK : nget (TNode i w (cnt ch) ch) (b :: k) = None) by (cbn [nget]; rewrite EC; reflexivity).
        injection E as <- <-. splits; [exact W0|left; reflexivity|]. intros r m' [= <- <-]. split; [split; [exact NK|left; reflexivity]|]. rewrite NK. split; [discriminate|congruence]. }
    destruct (W4 b c EC) as (Wc & _). destruct (t_remove_cut m c k) as [c' o0] eqn:ER. destruct (IH c m Wc c' o0 ER) as (A1 & A2 & A3).
    assert (HB : has ch b = true) by (unfold has; now rewrite EC).
    assert (G : forall x, nget (TNode i w (cnt ch) ch) (b :: x) = nget c x) by (intros x; cbn [nget]; now rewrite EC).
    set (N0 := TNode i w (cnt ch) ch) in *. set (kept := TNode i w (cnt ch) (c_upd ch b (Some c'))) in *.
    assert (Wn : twf false kept).
    { pose proof (@wf_set V false i w (cnt ch) ch b c' W0 Hb A1) as X. rewrite HB, Z.add_0_r in X. apply X. discriminate. }
    assert (K0 : nget kept [] = nget N0 []) by (subst kept N0; cbn [nget]; reflexivity).
    assert (K1 : forall x, nget kept (b :: x) = nget c' x) by (intros x; subst kept; cbn [nget]; now rewrite c_upd_same).
    assert (K2 : forall (d : Z) x, d <> b -> nget kept (d :: x) = nget N0 (d :: x)) by (intros d x N; subst kept N0; cbn [nget]; now rewrite c_upd_other).
    assert (KG : gone (nget c) k (nget c') -> gone (nget N0) (b :: k) (nget kept)).
    { intros (H1 & H2). split; [now rewrite K1|]. intros [|d x]; [now left|]. destruct (Z.eq_dec d b) as [->|N]; [|left; now apply K2].
      rewrite K1, G, prefix_cons. destruct (H2 x) as [|(? & ?)]; [now left|right; auto]. }
    assert (KE : (forall x, nget kept x = nget N0 x) \/ gone (nget N0) (b :: k) (nget kept)).
    { destruct A2 as [A2|A2]; [|right; apply KG, A2]. left. intros [|d x]; [exact K0|]. destruct (Z.eq_dec d b) as [->|N]; [rewrite K1, G; apply A2|now apply K2]. }
    destruct o0 as [[r m1]|].
    2:{ injection E as <- <-. splits; [exact Wn|exact KE|discriminate]. }
    destruct (A3 r m1 eq_refl) as (A4 & A5). destruct (r && (t_size c' =? 0)) eqn:ED.
    2:{ injection E as <- <-. splits; [exact Wn|exact KE|]. intros r0 m' [= <- <-]. split; [apply KG, A4|]. rewrite G. exact A5. }
    apply andb_true_iff in ED as (-> & ED). apply Z.eqb_eq in ED. destruct m1 as [|m2].
    { injection E as <- <-. splits; [exact Wn|exact KE|discriminate]. }
    injection E as <- <-.
    assert (X : gone (nget N0) (b :: k) (nget (TNode i w (u16 (cnt ch - 1)) (c_upd ch b None)))).
    { split; [cbn [nget]; now rewrite c_upd_same|]. intros [|d x]; [left; subst N0; cbn [nget]; reflexivity|]. destruct (Z.eq_dec d b) as [->|N].
      2:{ left. subst N0. cbn [nget]. now rewrite c_upd_other. }
      rewrite G. cbn [nget]. rewrite c_upd_same. destruct A4 as (_ & A4). destruct x as [|a x].
      - right. split; [apply prefix_cons; split; [reflexivity|apply prefix_nil]|reflexivity].
      - destruct (A4 (a :: x)) as [E1|(E1 & _)]; [left; rewrite <- E1; symmetry; apply (size_0 A1 ED)|right; split; [now apply prefix_cons|reflexivity]]. }
    splits; [apply wf_unset; auto|right; exact X|]. intros r0 m' [= <- <-]. split; [exact X|]. rewrite G. exact A5.
Qed.

Lemma remove_cut_full k : forall n m, (length k < m)%nat -> exists m', t_remove_cut m n k = (fst (t_remove n k), Some (snd (t_remove n k), m')) /\ (m <= m' + length k + 1)%nat.
Proof.
  induction k as [|b k IH]; intros [i w s ch] m Hm; cbn [t_remove_cut t_remove length] in *.
  - destruct m; [lia|]. exists m. cbn [fst snd]. split; [reflexivity|lia].
  - destruct (ch b) as [c|]; [|exists m; cbn [fst snd]; split; [reflexivity|lia]].
    destruct (IH c m) as (m1 & E & L); [lia|]. rewrite E. destruct (t_remove c k) as [c' r]. cbn [fst snd]. destruct (r && (t_size c' =? 0)) eqn:EQ.
    + destruct m1 as [|m2]; [lia|]. exists m2. cbn [fst snd]. split; [reflexivity|lia].
    + exists m1. cbn [fst snd]. split; [reflexivity|lia].
Qed.

Lemma remove_gone k n : byte_key k -> twf false n -> twf false (fst (t_remove n k)) /\ gone (nget n) k (nget (fst (t_remove n k))) /\ (snd (t_remove n k) = true <-> nget n k <> None).
Proof.
  intros Hk W. destruct (@remove_cut_full k n (S (length k))) as (m' & E & _); [lia|]. destruct (remove_cut_ok Hk W E) as (A1 & _ & A3).
  destruct (A3 _ _ eq_refl) as (A4 & A5). auto.
Qed.

(** ** Histories with power failures *)
Lemma crun_ins (os : list (tcop V)) : Forall (@c_bytes V) os -> Forall (@c_ins V) os -> forall n (m : bmap V), twf false n -> (forall x, nget n x = m x) ->
  let n' := fold_left (@t_cstep V) os n in twf false n' /\ exists m', c_run m os m' /\ forall x, nget n' x = m' x.
Proof.
  induction os as [|o os IH]; intros HB HI n m W G; [cbn; eauto|]. apply Forall_cons_iff in HB as (Ho & HB). apply Forall_cons_iff in HI as (Hi & HI). cbn [fold_left].
  assert (X : twf false (t_cstep n o) /\ c_step m o (nget (t_cstep n o))).
  { destruct o as [k v|k|k v j|k j]; cbn [t_cstep c_step c_ins] in *; try tauto; unfold c_bytes in Ho; cbn [c_key] in Ho.
    - destruct (t_insert n k v) as [n1 r] eqn:E. destruct (insert_ok Ho W E) as (A1 & _ & _ & A4). split; [exact A1|].
      intros x. cbn [fst]. rewrite A4. unfold b_put. now rewrite G.
    - destruct (cut_ok v Ho j W) as (A1 & A2). split; [exact A1|]. destruct A2 as [A2|A2]; [left|right]; intros x; rewrite A2; [apply G|]. unfold b_put. now rewrite G. }
  destruct X as (W1 & B1). destruct (IH HB HI (t_cstep n o) (nget (t_cstep n o)) W1 (fun x => eq_refl)) as (W2 & m' & B2 & G2). split; [exact W2|]. exists m'. split; [|exact G2].
  exists (nget (t_cstep n o)). auto.
Qed.

Definition inside (K : list (list Z)) (m : bmap V) : Prop := forall x, m x <> None -> In x K.
Lemma gone_del K m k m' : prefix_free K -> inside K m -> In k K -> gone m k m' -> forall x, m' x = b_del m k x.
Proof.
  intros PF I Hk (G1 & G2) x. unfold b_del. dk; [congruence|]. destruct (G2 x) as [E|(E1 & E2)]; [exact E|]. rewrite E2. destruct (m x) eqn:EM; [|reflexivity].
  exfalso. apply n. apply PF; [apply I; congruence|exact Hk|exact E1].
Qed.
Lemma inside_put K m k v : inside K m -> In k K -> inside K (b_put m k v).
Proof. intros I Hk x. unfold b_put. dk; [subst; auto|apply I]. Qed.
Lemma inside_del K m k : inside K m -> inside K (b_del m k).
Proof. intros I x. unfold b_del. dk; [congruence|apply I]. Qed.
Lemma inside_ext K m m' : inside K m -> (forall x, m' x = m x) -> inside K m'.
Proof. intros I E x. rewrite E. apply I. Qed.

Lemma crun_pf K (os : list (tcop V)) : prefix_free K -> Forall (@c_bytes V) os -> Forall (fun o => In (c_key o) K) os -> forall n (m : bmap V), twf false n -> inside K m -> (forall x, nget n x = m x) ->
  let n' := fold_left (@t_cstep V) os n in twf false n' /\ exists m', c_run m os m' /\ forall x, nget n' x = m' x.
Proof.
  intros PF. induction os as [|o os IH]; intros HB HI n m W I G; [cbn; eauto|]. apply Forall_cons_iff in HB as (Ho & HB). apply Forall_cons_iff in HI as (Hi & HI). cbn [fold_left].
  assert (IN : inside K (nget n)) by now apply (inside_ext I).
  assert (X : twf false (t_cstep n o) /\ c_step m o (nget (t_cstep n o)) /\ inside K (nget (t_cstep n o))).
  { unfold c_bytes in Ho. destruct o as [k v|k|k v j|k j]; cbn [t_cstep c_step c_ins c_key] in *.
    - destruct (t_insert n k v) as [n1 r] eqn:E. destruct (insert_ok Ho W E) as (A1 & _ & _ & A4). split; [exact A1|]. split.
      + intros x. cbn [fst]. rewrite A4. unfold b_put. now rewrite G.
      + apply (inside_ext (@inside_put K _ k v IN Hi)). exact A4.
    - destruct (remove_gone Ho W) as (A1 & A2 & _). pose proof (gone_del PF IN Hi A2) as A3. split; [exact A1|]. split.
      + intros x. rewrite A3. unfold b_del. now rewrite G.
      + apply (inside_ext (@inside_del K _ k IN)). exact A3.
    - destruct (cut_ok v Ho j W) as (A1 & A2). split; [exact A1|]. split.
      + destruct A2 as [A2|A2]; [left|right]; intros x; rewrite A2; [apply G|]. unfold b_put. now rewrite G.
      + destruct A2 as [A2|A2]; [now apply (inside_ext IN)|]. apply (inside_ext (@inside_put K _ k v IN Hi)). exact A2.
    - destruct (t_remove_cut j n k) as [n1 o0] eqn:E. destruct (remove_cut_ok Ho W E) as (A1 & A2 & _). cbn [fst]. split; [exact A1|]. destruct A2 as [A2|A2].
      + split; [left; intros x; rewrite A2; apply G|now apply (inside_ext IN)].
      + pose proof (gone_del PF IN Hi A2) as A3. split; [right; intros x; rewrite A3; unfold b_del; now rewrite G|]. apply (inside_ext (@inside_del K _ k IN)). exact A3. }
  destruct X as (W1 & B1 & I1). destruct (IH HB HI (t_cstep n o) (nget (t_cstep n o)) W1 I1 (fun x => eq_refl)) as (W2 & m' & B2 & G2). split; [exact W2|]. exists m'. split; [|exact G2].
  exists (nget (t_cstep n o)). auto.
Qed.

(** Plain histories over a prefix-free key set *)
Lemma run_pf K (os : list (top V)) : prefix_free K -> Forall (@op_bytes V) os -> Forall (fun o => In (o_key o) K) os -> forall n (m : bmap V), twf false n -> inside K m -> (forall x, nget n x = m x) ->
  let n' := fold_left (@t_step V) os n in twf false n' /\ forall x, nget n' x = fold_left (@m_step V) os m x.
Proof.
  intros PF. induction os as [|o os IH]; intros HB HI n m W I G; [auto|]. apply Forall_cons_iff in HB as (Ho & HB). apply Forall_cons_iff in HI as (Hi & HI). cbn [fold_left].
  assert (IN : inside K (nget n)) by now apply (inside_ext I).
  destruct o as [k v|k]; cbn [t_step m_step op_bytes o_key] in *.
  - destruct (t_insert n k v) as [n1 r] eqn:E. destruct (insert_ok Ho W E) as (A1 & _ & _ & A4). cbn [fst]. apply IH; auto.
    + now apply inside_put.
    + intros x. rewrite A4. unfold b_put. now rewrite G.
  - destruct (remove_gone Ho W) as (A1 & A2 & _). pose proof (gone_del PF IN Hi A2) as A3. apply IH; auto.
    + now apply inside_del.
    + intros x. rewrite A3. unfold b_del. now rewrite G.
Qed.

(** ** subNodes *)
Fixpoint paths n : list (list Z) :=
  let '(TNode i v s ch) := n in [] :: flat_map (fun b => match ch b with Some c => map (cons b) (paths c) | None => [] end) bytes.

Definition zsum (f : Z -> Z) (l : list Z) : Z := fold_right (fun b a => f b + a) 0 l.
Definition fval (f : Z -> option Z) (b : Z) : Z := match f b with Some m => m | None => 0 end.
Definition fhas (f : Z -> option Z) (b : Z) : bool := match f b with Some _ => true | None => false end.
Definition zseq (k : nat) (b : Z) : list Z := map (fun i => b + Z.of_nat i) (seq 0 k).
Lemma zseq_S (k : nat) (b : Z) : zseq (S k) b = b :: zseq k (b + 1).
Proof.
  unfold zseq. cbn [seq map]. f_equal; [lia|]. rewrite <- seq_shift, map_map. apply map_ext. intros. lia.
Qed.
Lemma sub_loop_ok f (s : Z) (k : nat) : forall b count c : Z, c + Z.of_nat (length (filter (fhas f) (zseq k b))) = s -> sub_loop f s k b count c = count + zsum (fval f) (zseq k b).
Proof.
  induction k as [|k IH]; intros b count c H; [cbn; lia|]. rewrite zseq_S in *. cbn [sub_loop filter zsum fold_right] in *. fold (zsum (fval f) (zseq k (b + 1))).
  destruct (Z.eqb_spec c s) as [->|N].
  - assert (F : filter (fhas f) (b :: zseq k (b + 1)) = []) by (cbn [filter]; destruct (if fhas f b then _ else _); [reflexivity|cbn [length] in H; lia]).
    assert (Z0 : forall l, filter (fhas f) l = [] -> zsum (fval f) l = 0).
    { clear. unfold zsum. induction l as [|a l IH]; cbn [fold_right filter]; [reflexivity|]. intros E. unfold fhas at 1 in E. assert (fval f a = 0 /\ filter (fhas f) l = []) as (F1 & F2) by (unfold fval; destruct (f a); [discriminate|auto]). rewrite F1, (IH F2). reflexivity. }
    apply Z0 in F. cbn [zsum fold_right] in F. fold (zsum (fval f) (zseq k (b + 1))) in F. lia.
  - unfold fval at 1. unfold fhas at 1 in H. destruct (f b) as [m|]; [rewrite IH by (cbn [length] in H; lia); lia|apply IH; exact H].
Qed.
Lemma bytes_zseq : bytes = zseq 256 0.
Proof. reflexivity. Qed.

Lemma sub_nodes_paths p n : twf p n -> t_sub_nodes n = Z.of_nat (length (paths n)).
Proof.
  intros W. induction W as [i v s ch W1 W2 W3 W4 IH] using twf_ind2.
  change (sub_loop (fun b => match ch b with Some c => Some (t_sub_nodes c) | None => None end) s 256 0 0 0 + 1 = Z.of_nat (length (paths (TNode i v s ch)))).
  rewrite sub_loop_ok.
  2:{ subst s. unfold cnt. rewrite bytes_zseq, Z.add_0_l. f_equal. f_equal. apply filter_ext. intros b. unfold fhas, has. now destruct (ch b). }
  rewrite <- bytes_zseq. cbn [paths length]. rewrite Nat2Z.inj_succ. f_equal. rewrite Z.add_0_l.
  assert (X : forall l : list Z, zsum (fval (fun b => match ch b with Some c => Some (t_sub_nodes c) | None => None end)) l =
    Z.of_nat (length (flat_map (fun b => match ch b with Some c => map (cons b) (paths c) | None => [] end) l))).
  { induction l as [|b l IHl]; [reflexivity|]. cbn [zsum fold_right flat_map]. rewrite app_length, Nat2Z.inj_add. unfold zsum in IHl. rewrite <- IHl. f_equal.
    unfold fval. destruct (ch b) as [c|] eqn:EC; [|reflexivity]. rewrite map_length. apply (IH b c EC). }
  rewrite X. unfold Z.succ. reflexivity.
Qed.

Lemma nd_app (A : Type) (l1 l2 : list A) : NoDup l1 -> NoDup l2 -> (forall x : A, In x l1 -> ~ In x l2) -> NoDup (l1 ++ l2).
Proof.
  induction 1 as [|a l N1 N2 IH]; intros H2 H3; [exact H2|]. cbn. constructor.
  - rewrite in_app_iff. intros [H|H]; [auto|]. apply (H3 a); [now left|exact H].
  - apply IH; [exact H2|]. intros x H. apply H3. now right.
Qed.

Lemma paths_nd p n : twf p n -> NoDup (paths n).
Proof.
  intros W. induction W as [i v s ch W1 W2 W3 W4 IH] using twf_ind2. cbn [paths]. constructor.
  - rewrite in_flat_map. intros (b & _ & H). destruct (ch b); [|destruct H]. apply in_map_iff in H as (y & H & _). discriminate.
  - pose proof nd_bytes as ND. revert ND. generalize bytes as l. induction l as [|b l IHl]; intros ND; [constructor|]. apply NoDup_cons_iff in ND as (N1 & N2).
    cbn [flat_map]. specialize (IHl N2). destruct (ch b) as [c|] eqn:EC; [|exact IHl].
    apply nd_app; [apply FinFun.Injective_map_NoDup; [intros a d H; congruence|apply (IH b c EC)]|exact IHl|].
    intros x H1 H2. apply in_map_iff in H1 as (y & <- & _). apply in_flat_map in H2 as (d & H2 & H3). destruct (ch d); [|destruct H3]. apply in_map_iff in H3 as (z & [= -> _] & _). auto.
Qed.

Lemma paths_in n : twf true n -> forall x, In x (paths n) <-> x = [] \/ exists y, nget n y <> None /\ prefix x y.
Proof.
  intros W. induction W as [i v s ch W1 W2 W3 W4 IH] using twf_ind2. intros x. cbn [paths]. cbn [In]. rewrite in_flat_map. split.
  - intros [<-|(b & Hb & H)]; [now left|]. destruct (ch b) as [c|] eqn:EC; [|destruct H]. apply in_map_iff in H as (y & <- & Hy). right.
    destruct (IH b c EC) as (IHc & Lc). apply IHc in Hy as [->|(z & Z1 & Z2)].
    + destruct (live_stored (proj1 (W4 b c EC)) (Lc eq_refl)) as (z & Hz). exists (b :: z). cbn [nget]. rewrite EC. split; [exact Hz|]. apply prefix_cons. split; [reflexivity|apply prefix_nil].
    + exists (b :: z). cbn [nget]. rewrite EC. split; [exact Z1|]. now apply prefix_cons.
  - intros [->|(y & Y1 & Y2)]; [now left|]. destruct x as [|b x]; [now left|]. right. destruct y as [|d y]; [apply prefix_nil_r in Y2; discriminate|].
    apply prefix_cons in Y2 as (<- & Y2). cbn [nget] in Y1. destruct (ch b) as [c|] eqn:EC; [|congruence]. exists b. split; [apply in_bytes, W3; unfold has; now rewrite EC|].
    rewrite EC. apply in_map. destruct (IH b c EC) as (IHc & _). apply IHc. right. eauto.
Qed.

(** ** The properties *)
Theorem trie_map (l : list (list Z * V)) : Forall (fun e => byte_key (fst e)) l ->
  let n := t_run (map (fun e => TIns (fst e) (snd e)) l) in
  (forall k, (length k < 256)%nat -> t_lookup n k = Ok (b_puts l k)) /\
  (forall k v, byte_key k -> snd (t_insert n k v) = true <-> b_puts l k = None).
Proof.
  intros HB. destruct (puts_ok HB (m := b_empty) (@wf_node0 V true)) as (W & G); [intros [|b x]; reflexivity|]. cbv zeta. split.
  - intros k Hk. unfold t_lookup, t_run. rewrite (lookup_short Hk W) by lia. cbn [skipn]. rewrite G. reflexivity.
  - intros k v Hk. unfold t_run. destruct (t_insert (fold_left _ _ _) k v) as [n' r] eqn:E. destruct (insert_ok Hk W E) as (_ & _ & A & _). cbn [snd]. rewrite A, G. reflexivity.
Qed.

Lemma run_wf (os : list (top V)) : Forall (@op_bytes V) os -> twf true (t_run os) /\ exists m, b_run b_empty os m /\ forall x, nget (t_run os) x = m x.
Proof. intros HB. apply (run_ok HB (m := b_empty) (@wf_node0 V true)). intros [|b x]; reflexivity. Qed.

Theorem trie_long (os : list (top V)) k : Forall (@op_bytes V) os -> (256 <= length k)%nat -> t_lookup (t_run os) k = Ok None.
Proof. intros HB HL. destruct (run_wf HB) as (W & _). apply (lookup_long HL W). lia. Qed.

Theorem trie_remove (os : list (top V)) : Forall (@op_bytes V) os -> exists m, b_run b_empty os m /\
  (forall k, (length k < 256)%nat -> t_lookup (t_run os) k = Ok (m k)) /\
  (forall k, byte_key k -> snd (t_remove (t_run os) k) = true <-> m k <> None).
Proof.
  intros HB. destruct (run_wf HB) as (W & m & B & G). exists m. splits; [exact B| |].
  - intros k Hk. unfold t_lookup. rewrite (lookup_short Hk W) by lia. cbn [skipn]. now rewrite G.
  - intros k Hk. destruct (t_remove (t_run os) k) as [n' r] eqn:E. destruct (remove_ok Hk W E) as (_ & A & _). cbn [snd]. rewrite A, G. reflexivity.
Qed.

Theorem trie_remove_pf (os : list (top V)) : Forall (@op_bytes V) os -> prefix_free (map (@o_key V) os) ->
  forall k, (length k < 256)%nat -> t_lookup (t_run os) k = Ok (m_run os k).
Proof.
  intros HB PF k Hk. destruct (@run_pf (map (@o_key V) os) os PF HB) with (n := @t_node0 V) (m := @b_empty V) as (W & G).
  - apply Forall_forall. intros o Ho. now apply in_map.
  - apply wf_node0.
  - intros x Hx. destruct Hx. reflexivity.
  - intros [|b x]; reflexivity.
  - unfold t_lookup, t_run. rewrite (lookup_short Hk W) by lia. cbn [skipn]. now rewrite G.
Qed.

Theorem trie_count (os : list (top V)) : Forall (@op_bytes V) os -> exists m L, b_run b_empty os m /\
  NoDup L /\ (forall x, In x L <-> x = [] \/ exists y, m y <> None /\ prefix x y) /\ t_sub_nodes (t_run os) = Z.of_nat (length L).
Proof.
  intros HB. destruct (run_wf HB) as (W & m & B & G). exists m, (paths (t_run os)). splits; [exact B|apply (paths_nd W)| |apply (sub_nodes_paths W)].
  intros x. rewrite (paths_in W). split; (intros [H|(y & H1 & H2)]; [now left|right; exists y; split; [|exact H2]]); [rewrite <- G|rewrite G]; exact H1.
Qed.

Theorem trie_crash_ins (os : list (tcop V)) : Forall (@c_bytes V) os -> Forall (@c_ins V) os -> exists m, c_run b_empty os m /\
  (forall k, (length k < 256)%nat -> t_lookup (t_crun os) k = Ok (m k)) /\
  (forall k v, byte_key k -> snd (t_insert (t_crun os) k v) = true <-> m k = None).
Proof.
  intros HB HI. destruct (crun_ins HB HI (m := b_empty) (@wf_node0 V false)) as (W & m & B & G); [intros [|b x]; reflexivity|]. exists m. splits; [exact B| |].
  - intros k Hk. unfold t_lookup, t_crun. rewrite (lookup_short Hk W) by lia. cbn [skipn]. now rewrite G.
  - intros k v Hk. unfold t_crun. destruct (t_insert (fold_left _ _ _) k v) as [n' r] eqn:E. destruct (insert_ok Hk W E) as (_ & _ & A & _). cbn [snd]. rewrite A, G. reflexivity.
Qed.

Theorem trie_crash_pf (os : list (tcop V)) : Forall (@c_bytes V) os -> prefix_free (map (@c_key V) os) -> exists m, c_run b_empty os m /\
  (forall k, (length k < 256)%nat -> t_lookup (t_crun os) k = Ok (m k)) /\
  (forall k, byte_key k -> snd (t_remove (t_crun os) k) = true <-> m k <> None).
Proof.
  intros HB PF. destruct (@crun_pf (map (@c_key V) os) os PF HB) with (n := @t_node0 V) (m := @b_empty V) as (W & m & B & G).
  - apply Forall_forall. intros o Ho. now apply in_map.
  - apply wf_node0.
  - intros x Hx. destruct Hx. reflexivity.
  - intros [|b x]; reflexivity.
  - exists m. splits; [exact B| |].
    + intros k Hk. unfold t_lookup, t_crun. rewrite (lookup_short Hk W) by lia. cbn [skipn]. now rewrite G.
    + intros k Hk. destruct (remove_gone Hk W) as (_ & _ & A). unfold t_crun. rewrite A, G. reflexivity.
Qed.

(** A cut that comes after the last transaction is the whole operation. *)
Theorem trie_cut_whole (n : tnode V) k v m : (length k < m)%nat ->
  t_insert_cut m n k v = fst (t_insert n k v) /\ fst (t_remove_cut m n k) = fst (t_remove n k).
Proof. intros H. split; [now apply cut_full|]. destruct (@remove_cut_full k n m H) as (m' & E & _). rewrite E. reflexivity. Qed.
End TrieMain.
