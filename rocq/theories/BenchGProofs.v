(** The benchmarks of get, scan and traverse. *)
From Coq Require Import Permutation.
From Verif Require Import Base ArrLemmas MapSpec SortedList SearchModel SearchProofs BTreeModel BTreeSpec BTreeLaws BTreeBranch BTreeGhost BTreeInsert BTreeHist SLeafModel SLeafProofs
  BenchModel BenchProofs BTreeMain BenchTProofs PropPBPTree PropPath BenchLSpec BenchLProofs BenchGModel.
Open Scope nat_scope.

Section Get.
Variables (V : Type) (N M : nat) (f : nat -> V).
Hypothesis HM : 2 <= M.
Notation O := (pbp_ops V M).
Notation lp := (bsearch_pos false).
Notation ent := (entries f).

Definition one_leaf (t : tree (sleaf V)) (l : sleaf V) : Prop := tdepth t = 0 /\ hl (th t) (troot t) = Some l.
Lemma step_done : forall t l l' k v, one_leaf t l -> sl_insert M lp l k v = Ok (LDone l') ->
  exists t', t_step N M O t (BInsert k v) = Ok t' /\ one_leaf t' l'.
Proof.
  intros t l l' k v [D E] I. cbn [t_step]. unfold t_insert. rewrite D. unfold insert_leaf, getl. rewrite E. cbn [of_opt bind lo_insert pbp_ops].
  rewrite I. cbn [bind]. eexists. split; [reflexivity|]. split; [reflexivity|]. cbn. unfold upd. rewrite Nat.eqb_refl. reflexivity.
Qed.
Notation ops := (map (fun j => BInsert (Z.of_nat j) (f j))).
Lemma run_app : forall (a b : list (bop V)) t, t_run N M O t (a ++ b) = do t' <- t_run N M O t a; t_run N M O t' b.
Proof. induction a as [|o a IH]; intros b t; [reflexivity|]. cbn. destruct (t_step N M O t o); cbn; [apply IH|reflexivity|reflexivity]. Qed.

Lemma run_append : forall k n a t l, one_leaf t l -> sl_rep M l (ent (seq a n)) -> n + k <= M ->
  exists t' l', t_run N M O t (ops (seq (a + n) k)) = Ok t' /\ one_leaf t' l' /\ sl_rep M l' (ent (seq a (n + k))).
Proof.
  induction k as [|k IH]; intros n a t l O1 R L.
  - exists t, l. rewrite Nat.add_0_r. split; [reflexivity|]. split; assumption.
  - destruct (@append_ok V M f HM l a n R ltac:(lia)) as (l1 & I & R1). destruct (step_done O1 I) as (t1 & ST & O2).
    destruct (IH (S n) a t1 l1 O2 R1 ltac:(lia)) as (t' & l' & T & O' & R'). exists t', l'.
    replace (n + Datatypes.S k) with (Datatypes.S n + k) by lia. split; [|split; assumption].
    cbn [seq map t_run]. rewrite ST. cbn [bind]. replace (Datatypes.S (a + n)) with (a + Datatypes.S n) by lia. exact T.
Qed.
(** The last key once more *)
Lemma again_ok : forall (l : sleaf V) a n, sl_rep M l (ent (seq a (S n))) ->
  exists l', sl_insert M lp l (Z.of_nat (a + n)) (f (a + n)) = Ok (LDone l') /\ sl_rep M l' (ent (seq a (S n))).
Proof.
  intros l a n R. pose proof (ent_seq_alt f HM n a) as A.
  assert (ES : ent (seq a (S n)) = ent (seq a n) ++ (Z.of_nat (a + n), f (a + n)) :: []).
  { rewrite seq_S, ent_app. reflexivity. }
  rewrite ES in *.
  assert (I : ins (Z.of_nat (a + n)) (f (a + n)) (ent (seq a n) ++ [(Z.of_nat (a + n), f (a + n))]) =
    ent (seq a n) ++ [(Z.of_nat (a + n), f (a + n))]) by (apply ins_old; exact A).
  pose proof R as (HS & Hn & _).
  assert (P : lp (sk l) (sn l) (Z.of_nat (a + n)) = Ok (length (ent (seq a n)))).
  { apply (@lpos_rep V M lp lp_ok l _ (ent (seq a n)) [(Z.of_nat (a + n), f (a + n))] _ R eq_refl A). constructor; [cbn; lia|constructor]. }
  destruct (@sl_insert_ok V M HM lp lp_ok l _ (Z.of_nat (a + n)) (f (a + n)) R) as [(l' & E & R')|(l1 & l2 & k & e1 & e2 & E & _)].
  - rewrite I in R'. exists l'. split; assumption.
  - exfalso. revert E. unfold sl_insert. rewrite P. cbn [bind].
    assert (LT : length (ent (seq a n)) < sn l) by (rewrite Hn, app_length; cbn; lia).
    destruct (Nat.ltb_spec (length (ent (seq a n))) (sn l)); [|lia].
    destruct (@sl_rep_key V M l _ _ _ _ _ R eq_refl) as [K _]. rewrite K. cbn [bind]. rewrite Z.eqb_refl.
    destruct (aset (sv l) _ _); cbn [bind]; discriminate.
Qed.
Lemma new_rep : sl_rep M (sl_new V M) (ent (seq 1 0)).
Proof.
  unfold sl_rep, sl_new. cbn. splits; try reflexivity; try lia; try (unfold anew; rewrite repeat_length; reflexivity).
  - constructor.
  - eexists. reflexivity.
  - eexists. reflexivity.
Qed.
Lemma leaf_keys : forall E s, s + (M + 1) / 2 <= E -> bg_leaf M E s = seq (S s) ((M + 1) / 2).
Proof.
  intros E s H. unfold bg_leaf. rewrite Nat.min_l by exact H. rewrite seq_shift. f_equal. lia.
Qed.
Lemma keys_eq : forall E, M <= E -> bg_keys M E = seq 1 ((M + 1) / 2) ++
  (if M mod 2 =? 0 then seq (1 + (M + 1) / 2) ((M + 1) / 2) else (1 + ((M + 1) / 2 - 1)) :: seq (1 + (M + 1) / 2) ((M + 1) / 2 - 1)).
Proof.
  intros E H. unfold bg_keys. destruct (Nat.eqb_spec (M mod 2) 0) as [E2|E2].
  - rewrite !leaf_keys by lia. reflexivity.
  - rewrite !leaf_keys by lia. f_equal. replace ((M + 1) / 2) with (S ((M + 1) / 2 - 1)) at 1 by lia. cbn [seq].
    replace (S ((M - 1) / 2)) with (1 + ((M + 1) / 2 - 1)) by lia.
    replace (S (1 + ((M + 1) / 2 - 1))) with (1 + (M + 1) / 2) by lia. reflexivity.
Qed.
Lemma get_tree : forall E, M <= E -> exists t l, bg_tree N M f (bg_keys M E) = Ok t /\ one_leaf t l /\ sl_rep M l (ent (seq 1 M)).
Proof.
  intros E H. unfold bg_tree. rewrite (keys_eq H), map_app, run_app.
  assert (O0 : one_leaf (t_new O) (sl_new V M)) by (split; reflexivity).
  destruct (@run_append ((M + 1) / 2) 0 1 _ _ O0 new_rep ltac:(lia)) as (t1 & l1 & T1 & O1 & R1).
  cbn [Nat.add] in T1. rewrite T1. cbn [bind]. cbn [Nat.add] in R1.
  destruct (Nat.eqb_spec (M mod 2) 0) as [E2|E2].
  - destruct (@run_append ((M + 1) / 2) ((M + 1) / 2) 1 _ _ O1 R1 ltac:(lia)) as (t2 & l2 & T2 & O2 & R2).
    exists t2, l2. split; [exact T2|]. split; [exact O2|]. replace M with ((M + 1) / 2 + (M + 1) / 2) at 2 by lia. exact R2.
  - replace ((M + 1) / 2) with (S ((M + 1) / 2 - 1)) in R1 by lia. destruct (again_ok R1) as (l2 & I & R2).
    destruct (step_done O1 I) as (t2 & S2 & O2). replace (S ((M + 1) / 2 - 1)) with ((M + 1) / 2) in R2 by lia.
    destruct (@run_append ((M + 1) / 2 - 1) ((M + 1) / 2) 1 _ _ O2 R2 ltac:(lia)) as (t3 & l3 & T3 & O3 & R3).
    exists t3, l3. split; [|split; [exact O3|]].
    + cbn [map t_run]. rewrite S2. cbn [bind]. exact T3.
    + replace M with ((M + 1) / 2 + ((M + 1) / 2 - 1)) at 2 by lia. exact R3.
Qed.
Lemma get_pos : forall (l : sleaf V) k, sl_rep M l (ent (seq 1 M)) -> 1 <= k <= M -> bg_get l k = Ok (k - 1).
Proof.
  intros l k R K. unfold bg_get.
  assert (S : seq 1 M = seq 1 (k - 1) ++ seq k (M - (k - 1))).
  { replace M with (k - 1 + (M - (k - 1))) at 1 by lia. rewrite seq_app. replace (1 + (k - 1)) with k by lia. reflexivity. }
  rewrite S, ent_app in R. pose proof (ent_seq_alt f HM (k - 1) 1) as A. replace (1 + (k - 1)) with k in A by lia.
  rewrite (@lpos_rep V M lp lp_ok l _ _ _ (Z.of_nat k) R eq_refl A); [rewrite ent_len, seq_length; reflexivity|].
  rewrite ent_keys. apply Forall_forall. intros x X. apply in_map_iff in X. destruct X as (y & <- & Y). apply in_seq in Y. lia.
Qed.
Lemma get_bench : forall E, M <= E -> exists t l, bg_tree N M f (bg_keys M E) = Ok t /\ bg_root t = Ok l /\
  holds l (ent (seq 1 M)) /\ forall k, 1 <= k <= M -> bg_get l k = Ok (k - 1).
Proof.
  intros E H. destruct (get_tree H) as (t & l & T & (D & HL) & R). exists t, l. split; [exact T|]. split; [|split].
  - unfold bg_root. rewrite D, HL. reflexivity.
  - exact (rep_holds R).
  - intros k K. exact (get_pos R K).
Qed.
End Get.

(** ** Scan *)
Lemma sorted_same : forall V (a b : list (Z * V)), StronglySorted Z.lt (map fst a) -> StronglySorted Z.lt (map fst b) ->
  (forall x, In x a <-> In x b) -> a = b.
Proof.
  intros V. induction a as [|x a IH]; intros b SA SB I.
  - destruct b as [|y b]; [reflexivity|]. exfalso. apply (proj2 (I y)). left. reflexivity.
  - destruct b as [|y b]; [exfalso; apply (proj1 (I x)); left; reflexivity|]. cbn [map] in SA, SB.
    apply StronglySorted_inv in SA, SB. destruct SA as [SA FA], SB as [SB FB]. rewrite Forall_forall in FA, FB.
    assert (GA : forall z, In z a -> (fst x < fst z)%Z) by (intros z Z; apply FA, in_map, Z).
    assert (GB : forall z, In z b -> (fst y < fst z)%Z) by (intros z Z; apply FB, in_map, Z).
    assert (x = y).
    { destruct (proj1 (I x) (or_introl eq_refl)) as [|X]; [congruence|]. destruct (proj2 (I y) (or_introl eq_refl)) as [|Y]; [congruence|].
      specialize (GA _ Y). specialize (GB _ X). lia. }
    subst y. f_equal. apply IH; [exact SA|exact SB|]. intros z. split; intros Z.
    + destruct (proj1 (I z) (or_intror Z)) as [<-|]; [specialize (GA _ Z); lia|assumption].
    + destruct (proj2 (I z) (or_intror Z)) as [<-|]; [specialize (GB _ Z); lia|assumption].
Qed.
Lemma bop_fill : forall V (f : nat -> V) l, map bop_of (fill_ops f l) = map (fun j => BInsert (Z.of_nat j) (f j)) l.
Proof. intros. unfold fill_ops. rewrite map_map. reflexivity. Qed.
Lemma scan_bench : forall V N M td (f : nat -> V), 2 <= M -> 3 <= N -> exists l t, bench_insert M N td = Ok l /\
  bg_tree N M f l = Ok t /\ t_scan (pbp_ops V M) t = Ok (entries f (seq 1 (M * (N + 1) ^ td))).
Proof.
  intros V N M td f HM HN. destruct (@fill_total_cover M N td ltac:(lia)) as (l & E & C). exists l.
  destruct (@C05_pbptree_path_partial V N M (fill_ops f l) 0%Z 0%Z HM HN (fill_hist f l m_empty) (fill_path N M _ f l _))
    as (t & out & rng & R & _ & SC & (LS & LI) & _).
  exists t. split; [exact E|]. split; [unfold bg_tree; rewrite <- bop_fill; exact R|]. rewrite SC. f_equal.
  apply sorted_same; [exact LS| |].
  - pose proof (@ent_seq_sorted V M f HM (M * (N + 1) ^ td) 1) as S. exact S.
  - intros (k, v). rewrite LI. unfold m_run. rewrite fill_run. change (@m_empty V k) with (@None V). unfold entries. rewrite in_map_iff.
    destruct (existsb (fun x => (Z.of_nat x =? k)%Z) l) eqn:X.
    + apply existsb_exists in X. destruct X as (x & X & K). apply Z.eqb_eq in K. subst k. rewrite Nat2Z.id. split.
      * intros H. injection H as <-. exists x. split; [reflexivity|]. apply C in X. unfold elements, range in X. apply in_seq. lia.
      * intros (y & H & _). injection H as H <-. apply Nat2Z.inj in H. subst y. reflexivity.
    + split; [discriminate|]. intros (y & H & Y). exfalso. injection H as <- <-. apply in_seq in Y.
      assert (existsb (fun x => (Z.of_nat x =? Z.of_nat y)%Z) l = true); [|congruence]. apply existsb_exists. exists y.
      split; [|apply Z.eqb_eq; reflexivity]. apply C. unfold elements, range. lia.
Qed.
Lemma last_ent : forall V (f : nat -> V) n, fold_left (fun (_ : option Z) kv => Some (fst kv)) (entries f (seq 1 (S n))) None = Some (Z.of_nat (S n)).
Proof. intros V f n. rewrite seq_S. unfold entries. rewrite map_app, fold_left_app. reflexivity. Qed.
Lemma scan_last : forall V N M td (f : nat -> V), 2 <= M -> 3 <= N -> exists l t, bench_insert M N td = Ok l /\
  bg_tree N M f l = Ok t /\ bg_scan M t = Ok (Some (Z.of_nat (M * (N + 1) ^ td))).
Proof.
  intros V N M td f HM HN. destruct (@scan_bench V N M td f HM HN) as (l & t & A & B & C). exists l, t.
  split; [exact A|]. split; [exact B|]. unfold bg_scan. rewrite C. cbn [bind]. do 2 f_equal.
  pose proof (@pow_mono1 N td). destruct (M * (N + 1) ^ td) as [|n] eqn:E; [nia|]. apply last_ent.
Qed.

(** ** Traverse *)
Fixpoint levels_of (F n D : nat) : list (list nat) :=
  match D with 0 => [] | S D' => seq (F + D' * n) n :: levels_of F n D' end.
Lemma levels_len : forall F n D, length (levels_of F n D) = D.
Proof. induction D as [|D IH]; cbn; [reflexivity|]. rewrite IH. reflexivity. Qed.
Lemma levels_n : forall F n D l, In l (levels_of F n D) -> length l = n.
Proof. induction D as [|D IH]; cbn; intros l []; [subst l; apply seq_length|apply IH; assumption]. Qed.
Lemma levels_perm : forall F n D, Permutation (concat (levels_of F n D)) (seq F (D * n)).
Proof.
  induction D as [|D IH]; [constructor|]. cbn [levels_of concat]. rewrite Permutation_app_comm, IH.
  replace (S D * n) with (D * n + n) by lia. rewrite seq_app. apply Permutation_refl.
Qed.
Lemma seq_nth_error : forall n a q, q < n -> nth_error (seq a n) q = Some (a + q).
Proof. intros n a q H. rewrite (nth_error_nth' _ 0) by (rewrite seq_length; exact H). rewrite seq_nth by exact H. reflexivity. Qed.

Section Traverse.
Variables (V : Type) (N : nat) (root : nat) (b : branch) (x : option nat) (cs : list (option nat)).
Hypothesis BC : bc b = x :: cs.
Definition copy_of (below : option (list nat)) (j : nat) : option branch :=
  match below with
  | None => Some b
  | Some l => match nth_error l j with Some c => Some (Branch (bn b) (bk b) (Some c :: cs)) | None => None end
  end.
Lemma level_ok : forall n j below (h : heap (sleaf V)), hb h root = Some b -> root < hfresh h ->
  (forall l, below = Some l -> j + n <= length l) ->
  exists h', bv_level N h root below j n = Ok (h', seq (hfresh h) n) /\ hfresh h' = hfresh h + n /\ hl h' = hl h /\
    hnx h' = hnx h /\ hpv h' = hpv h /\ (forall i, i < hfresh h -> hb h' i = hb h i) /\
    (forall q, q < n -> hb h' (hfresh h + q) = copy_of below (j + q)).
Proof.
  induction n as [|n IH]; intros j below h HR LT LB.
  - exists h. cbn. splits; try reflexivity; try lia.
  - cbn [bv_level new_branch]. cbn [hb]. unfold upd at 1. destruct (Nat.eqb_spec root (hfresh h)) as [|NE]; [lia|]. rewrite HR. cbn [of_opt bind].
    set (h1 := Heap (hl h) (upd (hb h) (hfresh h) (Some (empty_branch N))) (hnx h) (hpv h) (S (hfresh h))).
    assert (C : exists b', copy_of below j = Some b' /\
      (match below with None => Ok b | Some l => do c <- of_opt (nth_error l j); do cs0 <- aset (bc b) 0 c; Ok (Branch (bn b) (bk b) cs0) end) = Ok b').
    { unfold copy_of. destruct below as [l|]; [|eexists; split; reflexivity]. specialize (LB l eq_refl).
      destruct (nth_error l j) as [c|] eqn:E; [|apply nth_error_None in E; lia]. cbn [of_opt bind]. rewrite BC. eexists. split; reflexivity. }
    destruct C as (b' & C1 & C2). rewrite C2. cbn [bind].
    destruct (IH (S j) below (set_branch h1 (hfresh h) b')) as (h' & E & F & A1 & A2 & A3 & B1 & B2).
    { cbn. unfold upd. destruct (Nat.eqb_spec root (hfresh h)); [lia|exact HR]. }
    { cbn. lia. }
    { intros l E. specialize (LB l E). lia. }
    rewrite E. cbn [bind fst snd]. exists h'. cbn [hfresh set_branch h1 hl hnx hpv] in *. splits.
    + reflexivity.
    + lia.
    + exact A1.
    + exact A2.
    + exact A3.
    + intros i I. rewrite B1 by lia. cbn [hb set_branch h1]. unfold upd. destruct (Nat.eqb_spec i (hfresh h)); [lia|reflexivity].
    + intros [|q] Q.
      * rewrite !Nat.add_0_r. rewrite B1 by lia. cbn [hb set_branch]. unfold upd at 1. rewrite Nat.eqb_refl. symmetry. exact C1.
      * replace (hfresh h + S q) with (S (hfresh h) + q) by lia. rewrite B2 by lia. f_equal. lia.
Qed.
Definition node_of (F n d pos : nat) : branch :=
  match d with 0 => b | S e => Branch (bn b) (bk b) (Some (F + e * n + pos) :: cs) end.
Lemma levels_ok : forall F n m d (h : heap (sleaf V)), hb h root = Some b -> root < F -> hfresh h = F + d * n ->
  (forall e pos, e < d -> pos < n -> hb h (F + e * n + pos) = Some (node_of F n e pos)) ->
  exists h', bv_levels N h root n m (levels_of F n d) = Ok (h', levels_of F n (m + d)) /\ hl h' = hl h /\ hnx h' = hnx h /\ hpv h' = hpv h /\
    (forall i, i < hfresh h -> hb h' i = hb h i) /\
    (forall e pos, e < m + d -> pos < n -> hb h' (F + e * n + pos) = Some (node_of F n e pos)).
Proof.
  intros F n. induction m as [|m IH]; intros d h HR LT FR HN.
  - exists h. cbn. splits; try reflexivity. exact HN.
  - cbn [bv_levels].
    destruct (@level_ok n 0 (hd_error (levels_of F n d)) h HR ltac:(nia)) as (h1 & E & F1 & A1 & A2 & A3 & B1 & B2).
    { intros l E. assert (In l (levels_of F n d)) as I by (destruct (levels_of F n d); [discriminate|injection E as <-; left; reflexivity]).
      rewrite (@levels_n _ _ _ _ I). lia. }
    rewrite E. cbn [bind fst snd].
    destruct (IH (S d) h1) as (h' & E' & C1 & C2 & C3 & D1 & D2).
    { rewrite B1 by nia. exact HR. }
    { exact LT. }
    { rewrite F1, FR. lia. }
    { intros e pos He Hp. destruct (Nat.eq_dec e d) as [->|NE].
      - rewrite FR in B2. rewrite (B2 pos Hp). destruct d as [|d']; [reflexivity|]. cbn [levels_of hd_error copy_of].
        cbn [Nat.add]. rewrite (@seq_nth_error n _ pos Hp). reflexivity.
      - assert (S e * n <= d * n) by (apply Nat.mul_le_mono_r; lia). rewrite B1 by nia. apply HN; [lia|exact Hp]. }
    rewrite FR. cbn [levels_of] in E'. rewrite E'. exists h'. replace (S m + d) with (m + S d) by lia. splits.
    + reflexivity.
    + congruence.
    + congruence.
    + congruence.
    + intros i I. rewrite D1 by lia. apply B1. lia.
    + exact D2.
Qed.
Lemma walk_ok : forall F n (h : heap (sleaf V)) d pos, pos < n ->
  (forall e, e <= d -> hb h (F + e * n + pos) = Some (node_of F n e pos)) ->
  bv_walk h (S d) (F + d * n + pos) = Ok (map (fun l => nth pos l 0) (levels_of F n (S d))).
Proof.
  intros F n h d pos P. induction d as [|d IH]; intros H.
  - cbn [bv_walk]. rewrite (H 0 ltac:(lia)). cbn [of_opt bind levels_of map]. rewrite seq_nth by exact P. reflexivity.
  - cbn [bv_walk]. rewrite (H (S d) ltac:(lia)). cbn [of_opt bind]. cbn [node_of bc].
    change (aget (Some (F + d * n + pos) :: cs) 0) with (Ok (F + d * n + pos)). cbn [bind].
    cbn [bv_walk] in IH. rewrite IH by (intros e E; apply H; lia). cbn [bind].
    cbn [levels_of map]. rewrite !seq_nth by exact P. reflexivity.
Qed.
End Traverse.

Lemma traverse_bench : forall V N (h : heap (sleaf V)) root b n D, hb h root = Some b -> root < hfresh h -> bc b <> [] -> 1 <= D ->
  exists h' levels, bv_levels N h root n D [] = Ok (h', levels) /\ length levels = D /\ (forall l, In l levels -> length l = n) /\
    NoDup (concat levels) /\ (forall i, In i (concat levels) -> hfresh h <= i) /\
    hl h' = hl h /\ hnx h' = hnx h /\ hpv h' = hpv h /\ (forall i, i < hfresh h -> hb h' i = hb h i) /\
    (forall i, In i (concat levels) -> exists b', hb h' i = Some b' /\ bn b' = bn b /\ bk b' = bk b /\
       forall c, 1 <= c -> nth_error (bc b') c = nth_error (bc b) c) /\
    (forall pos, pos < n -> bv_walk h' D (nth pos (hd [] levels) 0) = Ok (map (fun l => nth pos l 0) levels)).
Proof.
  intros V N h root b n D HR LT NE HD. destruct (bc b) as [|x cs] eqn:BC; [contradiction|].
  destruct (@levels_ok V N root b x cs BC (hfresh h) n D 0 h HR LT ltac:(lia) ltac:(lia)) as (h' & E & A1 & A2 & A3 & B & C).
  rewrite Nat.add_0_r in *. exists h', (levels_of (hfresh h) n D).
  assert (IN : forall i, In i (concat (levels_of (hfresh h) n D)) -> hfresh h <= i < hfresh h + D * n).
  { intros i I. apply (Permutation_in _ (levels_perm (hfresh h) n D)) in I. apply in_seq in I. exact I. }
  split; [exact E|]. split; [apply levels_len|]. split; [intros l; apply levels_n|].
  split. { eapply Permutation_NoDup; [apply Permutation_sym, levels_perm|apply seq_NoDup]. }
  split. { intros i I. apply IN in I. lia. }
  split; [exact A1|]. split; [exact A2|]. split; [exact A3|]. split; [exact B|]. split.
  - intros i I. apply IN in I. assert (n <> 0) by nia.
    set (k := i - hfresh h). pose proof (Nat.div_mod k n ltac:(assumption)) as DM. pose proof (Nat.mod_upper_bound k n ltac:(assumption)) as MB.
    assert (KD : k / n < D) by (apply Nat.div_lt_upper_bound; [assumption|unfold k; lia]).
    exists (node_of b cs (hfresh h) n (k / n) (k mod n)). split.
    { rewrite <- C by assumption. f_equal. unfold k in *. lia. }
    destruct (k / n); cbn [node_of bn bk bc]; (split; [reflexivity|]); (split; [reflexivity|]); intros c HC.
    + rewrite BC. reflexivity.
    + destruct c; [lia|reflexivity].
  - intros pos P. destruct D as [|d]; [lia|]. cbn [levels_of hd]. rewrite seq_nth by exact P.
    apply (@walk_ok V b cs (hfresh h) n h' d pos P). intros e He. apply C; [lia|exact P].
Qed.

(** The root of the tree that insert(tree, 1) builds is a branch node. *)
Lemma traverse_tree : forall V N M (f : nat -> V), 2 <= M -> 3 <= N -> exists l t b, bench_insert M N 1 = Ok l /\
  bg_tree N M f l = Ok t /\ 1 <= tdepth t /\ hb (th t) (troot t) = Some b /\ troot t < hfresh (th t) /\ bc b <> [].
Proof.
  intros V N M f HM HN. destruct (@bench_tree V N M 1 f HM HN) as (l & t & E & R & _ & D & _). exists l, t.
  destruct (@hist_insert_new _ V N M (pbp_ops V M) (sl_rep M) (M / 2) 0 (fun _ => True) (pbp_laws V HM) ltac:(lia) ltac:(lia) (fill_ops f l))
    as (t' & es & R' & (g & G1 & G2 & G3 & _) & _).
  { apply Forall_forall. intros o I. apply in_map_iff in I. destruct I as (j & <- & _). exact I. }
  rewrite R in R'. injection R' as <-. unfold bg_tree. rewrite <- bop_fill.
  destruct g as [i e|i ks cs].
  - exfalso. destruct (tdepth t); [lia|]. cbn in G2. contradiction.
  - cbn [gid] in G1. pose proof (inv_b G3) as B. rewrite nds_GB in B. inversion B as [|? ? (b & HB & BR) _]; subst. cbn [fst snd] in *.
    exists b. split; [exact E|]. split; [exact R|]. split; [exact D|]. split; [exact HB|]. split.
    + apply (inv_ltb G3). rewrite bids_GB. left. reflexivity.
    + destruct BR as (_ & _ & LC & _). intros Z. rewrite Z in LC. discriminate.
Qed.
