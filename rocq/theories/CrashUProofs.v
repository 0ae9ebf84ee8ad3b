(** Splits of leaves of UnsortedPBPTree under failures. *)
From Verif Require Import Base RankModel BitmapModel BitmapProofs BTreeModel SearchModel SLeafModel ULeafModel FLeafModel SlotLemmas FLeafProofs
  BTreeGhost CrashModel CrashSpec CrashProofs CrashEProofs CrashSModel CrashSSpec CrashSProofs CrashTProofs.
Open Scope nat_scope.

Section U.
Variables (V : Type) (t : ktype) (M : nat).
Notation SX := (@sx_exec V).

Lemma deal_exec s : forall n keys i (node sib : sleaf V) c d nn ns node' sib', length keys = n ->
  (forall m k, nth_error keys m = Some k -> aget (sk node) (i + m) = Ok k) -> sn node <= i ->
  for_up i n (ul_split_step s) (node, sib) = Ok (node', sib') ->
  SX (SState (SLeaf c (sk node) (sv node)) (SLeaf d (sk sib) (sv sib)) nn ns) (deal V keys s i (sn node) (sn sib)) = Ok (SState node' sib' nn ns).
Proof.
  induction n as [|n IH]; intros keys i node sib c d nn ns node' sib' L HK Hn E; destruct keys as [|k0 r]; try discriminate.
  - cbn [for_up] in E. injection E as <- <-. unfold sx_exec. cbn [deal x_exec x_step snode ssib nnext snext s_step bind sn sk sv]. now destruct node, sib.
  - cbn [length] in L. cbn [for_up] in E. unfold ul_split_step in E at 1. pose proof (HK 0 k0 eq_refl) as E0. rewrite Nat.add_0_r in E0.
    rewrite E0 in E. cbn [bind] in E. destruct (aget (sv node) i) as [v| |] eqn:Ev; try discriminate. cbn [bind] in E. cbn [deal].
    assert (HK' : forall m k, nth_error r m = Some k -> aget (sk node) (S i + m) = Ok k).
    { intros m k H. rewrite <- (HK (S m) k H). now rewrite <- plus_n_Sm. }
    destruct (k0 >=? s)%Z; unfold ul_append in E.
    + destruct (aset (sk sib) (sn sib) k0) as [ks| |] eqn:EK; try discriminate. cbn [bind] in E.
      destruct (aset (sv sib) (sn sib) v) as [vs| |] eqn:EV; try discriminate. cbn [bind] in E.
      unfold sx_exec. cbn [x_exec x_step snode ssib nnext snext sn sk sv]. rewrite E0. cbn [bind s_step sn sk sv]. rewrite EK. cbn [bind snode ssib nnext snext sn sk sv].
      rewrite Ev. cbn [bind s_step sn sk sv]. rewrite EV. cbn [bind].
      exact (IH r (S i) node (SLeaf (S (sn sib)) ks vs) c d nn ns node' sib' ltac:(lia) HK' ltac:(lia) E).
    + destruct (aset (sk node) (sn node) k0) as [ks| |] eqn:EK; try discriminate. cbn [bind] in E.
      destruct (aset (sv node) (sn node) v) as [vs| |] eqn:EV; try discriminate. cbn [bind] in E.
      unfold sx_exec. cbn [x_exec x_step snode ssib nnext snext s_step sn sk sv]. rewrite E0. cbn [bind]. rewrite EK. cbn [bind snode ssib nnext snext s_step sn sk sv].
      rewrite Ev. cbn [bind]. rewrite EV. cbn [bind].
      apply (IH r (S i) (SLeaf (S (sn node)) ks vs) sib c d nn ns node' sib' ltac:(lia)); cbn [sn sk sv]; auto; [|lia].
      intros m k H. rewrite (aget_aset _ EK). destruct (Nat.eqb_spec (S i + m) (sn node)); [lia|]. now apply HK'.
Qed.
Lemma u_split_exec (l : sleaf V) hasNext p a b s : ul_split_stores t M l hasNext = Ok p -> ul_split t M l = Ok (a, b, s) ->
  exists st, SX (x_init l (sl_new V M) hasNext) p = Ok st /\ snode st = a /\ ssib st = b /\ nnext st = Some Sib.
Proof.
  intros Ep Es. unfold ul_split_stores in Ep. unfold ul_split in Es.
  destruct (read_all M 0 (sk l)) as [data| |] eqn:ED; try discriminate. cbn [bind] in *.
  destruct (findSplitKey t data) as [[bs sp]| |]; try discriminate. cbn [bind snd] in *.
  destruct (aget (sk l) sp) as [s0| |]; try discriminate. cbn [bind] in *. injection Ep as <-.
  destruct (for_up 0 M (ul_split_step s0) (SLeaf 0 (sk l) (sv l), sl_new V M)) as [[x y]| |] eqn:EF; try discriminate. cbn [bind fst snd] in Es. injection Es as <- <- <-.
  destruct (read_all_nth ED) as (LD & HD).
  pose proof (@deal_exec s0 M data 0 (SLeaf 0 (sk l) (sv l)) (sl_new V M) (sn l) 0 (if hasNext then Some Rest else None) None x y LD HD (le_n _) EF) as X.
  cbn [sn sk sv sl_new] in X. unfold sx_exec in *. rewrite x_exec_app. unfold x_init. destruct l as [n0 k0 v0]. cbn [sn sk sv] in X.
  unfold sl_new. rewrite X. cbn [bind].
  destruct (@link_all V (sleaf V) (@s_step V) (fun l => aget (sk l)) (fun l => aget (sv l)) (fun _ _ => UB) hasNext
    (SState x y (if hasNext then Some Rest else None) None)) as (st & E & A & B & C & _). exists st. auto.
Qed.

(** Every entry stays in a counted cell of the node or in some cell of the sibling. *)
Definition survives (l : sleaf V) (st : sstate (sleaf V)) : Prop := forall x, x < M ->
  (exists y, y < sn (snode st) /\ cells (snode st) y = cells l x) \/ (exists y, cells (ssib st) y = cells l x).
Lemma cells_eq (a b : sleaf V) x y : aget (sk a) x = aget (sk b) y -> aget (sv a) x = aget (sv b) y -> cells a x = cells b y.
Proof. unfold cells. intros -> ->. reflexivity. Qed.

Lemma deal_prefix (l : sleaf V) sp : (forall x, x < M -> exists k v, aget (sk l) x = Ok k /\ aget (sv l) x = Ok v) ->
  forall keys i n s (st : sstate (sleaf V)),
  length (sk (snode st)) = M -> length (sv (snode st)) = M -> length (sk (ssib st)) = M -> length (sv (ssib st)) = M ->
  sn (snode st) = M -> i + length keys = M -> n + s = i ->
  (forall x, i <= x -> x < M -> aget (sk (snode st)) x = aget (sk l) x /\ aget (sv (snode st)) x = aget (sv l) x) ->
  (forall x, x < i -> (exists y, y < n /\ cells (snode st) y = cells l x) \/ (exists y, y < s /\ cells (ssib st) y = cells l x)) ->
  forall q, exists st', SX st (firstn q (deal V keys sp i n s)) = Ok st' /\ nnext st' = nnext st /\ snext st' = snext st /\ survives l st'.
Proof.
  intros HF. induction keys as [|k0 r IH]; intros i n s st L1 L2 L3 L4 HN HI HS HR HC q; cbn [deal].
  - cbn [length] in HI.
    assert (S0 : survives l st).
    { intros x Hx. destruct (HC x) as [(y & Hy & E)|(y & Hy & E)]; [lia| |]; [left|right]; exists y; auto. split; [lia|auto]. }
    assert (S1 : survives l (SState (SLeaf n (sk (snode st)) (sv (snode st))) (ssib st) (nnext st) (snext st))).
    { intros x Hx. cbn [snode ssib sn]. destruct (HC x) as [(y & Hy & E)|(y & Hy & E)]; [lia| |]; [left|right]; exists y; auto. }
    unfold sx_exec. destruct q as [|[|q]]; cbn [firstn x_exec x_step snode ssib nnext snext s_step bind].
    + exists st. auto.
    + eexists. split; [reflexivity|]. auto.
    + rewrite firstn_nil. cbn [x_exec]. eexists. split; [reflexivity|]. auto.
  - cbn [length] in HI. destruct (HF i) as (k & v & Ek & Ev); [lia|]. destruct (HR i) as (Rk & Rv); [lia|lia|].
    assert (S0 : survives l st).
    { intros x Hx. destruct (Nat.lt_ge_cases x i) as [H|H].
      - destruct (HC x H) as [(y & Hy & E)|(y & Hy & E)]; [left|right]; exists y; auto. split; [lia|auto].
      - left. exists x. split; [lia|]. destruct (HR x H Hx). now apply cells_eq. }
    destruct q as [|q]; [exists st; cbn [firstn]; unfold sx_exec; cbn [x_exec]; auto|].
    destruct (k0 >=? sp)%Z; unfold sx_exec; cbn [firstn x_exec x_step].
    + destruct (@aset_ok _ (sk (ssib st)) s k) as (ks & EK); [lia|]. destruct (@aset_ok _ (sv (ssib st)) s v) as (vs & EV); [lia|].
      rewrite Rk, Ek. cbn [bind s_step]. rewrite EK. cbn [bind].
      destruct q as [|q].
      { cbn [firstn x_exec]. eexists. split; [reflexivity|]. splits; auto. intros x Hx. cbn [snode ssib].
        destruct (Nat.lt_ge_cases x i) as [H|H].
        - destruct (HC x H) as [(y & Hy & E)|(y & Hy & E)]; [left; exists y; split; [lia|auto]|right; exists y]. rewrite <- E. apply cells_eq; cbn [sk sv]; auto.
          rewrite (aget_aset y EK). destruct (Nat.eqb_spec y s); [lia|auto].
        - left. exists x. split; [lia|]. destruct (HR x H Hx). now apply cells_eq. }
      cbn [firstn x_exec x_step snode ssib nnext snext]. rewrite Rv, Ev. cbn [bind s_step sn sk sv]. rewrite EV. cbn [bind].
      destruct (IH (S i) n (S s) (SState (snode st) (SLeaf (sn (ssib st)) ks vs) (nnext st) (snext st))) with (q := q) as (st' & E & R); cbn [snode ssib sk sv nnext snext];
        auto; try lia; try (now rewrite (aset_length EK)); try (now rewrite (aset_length EV)).
      * intros x H1 H2. apply HR; lia.
      * intros x Hx. destruct (Nat.eq_dec x i) as [Exi|].
        -- right. exists s. split; [lia|]. subst x. apply cells_eq; cbn [sk sv]; [rewrite (aget_aset s EK)|rewrite (aget_aset s EV)]; rewrite Nat.eqb_refl; auto.
        -- destruct (HC x) as [H|(y & Hy & E)]; [lia|auto|]. right. exists y. split; [lia|]. rewrite <- E.
           apply cells_eq; cbn [sk sv]; [rewrite (aget_aset y EK)|rewrite (aget_aset y EV)]; destruct (Nat.eqb_spec y s); auto; lia.
      * exists st'. split; [exact E|]. exact R.
    + destruct (@aset_ok _ (sk (snode st)) n k) as (ks & EK); [lia|]. destruct (@aset_ok _ (sv (snode st)) n v) as (vs & EV); [lia|].
      cbn [s_step]. rewrite Rk, Ek. cbn [bind]. rewrite EK. cbn [bind].
      destruct q as [|q].
      { cbn [firstn x_exec]. eexists. split; [reflexivity|]. splits; auto. intros x Hx. cbn [snode ssib sn].
        destruct (Nat.lt_ge_cases x i) as [H|H].
        - destruct (HC x H) as [(y & Hy & E)|(y & Hy & E)]; [left; exists y; split; [lia|]|right; exists y; auto]. rewrite <- E. apply cells_eq; cbn [sk sv]; auto.
          rewrite (aget_aset y EK). destruct (Nat.eqb_spec y n); [lia|auto].
        - left. exists x. split; [lia|]. destruct (HR x H Hx). apply cells_eq; cbn [sk sv]; auto.
          rewrite (aget_aset x EK). destruct (Nat.eqb_spec x n); [|auto]. assert (Exi : x = i) by lia. rewrite Exi. auto. }
      cbn [firstn x_exec x_step snode ssib nnext snext s_step sn sk sv]. rewrite Rv, Ev. cbn [bind]. rewrite EV. cbn [bind].
      destruct (IH (S i) (S n) s (SState (SLeaf (sn (snode st)) ks vs) (ssib st) (nnext st) (snext st))) with (q := q) as (st' & E & R); cbn [snode ssib sk sv sn nnext snext];
        auto; try lia; try (now rewrite (aset_length EK)); try (now rewrite (aset_length EV)).
      * intros x H1 H2. rewrite (aget_aset x EK), (aget_aset x EV). destruct (Nat.eqb_spec x n); [lia|]. apply HR; lia.
      * intros x Hx. destruct (Nat.eq_dec x i) as [Exi|].
        -- left. exists n. split; [lia|]. subst x. apply cells_eq; cbn [sk sv]; [rewrite (aget_aset n EK)|rewrite (aget_aset n EV)]; rewrite Nat.eqb_refl; auto.
        -- destruct (HC x) as [(y & Hy & E)|H]; [lia| |auto]. left. exists y. split; [lia|]. rewrite <- E.
           apply cells_eq; cbn [sk sv]; [rewrite (aget_aset y EK)|rewrite (aget_aset y EV)]; destruct (Nat.eqb_spec y n); auto; lia.
      * exists st'. split; [exact E|]. exact R.
Qed.

Lemma u_split_prefix (l : sleaf V) hasNext p : c_wf M l -> sn l = M -> ul_split_stores t M l hasNext = Ok p -> forall n, exists st,
  SX (x_init l (sl_new V M) hasNext) (firstn n p) = Ok st /\ (hasNext = true -> rest_listed st) /\
  forall k v, has (s_slots l) k v -> has (s_slots (snode st)) k v \/ has (cells (ssib st)) k v.
Proof.
  intros (_ & LK & LV & HF & _) HN E n. unfold ul_split_stores in E.
  destruct (read_all M 0 (sk l)) as [data| |] eqn:ED; try discriminate. cbn [bind] in E.
  destruct (findSplitKey t data) as [[bs sp]| |]; try discriminate. cbn [bind snd] in E.
  destruct (aget (sk l) sp) as [s| |]; try discriminate. cbn [bind] in E. injection E as <-.
  destruct (read_all_nth ED) as (LD & HD).
  destruct (@deal_prefix l s) with (keys := data) (i := 0) (n := 0) (s := 0) (st := x_init l (sl_new V M) hasNext) (q := n) as (st1 & E1 & N1 & N2 & S1);
    unfold x_init, sl_new; cbn [snode ssib sk sv sn nnext snext]; auto; try lia; try (unfold anew; apply repeat_length).
  { intros x Hx. apply HF. lia. }
  unfold x_init in N1, N2. cbn [nnext snext] in N1, N2.
  rewrite firstn_app. unfold sx_exec in *. rewrite x_exec_app. unfold x_init, sl_new in E1. rewrite E1. cbn [bind].
  destruct (@link_prefix V (sleaf V) (@s_step V) (fun l => aget (sk l)) (fun l => aget (sv l)) (fun _ _ => UB) hasNext st1 (n - length (deal V data s 0 0 0)) N1 N2)
    as (st & E & SN & SB & _ & _ & RL).
  exists st. split; [exact E|]. split; [exact RL|]. rewrite SN, SB. intros k v (x & Hx). pose proof (s_slots_live Hx) as (Lx & Ek & Ev).
  assert (C : cells l x = Some (k, v)) by (unfold cells; now rewrite Ek, Ev).
  destruct (S1 x) as [(y & Hy & Ey)|(y & Ey)]; [lia| |]; rewrite C in Ey.
  - left. exists y. unfold s_slots. destruct (Nat.ltb_spec y (sn (snode st1))); [exact Ey|lia].
  - right. exists y. exact Ey.
Qed.
End U.

(** * Bitmap leaves *)
Lemma split_stores_some {V} t junk M fpt (l : fleaf V) hasNext r : fl_split t junk M l = Ok r -> exists p, fl_split_stores t M fpt l hasNext = Ok p.
Proof.
  unfold fl_split, fl_split_stores. destruct (read_all M 0 (fk l)); try discriminate. cbn [bind].
  destruct (findSplitKey t a) as [x| |]; try discriminate. cbn [bind]. destruct (aget (fk l) (snd x)); try discriminate. cbn [bind]. eauto.
Qed.
Lemma full_bits {V} t fp junk M (l : fleaf V) : f_reach t fp junk M l -> full M l -> forall i, i < M -> bit (fb l) i = true.
Proof.
  intros R F i Hi. pose proof (f_reach_wf R) as ((HL & _) & _). specialize (F i Hi).
  rewrite bm_test_ok in F by (auto; apply HL). now injection F.
Qed.
(** BitPBPTree: the leaves are those of FLeafModel with constant fingerprints (as in BitTreeModel). *)
Lemma zero_fps {V} t M (l : fleaf V) : f_reach t (fun _ => 0%Z) (fun _ => 0%Z) M l -> forall x h, lget (ff l) x = Ok h -> h = 0%Z.
Proof.
  induction 1 as [|l k v l' _ IH E|l k b l' _ IH E]; intros x h.
  - unfold fl_new. cbn [ff]. unfold lget. rewrite nth_error_map. destruct (nth_error (seq 0 M) x); cbn; [intros [= <-]; auto|discriminate].
  - unfold fl_insert in E. destruct (fl_pos (fun _ => 0%Z) M l k) as [p| |]; try discriminate. cbn [bind] in E. destruct (p <? M).
    + destruct (aset (fv l) p v); try discriminate. cbn [bind] in E. injection E as <-. apply IH.
    + destruct (getFreeZero (fb l)) as [q| |]; try discriminate. cbn [bind] in E. destruct (q =? M).
      * exfalso. destruct (fl_split t (fun _ => 0%Z) M l) as [[[n1 n2] s]| |]; try discriminate. cbn [bind] in E. destruct (k >? s)%Z.
        -- destruct (fl_add (fun _ => 0%Z) M n2 k v); discriminate.
        -- destruct (fl_maxpos t M n1) as [y| |]; try discriminate. cbn [bind] in E. destruct (aget (fk n1) y); try discriminate. cbn [bind] in E.
           destruct (k >? a)%Z; [destruct (fl_add (fun _ => 0%Z) M n2 k v)|destruct (fl_add (fun _ => 0%Z) M n1 k v)]; discriminate.
      * unfold fl_insert_at, fl_put in E. destruct (aset (fk l) q k); try discriminate. cbn [bind] in E.
        destruct (aset (fv l) q v); try discriminate. cbn [bind] in E. destruct (bm_set M (fb l) q true); try discriminate. cbn [bind] in E.
        destruct (lset (ff l) q 0%Z) as [f|] eqn:EF; try discriminate. cbn [bind of_opt] in E. injection E as <-. cbn [ff].
        unfold lget. rewrite (lset_nth x EF). destruct (x =? q); [cbn; intros [= <-]; auto|apply IH].
  - unfold fl_erase in E. destruct (fl_pos (fun _ => 0%Z) M l k) as [p| |]; try discriminate. cbn [bind] in E. destruct (p <? M).
    + unfold fl_clear in E. destruct (bm_reset M (fb l) p); try discriminate. cbn [bind] in E. injection E as _ <-. apply IH.
    + injection E as _ <-. apply IH.
Qed.
Lemma fine_agrees {V} fp M (l : fleaf V) : f_fine true fp M l -> f_agrees fp M l.
Proof.
  intros (W & E). specialize (E eq_refl). destruct (f_scan_ok fp (fun _ => 0%Z) W) as (out & Eo & H). exists out. split; [exact Eo|]. split; [exact H|].
  intros k. destruct (f_lookup_ok fp (fun _ => 0%Z) k W) as (r & Er & A). exists r. split; [exact Er|]. eapply answers_eqs; [exact E|exact A].
Qed.

Section Fp.
Variables (V : Type) (t : ktype) (M : nat) (fp : Z -> Z) (junk : nat -> Z) (fpt : bool).
Implicit Types (l : fleaf V).
Lemma f_split_all l hasNext a b s : f_reach t fp junk M l -> full M l -> fl_split t junk M l = Ok (a, b, s) ->
  (fpt = false -> (forall k, fp k = 0%Z) /\ (forall i, junk i = 0%Z) /\ forall x h, lget (ff l) x = Ok h -> h = 0%Z) ->
  exists p, fl_split_stores t M fpt l hasNext = Ok p /\ forall n, exists st,
    fx_exec M (x_init l (fl_new V junk M) hasNext) (firstn n p) = Ok st /\
    (length p <= n -> snode st = a /\ ssib st = b /\ nnext st = Some Sib) /\
    shared (f_slots M) (f_slots M l) st /\ (hasNext = true -> rest_listed st) /\
    (exists out, list_scan (fl_scan M) st = Ok out /\ NoDup (map fst out) /\ forall k v, In (k, v) out <-> reaches (f_slots M) st k v) /\
    (fpt = true -> f_agrees fp M (snode st) /\ f_agrees fp M (ssib st)) /\
    ((forall k v, has (f_slots M l) k v -> reaches (f_slots M) st k v) <-> n < (if fpt then 5 else 4) \/ length p - 2 < n).
Proof.
  intros R F E Z. destruct (split_stores_some fpt hasNext E) as (p & Ep). exists p. split; [exact Ep|]. intros n.
  pose proof (f_reach_wf R) as (W & HE).
  destruct (@f_split_prefix V fpt fp junk M t l hasNext p) with (n := n) as (st & X & (FA & FB) & SH & RL & AP & IFF); auto.
  { split; auto. } { exact (full_bits R F). }
  exists st. split; [exact X|]. splits; auto.
  - intros Hn. rewrite firstn_all2 in X by exact Hn.
    destruct (@f_split_exec V t M fpt fp junk l hasNext p a b s) as (st' & E' & A & B & C); auto.
    + intros Hf i. destruct (Z Hf) as (Z1 & Z2 & _). now rewrite Z1, Z2.
    + intros Hf x h Hx. destruct (Z Hf) as (Z1 & _ & Z3). rewrite Z1. eauto.
    + rewrite X in E'. injection E' as <-. auto.
  - destruct (f_scan_ok fp (fun _ => 0%Z) (proj1 FA)) as (oa & Ea & Na & Ha). destruct (f_scan_ok fp (fun _ => 0%Z) (proj1 FB)) as (ob & Eb & Nb & Hb).
    unfold list_scan, reaches. rewrite Ea. cbn [bind].
    destruct (nnext st) as [[]|] eqn:NN.
    + rewrite Eb. cbn [bind]. eexists. split; [reflexivity|]. split.
      * rewrite map_app. apply BTreeGhost.NoDup_app_mk; auto. intros k I1 I2. apply in_map_iff in I1 as ((k1 & v1) & E1 & I1). apply in_map_iff in I2 as ((k2 & v2) & E2 & I2).
        cbn [fst] in E1, E2. subst k1 k2. apply Ha in I1. apply Hb in I2. exact (AP eq_refl _ _ _ I1 I2).
      * intros k v. rewrite in_app_iff, Ha, Hb. intuition.
    + eexists. split; [reflexivity|]. split; [exact Na|]. intros k v. rewrite Ha. intuition discriminate.
    + eexists. split; [reflexivity|]. split; [exact Na|]. intros k v. rewrite Ha. intuition discriminate.
  - intros ->. split; apply fine_agrees; auto.
Qed.
End Fp.
